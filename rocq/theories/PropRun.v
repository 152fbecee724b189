(** Property C103: exactly when getobcs succeeds on complete grids, and every number it then
    writes, in terms of the grids, the result fields and the interpolation library alone. *)
From Coq Require Import Ascii String List Bool PeanoNat ZArith Lia Init.Byte.
From Flocq Require Import IEEE754.Binary IEEE754.Bits.
Import ListNotations.
From Verif Require Import Prelude PreludeFacts Num Mat MatFacts Fields GridIO Float64 Float64Facts Float32
  SpecGrid SpecHalf TomitFacts TomitSpec Refine MkGrid Regrid RegridFacts SpecRegrid SourceFacts
  MdsMeta Mds MdsFacts SpecMds SpecGlob GlobFacts GetObcs SpecObcs GetObcsFacts MatchEdgesFacts Samples
  PropUtil PropFill PropMkGrid PropRegrid PropMds PropObcs PropVelocity.
Local Open Scope nat_scope.
Local Open Scope list_scope.
Local Arguments Nat.mul : simpl never.

(** ** specification *)

(** A grid with centres and corners, whose own opposite corners regrid finds. *)
Definition complete_grid (G : geod binary64) lay (d : griddict binary64) (ni nj : nat) : Prop :=
  exists xc yc xg yg, grid_with G lay d ni nj xc yc xg yg /\ (mrows yc, mcols yc) = (ni, nj).

(** The number of depths of a field: its third extent from the right, 1 if it has none. *)
Definition depths (A : nd binary64) : nat := nth 2 (rev (shape A)) 1.

(** All results in the directory can be read, at all times, and have the parent's extents. *)
Definition results_usable L fo (fs : directory) (dir : text) (pi pj : nat) (times : list Z) : Prop :=
  forall resp k, In (resp, k) responses -> result_file (names fs) (path_join dir (lit resp)) ->
  exists A0, response64 L fo fs dir resp (hd 0%Z times) = Ok A0 /\
    forall t, In t times -> exists A, response64 L fo fs dir resp t = Ok A /\
      forall d, d < depths A0 -> fits pi pj k A d.

(** ** the set-up succeeds *)

Lemma doubled_ok L G lay o3 fuel (d : griddict binary64) ni nj xc yc xg yg :
  layouts lay -> layouts o3 -> grid_with G lay d ni nj xc yc xg yg ->
  exists g, doubled (b64ops L) b64codec G lay o3 fuel d ni nj = Ok g.
Proof.
  intros Hlay Ho3 (Hi & Hj & Exc & _ & Ex & Ey & _ & Sx & Sy & Hown).
  injection Sx as Rx Cx. injection Sy as Ry Cy.
  assert (Hsh : same_shape xg yg) by (unfold same_shape; lia). destruct Hown as (N1 & N2).
  unfold doubled, corner_nw, corner_se, matrix. rewrite Ex, Ey. cbn [rbind].
  rewrite Rx, Cx, Ry, Cy. rewrite Rx, Cx in N1, N2. cbn zeta in N1, N2.
  replace (ni + 1 =? 0) with false by (symmetry; apply Nat.eqb_neq; lia).
  replace (nj + 1 =? 0) with false by (symmetry; apply Nat.eqb_neq; lia).
  cbn [orb rbind].
  replace (ni + 1 - 1) with ni in * by lia. replace (nj + 1 - 1) with nj in * by lia.
  set (args := mk_regrid_args None None None (Some d) (Some ni) (Some nj) (mat_at xg 0 nj)
    (mat_at yg 0 nj) (mat_at xg ni 0) (mat_at yg ni 0) 2 2 false) in *.
  assert (Hs : supplies (b64ops L) b64codec (fun _ => Err OSError) (fun _ => None) args d).
  { eapply from_matrices; [left; reflexivity|left; left; reflexivity|reflexivity|exact Exc]. }
  assert (Hc : corners_at G lay args xg yg 0 nj ni 0) by (split; rewrite Rx, Cx; auto).
  assert (Q0 : quarter_turns 0 nj ni 0 = 0).
  { unfold quarter_turns. replace (0 <? ni) with true by (symmetry; apply Nat.ltb_lt; lia).
    now replace (0 <? nj) with true by (symmetry; apply Nat.ltb_lt; lia). }
  destruct (regrid64_ok L G (fun _ => Err OSError) (fun _ => None) lay o3 fuel args d xg yg
    0 nj ni 0 2 2) as (g & HH & dd & Eg & _); auto; try lia.
  { unfold subscales. cbn. lia. }
  unfold regrid64 in Eg. rewrite Eg. cbn [rbind]. eauto.
Qed.

Lemma new_regridder_ok {W} (xw : _ -> _ -> _ -> _ -> res W) ws f (a b c d : mat binary64) :
  (forall a b c d, is_ok (xw a b c d)) ->
  mrows a = mrows b -> mcols a = mcols b -> mrows c = mrows d -> mcols c = mcols d ->
  exists ws' r, new_regridder xw ws f a b c d = (ws', Ok r).
Proof.
  intros Hx E1 E2 E3 E4. unfold new_regridder. rewrite E1, E2, E3, E4, !Nat.eqb_refl. cbn [andb negb].
  destruct (dget ws f); [eauto|]. destruct (Hx a b c d) as (w & ->). eauto.
Qed.

Lemma regridders_ok {W} L G lay o3 fuel (xw : _ -> _ -> _ -> _ -> res W) ws out p pi pj r ni nj :
  layouts lay -> layouts o3 -> (forall a b c d, is_ok (xw a b c d)) ->
  complete_grid G lay p pi pj -> complete_grid G lay r ni nj ->
  exists ws' rg, regridders64 L G lay o3 fuel xw ws out p pi pj r ni nj = (ws', Ok rg).
Proof.
  intros Hlay Ho3 Hx (pxc & pyc & pxg & pyg & Hp & Sp) (rxc & ryc & rxg & ryg & Hr & Sr).
  destruct (doubled_ok L G lay o3 fuel p pi pj pxc pyc pxg pyg Hlay Ho3 Hp) as (p2 & D1).
  destruct (doubled_ok L G lay o3 fuel r ni nj rxc ryc rxg ryg Hlay Ho3 Hr) as (r2 & D2).
  destruct (doubled_points L G lay o3 fuel p pi pj pxc pyc pxg pyg p2) as ((P1 & P2 & P3 & P4) & _); auto.
  destruct (doubled_points L G lay o3 fuel r ni nj rxc ryc rxg ryg r2) as ((R1 & R2 & R3 & R4) & _); auto.
  destruct Hp as (_ & _ & X1 & X2 & _ & _ & X3 & _), Hr as (_ & _ & Y1 & Y2 & _ & _ & Y3 & _).
  injection X3 as X3 X4. injection Y3 as Y3 Y4. injection Sp as S1 S2. injection Sr as S3 S4.
  unfold regridders64, make_regridders, tracer_regridder, matrix. rewrite X1, X2, Y1, Y2. cbn [rbind].
  edestruct (new_regridder_ok xw ws) as (ws1 & rt & ->); [exact Hx|congruence..|].
  rewrite D1, D2. cbn [rbind]. unfold velocity_regridder.
  edestruct (new_regridder_ok xw ws1) as (ws2 & ru & ->); [exact Hx|unfold every2; cbn [mrows mcols]; congruence..|].
  edestruct (new_regridder_ok xw ws2) as (ws3 & rv & ->); [exact Hx|unfold every2; cbn [mrows mcols]; congruence..|].
  eauto.
Qed.

(** ** the loops succeed *)

Lemma foldM_ok {S X} (f : S -> X -> res S) l : (forall s x, In x l -> is_ok (f s x)) -> forall s, is_ok (foldM f l s).
Proof.
  intros H. induction l as [|x l IH]; intros s; cbn [foldM]; [eexists; reflexivity|].
  destruct (H s x (or_introl eq_refl)) as (s' & ->). cbn [rbind]. apply IH. intros; apply H. now right.
Qed.

Lemma depths_eq L fo fs dir resp t A : response64 L fo fs dir resp t = Ok A ->
  depths_of (response64 L fo fs dir resp t) = Ok (depths A).
Proof.
  intros ->. unfold depths_of, depths. destruct (rev (shape A)) as [|? [|? [|? ?]]]; reflexivity.
Qed.

Lemma interpolate_ok {W} L (xv : W -> _) pi pj (rg : kind -> regridder W) k A d :
  (forall k, rg_in (rg k) = points pi pj k) ->
  is_ok (interpolate64 L xv rg k A d) <-> fits pi pj k A d.
Proof.
  intros Hin.
  destruct (C102_what_is_interpolated W L xv rg k pi pj A d (Hin k)) as (Q1 & Q2). split.
  - intros K.
    assert (Dec : fits pi pj k A d \/ ~ fits pi pj k A d).
    { unfold fits. assert (D : has_depth A d \/ ~ has_depth A d).
      { unfold has_depth. destruct (shape A) as [|a [|b [|c [|? ?]]]]; auto. lia. }
      destruct D as [D|D]; [|right; tauto]. destruct (extents A) as [e|]; [|right; intros (_ & e & E & _); discriminate].
      destruct k.
      - destruct e as (u & v). destruct (Nat.eq_dec u pi), (Nat.eq_dec v pj);
          [left; split; auto; eexists; split; [reflexivity|congruence]|right; intros (_ & e' & [= <-] & K'); congruence..].
      - destruct (le_dec (fst e) (fst (points pi pj Upoint))), (le_dec (snd e) (snd (points pi pj Upoint)));
          [left; split; auto; eexists; split; [reflexivity|auto]|right; intros (_ & e' & [= <-] & K1 & K2); contradiction..].
      - destruct (le_dec (fst e) (fst (points pi pj Vpoint))), (le_dec (snd e) (snd (points pi pj Vpoint)));
          [left; split; auto; eexists; split; [reflexivity|auto]|right; intros (_ & e' & [= <-] & K1 & K2); contradiction..]. }
    destruct Dec as [|Dec]; auto. exfalso. now apply Q2.
  - intros K. destruct (Q1 K) as (B & _ & R & E & _). eexists; exact E.
Qed.

Section Loop.
Context {W : Type} (L : libm) (fo : text -> option binary64) (xv : W -> mat binary64 -> nat -> nat -> binary64).
Variables (dir out : text) (pi pj ni nj : nat) (bd : side -> boundary) (rg : kind -> regridder W).
Hypothesis Hdo : forall s, bd_do (bd s) = true.
Hypothesis Hput : forall k A d R, interpolate64 L xv rg k A d = Ok R ->
  forall t ar, is_ok (foldM (put_side (b64ops L) ni nj bd k R d t) sides ar).
Hypothesis Hin : forall k, rg_in (rg k) = points pi pj k.

Definition assembled fs resp k times :=
  assemble (b64ops L) b64codec b32codec fo xv fs dir resp ni nj bd rg k times.

Lemma assemble_ok fs resp k times : times <> [] ->
  (exists A0, response64 L fo fs dir resp (hd 0%Z times) = Ok A0 /\
    forall t, In t times -> exists A, response64 L fo fs dir resp t = Ok A /\ forall d, d < depths A0 -> fits pi pj k A d) ->
  is_ok (assembled fs resp k times).
Proof.
  intros NE (A0 & E0 & HA). unfold assembled, assemble. destruct times as [|t0 rest]; [contradiction|]. cbn [hd] in E0.
  change (read_response (b64ops L) b64codec b32codec fo) with (response64 L fo).
  rewrite (depths_eq _ _ _ _ _ _ _ E0). cbn [rbind].
  match goal with |- is_ok (rbind ?x _) => assert (K : is_ok x) end.
  { apply foldM_ok. intros ar (i & t) I. apply in_combine_r in I. destruct (HA t I) as (A & EA & Hf).
    unfold time_step. cbn [fst snd]. change (read_response (b64ops L) b64codec b32codec fo) with (response64 L fo).
    rewrite EA. cbn [rbind]. apply foldM_ok. intros ar' d Id. apply in_seq in Id. unfold depth_step.
    destruct (proj2 (interpolate_ok L xv pi pj rg k A d Hin) (Hf d ltac:(lia))) as (R & ER).
    pose proof (Hput k A d R ER) as P. unfold interpolate64 in ER. rewrite ER. cbn [rbind]. apply P. }
  destruct K as (ar & ->). cbn [rbind]. eexists; reflexivity.
Qed.

Lemma assemble_back fs resp k times : is_ok (assembled fs resp k times) ->
  exists A0, response64 L fo fs dir resp (hd 0%Z times) = Ok A0 /\
    forall t, In t times -> exists A, response64 L fo fs dir resp t = Ok A /\ forall d, d < depths A0 -> fits pi pj k A d.
Proof.
  intros ((nd & ar) & E). unfold assembled in E.
  edestruct @assemble_inv as ((t0 & rest & Et & Hnd) & Hv); [exact Hdo|exact E|].
  change (read_response (b64ops L) b64codec b32codec fo) with (response64 L fo) in *.
  assert (Rd : forall t, In t times -> exists A, response64 L fo fs dir resp t = Ok A /\ forall d, d < nd -> fits pi pj k A d).
  { intros t I. apply (In_nth _ _ 0%Z) in I. destruct I as (n & Hn & <-).
    assert (X : exists A, response64 L fo fs dir resp (nth n times 0%Z) = Ok A).
    { unfold assemble in E. rewrite Et in E. mok E. mok E.
      assert (I : In (n, nth n times 0%Z) (combine (seq 0 (length times)) times))
        by (apply (@in_combine_seq Z times n 0%Z 0 Hn)).
      rewrite <- Et in Ha0. revert Ha0 I. generalize (combine (seq 0 (length times)) times) as l.
      generalize (fun (_ : side) (_ _ _ : nat) => nzero (b64ops L)) as ar0. clear. intros ar0 l. revert ar0.
      induction l as [|x l IH]; intros ar0 H [].
      - subst x. cbn [foldM] in H. unfold time_step in H at 1. cbn [snd fst] in H.
        change (read_response (b64ops L) b64codec b32codec fo) with (response64 L fo) in H.
        destruct (response64 L fo fs dir resp (nth n times 0%Z)) as [A|e]; [eauto|discriminate H].
      - cbn [foldM] in H. mok H. eapply IH; eauto. }
    destruct X as (A & EA). exists A. split; auto. intros d Hd.
    destruct (Hv n d North Hn Hd) as (A' & EA' & R & l & HR & _). rewrite EA in EA'. injection EA' as <-.
    apply (interpolate_ok L xv pi pj rg k A d Hin). eexists; exact HR. }
  subst times. cbn [hd]. destruct (Rd t0 (or_introl eq_refl)) as (A0 & E0 & _). exists A0. split; auto.
  rewrite (depths_eq _ _ _ _ _ _ _ E0) in Hnd. injection Hnd as <-. exact Rd.
Qed.

Lemma loop_ok times : forall l fs, incl l responses ->
  (forall resp k, In (resp, k) l -> result_file (names fs) (path_join dir (lit resp)) -> is_ok (assembled fs resp k times)) ->
  exists fs', response_loop (b64ops L) b64codec b32codec fo xv dir out ni nj bd rg times l fs = (fs', Ok tt).
Proof.
  induction l as [|(r0, k0) l IH]; intros fs HI H; cbn [response_loop]; [eauto|].
  assert (Hr0 : In (r0, k0) responses) by (apply HI; now left).
  assert (HI' : incl l responses) by (intros y Hy; apply HI; now right).
  unfold response_step. cbn [fst snd].
  destruct (existsb _ _) eqn:Ex.
  - apply result_file_iff in Ex. destruct (H r0 k0 (or_introl eq_refl) Ex) as ((nd & ar) & E). unfold assembled in E.
    rewrite E. cbn [rbind]. apply IH; auto. intros resp k I Hf.
    assert (S : same_reads (b64ops L) b64codec b32codec fo fs
       (write_sides b64codec fs out r0 ni nj bd (length times) nd ar)) by (eapply write_sides_same; eauto).
    unfold assembled. erewrite assemble_same by exact S. apply (H resp k); [now right|].
    rewrite <- result_file_iff in *. now rewrite <- (proj2 S).
  - apply IH; auto. intros resp k I. apply H. now right.
Qed.
End Loop.

(** ** C103 *)

Theorem C103_succeeds_exactly_if :
  forall W L G fo lay o3 fuel (xw : _ -> _ -> _ -> _ -> res W) xv ws fs a dir p pi pj r ni nj,
  layouts lay -> layouts o3 -> (forall a b c d, is_ok (xw a b c d)) ->
  txt_arg (oa_parent_resultsdir a) = Some dir ->
  parent64 L fo fs a dir = Ok (p, pi, pj) -> regional64 L fs a = Ok (r, ni, nj) ->
  complete_grid G lay p pi pj -> complete_grid G lay r ni nj -> (forall s, void_arg (oa_ob a s)) ->
  (exists ws' fs', obcs64 L G fo lay o3 fuel xw xv ws fs a = (ws', fs', Ok tt)) <->
  exists times, times_of fs dir = Ok times /\ times <> [] /\ results_usable L fo fs dir pi pj times.
Proof.
  intros W L G fo lay o3 fuel xw xv ws fs a dir p pi pj r ni nj Hlay Ho3 Hx Hd Hp Hr Cp Cr Hv.
  destruct (regridders_ok L G lay o3 fuel xw ws (results_dir a dir) p pi pj r ni nj) as (ws1 & rg & Erg); auto.
  pose proof Cp as (pxc & pyc & pxg & pyg & Gp & _). pose proof Cr as (rxc & ryc & rxg & ryg & Gr & _).
  assert (Hin : forall k, rg_in (rg k) = points pi pj k).
  { intros k. destruct (C102_from_where_to_where W L G lay o3 fuel xw ws _ p pi pj r ni nj ws1 rg
      pxc pyc pxg pyg rxc ryc rxg ryg Hlay Ho3 Gp Gr Erg k) as (? & ? & ? & ? & _ & _ & _ & _ & E & _). exact E. }
  assert (Hbd : exists bd, ob_all ni nj (oa_ob a) = Ok bd).
  { unfold ob_all. rewrite !void_resolve by auto. cbn [rbind]. eauto. }
  destruct Hbd as (bd & Ebd).
  assert (Hdo : forall s, bd_do (bd s) = true) by (intros s; eapply resolve_used, ob_all_inv, Ebd).
  assert (Hput : forall k A d R, interpolate64 L xv rg k A d = Ok R ->
    forall t ar, is_ok (foldM (put_side (b64ops L) ni nj bd k R d t) sides ar)).
  { pose proof Gr as (I1 & I2 & X1 & _ & X2 & X3 & X4 & X5 & X6 & X7). injection X4 as A1 A2. injection X5 as A3 A4. injection X6 as A5 A6.
    intros k A d R ER.
    destruct (C50_boundaries_always_found W L G lay o3 fuel xw xv ws (results_dir a dir) p pi pj r rxg ryg ni nj ws1 rg
      Hlay Ho3 I1 I2 Erg) with (k := k) (A := A) (d := d) (R := R) as (_ & _ & K); auto.
    - intros xc Exc. rewrite X1 in Exc. injection Exc as <-. auto.
    - unfold same_shape. lia.
    - intros t ar. eapply K; eauto. }
  assert (E : obcs64 L G fo lay o3 fuel xw xv ws fs a
    = getobcs_from (b64ops L) b64codec b32codec G fo lay o3 fuel xw xv ws fs a dir p pi pj r ni nj bd).
  { unfold obcs64, getobcs. rewrite Hd. unfold parent64 in Hp. rewrite Hp. unfold regional64 in Hr. rewrite Hr.
    cbn [rbind fst snd]. rewrite Ebd. reflexivity. }
  rewrite E. unfold getobcs_from. unfold regridders64 in Erg. rewrite Erg.
  change (read_response (b64ops L) b64codec b32codec fo) with (response64 L fo).
  destruct (times_of fs dir) as [times|e] eqn:Et; cbn [rbind].
  2:{ split; [intros (? & ? & [=])|intros (? & [=] & _)]. }
  split.
  - intros (ws' & fs' & H). exists times. split; [reflexivity|].
    destruct times as [|t0 rest]; [discriminate|]. split; [discriminate|].
    destruct (response64 L fo fs dir "T" t0) as [A|e]; cbn [rbind] in H; [|discriminate].
    destruct (response_loop _ _ _ _ _ _ _ _ _ _ _ _ _ _) as (fs1, o) eqn:El. injection H as <- <- ->.
    intros resp k I Hf. apply (assemble_back L fo xv dir pi pj ni nj bd rg Hdo Hin).
    edestruct @loop_files as (_ & J & _); [exact Hdo|apply responses_NoDup|apply incl_refl|exact El|].
    destruct (J resp k I Hf) as (nd & ar & Ha & _). eexists; exact Ha.
  - intros (times' & [= <-] & NE & Hu).
    assert (TF : result_file (names fs) (path_join dir (lit "T"))).
    { apply result_file_iff. rewrite existsb_filter. unfold times_of, glob in Et.
      destruct (filter _ (names fs)); [|reflexivity]. cbn [mapM rbind] in Et. injection Et as <-. now elim NE. }
    destruct (Hu "T"%string Tracer) as (A0 & E0 & _); [cbn; auto|exact TF|].
    destruct times as [|t0 rest]; [now elim NE|]. cbn [hd] in E0. rewrite E0. cbn [rbind].
    destruct (loop_ok L fo xv dir (results_dir a dir) ni nj bd rg (t0 :: rest) responses fs) as (fs' & ->); eauto.
    + apply incl_refl.
    + intros resp k I Hf. apply (assemble_ok L fo xv dir pi pj ni nj bd rg Hput Hin); [discriminate|]. now apply Hu.
Qed.

(** With no weight files there beforehand: number ((x*nd+d)*nt+t) of the file of a response
    and a side is what the library gives at the side's point x, with the weights of the
    parent's and the region's points of the response's kind, for the field of time t and
    depth d. *)
Theorem C103_numbers_written :
  forall W L G fo lay o3 fuel (xw : _ -> _ -> _ -> _ -> res W) xv fs a ws' fs' dir out p pi pj r ni nj
         pxc pyc pxg pyg rxc ryc rxg ryg,
  layouts lay -> layouts o3 ->
  obcs64 L G fo lay o3 fuel xw xv [] fs a = (ws', fs', Ok tt) -> runs_in a dir out ->
  parent64 L fo fs a dir = Ok (p, pi, pj) -> regional64 L fs a = Ok (r, ni, nj) ->
  grid_with G lay p pi pj pxc pyc pxg pyg -> grid_with G lay r ni nj rxc ryc rxg ryg ->
  (forall s, void_arg (oa_ob a s)) ->
  exists times, times_of fs dir = Ok times /\
  forall resp k, In (resp, k) responses -> result_file (names fs) (path_join dir (lit resp)) ->
  exists plon plat rlon rlat w,
    mat_is plon (fst (points pi pj k)) (snd (points pi pj k)) (fun i j => fst (position L G pxc pyc pxg pyg k i j)) /\
    mat_is plat (fst (points pi pj k)) (snd (points pi pj k)) (fun i j => snd (position L G pxc pyc pxg pyg k i j)) /\
    mat_is rlon (fst (points ni nj k)) (snd (points ni nj k)) (fun i j => fst (position L G rxc ryc rxg ryg k i j)) /\
    mat_is rlat (fst (points ni nj k)) (snd (points ni nj k)) (fun i j => snd (position L G rxc ryc rxg ryg k i j)) /\
    xw plon plat rlon rlat = Ok w /\
    forall s, exists A0 bs, response64 L fo fs dir resp (hd 0%Z times) = Ok A0 /\
      dget fs' (ob_file out s resp) = Some bs /\
      file_holds bs (cells_along ni nj s) (depths A0) (length times) (fun x d t y =>
        exists A B, response64 L fo fs dir resp (nth t times 0%Z) = Ok A /\
          mat_is B (fst (points pi pj k)) (snd (points pi pj k)) (result_at A d) /\
          y = xv w B (fst (sample_point ni nj s k x)) (snd (sample_point ni nj s k x))).
Proof.
  intros W L G fo lay o3 fuel xw xv fs a ws' fs' dir out p pi pj r ni nj pxc pyc pxg pyg rxc ryc rxg ryg
    Hlay Ho3 H Hrun Hp Hr Gp Gr Hv.
  edestruct @run_files as (p' & pi' & pj' & r' & ni' & nj' & bd & rg & times & E1 & E2 & E3 & E4 & E5 & E6); [exact H|exact Hrun|].
  rewrite Hp in E1. injection E1 as <- <- <-. rewrite Hr in E2. injection E2 as <- <- <-.
  exists times. split; auto. intros resp k I Hf.
  destruct (C102_from_where_to_where W L G lay o3 fuel xw [] out p pi pj r ni nj ws' rg
    pxc pyc pxg pyg rxc ryc rxg ryg Hlay Ho3 Gp Gr E4 k) as (plon & plat & rlon & rlat & M1 & M2 & M3 & M4 & Hi & Ho & Hw).
  cbn [dget] in Hw.
  exists plon, plat, rlon, rlat, (rg_weights (rg k)). do 4 (split; [assumption|]). split; [exact Hw|].
  assert (Hin : forall k, rg_in (rg k) = points pi pj k).
  { intros k'. destruct (C102_from_where_to_where W L G lay o3 fuel xw [] out p pi pj r ni nj ws' rg
      pxc pyc pxg pyg rxc ryc rxg ryg Hlay Ho3 Gp Gr E4 k') as (? & ? & ? & ? & _ & _ & _ & _ & E & _). exact E. }
  intros s. destruct (E6 resp k s I Hf) as (nd & bs & B1 & B2 & B3 & B4).
  assert (HA0 : exists A0, response64 L fo fs dir resp (hd 0%Z times) = Ok A0).
  { unfold obcs64 in H. apply getobcs_ok in H.
    destruct H as (dir' & p0 & pi0 & pj0 & r0 & ni0 & nj0 & bd0 & rg0 & times0 & F0 & F1 & F2 & F3 & F4 & F5 & F6).
    destruct Hrun as (Hd & ->). rewrite Hd in F0. injection F0 as <-. rewrite E5 in F5. injection F5 as <-.
    edestruct @loop_files as (_ & J & _); [intros s'; eapply resolve_used, F3|apply responses_NoDup|apply incl_refl|exact F6|].
    destruct (J resp k I Hf) as (nd' & ar & Ha & _).
    unfold assemble in Ha. destruct times as [|t0 rest]; [discriminate|]. mok Ha. mok Ha. cbn [hd].
    cbn [length seq combine foldM] in Ha1. mok Ha1. unfold time_step in Ha2. cbn [fst snd] in Ha2.
    change (read_response (b64ops L) b64codec b32codec fo) with (response64 L fo) in Ha2.
    destruct (response64 L fo fs dir resp t0) as [A|e]; [eauto|discriminate]. }
  destruct HA0 as (A0 & HA0). exists A0, bs. split; auto. split; auto.
  assert (Ehd : nth 0 times 0%Z = hd 0%Z times) by (destruct times; reflexivity).
  rewrite Ehd in B2. rewrite (depths_eq _ _ _ _ _ _ _ HA0) in B2. injection B2 as <-.
  split; [exact B3|]. intros x d t Hx Hd Ht. destruct (B4 x d t Hx Hd Ht) as (y & (A & R & l & R1 & R2 & R3 & ->) & Hy).
  eexists. split; [|exact Hy]. exists A.
  assert (Hfit : fits pi pj k A d) by (apply (interpolate_ok L xv pi pj rg k A d Hin); eexists; exact R2).
  destruct (proj1 (C102_what_is_interpolated W L xv rg k pi pj A d (Hin k)) Hfit) as (B & HB & R' & ER & HR).
  rewrite R2 in ER. injection ER as <-. exists B. split; auto. split; auto.
  pose proof Gr as (I1 & I2 & _).
  rewrite (void_values (b64ops L) ni nj s k bd R l (oa_ob a s)); auto.
  rewrite Ho in HR. destruct HR as (_ & _ & HR).
  destruct k, s; cbn [points fst snd sample_point is_normal inner_face edge_cell cells_along] in *; apply HR; lia.
Qed.

(** ** cases *)

(** The samples of the open boundary properties: results T, U and V at one time. *)
Example C103_case :
  (forall a b c d, is_ok (ex_xw a b c d)) /\ complete_grid ex_geod indices ex_og 2 1 /\
  regional64 ex_libm ex_results (ex_ob (fun _ => ONone)) = Ok (ex_og, 2, 1) /\
  parent64 ex_libm ex_float_of ex_results (ex_ob (fun _ => ONone)) (lit "run") = Ok (ex_og, 2, 1) /\
  (forall s, void_arg (oa_ob (ex_ob (fun _ => ONone)) s)) /\
  exists ws' fs', ex_obcs [] ex_results (ex_ob (fun _ => ONone)) = (ws', fs', Ok tt).
Proof.
  split; [intros; eexists; reflexivity|]. split.
  - eexists _, _, _, _. split; [apply (proj1 C102_case)|reflexivity].
  - split; [reflexivity|]. split; [reflexivity|]. split; [intros s; left; reflexivity|]. apply ex_run_ok. vm_compute. reflexivity.
Qed.
