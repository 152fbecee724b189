(** Properties C47-C52, C60-C62: open boundary conditions (getobcs.py). *)
From Coq Require Import Ascii String List Bool PeanoNat ZArith Sorting.Sorted Sorting.Permutation Lia Init.Byte.
From Flocq Require Import IEEE754.Binary IEEE754.Bits.
Import ListNotations.
From Verif Require Import Prelude PreludeFacts Num Mat MatFacts Fields GridIO GridIOFacts GridIOProofs Float64 Float64Facts
  Float32 Float32Facts SpecGrid SpecHalf TomitFacts TomitSpec Refine MkGrid RefineFacts Regrid RegridFacts SpecRegrid
  SourceFacts MdsMeta Mds SpecMds MdsTextFacts SpecGlob GlobFacts MdsScanFacts MdsFacts GetObcs SpecObcs GetObcsFacts
  Samples PropUtil PropFill PropMkGrid PropRegrid PropMds.
Local Open Scope nat_scope.
Local Open Scope list_scope.
Local Arguments Nat.mul : simpl never.

(** getobcs at binary64; xESMF is any pair of functions. *)
Definition obcs64 (L : libm) (G : geod binary64) (fo : text -> option binary64) lay o3 fuel
    {W} (xw : mat binary64 -> mat binary64 -> mat binary64 -> mat binary64 -> res W)
    (xv : W -> mat binary64 -> nat -> nat -> binary64) :=
  getobcs (b64ops L) b64codec b32codec G fo lay o3 fuel xw xv.
Definition response64 (L : libm) fo fs dir resp time : res (nd binary64) :=
  rdmds64 L fo fs (path_join dir (lit resp)) (Iters [time]) (lit "b").
Definition regional64 (L : libm) := regional_grid (b64ops L) b64codec.
Definition parent64 (L : libm) fo := parent_grid (b64ops L) b64codec b32codec fo.
Definition regridders64 (L : libm) (G : geod binary64) lay o3 fuel {W}
    (xw : mat binary64 -> mat binary64 -> mat binary64 -> mat binary64 -> res W) :=
  make_regridders (b64ops L) b64codec G lay o3 fuel xw.
Definition interpolate64 (L : libm) {W} (xv : W -> mat binary64 -> nat -> nat -> binary64) :=
  interpolate (b64ops L) xv.

(** The results directory of a call, and its output directory. *)
Definition runs_in (a : @obcs_args binary64) (dir out : text) : Prop :=
  txt_arg (oa_parent_resultsdir a) = Some dir /\ out = results_dir a dir.

(** ** what one boundary file holds *)

(** Number ((x*nd+d)*nt+t) of the file is [v x d t]. *)
Definition file_holds (bs : list byte) (n nd nt : nat) (v : nat -> nat -> nat -> binary64 -> Prop) : Prop :=
  length bs = 8 * (n * nd * nt) /\
  forall x d t, x < n -> d < nd -> t < nt ->
    exists y, v x d t y /\ item 8 bs ((x * nd + d) * nt + t) = enc b64codec y.

Lemma run_files {W} L G fo lay o3 fuel (xw : _ -> _ -> _ -> _ -> res W) xv ws fs a ws' fs' dir out :
  obcs64 L G fo lay o3 fuel xw xv ws fs a = (ws', fs', Ok tt) -> runs_in a dir out ->
  exists p pi pj r ni nj bd rg times,
    parent64 L fo fs a dir = Ok (p, pi, pj) /\
    regional64 L fs a = Ok (r, ni, nj) /\
    (forall s, ob_resolve ni nj s (oa_ob a s) = Ok (bd s)) /\
    regridders64 L G lay o3 fuel xw ws out p pi pj r ni nj = (ws', Ok rg) /\
    times_of fs dir = Ok times /\
    forall resp k s, In (resp, k) responses -> result_file (names fs) (path_join dir (lit resp)) ->
    exists nd bs, dget fs' (ob_file out s resp) = Some bs /\
      depths_of (response64 L fo fs dir resp (nth 0 times 0%Z)) = Ok nd /\
      file_holds bs (cells_along ni nj s) nd (length times) (fun x d t y =>
        exists A R l, response64 L fo fs dir resp (nth t times 0%Z) = Ok A /\
          interpolate64 L xv rg k A d = Ok R /\
          side_values ni nj bd k R s = Ok l /\ y = nth x l (nzero (b64ops L))).
Proof.
  intros H (Hd & ->). unfold obcs64 in H. apply getobcs_ok in H.
  destruct H as (dir' & p & pi & pj & r & ni & nj & bd & rg & times & E0 & E1 & E2 & E3 & E4 & E5 & E6).
  rewrite Hd in E0. injection E0 as <-.
  assert (Hdo : forall s, bd_do (bd s) = true) by (intros s; eapply resolve_used; eauto).
  exists p, pi, pj, r, ni, nj, bd, rg, times. repeat split; auto.
  intros resp k s Hr Hf.
  edestruct @loop_files as (_ & J & _); [exact Hdo|apply responses_NoDup|apply incl_refl|exact E6|].
  destruct (J resp k Hr Hf) as (nd & ar & Ha & Hs).
  edestruct @assemble_inv as ((t0 & rr & Et & Hnd) & Hv); [exact Hdo|exact Ha|].
  exists nd. eexists. split; [apply Hs|]. split; [rewrite Et; exact Hnd|].
  assert (Hw : forall x, length (enc b64codec x) = 8) by (apply (enc_len b64_codec_laws)).
  split.
  - rewrite (tofile3_len _ Hw), side_len_eq. lia.
  - intros x d t Hx Hdd Ht. exists (ar s x d t). split.
    + destruct (Hv t d s Ht Hdd) as (A & HA & R & l & HR & Hl & Hn). exists A, R, l. auto.
    + apply (tofile3_item _ Hw); auto; now rewrite ?side_len_eq.
Qed.

Lemma nth_map_seq {A} n x (f : nat -> A) d : x < n -> nth x (map f (seq 0 n)) d = f x.
Proof.
  intros H. rewrite nth_indep with (d' := f 0) by (now rewrite map_length, seq_length).
  rewrite map_nth, seq_nth; auto.
Qed.

Lemma void_values {F} (N : numops F) ni nj s k bd (R : mat F) l a : 1 <= ni -> 1 <= nj ->
  void_arg a -> ob_resolve ni nj s a = Ok (bd s) -> side_values ni nj bd k R s = Ok l ->
  forall x, x < cells_along ni nj s ->
    nth x l (nzero N) = mat_at R (fst (sample_point ni nj s k x)) (snd (sample_point ni nj s k x)).
Proof.
  intros Hi Hj Hv Hb Hl x Hx. rewrite (void_resolve _ _ _ Hv) in Hb. injection Hb as Hb.
  unfold side_values in Hl. rewrite <- Hb in Hl. cbn [bd_idx] in Hl.
  rewrite default_idx, default_partition in Hl by auto. mok Hl. apply fancy_pairs_inv in Ha.
  rewrite fit_same in Hl by (subst a0; rewrite map_length, seq_length; symmetry; apply side_len_eq).
  injection Hl as <-. subst a0.
  now rewrite (nth_map_seq _ _ (fun x => mat_at R (fst (sample_point ni nj s k x)) (snd (sample_point ni nj s k x)))).
Qed.

(** ** C47, C50: default boundaries *)

(** Every number in the boundary files of a run without OB arguments: the interpolated field,
    for tracers and tangential velocities at the outermost cells, for the normal velocity on
    their inner faces. *)
Theorem C50_default_boundary_files :
  forall W L G fo lay o3 fuel (xw : _ -> _ -> _ -> _ -> res W) xv ws fs a ws' fs' dir out r ni nj,
  obcs64 L G fo lay o3 fuel xw xv ws fs a = (ws', fs', Ok tt) -> runs_in a dir out ->
  regional64 L fs a = Ok (r, ni, nj) -> 1 <= ni -> 1 <= nj ->
  (forall s, void_arg (oa_ob a s)) ->
  exists p pi pj rg times,
    parent64 L fo fs a dir = Ok (p, pi, pj) /\
    regridders64 L G lay o3 fuel xw ws out p pi pj r ni nj = (ws', Ok rg) /\ times_of fs dir = Ok times /\
    forall resp k s, In (resp, k) responses -> result_file (names fs) (path_join dir (lit resp)) ->
    exists nd bs, dget fs' (ob_file out s resp) = Some bs /\
      file_holds bs (cells_along ni nj s) nd (length times) (fun x d t y =>
        exists A R, response64 L fo fs dir resp (nth t times 0%Z) = Ok A /\
          interpolate64 L xv rg k A d = Ok R /\
          y = mat_at R (fst (sample_point ni nj s k x)) (snd (sample_point ni nj s k x))).
Proof.
  intros W L G fo lay o3 fuel xw xv ws fs a ws' fs' dir out r ni nj H Hd Hr Hi Hj Hv.
  edestruct @run_files as (p & pi & pj & r' & ni' & nj' & bd & rg & times & E1 & E2 & E3 & E4 & E5 & E6); [exact H|exact Hd|].
  rewrite Hr in E2. injection E2 as <- <- <-.
  exists p, pi, pj, rg, times. repeat split; auto.
  intros resp k s I Hf. destruct (E6 resp k s I Hf) as (nd & bs & B1 & _ & B2 & B3).
  exists nd, bs. split; auto. split; auto. intros x d t Hx Hdd Ht.
  destruct (B3 x d t Hx Hdd Ht) as (y & (A & R & l & A1 & A2 & A3 & ->) & Hy).
  eexists. split; [|exact Hy]. exists A, R. repeat split; auto.
  eapply void_values; eauto.
Qed.

(** The tracer files: the outermost cells, one number per cell, depth and time. *)
Theorem C47_default_tracer_boundaries :
  forall W L G fo lay o3 fuel (xw : _ -> _ -> _ -> _ -> res W) xv ws fs a ws' fs' dir out r ni nj,
  obcs64 L G fo lay o3 fuel xw xv ws fs a = (ws', fs', Ok tt) -> runs_in a dir out ->
  regional64 L fs a = Ok (r, ni, nj) -> 1 <= ni -> 1 <= nj ->
  (forall s, oa_ob a s = ONone) ->
  exists p pi pj rg times,
    parent64 L fo fs a dir = Ok (p, pi, pj) /\
    regridders64 L G lay o3 fuel xw ws out p pi pj r ni nj = (ws', Ok rg) /\ times_of fs dir = Ok times /\
    forall resp s, In resp ["T"; "S"; "Eta"; "W"]%string ->
    result_file (names fs) (path_join dir (lit resp)) ->
    exists nd bs, dget fs' (ob_file out s resp) = Some bs /\
      file_holds bs (cells_along ni nj s) nd (length times) (fun x d t y =>
        exists A R, response64 L fo fs dir resp (nth t times 0%Z) = Ok A /\
          interpolate64 L xv rg Tracer A d = Ok R /\
          y = mat_at R (fst (edge_cell ni nj s x)) (snd (edge_cell ni nj s x))).
Proof.
  intros W L G fo lay o3 fuel xw xv ws fs a ws' fs' dir out r ni nj H Hd Hr Hi Hj Hv.
  destruct (C50_default_boundary_files W L G fo lay o3 fuel xw xv ws fs a ws' fs' dir out r ni nj)
    as (p & pi & pj & rg & times & E1 & E2 & E3 & E4); auto.
  { intros s. left. auto. }
  exists p, pi, pj, rg, times. repeat split; auto.
  intros resp s I Hf.
  assert (I' : In (resp, Tracer) responses).
  { cbn in I. decompose [or] I; subst; try contradiction; cbn; auto 10. }
  destruct (E4 resp Tracer s I' Hf) as (nd & bs & B). exists nd, bs.
  destruct s; exact B.
Qed.

(** No entry is taken from outside the interpolated field: if regrid finds the regional
    grid's own north-west and south-east corners, the three interpolated fields have the
    extents of the regional grid's tracer, U and V points, and filling all four boundaries
    from them cannot fail. *)
Definition own_corners (G : geod binary64) lay (xg yg : mat binary64) : Prop :=
  let n := mrows xg - 1 in let m := mcols xg - 1 in
  is_nearest G (lay (mrows xg) (mcols xg)) (mat_at xg 0 m) (mat_at yg 0 m) xg yg 0 m /\
  is_nearest G (lay (mrows xg) (mcols xg)) (mat_at xg n 0) (mat_at yg n 0) xg yg n 0.

Lemma doubled_shape L G lay o3 fuel (d : griddict binary64) ni nj xc xg yg g :
  layouts lay -> layouts o3 -> 1 <= ni -> 1 <= nj -> d XC = Arr xc ->
  d XG = Arr xg -> d YG = Arr yg -> mrows xg = ni + 1 -> mcols xg = nj + 1 -> same_shape xg yg ->
  own_corners G lay xg yg ->
  doubled (b64ops L) b64codec G lay o3 fuel d ni nj = Ok g ->
  (mrows (g XG) = 2 * ni + 1 /\ mcols (g XG) = 2 * nj + 1) /\
  (mrows (g YG) = 2 * ni + 1 /\ mcols (g YG) = 2 * nj + 1).
Proof.
  intros Hlay Ho3 Hi Hj Exc Ex Ey Rx Cx (Sr & Sc & Sp) (N1 & N2) H.
  unfold doubled, corner_nw, corner_se, matrix in H. rewrite Ex, Ey in H. cbn [rbind] in H.
  replace (mrows xg =? 0) with false in H by (symmetry; apply Nat.eqb_neq; lia).
  replace (mcols xg =? 0) with false in H by (symmetry; apply Nat.eqb_neq; lia).
  replace (mrows yg =? 0) with false in H by (symmetry; apply Nat.eqb_neq; lia).
  replace (mcols yg =? 0) with false in H by (symmetry; apply Nat.eqb_neq; lia).
  cbn [orb rbind] in H. mok H. injection H as <-.
  assert (Er : mrows yg = mrows xg) by lia. assert (Ec : mcols yg = mcols xg) by lia.
  rewrite Er, Ec in Ha. cbn zeta in N1, N2.
  set (args := mk_regrid_args None None None (Some d) (Some ni) (Some nj) (mat_at xg 0 (mcols xg - 1))
    (mat_at yg 0 (mcols xg - 1)) (mat_at xg (mrows xg - 1) 0) (mat_at yg (mrows xg - 1) 0) 2 2 false) in *.
  assert (Hs : supplies (b64ops L) b64codec (fun _ => Err OSError) (fun _ => None) args d).
  { eapply from_matrices; [left; reflexivity|left; left; reflexivity|reflexivity|exact Exc]. }
  assert (Hc : corners_at G lay args xg yg 0 (mcols xg - 1) (mrows xg - 1) 0) by (split; auto).
  assert (Q0 : quarter_turns 0 (mcols xg - 1) (mrows xg - 1) 0 = 0).
  { unfold quarter_turns. replace (0 <? mrows xg - 1) with true by (symmetry; apply Nat.ltb_lt; lia).
    replace (0 <? mcols xg - 1) with true by (symmetry; apply Nat.ltb_lt; lia). reflexivity. }
  destruct (regrid64_ok L G (fun _ => Err OSError) (fun _ => None) lay o3 fuel args d xg yg
    0 (mcols xg - 1) (mrows xg - 1) 0 2 2) as (g & HH & dd & Eg & _ & Hg & _); auto; try lia.
  { split; auto. }
  { unfold subscales. cbn. lia. }
  unfold regrid64 in Eg. rewrite Eg in Ha. injection Ha as <-. cbn [rr_grid].
  assert (On : out_ni 0 (mcols xg - 1) (mrows xg - 1) 0 = ni).
  { unfold out_ni, distance. destruct (Nat.ltb_spec 0 (mrows xg - 1)), (Nat.ltb_spec 0 (mcols xg - 1)); cbn [Bool.eqb]; lia. }
  assert (Om : out_nj 0 (mcols xg - 1) (mrows xg - 1) 0 = nj).
  { unfold out_nj, distance. destruct (Nat.ltb_spec 0 (mrows xg - 1)), (Nat.ltb_spec 0 (mcols xg - 1)); cbn [Bool.eqb]; lia. }
  rewrite On, Om in Hg.
  destruct (Hg XG) as (A1 & A2 & _), (Hg YG) as (B1 & B2 & _).
  rewrite A1, A2, B1, B2. cbn. lia.
Qed.

Lemma new_regridder_shape {F W} (xw : mat F -> mat F -> mat F -> mat F -> res W) ws f a b c d ws' r :
  new_regridder xw ws f a b c d = (ws', Ok r) -> rg_in r = (mrows a, mcols a) /\ rg_out r = (mrows c, mcols c).
Proof.
  unfold new_regridder. destruct (negb _); [discriminate|].
  destruct (dget ws f); [|destruct (xw a b c d)]; intros [= <- <-]; auto.
Qed.

Lemma regridders_inv {W} L G lay o3 fuel (xw : _ -> _ -> _ -> _ -> res W) ws out p pi pj r ni nj ws' rg :
  regridders64 L G lay o3 fuel xw ws out p pi pj r ni nj = (ws', Ok rg) ->
  exists plon plat rlon rlat p2 r2 ws1 ws2,
    p XC = Arr plon /\ p YC = Arr plat /\ r XC = Arr rlon /\ r YC = Arr rlat /\
    doubled (b64ops L) b64codec G lay o3 fuel p pi pj = Ok p2 /\
    doubled (b64ops L) b64codec G lay o3 fuel r ni nj = Ok r2 /\
    new_regridder xw ws (path_join out (weightfilename method plon rlon (lit "tracer") netcdf)) plon plat rlon rlat
      = (ws1, Ok (rg Tracer)) /\
    velocity_regridder xw ws1 out p2 r2 0 1 (lit "U") = (ws2, Ok (rg Upoint)) /\
    velocity_regridder xw ws2 out p2 r2 1 0 (lit "V") = (ws', Ok (rg Vpoint)).
Proof.
  unfold regridders64, make_regridders, tracer_regridder. intros H.
  match type of H with context [rbind (matrix p XC ?e) ?f] => destruct (rbind (matrix p XC e) f) as [(((plon, plat), rlon), rlat)|] eqn:E; [|discriminate] end.
  unfold matrix in E. destruct (p XC) eqn:Ep; try discriminate. destruct (p YC) eqn:Ep'; try discriminate.
  destruct (r XC) eqn:Er; try discriminate. destruct (r YC) eqn:Er'; try discriminate. cbn [rbind] in E.
  injection E as <- <- <- <-.
  destruct (new_regridder _ ws _ _ _ _ _) as (ws1, [rt|]) eqn:Et; [|discriminate].
  match type of H with context [rbind (doubled ?N ?C ?G ?l ?o ?f p pi pj) ?k] => destruct (doubled N C G l o f p pi pj) as [p2|] eqn:E1; [|discriminate] end.
  cbn [rbind] in H.
  match type of H with context [rbind (doubled ?N ?C ?G ?l ?o ?f r ni nj) ?k] => destruct (doubled N C G l o f r ni nj) as [r2|] eqn:E2; [|discriminate] end.
  cbn [rbind] in H.
  destruct (velocity_regridder xw ws1 out p2 r2 0 1 (lit "U")) as (ws2, [ru|]) eqn:E3; [|discriminate].
  destruct (velocity_regridder xw ws2 out p2 r2 1 0 (lit "V")) as (ws3, [rv|]) eqn:E4; [|discriminate].
  injection H as <- <-. repeat eexists; eauto.
Qed.

Lemma put_ok {F} (N : numops F) ni nj bd k (R : mat F) d t :
  (forall s, bd_do (bd s) = true) -> (forall s, is_ok (side_values ni nj bd k R s)) ->
  forall l ar, is_ok (foldM (put_side N ni nj bd k R d t) l ar).
Proof.
  intros Hdo Hv. induction l as [|s l IH]; intros ar; [eexists; reflexivity|].
  cbn [foldM]. unfold put_side at 1. rewrite Hdo. destruct (Hv s) as (v & E). unfold side_values in E.
  mok E. rewrite Ha. cbn [rbind]. rewrite E. cbn [rbind]. apply IH.
Qed.

Theorem C50_boundaries_always_found :
  forall W L G lay o3 fuel (xw : _ -> _ -> _ -> _ -> res W) xv ws out p pi pj r xg yg ni nj ws' rg,
  layouts lay -> layouts o3 -> 1 <= ni -> 1 <= nj ->
  regridders64 L G lay o3 fuel xw ws out p pi pj r ni nj = (ws', Ok rg) ->
  (forall xc, r XC = Arr xc -> mrows xc = ni /\ mcols xc = nj) ->
  r XG = Arr xg -> r YG = Arr yg -> mrows xg = ni + 1 -> mcols xg = nj + 1 -> same_shape xg yg ->
  own_corners G lay xg yg ->
  forall k A d R, interpolate64 L xv rg k A d = Ok R ->
    (mrows R, mcols R) = points ni nj k /\
    (forall s x, x < cells_along ni nj s ->
       fst (sample_point ni nj s k x) < mrows R /\ snd (sample_point ni nj s k x) < mcols R) /\
    forall arg bd, (forall s, void_arg (arg s)) -> ob_all ni nj arg = Ok bd ->
    forall t ar, is_ok (foldM (put_side (b64ops L) ni nj bd k R d t) sides ar).
Proof.
  intros W L G lay o3 fuel xw xv ws out p pi pj r xg yg ni nj ws' rg Hlay Ho3 Hi Hj H Hxc Ex Ey Rx Cx Sh Hown k A d R HR.
  edestruct @regridders_inv as (plon & plat & rlon & rlat & p2 & r2 & ws1 & ws2 & P1 & P2 & R1 & R2 & D1 & D2 & T & U & V); [exact H|].
  destruct (doubled_shape L G lay o3 fuel r ni nj rlon xg yg r2) as ((X1 & X2) & _); auto.
  assert (Hout : rg_out (rg k) = points ni nj k).
  { destruct k; cbn [points].
    - apply new_regridder_shape in T. destruct T as (_ & ->). destruct (Hxc _ R1) as (-> & ->). reflexivity.
    - unfold velocity_regridder in U. apply new_regridder_shape in U. destruct U as (_ & ->). unfold every2.
      cbn [mrows mcols]. rewrite X1, X2. f_equal.
      + replace (2 * ni + 1 - 0 + 1) with ((ni + 1) * 2) by lia. now rewrite Nat.div_mul.
      + replace (2 * nj + 1 - 1 + 1) with (1 + nj * 2) by lia. now rewrite Nat.div_add.
    - unfold velocity_regridder in V. apply new_regridder_shape in V. destruct V as (_ & ->). unfold every2.
      cbn [mrows mcols]. rewrite X1, X2. f_equal.
      + replace (2 * ni + 1 - 1 + 1) with (1 + ni * 2) by lia. now rewrite Nat.div_add.
      + replace (2 * nj + 1 - 0 + 1) with ((nj + 1) * 2) by lia. now rewrite Nat.div_mul. }
  assert (Sh' : (mrows R, mcols R) = points ni nj k).
  { unfold interpolate64, interpolate in HR. mok HR. mok HR. unfold apply_regridder in HR.
    destruct (_ && _); [|discriminate]. injection HR as <-. cbn [mrows mcols]. rewrite <- Hout. destruct (rg_out (rg k)); reflexivity. }
  assert (In_range : forall s x, x < cells_along ni nj s ->
       fst (sample_point ni nj s k x) < mrows R /\ snd (sample_point ni nj s k x) < mcols R).
  { intros s x Hx. destruct k; cbn [points] in Sh'; injection Sh' as E1 E2; rewrite E1, E2;
      destruct s; cbn in *; lia. }
  split; auto. split; auto.
  intros arg bd Hv Hb t ar. pose proof (ob_all_inv _ _ _ Hb) as Hb'.
  apply put_ok.
  - intros s. eapply resolve_used; eauto.
  - intros s. specialize (Hb' s). rewrite (void_resolve _ _ _ (Hv s)) in Hb'. injection Hb' as Hb'.
    unfold side_values. rewrite <- Hb'. cbn [bd_idx]. rewrite default_idx, default_partition by auto.
    rewrite fancy_pairs.
    + cbn [rbind]. rewrite fit_same; [eexists; reflexivity|]. rewrite map_length, seq_length. symmetry. apply side_len_eq.
    + intros x Hx. apply In_range. apply in_seq in Hx. lia.
Qed.

(** ** C48, C49: what the OB arguments can do *)

Definition accepted (a : obarg) : Prop := void_arg a \/ exists z, a = OVector [z].

Lemma resolve_cases ni nj s a :
  match a with
  | OVector (_ :: _ :: _) => raises_value (ob_resolve ni nj s a)
  | OScalar z => if (z =? 0)%Z then is_ok (ob_resolve ni nj s a) else ob_resolve ni nj s a = Err TypeError
  | _ => is_ok (ob_resolve ni nj s a)
  end.
Proof.
  unfold ob_resolve, ob_select. destruct a as [|z|[|z [|y l]]]; cbn [ob_truth ob_any rbind existsb].
  - eexists; reflexivity.
  - destruct (z =? 0)%Z; cbn [negb rbind]; [eexists|]; reflexivity.
  - eexists; reflexivity.
  - destruct (z =? 0)%Z; cbn [negb rbind]; eexists; reflexivity.
  - eexists; reflexivity.
Qed.

Lemma resolve_accepted ni nj s a : is_ok (ob_resolve ni nj s a) <-> accepted a.
Proof.
  pose proof (resolve_cases ni nj s a) as H. unfold accepted, void_arg. split.
  - intros (b & E). destruct a as [|z|[|z [|y l]]]; eauto 6.
    + destruct (Z.eqb_spec z 0); [subst; auto|]. rewrite H in E. discriminate.
    + destruct H as (m & H). rewrite H in E. discriminate.
  - intros [[-> | [-> | [-> | ->]]] | (z & ->)]; exact H.
Qed.

(** Which combinations of arguments are accepted at all. *)
Theorem C48_accepted_arguments :
  forall ni nj arg, is_ok (ob_all ni nj arg) <-> forall s, accepted (arg s).
Proof.
  intros ni nj arg. split.
  - intros (bd & H) s. apply ob_all_inv with (s := s) in H. apply (resolve_accepted ni nj s). eexists; eauto.
  - intros H. unfold ob_all.
    destruct (proj2 (resolve_accepted ni nj North _) (H North)) as (? & ->).
    destruct (proj2 (resolve_accepted ni nj South _) (H South)) as (? & ->).
    destruct (proj2 (resolve_accepted ni nj East _) (H East)) as (? & ->).
    destruct (proj2 (resolve_accepted ni nj West _) (H West)) as (? & ->).
    eexists. reflexivity.
Qed.

Definition readable (L : libm) fo fs (a : @obcs_args binary64) : Prop :=
  exists dir, txt_arg (oa_parent_resultsdir a) = Some dir /\ is_ok (parent64 L fo fs a dir) /\ is_ok (regional64 L fs a).

Lemma bad_side {W} L G fo lay o3 fuel (xw : _ -> _ -> _ -> _ -> res W) xv ws fs a s :
  readable L fo fs a -> (forall s', s' <> s -> accepted (oa_ob a s')) ->
  (forall ni nj b, ob_resolve ni nj s (oa_ob a s) <> Ok b) ->
  exists ni nj e, ob_resolve ni nj s (oa_ob a s) = Err e /\
    obcs64 L G fo lay o3 fuel xw xv ws fs a = (ws, fs, Err e).
Proof.
  intros (dir & Hd & (p & Hp) & (r & Hr)) Hacc Hbad. destruct r as ((r, ni), nj). exists ni, nj.
  destruct (ob_resolve ni nj s (oa_ob a s)) as [b|e] eqn:E; [exfalso; eapply Hbad; eauto|].
  exists e. split; auto. unfold obcs64, getobcs, getobcs_from. rewrite Hd.
  unfold parent64 in Hp. rewrite Hp. unfold regional64 in Hr. rewrite Hr. cbn [rbind fst snd].
  assert (Hall : ob_all ni nj (oa_ob a) = Err e).
  { unfold ob_all.
    assert (K : forall s', s' <> s -> exists b, ob_resolve ni nj s' (oa_ob a s') = Ok b)
      by (intros s' Hs; apply (resolve_accepted ni nj s'); auto).
    destruct s.
    - now rewrite E.
    - destruct (K North) as (? & ->); [discriminate|]. cbn [rbind]. now rewrite E.
    - destruct (K North) as (? & ->); [discriminate|]. destruct (K South) as (? & ->); [discriminate|].
      cbn [rbind]. now rewrite E.
    - destruct (K North) as (? & ->); [discriminate|]. destruct (K South) as (? & ->); [discriminate|].
      destruct (K East) as (? & ->); [discriminate|]. cbn [rbind]. now rewrite E. }
  rewrite Hall. reflexivity.
Qed.

(** A vector of two or more indices: ValueError, and nothing is written. *)
Theorem C48_vectors_rejected :
  forall W L G fo lay o3 fuel (xw : _ -> _ -> _ -> _ -> res W) xv ws fs a s x y l,
  readable L fo fs a -> oa_ob a s = OVector (x :: y :: l) ->
  (forall s', s' <> s -> accepted (oa_ob a s')) ->
  exists m, obcs64 L G fo lay o3 fuel xw xv ws fs a = (ws, fs, Err (ValueError m)).
Proof.
  intros W L G fo lay o3 fuel xw xv ws fs a s x y l Hr Ha Hacc.
  destruct (bad_side L G fo lay o3 fuel xw xv ws fs a s Hr Hacc) as (ni & nj & e & E & H).
  - intros ni nj b E. pose proof (resolve_cases ni nj s (oa_ob a s)) as C. rewrite Ha in C, E. destruct C as (m & C).
    rewrite C in E. discriminate.
  - pose proof (resolve_cases ni nj s (oa_ob a s)) as C. rewrite Ha in C, E. destruct C as (m & C).
    rewrite C in E. injection E as <-. exists m. exact H.
Qed.

(** A nonzero number, as the command line passes it: TypeError. *)
Theorem C48_numbers_rejected :
  forall W L G fo lay o3 fuel (xw : _ -> _ -> _ -> _ -> res W) xv ws fs a s z,
  readable L fo fs a -> oa_ob a s = OScalar z -> z <> 0%Z ->
  (forall s', s' <> s -> accepted (oa_ob a s')) ->
  obcs64 L G fo lay o3 fuel xw xv ws fs a = (ws, fs, Err TypeError).
Proof.
  intros W L G fo lay o3 fuel xw xv ws fs a s z Hr Ha Hz Hacc.
  assert (C : forall ni nj, ob_resolve ni nj s (oa_ob a s) = Err TypeError).
  { intros ni nj. pose proof (resolve_cases ni nj s (oa_ob a s)) as C. rewrite Ha in *.
    destruct (Z.eqb_spec z 0); [contradiction|]. exact C. }
  destruct (bad_side L G fo lay o3 fuel xw xv ws fs a s Hr Hacc) as (ni & nj & e & E & H).
  - intros ni nj b. rewrite C. discriminate.
  - rewrite C in E. injection E as <-. exact H.
Qed.

Lemma nth_repeat_lt {A} (x d : A) n k : k < n -> nth k (repeat x n) d = x.
Proof. revert k. induction n; intros k H; [lia|]. destruct k; cbn; [reflexivity|]. apply IHn. lia. Qed.

(** A one-element vector: the whole side is filled with one value, that of the first cell
    along the side (the index applies across the side). *)
Theorem C48_one_index_fills_the_side :
  forall W L G fo lay o3 fuel (xw : _ -> _ -> _ -> _ -> res W) xv ws fs a ws' fs' dir out r ni nj s z,
  obcs64 L G fo lay o3 fuel xw xv ws fs a = (ws', fs', Ok tt) -> runs_in a dir out ->
  regional64 L fs a = Ok (r, ni, nj) -> 1 <= ni -> 1 <= nj -> oa_ob a s = OVector [z] -> z <> 0%Z ->
  exists p pi pj rg times,
    parent64 L fo fs a dir = Ok (p, pi, pj) /\
    regridders64 L G lay o3 fuel xw ws out p pi pj r ni nj = (ws', Ok rg) /\ times_of fs dir = Ok times /\
    forall resp k, In (resp, k) responses -> result_file (names fs) (path_join dir (lit resp)) ->
    exists nd bs, dget fs' (ob_file out s resp) = Some bs /\
      forall d t, d < nd -> t < length times ->
      exists A R i j, response64 L fo fs dir resp (nth t times 0%Z) = Ok A /\
        interpolate64 L xv rg k A d = Ok R /\
        (match s with North | South => i = 0 | East | West => j = 0 end) /\
        forall x, x < cells_along ni nj s -> item 8 bs ((x * nd + d) * length times + t) = enc b64codec (mat_at R i j).
Proof.
  intros W L G fo lay o3 fuel xw xv ws fs a ws' fs' dir out r ni nj s z H Hd Hr Hi Hj Ha Hz.
  edestruct @run_files as (p & pi & pj & r' & ni' & nj' & bd & rg & times & E1 & E2 & E3 & E4 & E5 & E6); [exact H|exact Hd|].
  rewrite Hr in E2. injection E2 as <- <- <-.
  exists p, pi, pj, rg, times. repeat split; auto.
  intros resp k I Hf. destruct (E6 resp k s I Hf) as (nd & bs & B1 & _ & B2 & B3).
  exists nd, bs. split; auto. intros d t Hdd Ht.
  specialize (E3 s). rewrite Ha in E3.
  assert (Ei : exists z', bd_idx (bd s) = [z']).
  { unfold ob_resolve, ob_select in E3. cbn [ob_truth ob_any ob_entries existsb rbind] in E3.
    destruct (Z.eqb_spec z 0); [contradiction|]. cbn [negb orb rbind] in E3. injection E3 as <-.
    cbn [bd_idx]. destruct s; cbn [ob_zero_based map]; eauto. }
  destruct Ei as (z' & Ei).
  assert (Z0 : 0 < cells_along ni nj s) by (destruct s; cbn; lia).
  destruct (B3 0 d t) as (y & (A & R & l & A1 & A2 & A3 & _) & _); auto.
  assert (V : exists i j, (match s with North | South => i = 0 | East | West => j = 0 end) /\
    l = repeat (mat_at R i j) (cells_along ni nj s)).
  { unfold side_values in A3. rewrite Ei in A3. mok A3. rewrite side_len_eq in A3.
    unfold fancy in Ha0. destruct s, k; cbn [partition arange length seq map combine mapM fst snd] in Ha0;
      repeat match type of Ha0 with context [axis_index ?a ?b] => destruct (axis_index a b) eqn:?; cbn [rbind] in Ha0; try discriminate end;
      injection Ha0 as <-; apply fit_one in A3;
      repeat match goal with Hx : axis_index ?n (Z.of_nat 0) = Some ?i |- _ =>
        rewrite axis_index_nat in Hx; destruct (0 <? n); [injection Hx as <-|discriminate] end;
      eexists _, _; (split; [|exact A3]); reflexivity. }
  destruct V as (i & j & Hij & V). exists A, R, i, j. repeat split; auto.
  intros x Hx. destruct (B3 x d t Hx Hdd Ht) as (y' & (A' & R' & l' & A1' & A2' & A3' & Hy') & Hit).
  rewrite A1 in A1'. injection A1' as <-. rewrite A2 in A2'. injection A2' as <-. rewrite A3 in A3'. injection A3' as <-.
  rewrite Hit, Hy', V. f_equal. now apply nth_repeat_lt.
Qed.

(** A successful run writes all four boundaries of every response that has results, whatever
    the OB arguments: none of them disables a boundary. *)
Theorem C49_every_boundary_is_written :
  forall W L G fo lay o3 fuel (xw : _ -> _ -> _ -> _ -> res W) xv ws fs a ws' fs' dir out r ni nj,
  obcs64 L G fo lay o3 fuel xw xv ws fs a = (ws', fs', Ok tt) -> runs_in a dir out ->
  regional64 L fs a = Ok (r, ni, nj) ->
  forall resp k s, In (resp, k) responses -> result_file (names fs) (path_join dir (lit resp)) ->
  exists times nd bs, times_of fs dir = Ok times /\
    depths_of (response64 L fo fs dir resp (nth 0 times 0%Z)) = Ok nd /\
    dget fs' (ob_file out s resp) = Some bs /\ length bs = 8 * (cells_along ni nj s * nd * length times).
Proof.
  intros W L G fo lay o3 fuel xw xv ws fs a ws' fs' dir out r ni nj H Hd Hr resp k s I Hf.
  edestruct @run_files as (p & pi & pj & r' & ni' & nj' & bd & rg & times & E1 & E2 & E3 & E4 & E5 & E6); [exact H|exact Hd|].
  rewrite Hr in E2. injection E2 as <- <- <-.
  destruct (E6 resp k s I Hf) as (nd & bs & B1 & B2 & B3 & _). exists times, nd, bs. auto.
Qed.

Definition with_ob (a : @obcs_args binary64) (ob : side -> obarg) : @obcs_args binary64 :=
  mk_obcs_args (oa_parent_file a) (oa_parent_matrices a) (oa_ni_parent a) (oa_nj_parent a)
    (oa_regional_file a) (oa_regional_matrices a) (oa_ni_regional a) (oa_nj_regional a)
    (oa_parent_resultsdir a) ob (oa_resultsdir a) (oa_strict a).

(** The arguments documented to disable a boundary mean the same as none at all. *)
Theorem C49_zero_means_default :
  forall W L G fo lay o3 fuel (xw : _ -> _ -> _ -> _ -> res W) xv ws fs a ob,
  (forall s, ob s = oa_ob a s \/ (void_arg (oa_ob a s) /\ ob s = ONone)) ->
  obcs64 L G fo lay o3 fuel xw xv ws fs a = obcs64 L G fo lay o3 fuel xw xv ws fs (with_ob a ob).
Proof.
  intros W L G fo lay o3 fuel xw xv ws fs a ob H. unfold obcs64, getobcs, getobcs_from, with_ob.
  cbn [oa_parent_resultsdir]. destruct (txt_arg (oa_parent_resultsdir a)) as [dir|]; [|reflexivity].
  assert (E : forall ni nj, ob_all ni nj (oa_ob a) = ob_all ni nj ob).
  { intros ni nj. unfold ob_all.
    assert (K : forall s, ob_resolve ni nj s (oa_ob a s) = ob_resolve ni nj s (ob s)).
    { intros s. destruct (H s) as [-> | (V & ->)]; [reflexivity|].
      rewrite (void_resolve _ _ _ V). symmetry. apply void_resolve. left. reflexivity. }
    now rewrite !K. }
  unfold parent_grid, regional_grid, results_dir.
  cbn [oa_parent_file oa_parent_matrices oa_ni_parent oa_nj_parent oa_strict oa_regional_file oa_regional_matrices
    oa_ni_regional oa_nj_regional oa_ob oa_resultsdir].
  match goal with |- match rbind ?x _ with _ => _ end = _ => destruct x as [p|]; [|reflexivity] end. cbn [rbind].
  match goal with |- match rbind ?x _ with _ => _ end = _ => destruct x as [r|]; [|reflexivity] end. cbn [rbind].
  now rewrite E.
Qed.

(** ** C51: the order of the numbers in a boundary file *)

Theorem C51_not_fortran_order :
  forall n nd nt, 1 <= n -> 1 <= nd -> 1 <= nt ->
  (forall a : nat -> nat -> nat -> binary64,
     tofile3 (enc b64codec) n nd nt a = fortran_bytes (enc b64codec) n nd nt a)
  <-> at_most_one_long n nd nt.
Proof.
  intros n nd nt Hn Hd Ht.
  assert (Hw : forall x, length (enc b64codec x) = 8) by (apply (enc_len b64_codec_laws)).
  split.
  - intros H.
    apply (orders_differ (enc b64codec) Hw (ex_dbl 0) (ex_dbl 1)); auto. vm_compute. discriminate.
  - intros H a. now apply orders_agree.
Qed.

(** The file of a successful run is the array in C order, x slowest. *)
Theorem C51_files_are_row_major :
  forall W L G fo lay o3 fuel (xw : _ -> _ -> _ -> _ -> res W) xv ws fs a ws' fs' dir out r ni nj,
  obcs64 L G fo lay o3 fuel xw xv ws fs a = (ws', fs', Ok tt) -> runs_in a dir out ->
  regional64 L fs a = Ok (r, ni, nj) ->
  exists p pi pj rg bd times,
  parent64 L fo fs a dir = Ok (p, pi, pj) /\
  regridders64 L G lay o3 fuel xw ws out p pi pj r ni nj = (ws', Ok rg) /\
  ob_all ni nj (oa_ob a) = Ok bd /\ times_of fs dir = Ok times /\
  forall resp k s, In (resp, k) responses -> result_file (names fs) (path_join dir (lit resp)) ->
  exists nd ar,
    dget fs' (ob_file out s resp) = Some (tofile3 (enc b64codec) (cells_along ni nj s) nd (length times) ar) /\
    (forall x d t, x < cells_along ni nj s -> d < nd -> t < length times ->
       item 8 (tofile3 (enc b64codec) (cells_along ni nj s) nd (length times) ar) ((x * nd + d) * length times + t)
       = enc b64codec (ar x d t)) /\
    forall d t, d < nd -> t < length times -> exists A R l,
      response64 L fo fs dir resp (nth t times 0%Z) = Ok A /\ interpolate64 L xv rg k A d = Ok R /\
      side_values ni nj bd k R s = Ok l /\
      forall x, ar x d t = nth x l (nzero (b64ops L)).
Proof.
  intros W L G fo lay o3 fuel xw xv ws fs a ws' fs' dir out r ni nj H (Hd & ->) Hr.
  assert (Hw : forall x, length (enc b64codec x) = 8) by (apply (enc_len b64_codec_laws)).
  unfold obcs64 in H. apply getobcs_ok in H.
  destruct H as (dir' & p & pi & pj & r' & ni' & nj' & bd & rg & times & E0 & E1 & E2 & E3 & E4 & E5 & E6).
  rewrite Hd in E0. injection E0 as <-. unfold regional64 in Hr. rewrite Hr in E2. injection E2 as <- <- <-.
  assert (Hdo : forall s, bd_do (bd s) = true) by (intros s; eapply resolve_used; eauto).
  assert (Hb : exists bd', ob_all ni nj (oa_ob a) = Ok bd' /\ forall s, bd' s = bd s).
  { unfold ob_all. rewrite !E3. cbn [rbind]. eexists. split; [reflexivity|]. intros []; reflexivity. }
  destruct Hb as (bd' & Hb & Eb).
  exists p, pi, pj, rg, bd', times. repeat (split; auto).
  intros resp k s I Hf.
  edestruct @loop_files as (_ & J & _); [exact Hdo|apply responses_NoDup|apply incl_refl|exact E6|].
  destruct (J resp k I Hf) as (nd & ar & Ha & Hs).
  edestruct @assemble_inv as (_ & Hv); [exact Hdo|exact Ha|].
  exists nd, (ar s). split; [rewrite <- side_len_eq; apply Hs|]. split.
  - intros. now apply (tofile3_item _ Hw).
  - intros d t Hdd Ht. destruct (Hv t d s Ht Hdd) as (A & HA & R & l & HR & Hl & Hn).
    exists A, R, l. repeat split; auto. unfold side_values in *. rewrite Eb. exact Hl.
Qed.

(** ** C52: weight files *)

Lemma int_sep a b (c : ascii) r r' : int_char c = false ->
  int_text a ++ c :: r = int_text b ++ c :: r' -> a = b /\ r = r'.
Proof.
  intros Hc H.
  assert (K : forall l l' : text, forallb int_char l = true -> forallb int_char l' = true ->
    l ++ c :: r = l' ++ c :: r' -> l = l' /\ r = r').
  { induction l as [|x l IH]; intros [|y l'] A B E; cbn [app] in E.
    - injection E as ->. auto.
    - injection E as <- _. cbn [forallb] in B. rewrite Hc in B. discriminate.
    - injection E as -> _. cbn [forallb] in A. rewrite Hc in A. discriminate.
    - injection E as -> E. cbn [forallb] in A, B. apply andb_prop in A, B.
      destruct (IH l') as (-> & ->); try tauto. }
  destruct (K _ _ (int_text_chars a) (int_text_chars b) H) as (E & ->). split; auto.
  apply (f_equal int_of_text) in E. rewrite !int_of_int_text in E. congruence.
Qed.

(** Two weight files have the same name exactly if the four extents and the response type
    agree. *)
Theorem C52_name_determines_shapes :
  forall F (m : text) (lon_in lon_out lon_in' lon_out' : mat F) rt rt' e e',
  weightfilename m lon_in lon_out rt e = weightfilename m lon_in' lon_out' rt' e' <->
  mrows lon_in = mrows lon_in' /\ mcols lon_in = mcols lon_in' /\
  mrows lon_out = mrows lon_out' /\ mcols lon_out = mcols lon_out' /\ rt = rt'.
Proof.
  intros F m li lo li' lo' rt rt' e e'. unfold weightfilename. split.
  - intros H. apply app_inv_head in H. cbn [app] in H. injection H as H.
    apply int_sep in H; [|reflexivity]. destruct H as (H1 & H).
    apply int_sep in H; [|reflexivity]. destruct H as (H2 & H).
    apply int_sep in H; [|reflexivity]. destruct H as (H3 & H).
    apply int_sep in H; [|reflexivity]. destruct H as (H4 & H).
    apply app_inv_tail in H. repeat split; auto; lia.
  - intros (-> & -> & -> & -> & ->). reflexivity.
Qed.

Lemma new_regridder_stored {F W} (xw : mat F -> mat F -> mat F -> mat F -> res W) ws f a b c d ws' r :
  new_regridder xw ws f a b c d = (ws', Ok r) ->
  dget ws' f = Some (rg_weights r) /\ forall f' w, dget ws f' = Some w -> dget ws' f' = Some w.
Proof.
  unfold new_regridder. destruct (negb _); [discriminate|].
  destruct (dget ws f) as [w|] eqn:E.
  - intros [= <- <-]. auto.
  - destruct (xw a b c d) as [w|]; [|discriminate]. intros [= <- <-]. cbn [rg_weights]. split.
    + rewrite dget_dset, text_eqb_refl. reflexivity.
    + intros f' w' H. rewrite dget_dset_other; auto. intros ->. congruence.
Qed.

Lemma new_regridder_reuses {F W} (xw : mat F -> mat F -> mat F -> mat F -> res W) ws f a b c d ws' r w :
  dget ws f = Some w -> new_regridder xw ws f a b c d = (ws', Ok r) -> ws' = ws /\ rg_weights r = w.
Proof.
  intros H. unfold new_regridder. destruct (negb _); [discriminate|]. rewrite H. intros [= <- <-]. auto.
Qed.

Lemma weightfilename_shape {F} m (a b a' b' : mat F) rt e :
  (mrows a, mcols a) = (mrows a', mcols a') -> (mrows b, mcols b) = (mrows b', mcols b') ->
  weightfilename m a b rt e = weightfilename m a' b' rt e.
Proof. intros [= E1 E2] [= E3 E4]. unfold weightfilename. now rewrite E1, E2, E3, E4. Qed.

Lemma regridder_eq {W} (a b : regridder W) :
  rg_in a = rg_in b -> rg_out a = rg_out b -> rg_weights a = rg_weights b -> a = b.
Proof. destruct a, b. cbn. congruence. Qed.

(** Two runs with the same output directory, on any grids of equal shapes: the second
    computes no weights and interpolates with those of the first. *)
Theorem C52_weights_of_other_grids_reused :
  forall W L G G' lay lay' o3 o3' fuel fuel' (xw xw' : _ -> _ -> _ -> _ -> res W) ws out
    p pi pj r ni nj ws1 rg1 p' pi' pj' r' ni' nj' ws2 rg2,
  regridders64 L G lay o3 fuel xw ws out p pi pj r ni nj = (ws1, Ok rg1) ->
  regridders64 L G' lay' o3' fuel' xw' ws1 out p' pi' pj' r' ni' nj' = (ws2, Ok rg2) ->
  (forall k, rg_in (rg2 k) = rg_in (rg1 k) /\ rg_out (rg2 k) = rg_out (rg1 k)) ->
  ws2 = ws1 /\ forall k, rg2 k = rg1 k.
Proof.
  intros W L G G' lay lay' o3 o3' fuel fuel' xw xw' ws out p pi pj r ni nj ws1 rg1 p' pi' pj' r' ni' nj' ws2 rg2 H1 H2 Hs.
  edestruct @regridders_inv as (plon & plat & rlon & rlat & p2 & r2 & wa & wb & P1 & P2 & R1 & R2 & D1 & D2 & T & U & V); [exact H1|].
  edestruct @regridders_inv as (plon' & plat' & rlon' & rlat' & p2' & r2' & wa' & wb' & P1' & P2' & R1' & R2' & D1' & D2' & T' & U' & V'); [exact H2|].
  unfold velocity_regridder in *.
  destruct (new_regridder_stored _ _ _ _ _ _ _ _ _ T) as (T1 & _).
  destruct (new_regridder_stored _ _ _ _ _ _ _ _ _ U) as (U1 & U2).
  destruct (new_regridder_stored _ _ _ _ _ _ _ _ _ V) as (V1 & V2).
  pose proof (new_regridder_shape _ _ _ _ _ _ _ _ _ T) as ST. pose proof (new_regridder_shape _ _ _ _ _ _ _ _ _ T') as ST'.
  pose proof (new_regridder_shape _ _ _ _ _ _ _ _ _ U) as SU. pose proof (new_regridder_shape _ _ _ _ _ _ _ _ _ U') as SU'.
  pose proof (new_regridder_shape _ _ _ _ _ _ _ _ _ V) as SV. pose proof (new_regridder_shape _ _ _ _ _ _ _ _ _ V') as SV'.
  destruct ST as (ST1 & ST2), ST' as (ST1' & ST2'), SU as (SU1 & SU2), SU' as (SU1' & SU2'), SV as (SV1 & SV2), SV' as (SV1' & SV2').
  destruct (Hs Tracer) as (HT1 & HT2), (Hs Upoint) as (HU1 & HU2), (Hs Vpoint) as (HV1 & HV2).
  rewrite (weightfilename_shape _ plon' rlon' plon rlon) in T' by congruence.
  apply new_regridder_reuses with (w := rg_weights (rg1 Tracer)) in T'; [|now apply V2, U2].
  destruct T' as (-> & WT).
  rewrite (weightfilename_shape _ (every2 (p2' XG) 0 1) (every2 (r2' XG) 0 1) (every2 (p2 XG) 0 1) (every2 (r2 XG) 0 1)) in U'
    by congruence.
  apply new_regridder_reuses with (w := rg_weights (rg1 Upoint)) in U'; [|now apply V2].
  destruct U' as (-> & WU).
  rewrite (weightfilename_shape _ (every2 (p2' XG) 1 0) (every2 (r2' XG) 1 0) (every2 (p2 XG) 1 0) (every2 (r2 XG) 1 0)) in V'
    by congruence.
  apply new_regridder_reuses with (w := rg_weights (rg1 Vpoint)) in V'; [|exact V1].
  destruct V' as (-> & WV). split; auto.
  intros k. destruct (Hs k) as (A & B).
  assert (C : rg_weights (rg2 k) = rg_weights (rg1 k)) by (destruct k; auto).
  now apply regridder_eq.
Qed.

(** ** C60: time steps *)

Lemma first_digits_spec l : first_digits l <> [] ->
  exists pre post, l = pre ++ first_digits l ++ post /\ Forall (fun c => is_digit c = false) pre /\
    forallb is_digit (first_digits l) = true /\ (post = [] \/ exists c r, post = c :: r /\ is_digit c = false).
Proof.
  induction l as [|c l IH]; intros H; [contradiction|]. cbn [first_digits] in *.
  destruct (is_digit c) eqn:E.
  - clear IH H.
    set (run := fix run l := match l with d :: r' => if is_digit d then d :: run r' else [] | [] => [] end).
    assert (K : forall l, exists post, l = run l ++ post /\ forallb is_digit (run l) = true /\
       (post = [] \/ exists c r, post = c :: r /\ is_digit c = false)).
    { induction l0 as [|d r IH]; cbn [run].
      - exists []. auto.
      - destruct (is_digit d) eqn:Ed.
        + destruct IH as (post & P1 & P2 & P3). exists post. split; [cbn [app]; f_equal; exact P1|]. split; auto.
          cbn [forallb]. now rewrite Ed.
        + exists (d :: r). repeat split; auto. right. eauto. }
    destruct (K l) as (post & P1 & P2 & P3). exists [], post. split; [cbn [app]; f_equal; exact P1|].
    split; auto. split; auto. cbn [forallb]. now rewrite E.
  - destruct (IH H) as (pre & post & P1 & P2 & P3 & P4). exists (c :: pre), post.
    split; [cbn [app]; f_equal; exact P1|]. split; auto.
Qed.

Lemma basename_spec s : ~ In "/"%char (basename s) /\
  (s = basename s \/ exists d, s = d ++ ["/"%char] ++ basename s).
Proof.
  unfold basename. set (run := fix run l := match l with c :: r => if Ascii.eqb c "/" then [] else c :: run r | [] => [] end).
  assert (K : forall l, ~ In "/"%char (run l) /\ (l = run l \/ exists d, l = run l ++ ["/"%char] ++ d)).
  { induction l as [|c r (N & IH)]; cbn [run].
    - split; auto.
    - destruct (Ascii.eqb_spec c "/").
      + subst c. split; auto. right. exists r. reflexivity.
      + split.
        * intros [|]; auto.
        * destruct IH as [IH | (d & IH)]; [left; now rewrite <- IH|right]. exists d. cbn [app]. f_equal. exact IH. }
  destruct (K (rev s)) as (N & H). split.
  - intros I. apply in_rev in I. auto.
  - destruct H as [H | (d & H)].
    + left. rewrite <- H. symmetry. apply rev_involutive.
    + right. exists (rev d). apply (f_equal (@rev ascii)) in H. rewrite rev_involutive, !rev_app_distr in H. cbn [rev app] in H.
      rewrite <- app_assoc in H. exact H.
Qed.

Lemma mapM_Forall2 {A B} (f : A -> res B) l r : mapM f l = Ok r -> Forall2 (fun x y => f x = Ok y) l r.
Proof.
  revert r. induction l as [|x l IH]; intros r; cbn [mapM].
  - intros [= <-]. constructor.
  - intros H. mok H. mok H. injection H as <-. constructor; auto.
Qed.

Lemma Forall2_weaken {A B} (P Q : A -> B -> Prop) l l' :
  (forall x y, P x y -> Q x y) -> Forall2 P l l' -> Forall2 Q l l'.
Proof. intros H. induction 1; constructor; auto. Qed.

(** The time steps are sorted and there is one for every file T.*.data, so that a time
    step stored in several tiles is processed as many times. *)
Theorem C60_one_time_per_file :
  forall fs dir times, times_of fs dir = Ok times ->
  StronglySorted Z.le times /\
  exists files l, Permutation l times /\ Forall2 has_number files l /\
    (forall s, In s files <-> In s (names fs) /\ file_match (path_join dir (lit "T") ++ lit ".*.data") s) /\
    (NoDup (names fs) -> NoDup files).
Proof.
  intros fs dir times H. unfold times_of in H. mok H. injection H as <-. split; [apply sortZ_sorted|].
  exists (glob fs (data_pat (path_join dir (lit "T")))), a. split; [apply sortZ_perm|]. split; [|split].
  - apply mapM_Forall2 in Ha. revert Ha. apply Forall2_weaken. intros s z E.
    destruct (first_digits (basename s)) as [|c r] eqn:Ed; [discriminate|].
    destruct (first_digits_spec (basename s)) as (pre & post & P1 & P2 & P3 & P4); [rewrite Ed; discriminate|].
    rewrite Ed in *. destruct (basename_spec s) as (B1 & B2). exists (basename s). split; auto. split; auto.
    exists pre, (c :: r), post.
    assert (D : is_decimal (c :: r)) by (now apply is_decimal_iff).
    repeat split; auto; [discriminate|].
    rewrite int_of_decimal in E; [|auto|discriminate]. now injection E.
  - intros s. unfold glob. rewrite filter_In, glob_match_iff. reflexivity.
  - intros ND. now apply NoDup_filter.
Qed.

(** The names of these files, and of the files of a response, for a directory without *, ?
    and [ in its name. *)
Lemma path_join_plain d b : plain_name d -> plain_name b -> plain_name (path_join d b).
Proof.
  intros P Q. unfold path_join. destruct (rev d) as [|c r]; [exact Q|].
  destruct (Ascii.eqb c "/"); apply plain_app; (split; [exact P|]); [exact Q|].
  apply plain_app. split; [now apply magic_false|exact Q].
Qed.
Theorem C60_names_of_result_files :
  forall dir resp s, plain_name dir -> plain_name resp ->
  file_match (path_join dir resp ++ lit ".*.data") s <->
  exists v, s = path_join dir resp ++ ["."%char] ++ v ++ lit ".data" /\ ~ In "/"%char v.
Proof.
  intros dir resp s P Q. rewrite <- glob_match_iff. apply glob_data. now apply path_join_plain.
Qed.

(** ** C61: negative indices *)

(** A negative index counts from the end, -1 being the last cell: so on the north (and
    east) side.  On the south (and west) side it names the cell before that one. *)
Theorem C61_negative_index_north :
  forall F ni nj k (R : mat F) bd (z : Z),
  (mrows R, mcols R) = points ni nj k -> 1 <= ni -> (- Z.of_nat nj <= z < 0)%Z ->
  ob_resolve ni nj North (OVector [z]) = Ok (bd North) ->
  side_values ni nj bd k R North = Ok (repeat (mat_at R 0 (Z.to_nat (Z.of_nat nj + z))) ni).
Proof.
  intros F ni nj k R bd z Sh Hi Hz H. unfold ob_resolve, ob_select in H. cbn [ob_truth ob_any ob_entries existsb rbind] in H.
  destruct (Z.eqb_spec z 0); [lia|]. cbn [negb orb rbind] in H. injection H as H.
  unfold side_values. rewrite <- H. cbn [bd_idx ob_zero_based map partition arange length seq combine].
  destruct (Z.ltb_spec z 0); [|lia].
  unfold fancy. cbn [mapM fst snd].
  rewrite axis_index_nat. unfold axis_index.
  assert (0 < mrows R /\ nj <= mcols R) as (A & B) by (destruct k; injection Sh; lia).
  apply Nat.ltb_lt in A. rewrite A.
  destruct (Z.leb_spec 0 (Z.of_nat nj + 1 + z - 1)); [|lia].
  destruct (Z.ltb_spec (Z.of_nat nj + 1 + z - 1) (Z.of_nat (mcols R))); [|lia]. cbn [rbind side_len].
  replace (Z.of_nat nj + 1 + z - 1)%Z with (Z.of_nat nj + z)%Z by lia.
  unfold fit. cbn [length]. destruct (Nat.eqb_spec 1 ni) as [<-|]; reflexivity.
Qed.

Theorem C61_negative_index_south_off_by_one :
  forall F ni nj k (R : mat F) bd (z : Z),
  (mrows R, mcols R) = points ni nj k -> 1 <= ni -> is_normal South k = false -> (- Z.of_nat nj <= z < 0)%Z ->
  ob_resolve ni nj South (OVector [z]) = Ok (bd South) ->
  side_values ni nj bd k R South =
    if (z =? - Z.of_nat nj)%Z then Err IndexError
    else Ok (repeat (mat_at R 0 (Z.to_nat (Z.of_nat nj + z) - 1)) ni).
Proof.
  intros F ni nj k R bd z Sh Hi Hk Hz H. unfold ob_resolve, ob_select in H. cbn [ob_truth ob_any ob_entries existsb rbind] in H.
  destruct (Z.eqb_spec z 0); [lia|]. cbn [negb orb rbind] in H. injection H as H.
  unfold side_values. rewrite <- H. cbn [bd_idx ob_zero_based map].
  assert (E : partition South k [(z - 1)%Z] = [(Z.of_nat 0, (z - 1)%Z)]) by (destruct k; try discriminate; reflexivity).
  rewrite E. unfold fancy. cbn [mapM fst snd]. rewrite axis_index_nat. unfold axis_index.
  assert (0 < mrows R /\ nj = mcols R) as (A & B) by (destruct k; try discriminate; injection Sh; lia).
  apply Nat.ltb_lt in A. rewrite A, <- B.
  destruct (Z.leb_spec 0 (z - 1)); [lia|].
  destruct (Z.eqb_spec z (- Z.of_nat nj)) as [->|].
  - destruct (Z.leb_spec 0 (Z.of_nat nj + (- Z.of_nat nj - 1))); [lia|]. reflexivity.
  - destruct (Z.leb_spec 0 (Z.of_nat nj + (z - 1))); [|lia]. cbn [rbind side_len].
    replace (Z.to_nat (Z.of_nat nj + (z - 1))) with (Z.to_nat (Z.of_nat nj + z) - 1) by lia.
    unfold fit. cbn [length]. destruct (Nat.eqb_spec 1 ni) as [<-|]; reflexivity.
Qed.

Theorem C61_negative_index_west_off_by_one :
  forall F ni nj k (R : mat F) bd (z : Z),
  (mrows R, mcols R) = points ni nj k -> 1 <= nj -> is_normal West k = false -> (- Z.of_nat ni <= z < 0)%Z ->
  ob_resolve ni nj West (OVector [z]) = Ok (bd West) ->
  side_values ni nj bd k R West =
    if (z =? - Z.of_nat ni)%Z then Err IndexError
    else Ok (repeat (mat_at R (Z.to_nat (Z.of_nat ni + z) - 1) 0) nj).
Proof.
  intros F ni nj k R bd z Sh Hi Hk Hz H. unfold ob_resolve, ob_select in H. cbn [ob_truth ob_any ob_entries existsb rbind] in H.
  destruct (Z.eqb_spec z 0); [lia|]. cbn [negb orb rbind] in H. injection H as H.
  unfold side_values. rewrite <- H. cbn [bd_idx ob_zero_based map].
  assert (E : partition West k [(z - 1)%Z] = [((z - 1)%Z, Z.of_nat 0)]) by (destruct k; try discriminate; reflexivity).
  rewrite E. unfold fancy. cbn [mapM fst snd]. rewrite axis_index_nat. unfold axis_index.
  assert (0 < mcols R /\ ni = mrows R) as (A & B) by (destruct k; try discriminate; injection Sh; lia).
  apply Nat.ltb_lt in A. rewrite A, <- B.
  destruct (Z.leb_spec 0 (z - 1)); [lia|].
  destruct (Z.eqb_spec z (- Z.of_nat ni)) as [->|].
  - destruct (Z.leb_spec 0 (Z.of_nat ni + (- Z.of_nat ni - 1))); [lia|]. reflexivity.
  - destruct (Z.leb_spec 0 (Z.of_nat ni + (z - 1))); [|lia]. cbn [rbind side_len].
    replace (Z.to_nat (Z.of_nat ni + (z - 1))) with (Z.to_nat (Z.of_nat ni + z) - 1) by lia.
    unfold fit. cbn [length]. destruct (Nat.eqb_spec 1 nj) as [<-|]; reflexivity.
Qed.

(** ** C62: which files a run touches *)

Lemma loop_other {W} L fo (xv : W -> mat binary64 -> nat -> nat -> binary64) dir out ni nj bd rg times l n : forall fs fs' o,
  (forall resp k s, In (resp, k) l -> n <> ob_file out s resp) ->
  response_loop (b64ops L) b64codec b32codec fo xv dir out ni nj bd rg times l fs = (fs', o) ->
  dget fs' n = dget fs n.
Proof.
  induction l as [|(r0, k0) l IH]; intros fs fs' o Hn H; cbn [response_loop] in H.
  - now injection H as <- _.
  - destruct (response_step _ _ _ _ _ dir out ni nj bd rg times fs (r0, k0)) as [fs1|e] eqn:E; [|now injection H as <- _].
    rewrite (IH fs1 fs' o); [|intros resp k s I; apply (Hn resp k s); now right|exact H].
    unfold response_step in E. cbn [fst snd] in E. destruct (existsb _ _); [|now injection E as <-].
    mok E. destruct a as (nd, ar). injection E as <-. apply write_sides_other. intros s. apply (Hn r0 k0 s). now left.
Qed.

(** Whatever the outcome, only OB files are created or changed. *)
Theorem C62_only_boundary_files_change :
  forall W L G fo lay o3 fuel (xw : _ -> _ -> _ -> _ -> res W) xv ws fs a ws' fs' o n,
  obcs64 L G fo lay o3 fuel xw xv ws fs a = (ws', fs', o) ->
  (forall dir out resp k s, runs_in a dir out -> In (resp, k) responses -> n <> ob_file out s resp) ->
  dget fs' n = dget fs n.
Proof.
  intros W L G fo lay o3 fuel xw xv ws fs a ws' fs' o n H Hn. unfold obcs64, getobcs, getobcs_from in H.
  destruct (txt_arg (oa_parent_resultsdir a)) as [dir|] eqn:Ed; [|now injection H as _ <- _].
  match type of H with match ?x with _ => _ end = _ => destruct x as [((p0, r0), b)|] eqn:E1; [|now injection H as _ <- _] end.
  destruct p0 as ((p, pi), pj). destruct r0 as ((r, ni), nj).
  destruct (make_regridders _ _ _ _ _ _ _ ws _ p pi pj r ni nj) as (ws1, [rg|]) eqn:E2; [|now injection H as _ <- _].
  match type of H with match ?x with _ => _ end = _ => destruct x as [times|] eqn:E3; [|now injection H as _ <- _] end.
  destruct (response_loop _ _ _ _ _ dir _ ni nj b rg times responses fs) as (fs1, o1) eqn:E4.
  injection H as _ <- _. eapply loop_other; [|exact E4]. intros resp k s I. apply (Hn dir _ resp k s); auto. split; auto.
Qed.

(** In particular no results are changed. *)
Theorem C62_results_never_changed :
  forall W L G fo lay o3 fuel (xw : _ -> _ -> _ -> _ -> res W) xv ws fs a ws' fs' o stem (e : string),
  obcs64 L G fo lay o3 fuel xw xv ws fs a = (ws', fs', o) -> e = "meta"%string \/ e = "data"%string ->
  dget fs' (stem ++ ["."%char] ++ lit e) = dget fs (stem ++ ["."%char] ++ lit e).
Proof.
  intros W L G fo lay o3 fuel xw xv ws fs a ws' fs' o stem e H He.
  eapply C62_only_boundary_files_change; [exact H|]. intros dir out resp k s _ I Eq.
  symmetry in Eq. revert Eq. rewrite app_assoc. eapply ob_file_neutral; eauto.
Qed.

(** ** A concrete run *)

(** A 2 x 1 grid, used both as parent and as regional grid; results T, U and V at
    iteration 7; xESMF returning the parent's values. *)
Definition ex_og : griddict binary64 :=
  fun f => match f with
    | XG => Arr (ex_mat [[0; 0]; [1; 1]; [2; 2]]%Z)
    | YG => Arr (ex_mat [[0; 1]; [0; 1]; [0; 1]]%Z)
    | _ => Arr (ex_mat [[5]; [6]]%Z)
    end.
Definition ex_results : directory :=
  let put fs n k := fst (wrmds64 fs (lit n) (mk_nd [1; 2] (fun idx => ex_dbl (k + offset [1; 2] idx))) (Some 7%Z)
                           (lit "float64") None None None None (lit "b")) in
  put (put (put [] "run/T"%string 10) "run/U"%string 20) "run/V"%string 30.
Definition ex_ob (ob : side -> obarg) : @obcs_args binary64 :=
  mk_obcs_args None (Some ex_og) None None None (Some ex_og) None None (Some (lit "run")) ob None true.
Definition ex_xw : mat binary64 -> mat binary64 -> mat binary64 -> mat binary64 -> res nat :=
  fun lon _ _ _ => Ok (mrows lon * 10 + mcols lon).
Definition ex_xv : nat -> mat binary64 -> nat -> nat -> binary64 := fun _ m i j => mat_at m i j.
Definition ex_obcs ws fs a := obcs64 ex_libm ex_geod ex_float_of indices indices 3 ex_xw ex_xv ws fs a.

(** The weight files, the outcome and some files as lists of doubles. *)
Fixpoint chunks (n : nat) (l : list byte) : list (list byte) :=
  match n with 0 => [] | S n => firstn 8 l :: chunks n (skipn 8 l) end.
Definition doubles (o : option (list byte)) : option (list Z) :=
  option_map (fun bs => map (fun c => bits_of_b64 (dec b64codec c)) (chunks (length bs / 8) bs)) o.
Definition ex_view (r : list (text * nat) * directory * res unit) (l : list string)
  : list (text * nat) * option exn * list (option (list Z)) :=
  let '(ws, fs, o) := r in (ws, failure o, map (fun n => doubles (dget fs (lit n))) l).
Definition dbits (k : nat) : Z := bits_of_b64 (ex_dbl k).

Definition ex_weights : list (text * nat) :=
  [(lit "run_obcs/bilinear_2x1_2x1_tracer.nc", 21); (lit "run_obcs/bilinear_3x1_3x1_U.nc", 31);
   (lit "run_obcs/bilinear_2x2_2x2_V.nc", 22)].

(** T at both cells of the south side; U at the inner face (1,0) of the west cell, V at the
    inner face (x,1) of the south cells, which MITgcm does not store (0). *)
Example C50_case :
  ex_view (ex_obcs [] ex_results (ex_ob (fun _ => ONone)))
    ["run_obcs/OBSt"; "run_obcs/OBEt"; "run_obcs/OBWu"; "run_obcs/OBEu"; "run_obcs/OBSv"; "run_obcs/OBNv"; "run_obcs/OBNs"]%string
  = (ex_weights, None,
     [Some [dbits 10; dbits 11]; Some [dbits 11]; Some [dbits 21]; Some [dbits 21]; Some [0%Z; 0%Z];
      Some [dbits 30; dbits 31]; None]).
Proof. vm_compute. reflexivity. Qed.

Lemma ex_run_ok ob ws : failure (snd (ex_obcs ws ex_results (ex_ob ob))) = None ->
  exists ws' fs', ex_obcs ws ex_results (ex_ob ob) = (ws', fs', Ok tt).
Proof.
  destruct (ex_obcs ws ex_results (ex_ob ob)) as ((ws', fs'), [[]|e]); cbn [snd failure]; [|discriminate]. eauto.
Qed.

Definition ex_south (l : list Z) (s : side) : obarg := match s with South => OVector l | _ => OScalar 0 end.
Lemma ex_stem : result_file (names ex_results) (path_join (lit "run") (lit "T")).
Proof.
  exists (lit "run/T.0000000007.data"). split; [vm_compute; auto|]. apply glob_match_iff. vm_compute. reflexivity.
Qed.

(** The hypotheses of the theorems on successful runs. *)
Example C47_case :
  (exists ws' fs', ex_obcs [] ex_results (ex_ob (fun _ => ONone)) = (ws', fs', Ok tt)) /\
  runs_in (ex_ob (fun _ => ONone)) (lit "run") (lit "run_obcs") /\
  regional64 ex_libm ex_results (ex_ob (fun _ => ONone)) = Ok (ex_og, 2, 1) /\
  result_file (names ex_results) (path_join (lit "run") (lit "T")).
Proof.
  split; [apply ex_run_ok; vm_compute; reflexivity|]. split; [split; reflexivity|]. split; [reflexivity|apply ex_stem].
Qed.

Example C50_found_case :
  own_corners ex_geod indices (ex_mat [[0; 0]; [1; 1]; [2; 2]]%Z) (ex_mat [[0; 1]; [0; 1]; [0; 1]]%Z).
Proof. split; (eapply (is_nearest_bits ex_libm); [apply layouts_indices|vm_compute; reflexivity]). Qed.

(** One index fills the side; an out-of-range one stops the run before anything is written;
    a number or two indices stop it even before the weights. *)
Example C48_case :
  ex_view (ex_obcs [] ex_results (ex_ob (ex_south [1%Z]))) ["run_obcs/OBSt"; "run_obcs/OBNt"]%string
  = (ex_weights, None, [Some [dbits 10; dbits 10]; Some [dbits 10; dbits 11]]) /\
  ex_view (ex_obcs [] ex_results (ex_ob (ex_south [2%Z]))) ["run_obcs/OBSt"; "run_obcs/OBNt"]%string
  = (ex_weights, Some IndexError, [None; None]) /\
  fst (ex_view (ex_obcs [] ex_results (ex_ob (ex_south [1%Z; 1%Z]))) [])
  = ([], Some (ValueError "The truth value of an array with more than one element is ambiguous.")) /\
  fst (ex_view (ex_obcs [] ex_results (ex_ob (fun _ => OScalar 1))) []) = ([], Some TypeError) /\
  readable ex_libm ex_float_of ex_results (ex_ob (ex_south [1%Z; 1%Z])).
Proof.
  split; [vm_compute; reflexivity|]. split; [vm_compute; reflexivity|]. split; [vm_compute; reflexivity|].
  split; [vm_compute; reflexivity|]. exists (lit "run"). split; [reflexivity|]. split; eexists; reflexivity.
Qed.

(** Zeros for all sides: everything is written, as by default. *)
Example C49_case :
  ex_view (ex_obcs [] ex_results (ex_ob (fun _ => OScalar 0)))
    ["run_obcs/OBNt"; "run_obcs/OBSt"; "run_obcs/OBEt"; "run_obcs/OBWt"]%string
  = (ex_weights, None, [Some [dbits 10; dbits 11]; Some [dbits 10; dbits 11]; Some [dbits 11]; Some [dbits 10]]).
Proof. vm_compute. reflexivity. Qed.

(** Two cells, two depths, one time: x slowest. *)
Example C51_case :
  let a (x d t : nat) := ex_dbl (10 * x + d) in
  doubles (Some (tofile3 (enc b64codec) 2 2 1 a)) = Some [dbits 0; dbits 1; dbits 10; dbits 11] /\
  doubles (Some (fortran_bytes (enc b64codec) 2 2 1 a)) = Some [dbits 0; dbits 10; dbits 1; dbits 11] /\
  ~ at_most_one_long 2 2 1 /\ at_most_one_long 2 1 1.
Proof.
  split; [vm_compute; reflexivity|]. split; [vm_compute; reflexivity|]. split; unfold at_most_one_long; lia.
Qed.

(** A second run finds the weight files of the first, here those of another grid. *)
Example C52_case :
  let ws := map (fun e => (fst e, 99)) ex_weights in
  fst (ex_view (ex_obcs ws ex_results (ex_ob (fun _ => ONone))) []) = (ws, None).
Proof. vm_compute. reflexivity. Qed.

Definition regridders_fail {W} (r : list (text * W) * res (kind -> regridder W)) : option exn * option (list W) :=
  match snd r with
  | Ok rg => (None, Some (map (fun k => rg_weights (rg k)) [Tracer; Upoint; Vpoint]))
  | Err e => (Some e, None)
  end.
Example C52_reuse_case :
  let run ws xw := regridders64 ex_libm ex_geod indices indices 3 xw ws (lit "o") ex_og 2 1 ex_og 2 1 in
  let first := run [] ex_xw in
  regridders_fail first = (None, Some [21; 31; 22]) /\
  regridders_fail (run (fst first) (fun _ _ _ _ => Ok 7)) = (None, Some [21; 31; 22]).
Proof. vm_compute. split; reflexivity. Qed.

(** One time step, stored in two tiles, is found twice. *)
Example C60_case :
  times_of (ex_listing ["run/T.0000000012.data"; "run/T.0000000007.001.001.data"; "run/T.0000000007.002.001.data";
                        "run/T.0000000007.001.001.meta"; "run/S.0000000003.data"]%string) (lit "run")
  = Ok [7%Z; 7%Z; 12%Z].
Proof. vm_compute. reflexivity. Qed.
Theorem C60_times_distinct_refuted : exists fs dir times,
  NoDup (names fs) /\ times_of fs dir = Ok times /\ ~ NoDup times.
Proof.
  exists (ex_listing ["run/T.0000000007.001.001.data"; "run/T.0000000007.002.001.data"]%string), (lit "run"), [7%Z; 7%Z].
  split; [|split; [vm_compute; reflexivity|]].
  - vm_compute. repeat constructor; cbn; intuition discriminate.
  - intros H. inversion H as [|? ? N]. apply N. now left.
Qed.

(** On a field of 1 x 3 points: -1 is the last on the north side, the last but one on the
    south side; -3, the first on the north side, is out of range on the south side. *)
Definition side_bits (s : side) (z : Z) : option (list Z) * option exn :=
  match ob_resolve 1 3 s (OVector [z]) with
  | Err e => (None, Some e)
  | Ok b =>
      match side_values 1 3 (fun _ => b) Tracer (mkmat 1 3 (fun i j => ex_dbl j)) s with
      | Ok l => (Some (map bits_of_b64 l), None)
      | Err e => (None, Some e)
      end
  end.
Example C61_case :
  side_bits North (-1) = (Some [dbits 2], None) /\ side_bits South (-1) = (Some [dbits 1], None) /\
  side_bits North (-3) = (Some [dbits 0], None) /\ side_bits South (-3) = (None, Some IndexError).
Proof. vm_compute. repeat split; reflexivity. Qed.

(** A run that fails halfway: files of U missing at the time step of T; T's boundaries stay. *)
Example C62_case :
  let fs := dset ex_results (lit "run/U.0000000007.data") [] in
  let r := ex_obcs [] fs (ex_ob (fun _ => ONone)) in
  match failure (snd r) with Some _ => True | None => False end /\
  doubles (dget (snd (fst r)) (lit "run_obcs/OBSt")) = Some [dbits 10; dbits 11] /\
  doubles (dget (snd (fst r)) (lit "run_obcs/OBSv")) = None /\
  doubles (dget (snd (fst r)) (lit "run/T.0000000007.data")) = Some [dbits 10; dbits 11].
Proof. vm_compute. split; [exact I|]. repeat split; reflexivity. Qed.
