(** Property C101: getobcs with the parent grid taken from the results directory. *)
From Coq Require Import ZArith String List Bool PeanoNat Lia Init.Byte.
From Flocq Require Import IEEE754.BinarySingleNaN IEEE754.Binary IEEE754.Bits.
Import ListNotations.
From Verif Require Import Prelude PreludeFacts Mat MatFacts Num Fields GridIO Float64 Float64Facts Float32 Float32Facts Util UtilFacts
  ComputeGrid SpecGrid SpecHalf Refine Regrid RegridFacts SpecRegrid SourceFacts MdsMeta Mds SpecMds GetObcs SpecObcs GetObcsFacts
  Samples PropUtil PropFill PropMkGrid PropRegrid PropMds PropObcs.
Local Open Scope nat_scope.
Local Open Scope list_scope.

(** ** Specification *)

(** No grid is given for the parent: it is made of the grid files in the results directory. *)
Definition parent_not_given (a : @obcs_args binary64) : Prop :=
  (oa_parent_file a = None \/ oa_parent_file a = Some []) /\
  (oa_parent_matrices a = None \/ exists d, oa_parent_matrices a = Some d /\ forall f, d f = Missing).

(** Two corners of a grid across from each other have the same coordinates. *)
Definition corners_coincide (d : griddict binary64) : Prop :=
  forall x y, d XG = Arr x -> d YG = Arr y ->
    mat_at x 0 (mcols x - 1) = mat_at x (mrows x - 1) 0 /\ mat_at y 0 (mcols y - 1) = mat_at y (mrows y - 1) 0.

(** ** Proofs *)

(** regrid never refines between a point and itself. *)
Lemma one_point_refused L G loadtxt fs lay o3 fuel a :
  ra_lon1 a = ra_lon2 a -> ra_lat1 a = ra_lat2 a -> exists e, regrid64 L G loadtxt fs lay o3 fuel a = Err e.
Proof.
  intros E1 E2. unfold regrid64, regrid. destruct (source _ _ _ _ _) as [d|e]; cbn [rbind]; [|eauto].
  unfold regrid_from. destruct (xg_yg d) as [(x & y)|e]; cbn [rbind]; [|eauto]. unfold locate. rewrite <- E1, <- E2.
  destruct (nearest_ord _ _ _ _ _ _ _) as [((i & j) & k)|e]; cbn [rbind]; [|eauto].
  cbn [lc_nw lc_se fst]. rewrite Z.eqb_refl. cbn [orb]. eauto.
Qed.

Lemma doubled_coincide L G lay o3 fuel d ni nj : corners_coincide d ->
  exists e, doubled (b64ops L) b64codec G lay o3 fuel d ni nj = Err e.
Proof.
  intros H. unfold doubled, corner_nw, corner_se, matrix.
  destruct (d XG) as [| |x] eqn:Ex; cbn [rbind]; try (eexists; reflexivity).
  destruct ((mrows x =? 0) || (mcols x =? 0)); cbn [rbind]; [eauto|].
  destruct (d YG) as [| |y] eqn:Ey; cbn [rbind]; try (eexists; reflexivity).
  destruct ((mrows y =? 0) || (mcols y =? 0)); cbn [rbind]; [eauto|].
  destruct (H x y Ex Ey) as (H1 & H2).
  match goal with |- context [regrid _ _ _ _ _ _ _ _ ?a] => destruct (one_point_refused L G (fun _ => Err OSError) (fun _ => None) lay o3 fuel a) as (e & E);
    [exact H1|exact H2|] end.
  unfold regrid64 in E. rewrite E. eexists. reflexivity.
Qed.

Lemma regridders_coincide W L G lay o3 fuel (xw : _ -> _ -> _ -> _ -> res W) ws out p pi pj r ri rj :
  corners_coincide p \/ corners_coincide r ->
  exists e, snd (regridders64 L G lay o3 fuel xw ws out p pi pj r ri rj) = Err e.
Proof.
  intros H. unfold regridders64, make_regridders.
  destruct (tracer_regridder _ _ _ _ _) as (ws1 & [rt|e]); [|eexists; reflexivity].
  destruct H as [H|H].
  - destruct (doubled_coincide L G lay o3 fuel p pi pj H) as (e & E). rewrite E. eexists. reflexivity.
  - destruct (doubled _ _ _ _ _ _ p pi pj); cbn [rbind]; [|eexists; reflexivity].
    destruct (doubled_coincide L G lay o3 fuel r ri rj H) as (e' & E'). rewrite E'. eexists. reflexivity.
Qed.

Lemma mds_padded L fo fs dir l : forall g ni nj g' ni' nj',
  (forall f m, In f [XG; YG] -> g f = Some m -> mat_at m 0 (mcols m - 1) = b64_zero /\ mat_at m (mrows m - 1) 0 = b64_zero) ->
  foldM (mds_step (b64ops L) b64codec b32codec fo fs dir) l (g, ni, nj) = Ok (g', ni', nj') ->
  forall f m, In f [XG; YG] -> g' f = Some m -> mat_at m 0 (mcols m - 1) = b64_zero /\ mat_at m (mrows m - 1) 0 = b64_zero.
Proof.
  induction l as [|f0 l IH]; intros g ni nj g' ni' nj' H E.
  - injection E as <- <- <-. exact H.
  - cbn [foldM] in E. unfold mds_step at 1 in E. destruct (rdmds _ _ _ _ _ _ _ _) as [a|e]; [|exact (IH _ _ _ _ _ _ H E)].
    destruct (recast (b64ops L) f0 a) as [(m0 & (r & c))|] eqn:R; cbn [rbind] in E; [|discriminate E].
    assert (H' : forall f m, In f [XG; YG] -> (if field_beq f f0 then Some m0 else g f) = Some m ->
      mat_at m 0 (mcols m - 1) = b64_zero /\ mat_at m (mrows m - 1) 0 = b64_zero).
    { intros f m K. destruct (field_beq f f0) eqn:Q; [|apply H; exact K]. intros [= <-].
      apply internal_field_dec_bl in Q. subst f0.
      unfold recast in R. destruct (shape a) as [|n1 [|n2 [|]]]; try discriminate R. injection R as <- <- <-.
      destruct K as [<-|[<-|[]]]; cbn [mrows mcols mat_at ni_delta nj_delta];
        (split; [replace (n1 + 1 - 1 <? n1) with false by (symmetry; apply Nat.ltb_ge; lia); rewrite andb_false_r; reflexivity
                |replace (n2 + 1 - 1 <? n2) with false by (symmetry; apply Nat.ltb_ge; lia); reflexivity]). }
    destruct ((ni =? 0) && (nj =? 0)); cbn [rbind] in E; exact (IH _ _ _ _ _ _ H' E).
Qed.

(** ** Theorems *)

(** A parent or regional grid two opposite corners of which coincide makes getobcs fail. *)
Theorem C101_coinciding_corners :
  forall W L G fo lay o3 fuel (xw : _ -> _ -> _ -> _ -> res W) xv ws fs a ws' fs' o dir p pi pj r ri rj,
  obcs64 L G fo lay o3 fuel xw xv ws fs a = (ws', fs', o) ->
  txt_arg (oa_parent_resultsdir a) = Some dir ->
  parent64 L fo fs a dir = Ok (p, pi, pj) -> regional64 L fs a = Ok (r, ri, rj) ->
  corners_coincide p \/ corners_coincide r ->
  fs' = fs /\ exists e, o = Err e.
Proof.
  intros W L G fo lay o3 fuel xw xv ws fs a ws' fs' o dir p pi pj r ri rj H D P R Hc.
  unfold obcs64, getobcs in H. rewrite D in H. unfold parent64 in P. rewrite P in H. cbn [rbind] in H.
  unfold regional64 in R. rewrite R in H. cbn [rbind fst snd] in H.
  destruct (ob_all ri rj (oa_ob a)) as [bd|e]; cbn [rbind] in H; [|injection H as <- <- <-; eauto].
  unfold getobcs_from in H.
  destruct (regridders_coincide W L G lay o3 fuel xw ws (results_dir a dir) p pi pj r ri rj Hc) as (e & E).
  unfold regridders64 in E. destruct (make_regridders _ _ _ _ _ _ _ _ _ _ _ _ _ _ _) as (ws1 & x).
  cbn [snd] in E. subst x. injection H as <- <- <-. eauto.
Qed.

(** The grid made of the files in the results directory is such a grid: it has zeros beyond
    the cells, and these are its opposite corners.  So getobcs fails, whatever the files, the
    regional grid and the libraries, unless the parent grid is given; no file is changed. *)
Theorem C101_parent_from_results_never_works :
  forall W L G fo lay o3 fuel (xw : _ -> _ -> _ -> _ -> res W) xv ws fs a ws' fs' o,
  parent_not_given a -> obcs64 L G fo lay o3 fuel xw xv ws fs a = (ws', fs', o) ->
  fs' = fs /\ exists e, o = Err e.
Proof.
  intros W L G fo lay o3 fuel xw xv ws fs a ws' fs' o (NF & NM) H. pose proof H as H0.
  unfold obcs64, getobcs in H. destruct (txt_arg (oa_parent_resultsdir a)) as [dir|] eqn:D; [|injection H as <- <- <-; eauto].
  destruct (parent_grid (b64ops L) b64codec b32codec fo fs a dir) as [((p & pi) & pj)|e] eqn:P; cbn [rbind] in H;
    [|injection H as <- <- <-; eauto].
  destruct (regional_grid (b64ops L) b64codec fs a) as [((r & ri) & rj)|e] eqn:R; cbn [rbind] in H;
    [|injection H as <- <- <-; eauto].
  eapply C101_coinciding_corners; [exact H0|exact D|exact P|exact R|]. left.
  unfold parent_grid in P. replace (txt_arg (oa_parent_file a)) with (@None text) in P by (destruct NF as [-> | ->]; reflexivity).
  assert (M : exists g, mds2mitgrid (b64ops L) b64codec b32codec fo fs dir = Ok (g, pi, pj) /\ p = mds_entry g).
  { destruct NM as [E|(d & E & Em)]; rewrite E in P.
    - destruct (mds2mitgrid _ _ _ _ _ _) as [((g & x) & y)|]; [|discriminate P]. injection P as <- <- <-. eauto.
    - replace (dict_empty d) with true in P.
      2: { symmetry. unfold dict_empty. apply forallb_forall. intros f _. now rewrite Em. }
      destruct (mds2mitgrid _ _ _ _ _ _) as [((g & x) & y)|]; [|discriminate P]. injection P as <- <- <-. eauto. }
  destruct M as (g & M & ->). unfold mds2mitgrid in M.
  assert (Z : forall f m, In f [XG; YG] -> g f = Some m -> mat_at m 0 (mcols m - 1) = b64_zero /\ mat_at m (mrows m - 1) 0 = b64_zero).
  { eapply mds_padded; [|exact M]. intros f m _ K. discriminate K. }
  intros x y Ex Ey. unfold mds_entry in Ex, Ey.
  destruct (g XG) as [mx|] eqn:Gx; [|discriminate Ex]. destruct (g YG) as [my|] eqn:Gy; [|discriminate Ey].
  injection Ex as <-. injection Ey as <-.
  destruct (Z XG mx ltac:(cbn; auto) Gx) as (-> & ->). destruct (Z YG my ltac:(cbn; auto) Gy) as (-> & ->). auto.
Qed.

(** Nor does it help to write this grid to a file and name the file. *)
Theorem C101_written_parent_never_works :
  forall W L G fo lay o3 fuel (xw : _ -> _ -> _ -> _ -> res W) xv ws fs a ws' fs' o rundir r c g bs file dir,
  (forall f n, PropMds.found L fo fs rundir f = Ok n -> shape n = [r; c]) ->
  mds2mitgrid64 L fo fs rundir = Ok (g, c, r) -> write_mitgrid (b64ops L) b64codec (mds_entry g) c r = (bs, Ok tt) ->
  (exists x y, PropMds.found L fo fs rundir XG = Ok x /\ PropMds.found L fo fs rundir YG = Ok y) ->
  oa_parent_file a = Some file -> file <> [] -> dget fs file = Some bs ->
  oa_ni_parent a = Some c -> oa_nj_parent a = Some r -> 1 <= c -> 1 <= r ->
  txt_arg (oa_parent_resultsdir a) = Some dir ->
  obcs64 L G fo lay o3 fuel xw xv ws fs a = (ws', fs', o) ->
  fs' = fs /\ exists e, o = Err e.
Proof.
  intros W L G fo lay o3 fuel xw xv ws fs a ws' fs' o rundir r c g bs file dir SH M Wr (nx & ny & Fx & Fy) PF NF Df Ci Cj Hc Hr D H.
  destruct (C53_result_can_be_written L fo fs rundir r c (oa_strict a) SH (ex_intro _ XG (ex_intro _ nx Fx))) as (g0 & bs0 & g' & M0 & W0 & R0 & V).
  rewrite M in M0. injection M0 as <-. rewrite Wr in W0. injection W0 as <-.
  pose proof H as H0. unfold obcs64, getobcs in H. rewrite D in H.
  assert (P : parent_grid (b64ops L) b64codec b32codec fo fs a dir = Ok (dict_of_grid g', c, r)).
  { unfold parent_grid. rewrite PF. unfold txt_arg. destruct file as [|ch file]; [congruence|].
    unfold grid_from_file. rewrite Ci, Cj. destruct c as [|c]; [lia|]. destruct r as [|r]; [lia|]. cbn [num_arg].
    rewrite Df, R0. reflexivity. }
  rewrite P in H. cbn [rbind] in H.
  destruct (regional_grid (b64ops L) b64codec fs a) as [((rg & ri) & rj)|e] eqn:R; cbn [rbind] in H;
    [|injection H as <- <- <-; eauto].
  eapply C101_coinciding_corners; [exact H0|exact D|exact P|exact R|]. left.
  intros x y Ex Ey. unfold dict_of_grid in Ex, Ey. injection Ex as <-. injection Ey as <-.
  assert (C : forall f n, In f [XG; YG] -> PropMds.found L fo fs rundir f = Ok n ->
    mat_at (g' f) 0 (mcols (g' f) - 1) = b64_zero /\ mat_at (g' f) (mrows (g' f) - 1) 0 = b64_zero).
  { intros f n K F. destruct (V f) as (-> & -> & Vf). rewrite F in Vf.
    assert (Q : rows_of f c = c + 1 /\ cols_of f r = r + 1) by (destruct K as [<-|[<-|[]]]; split; reflexivity).
    destruct Q as (Q1 & Q2). unfold inside in Vf. rewrite Q1, Q2 in *. split; rewrite Vf by lia.
    - replace (r + 1 - 1 <? r) with false by (symmetry; apply Nat.ltb_ge; lia). now rewrite andb_false_r.
    - now replace (c + 1 - 1 <? c) with false by (symmetry; apply Nat.ltb_ge; lia). }
  destruct (C XG nx ltac:(cbn; auto) Fx) as (-> & ->). destruct (C YG ny ltac:(cbn; auto) Fy) as (-> & ->). auto.
Qed.

(** ** Example: a run directory with the four grid files that getobcs needs and a result; the
    grid made of them, and one with the same cells and complete corners. *)
Definition padded_run : directory :=
  let put fs n k := fst (wrmds64 fs (lit n) (mk_nd [1; 2] (fun idx => ex_dbl (k + offset [1; 2] idx))) None
                           (lit "float64") None None None None (lit "b")) in
  put (put (put (put ex_results "run/XC"%string 10) "run/YC"%string 20) "run/XG"%string 30) "run/YG"%string 40.
Definition padded_ob (parent : option (griddict binary64)) : @obcs_args binary64 :=
  mk_obcs_args None parent None None None (Some ex_og) None None (Some (lit "run")) (fun _ => ONone) None true.
Definition ends (r : list (text * nat) * directory * res unit) : bool * option exn :=
  (existsb (fun n => if list_eq_dec Ascii.ascii_dec n (lit "run_obcs/OBNt") then true else false) (map fst (snd (fst r))), failure (snd r)).

Example C101_case :
  parent_not_given (padded_ob None) /\ ends (ex_obcs [] padded_run (padded_ob (Some ex_og))) = (true, None) /\
  ends (ex_obcs [] padded_run (padded_ob None)) = (false, Some (ValueError "lon/lat input pairs must be diagonally-opposed.")).
Proof. split; [split; left; reflexivity|]. split; vm_compute; reflexivity. Qed.

(** The hypotheses on a written grid. *)
Definition padded_file : list byte :=
  match mds2mitgrid64 ex_libm ex_float_of padded_run (lit "run") with
  | Ok (g, c, r) => fst (write_mitgrid (b64ops ex_libm) b64codec (mds_entry g) c r)
  | Err _ => []
  end.
Definition padded_run2 : directory := padded_run ++ [(lit "run/parent.mitgrid", padded_file)].
Definition padded_ob2 : @obcs_args binary64 :=
  mk_obcs_args (Some (lit "run/parent.mitgrid")) None (Some 2) (Some 1) None (Some ex_og) None None (Some (lit "run")) (fun _ => ONone) None false.
Example C101_written_case :
  ends (ex_obcs [] padded_run2 padded_ob2) = (false, Some (ValueError "lon/lat input pairs must be diagonally-opposed.")) /\
  match mds2mitgrid64 ex_libm ex_float_of padded_run2 (lit "run") with
  | Ok (g, c, r) => c = 2 /\ r = 1 /\ failure (snd (write_mitgrid (b64ops ex_libm) b64codec (mds_entry g) c r)) = None
  | Err _ => False
  end.
Proof. split; [vm_compute; reflexivity|]. vm_compute. auto. Qed.
