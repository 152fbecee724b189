(** Property C100: grids that close on themselves. *)
From Coq Require Import ZArith String List Bool PeanoNat Lia Init.Byte.
From Flocq Require Import IEEE754.BinarySingleNaN IEEE754.Binary IEEE754.Bits.
Import ListNotations.
From Verif Require Import Prelude PreludeFacts Mat MatFacts Num Fields GridIO Float64 Float64Facts Float32 Float32Facts Util UtilFacts
  ComputeGrid SpecGrid SpecHalf Refine Regrid RegridFacts SpecRegrid SourceFacts MdsMeta Mds SpecMds GetObcs SpecObcs GetObcsFacts
  Samples PropUtil PropFill PropMkGrid PropRegrid PropMds PropObcs.
Local Open Scope nat_scope.
Local Open Scope list_scope.

(** ** Specification *)

(** The two orders in which numpy visits an array of its own making: row after row, or column
    after column (the latter for arrays read with order='F'). *)
Definition by_rows (r c : nat) : list (nat * nat) := flat_map (fun i => map (fun j => (i, j)) (seq 0 c)) (seq 0 r).
Definition by_columns (r c : nat) : list (nat * nat) := flat_map (fun j => map (fun i => (i, j)) (seq 0 r)) (seq 0 c).
Definition numpy_layouts (lay : nat -> nat -> list (nat * nat)) : Prop :=
  forall r c, lay r c = by_rows r c \/ lay r c = by_columns r c.

(** No point of the grid is measured to be closer to p than point (i,j), which is closer than
    the bound of the search. *)
Definition closest (G : geod binary64) (p : binary64 * binary64) (xg yg : mat binary64) (i j : nat) : Prop :=
  b64_ltb (dist_to G (fst p) (snd p) xg yg (i, j)) b64_1e10 = true /\
  forall a b, a < mrows xg -> b < mcols xg ->
    b64_ltb (dist_to G (fst p) (snd p) xg yg (a, b)) (dist_to G (fst p) (snd p) xg yg (i, j)) = false.

Definition nw_corner (xg yg : mat binary64) : binary64 * binary64 := (mat_at xg 0 (mcols xg - 1), mat_at yg 0 (mcols xg - 1)).
Definition se_corner (xg yg : mat binary64) : binary64 * binary64 := (mat_at xg (mrows xg - 1) 0, mat_at yg (mrows xg - 1) 0).

(** The last point of the first column is where the first one is: the grid goes once around
    the globe, or its first column is a pole.  The other corner is itself among the points
    closest to it, and all of these are in the last column or in the first row. *)
Definition closed_grid (G : geod binary64) (xg yg : mat binary64) : Prop :=
  same_shape xg yg /\ closest G (se_corner xg yg) xg yg 0 0 /\
  closest G (nw_corner xg yg) xg yg 0 (mcols xg - 1) /\
  forall a b, a < mrows xg -> b < mcols xg -> closest G (nw_corner xg yg) xg yg a b -> a = 0 \/ b = mcols xg - 1.

(** Both corners are closer to themselves than to any other point. *)
Definition open_grid (G : geod binary64) (xg yg : mat binary64) : Prop :=
  same_shape xg yg /\ closest G (nw_corner xg yg) xg yg 0 (mcols xg - 1) /\ closest G (se_corner xg yg) xg yg (mrows xg - 1) 0 /\
  (forall a b, a < mrows xg -> b < mcols xg -> closest G (nw_corner xg yg) xg yg a b -> a = 0 /\ b = mcols xg - 1) /\
  forall a b, a < mrows xg -> b < mcols xg -> closest G (se_corner xg yg) xg yg a b -> a = mrows xg - 1 /\ b = 0.

(** The region asked for is the whole grid, named by its own corners. *)
Definition whole_grid (a : regrid_args binary64) (xg yg : mat binary64) : Prop :=
  (ra_lon1 a, ra_lat1 a) = nw_corner xg yg /\ (ra_lon2 a, ra_lat2 a) = se_corner xg yg.

(** ** Proofs *)
Lemma by_rows_indices r c : by_rows r c = indices r c.
Proof.
  unfold by_rows, indices. generalize (seq 0 r) as l. induction l as [|x l IH]; cbn; [reflexivity|]. now rewrite IH.
Qed.
Lemma numpy_is_layout lay : numpy_layouts lay -> layouts lay.
Proof.
  intros H r c. destruct (H r c) as [E|E]; rewrite E.
  - rewrite by_rows_indices. apply layouts_indices.
  - assert (B : by_columns r c = map (fun p => (snd p, fst p)) (indices c r)).
    { unfold by_columns, indices. generalize (seq 0 c) as l. induction l as [|x l IH]; cbn; [reflexivity|].
      rewrite map_app, map_map, IH. reflexivity. }
    rewrite B. destruct (layouts_indices c r) as (N & I). split.
    + apply FinFun.Injective_map_NoDup; [|exact N]. intros (a & b) (a' & b') K. cbn in K. congruence.
    + intros i j. rewrite in_map_iff. split.
      * intros ((x & y) & K & L). cbn in K. injection K as -> ->. apply I in L. tauto.
      * intros K. exists (j, i). split; [reflexivity|]. apply I. tauto.
Qed.

(** What comes before an entry. *)
Lemma split_flat {A B} (f : A -> list B) l : forall pre x post, flat_map f l = pre ++ x :: post ->
  exists l1 k l2 p q, l = l1 ++ k :: l2 /\ f k = p ++ x :: q /\ pre = flat_map f l1 ++ p.
Proof.
  induction l as [|k l IH]; intros pre x post E; [destruct pre; discriminate E|].
  cbn in E. destruct (Nat.lt_ge_cases (length pre) (length (f k))) as [H|H].
  - assert (K : f k = firstn (length pre) (f k) ++ skipn (length pre) (f k)) by (symmetry; apply firstn_skipn).
    assert (P : firstn (length pre) (f k) = pre).
    { apply (f_equal (firstn (length pre))) in E. rewrite firstn_app in E.
      replace (length pre - length (f k)) with 0 in E by lia. rewrite firstn_O, app_nil_r in E.
      rewrite E, firstn_app, Nat.sub_diag, firstn_O, app_nil_r. apply firstn_all. }
    rewrite P in K. rewrite K in E. rewrite <- app_assoc in E. apply app_inv_head in E.
    destruct (skipn (length pre) (f k)) as [|y s] eqn:S.
    { exfalso. apply (f_equal (@length _)) in S. rewrite skipn_length in S. cbn in S. lia. }
    cbn in E. injection E as E1 E2. subst y. exists [], k, l, pre, s. split; [reflexivity|]. split; [exact K|reflexivity].
  - assert (K : exists pre', pre = f k ++ pre').
    { exists (skipn (length (f k)) pre). rewrite <- (firstn_skipn (length (f k)) pre) at 1. f_equal.
      apply (f_equal (firstn (length (f k)))) in E. rewrite firstn_app, Nat.sub_diag, firstn_O, app_nil_r, firstn_all in E.
      rewrite firstn_app in E. replace (length (f k) - length pre) with 0 in E by lia.
      rewrite firstn_O, app_nil_r in E. symmetry. exact E. }
    destruct K as (pre' & ->). rewrite <- app_assoc in E. apply app_inv_head in E.
    destruct (IH _ _ _ E) as (l1 & k' & l2 & p & q & -> & F & ->).
    exists (k :: l1), k', l2, p, q. split; [reflexivity|]. split; [exact F|]. cbn. apply app_assoc.
Qed.
Lemma seq_split n : forall s l1 k l2, seq s n = l1 ++ k :: l2 -> k = s + length l1 /\ l1 = seq s (length l1).
Proof.
  induction n as [|n IH]; intros s l1 k l2 E; [destruct l1; discriminate E|].
  destruct l1 as [|x l1]; cbn in E.
  - injection E as -> _. cbn. split; [lia|reflexivity].
  - injection E as <- E. destruct (IH _ _ _ _ E) as (-> & K). cbn [length seq]. split; [lia|]. now rewrite <- K.
Qed.

(** In both orders whatever is above an entry in its column comes before it, and so does the
    first entry of all. *)
Lemma above_before lay r c pre i j post : numpy_layouts lay -> lay r c = pre ++ (i, j) :: post ->
  (forall i', i' < i -> In (i', j) pre) /\ ((i, j) <> (0, 0) -> In (0, 0) pre).
Proof.
  intros H E. pose proof (numpy_is_layout lay H r c) as (_ & I).
  assert (R : i < r /\ j < c) by (apply I; rewrite E; apply in_or_app; right; left; reflexivity).
  destruct (H r c) as [B|B]; rewrite B in E; apply split_flat in E; destruct E as (l1 & k & l2 & p & q & S & F & ->);
    apply seq_split in S; destruct S as (-> & S); cbn [Nat.add] in F.
  - assert (J : exists s1 s2, seq 0 c = s1 ++ j :: s2 /\ length l1 = i /\ p = map (fun j => (length l1, j)) s1).
    { clear - F. revert p F. generalize (seq 0 c) as s. induction s as [|x s IH]; intros p F; [destruct p; discriminate F|].
      destruct p as [|y p]; cbn in F.
      - injection F as -> -> _. exists [], s. auto.
      - injection F as <- F. destruct (IH _ F) as (s1 & s2 & -> & K & ->). exists (x :: s1), s2. auto. }
    destruct J as (s1 & s2 & J & <- & ->). apply seq_split in J. destruct J as (-> & J). cbn [Nat.add] in *.
    assert (A : forall i' j', i' < length l1 -> j' < c -> In (i', j') (flat_map (fun i => map (fun j => (i, j)) (seq 0 c)) l1)).
    { intros i' j' K1 K2. apply in_flat_map. exists i'. split; [rewrite S; apply in_seq; lia|].
      apply in_map_iff. exists j'. split; [reflexivity|apply in_seq; lia]. }
    split.
    + intros i' K. apply in_or_app. left. apply A; lia.
    + intros K. apply in_or_app. destruct (Nat.eq_dec (length l1) 0) as [Z|Z]; [|left; apply A; lia].
      right. rewrite Z in *. apply in_map_iff. exists 0. split; [reflexivity|]. rewrite J. apply in_seq.
      destruct (length s1); [congruence|lia].
  - assert (J : exists s1 s2, seq 0 r = s1 ++ i :: s2 /\ length l1 = j /\ p = map (fun i => (i, length l1)) s1).
    { clear - F. revert p F. generalize (seq 0 r) as s. induction s as [|x s IH]; intros p F; [destruct p; discriminate F|].
      destruct p as [|y p]; cbn in F.
      - injection F as -> -> _. exists [], s. auto.
      - injection F as <- F. destruct (IH _ F) as (s1 & s2 & -> & K & ->). exists (x :: s1), s2. auto. }
    destruct J as (s1 & s2 & J & <- & ->). apply seq_split in J. destruct J as (-> & J). cbn [Nat.add] in *.
    assert (A : forall i', i' < length s1 -> In (i', length l1) (map (fun i => (i, length l1)) s1)).
    { intros i' K. apply in_map_iff. exists i'. split; [reflexivity|]. rewrite J. apply in_seq. lia. }
    split.
    + intros i' K. apply in_or_app. right. apply A; lia.
    + intros K. apply in_or_app. destruct (Nat.eq_dec (length l1) 0) as [Z|Z].
      * right. rewrite Z in *. apply A. destruct (length s1); [congruence|lia].
      * left. apply in_flat_map. exists 0. split; [rewrite S; apply in_seq; lia|].
        apply in_map_iff. exists 0. split; [reflexivity|apply in_seq; lia].
Qed.

(** The point found is one of the closest, and none of these comes before it. *)
Lemma found_closest G lay p xg yg i j : is_nearest G (lay (mrows xg) (mcols xg)) (fst p) (snd p) xg yg i j -> closest G p xg yg i j.
Proof. intros (_ & _ & H1 & H2 & _). split; assumption. Qed.
Lemma found_first G order p xg yg i j : is_nearest G order (fst p) (snd p) xg yg i j ->
  exists pre post, order = pre ++ (i, j) :: post /\ forall a b, In (a, b) pre -> ~ closest G p xg yg a b.
Proof.
  intros (Hi & Hj & H1 & H2 & pre & post & E & H3). exists pre, post. split; [exact E|].
  intros a b K (C1 & C2). specialize (H3 _ K).
  pose proof (b64_leb_total _ _ _ C1 H1 H3) as T. rewrite (C2 i j Hi Hj) in T. discriminate T.
Qed.
Lemma closest_found (L : libm) G lay p xg yg i j : layouts lay -> same_shape xg yg -> i < mrows xg -> j < mcols xg ->
  closest G p xg yg i j -> exists a b, is_nearest G (lay (mrows xg) (mcols xg)) (fst p) (snd p) xg yg a b.
Proof.
  intros Hl Hs Hi Hj (C & _). destruct (nearest_cases L G _ (fst p) (snd p) xg yg (Hl _ _) Hs) as [N|N]; [|exact N].
  rewrite (N i j Hi Hj) in C. discriminate C.
Qed.

Lemma closed_corners (L : libm) G lay xg yg : numpy_layouts lay -> closed_grid G xg yg ->
  exists j, is_nearest G (lay (mrows xg) (mcols xg)) (fst (nw_corner xg yg)) (snd (nw_corner xg yg)) xg yg 0 j /\
    is_nearest G (lay (mrows xg) (mcols xg)) (fst (se_corner xg yg)) (snd (se_corner xg yg)) xg yg 0 0.
Proof.
  intros Hl (Hs & C1 & C2 & C3). pose proof Hs as (_ & _ & R & C). pose proof (numpy_is_layout lay Hl) as Hlay.
  destruct (closest_found L G lay _ xg yg 0 (mcols xg - 1) Hlay Hs ltac:(lia) ltac:(lia) C2) as (a & b & F).
  destruct (closest_found L G lay _ xg yg 0 0 Hlay Hs ltac:(lia) ltac:(lia) C1) as (a2 & b2 & F2).
  assert (A : a = 0).
  { destruct (C3 a b) as [K|K]; [apply F|apply F|eapply found_closest; exact F|exact K|].
    destruct (Nat.eq_dec a 0) as [Z|Z]; [exact Z|exfalso]. subst b.
    destruct (found_first _ _ _ _ _ _ _ F) as (pre & post & E & N).
    apply (N 0 (mcols xg - 1)); [|exact C2]. eapply above_before; eauto. lia. }
  assert (B : (a2, b2) = (0, 0)).
  { destruct (found_first _ _ _ _ _ _ _ F2) as (pre & post & E & N).
    destruct (Nat.eq_dec a2 0) as [Z|Z]; [destruct (Nat.eq_dec b2 0) as [Z'|Z']; [congruence|]|];
      exfalso; (apply (N 0 0); [|exact C1]); (eapply above_before; [exact Hl|exact E|congruence]). }
  injection B as -> ->. subst a. exists b. split; assumption.
Qed.

(** ** Theorems *)

Definition not_diagonal : exn := ValueError "lon/lat input pairs must be diagonally-opposed.".

(** The whole of a closed grid cannot be refined: the corner asked for last is taken for the
    first point of the grid, which is in line with the other one. *)
Theorem C100_closed_grid_refused : forall L G loadtxt fs lay o3 fuel a xg yg,
  numpy_layouts lay -> usable L loadtxt fs a xg yg -> whole_grid a xg yg -> closed_grid G xg yg ->
  regrid64 L G loadtxt fs lay o3 fuel a = Err not_diagonal.
Proof.
  intros L G loadtxt fs lay o3 fuel a xg yg Hl Hu (W1 & W2) Hc. pose proof Hu as (d & Hs & Ex & Ey & Hsh).
  destruct (source_complete _ _ _ _ _ _ Hs) as (d' & Es & Ed).
  assert (Exy : xg_yg d' = Ok (xg, yg)) by (eapply xg_yg_of; eauto).
  destruct (closed_corners L G lay xg yg Hl Hc) as (j & N1 & N2).
  rewrite <- W1 in N1. rewrite <- W2 in N2. cbn [fst snd] in N1, N2.
  pose proof (nearest_of_is_nearest L G _ _ _ _ _ _ _ (numpy_is_layout lay Hl _ _) Hsh N1) as E1.
  pose proof (nearest_of_is_nearest L G _ _ _ _ _ _ _ (numpy_is_layout lay Hl _ _) Hsh N2) as E2.
  unfold regrid64, regrid, regrid_from. rewrite Es. cbn [rbind]. rewrite Exy. cbn [rbind]. unfold locate.
  unfold nearest64 in E1, E2. rewrite E1. cbn [rbind]. rewrite E2. cbn [rbind lc_nw lc_se fst snd]. reflexivity.
Qed.

(** The whole of an open one can. *)
Theorem C100_open_grid_refined : forall L G loadtxt fs lay o3 fuel a xg yg ls lt,
  layouts lay -> layouts o3 -> usable L loadtxt fs a xg yg -> whole_grid a xg yg -> open_grid G xg yg ->
  2 <= mrows xg -> 2 <= mcols xg -> subscales a ls lt -> 3 <= fuel ->
  exists rr, regrid64 L G loadtxt fs lay o3 fuel a = Ok rr.
Proof.
  intros L G loadtxt fs lay o3 fuel a xg yg ls lt Hl Ho3 Hu (W1 & W2) (Hs & C1 & C2 & U1 & U2) R C Hss Hf.
  destruct (closest_found L G lay _ xg yg 0 (mcols xg - 1) Hl Hs ltac:(lia) ltac:(lia) C1) as (a1 & b1 & F1).
  destruct (closest_found L G lay _ xg yg (mrows xg - 1) 0 Hl Hs ltac:(lia) ltac:(lia) C2) as (a2 & b2 & F2).
  destruct (U1 a1 b1) as (-> & ->); [apply F1|apply F1|eapply found_closest; exact F1|].
  destruct (U2 a2 b2) as (-> & ->); [apply F2|apply F2|eapply found_closest; exact F2|].
  rewrite <- W1 in F1. rewrite <- W2 in F2.
  destruct (C20_regrid_aligns_diagonal L G loadtxt fs lay o3 fuel a xg yg 0 (mcols xg - 1) (mrows xg - 1) 0 ls lt) as (rr & E & _);
    auto; [split; assumption|lia|lia|eauto].
Qed.

(** getobcs refines both of its grids as wholes: it fails if one of them is closed, writing
    no boundary file. *)
Lemma doubled_closed L G lay o3 fuel (d : griddict binary64) ni nj xc xg yg :
  numpy_layouts lay -> d XC = Arr xc -> d XG = Arr xg -> d YG = Arr yg -> closed_grid G xg yg ->
  doubled (b64ops L) b64codec G lay o3 fuel d ni nj = Err not_diagonal.
Proof.
  intros Hl Xc Ex Ey Hc. pose proof Hc as (Hs & _). pose proof Hs as (S1 & S2 & S3 & S4).
  unfold doubled, corner_nw, corner_se, matrix. rewrite Ex, Ey. cbn [rbind].
  rewrite S1, S2. destruct (Nat.eqb_spec (mrows xg) 0); [lia|]. destruct (Nat.eqb_spec (mcols xg) 0); [lia|]. cbn [orb rbind].
  set (a := mk_regrid_args _ _ _ _ _ _ _ _ _ _ _ _ _).
  assert (E : regrid64 L G (fun _ => Err OSError) (fun _ => None) lay o3 fuel a = Err not_diagonal).
  { apply (C100_closed_grid_refused L G _ _ lay o3 fuel a xg yg Hl); [|split; reflexivity|exact Hc].
    exists d. split; [|auto]. eapply from_matrices; [left; reflexivity|left; left; reflexivity|reflexivity|exact Xc]. }
  unfold regrid64 in E. rewrite E. reflexivity.
Qed.

Definition closed_matrices (G : geod binary64) (d : griddict binary64) : Prop :=
  exists xg yg, d XG = Arr xg /\ d YG = Arr yg /\ closed_grid G xg yg.

Lemma regridders_closed W L G lay o3 fuel (xw : _ -> _ -> _ -> _ -> res W) ws out p pi pj r ri rj :
  numpy_layouts lay -> closed_matrices G p \/ closed_matrices G r ->
  exists e, snd (regridders64 L G lay o3 fuel xw ws out p pi pj r ri rj) = Err e.
Proof.
  intros Hl H. unfold regridders64, make_regridders, tracer_regridder.
  destruct (p XC) as [| |pxc] eqn:Pc; unfold matrix at 1; rewrite Pc; cbn [rbind]; try (eexists; reflexivity).
  destruct (matrix p YC TypeError); cbn [rbind]; [|eexists; reflexivity].
  destruct (r XC) as [| |rxc] eqn:Rc; unfold matrix at 1; rewrite Rc; cbn [rbind]; try (eexists; reflexivity).
  destruct (matrix r YC TypeError); cbn [rbind]; [|eexists; reflexivity].
  destruct (new_regridder _ _ _ _ _ _ _) as (ws1 & [rt|e]); [|eexists; reflexivity].
  destruct H as [(xg & yg & Ex & Ey & Hc)|(xg & yg & Ex & Ey & Hc)].
  - rewrite (doubled_closed L G lay o3 fuel p pi pj pxc xg yg) by assumption. cbn [rbind]. eexists. reflexivity.
  - destruct (doubled _ _ _ _ _ _ p pi pj); cbn [rbind]; [|eexists; reflexivity].
    rewrite (doubled_closed L G lay o3 fuel r ri rj rxc xg yg) by assumption. cbn [rbind]. eexists. reflexivity.
Qed.

Theorem C100_getobcs_fails_on_closed_grids :
  forall W L G fo lay o3 fuel (xw : _ -> _ -> _ -> _ -> res W) xv ws fs a ws' fs' o dir p pi pj r ri rj,
  numpy_layouts lay -> obcs64 L G fo lay o3 fuel xw xv ws fs a = (ws', fs', o) ->
  txt_arg (oa_parent_resultsdir a) = Some dir ->
  parent64 L fo fs a dir = Ok (p, pi, pj) -> regional64 L fs a = Ok (r, ri, rj) ->
  closed_matrices G p \/ closed_matrices G r ->
  fs' = fs /\ exists e, o = Err e.
Proof.
  intros W L G fo lay o3 fuel xw xv ws fs a ws' fs' o dir p pi pj r ri rj Hl H D P R Hc.
  unfold obcs64, getobcs in H. rewrite D in H. unfold parent64 in P. rewrite P in H. cbn [rbind] in H.
  unfold regional64 in R. rewrite R in H. cbn [rbind fst snd] in H.
  destruct (ob_all ri rj (oa_ob a)) as [bd|e]; cbn [rbind] in H; [|injection H as <- <- <-; eauto].
  unfold getobcs_from in H.
  destruct (regridders_closed W L G lay o3 fuel xw ws (results_dir a dir) p pi pj r ri rj Hl Hc) as (e & E).
  unfold regridders64 in E. destruct (make_regridders _ _ _ _ _ _ _ _ _ _ _ _ _ _ _) as (ws1 & x).
  cbn [snd] in E. subst x. injection H as <- <- <-. eauto.
Qed.

(** ** Examples *)

(** A stand-in library: differences of longitude and latitude added up, a full turn of
    longitude being none. *)
Definition globe : geod binary64 :=
  {| g_inv := fun p q =>
       let dx := b64_abs (b64_minus mode_NE (fst p) (fst q)) in
       let dy := b64_abs (b64_minus mode_NE (snd p) (snd q)) in
       b64_plus mode_NE (if b64_eqb dx (ex_int 360) then ex_int 0 else dx) dy;
     g_npt := g_npt ex_geod; g_a := ex_int 1 |}.

(** Two by two cells around the globe, and two by two cells of a part of it. *)
Definition globe_xg := ex_mat [[0; 0; 0]; [180; 180; 180]; [360; 360; 360]]%Z.
Definition globe_yg := ex_mat [[-60; 0; 60]; [-60; 0; 60]; [-60; 0; 60]]%Z.
Definition part_xg := ex_mat [[0; 0; 0]; [100; 100; 100]; [200; 200; 200]]%Z.

Definition closest_b (G : geod binary64) p xg yg i j : bool :=
  b64_ltb (dist_to G (fst p) (snd p) xg yg (i, j)) b64_1e10 &&
  forallb (fun q => negb (b64_ltb (dist_to G (fst p) (snd p) xg yg q) (dist_to G (fst p) (snd p) xg yg (i, j)))) (indices (mrows xg) (mcols xg)).
Lemma closest_iff G p xg yg i j : closest G p xg yg i j <-> closest_b G p xg yg i j = true.
Proof.
  unfold closest, closest_b. rewrite andb_true_iff, forallb_forall. split; intros (H1 & H2); (split; [exact H1|]).
  - intros (a & b) K. apply (proj2 (layouts_indices (mrows xg) (mcols xg))) in K. now rewrite H2.
  - intros a b K1 K2. specialize (H2 (a, b)). rewrite negb_true_iff in H2. apply H2.
    apply (proj2 (layouts_indices (mrows xg) (mcols xg))). auto.
Qed.

Lemma globe_closed : closed_grid globe globe_xg globe_yg.
Proof.
  split; [repeat split; cbn; lia|]. rewrite !closest_iff. split; [vm_compute; reflexivity|]. split; [vm_compute; reflexivity|].
  intros a b Ha Hb. rewrite closest_iff. cbn in Ha, Hb.
  destruct a as [|[|[|a]]]; [auto| | |lia]; (destruct b as [|[|[|b]]]; [| |auto|lia]); vm_compute; discriminate.
Qed.
Lemma part_open : open_grid globe part_xg globe_yg.
Proof.
  split; [repeat split; cbn; lia|]. rewrite !closest_iff. split; [vm_compute; reflexivity|]. split; [vm_compute; reflexivity|].
  split; intros a b Ha Hb; rewrite closest_iff; cbn in Ha, Hb;
    (destruct a as [|[|[|a]]]; [| | |lia]); (destruct b as [|[|[|b]]]; [| | |lia]); vm_compute; auto; discriminate.
Qed.

Definition globe_dict (xg yg : mat binary64) : griddict binary64 := fun f => match f with YG | YC => Arr yg | _ => Arr xg end.
Definition globe_args (xg yg : mat binary64) : regrid_args binary64 :=
  mk_regrid_args None None None (Some (globe_dict xg yg)) None None
    (fst (nw_corner xg yg)) (snd (nw_corner xg yg)) (fst (se_corner xg yg)) (snd (se_corner xg yg)) 2 2 false.
Lemma globe_usable L loadtxt fs xg yg : same_shape xg yg -> usable L loadtxt fs (globe_args xg yg) xg yg.
Proof.
  intros H. exists (globe_dict xg yg). split; [|split; [reflexivity|split; [reflexivity|exact H]]].
  eapply from_matrices; [left; reflexivity|left; left; reflexivity|reflexivity|reflexivity].
Qed.

Example C100_case : forall L loadtxt fs o3 fuel,
  numpy_layouts by_rows /\ numpy_layouts by_columns /\
  closed_grid globe globe_xg globe_yg /\ open_grid globe part_xg globe_yg /\
  regrid64 L globe loadtxt fs by_rows o3 fuel (globe_args globe_xg globe_yg) = Err not_diagonal /\
  regrid64 L globe loadtxt fs by_columns o3 fuel (globe_args globe_xg globe_yg) = Err not_diagonal /\
  (layouts o3 -> 3 <= fuel -> exists rr, regrid64 L globe loadtxt fs by_columns o3 fuel (globe_args part_xg globe_yg) = Ok rr).
Proof.
  intros L loadtxt fs o3 fuel.
  assert (N1 : numpy_layouts by_rows) by (left; reflexivity). assert (N2 : numpy_layouts by_columns) by (right; reflexivity).
  split; [exact N1|]. split; [exact N2|]. split; [exact globe_closed|]. split; [exact part_open|].
  split; [|split]; [eapply C100_closed_grid_refused; [eassumption|apply globe_usable, globe_closed|split; reflexivity|exact globe_closed] ..|].
  intros Ho Hf. eapply C100_open_grid_refined with (ls := 2) (lt := 2); [apply numpy_is_layout; exact N2|exact Ho|apply globe_usable, part_open
    |split; reflexivity|exact part_open|cbn; lia|cbn; lia|split; [reflexivity|split; [reflexivity|lia]]|exact Hf].
Qed.

(** A call of getobcs whose parent grid goes around the globe. *)
Definition globe_obcs : @obcs_args binary64 :=
  mk_obcs_args None (Some (globe_dict globe_xg globe_yg)) None None None (Some (globe_dict part_xg globe_yg)) None None
    (Some (lit "run")) (fun _ => ONone) None true.
Example C100_getobcs_case :
  parent64 ex_libm ex_float_of ex_results globe_obcs (lit "run") = Ok (globe_dict globe_xg globe_yg, 3, 3) /\
  regional64 ex_libm ex_results globe_obcs = Ok (globe_dict part_xg globe_yg, 3, 3) /\
  closed_matrices globe (globe_dict globe_xg globe_yg) /\
  snd (obcs64 ex_libm globe ex_float_of by_rows by_rows 3 ex_xw ex_xv [] ex_results globe_obcs) = Err not_diagonal.
Proof.
  split; [reflexivity|]. split; [reflexivity|]. split.
  - exists globe_xg, globe_yg. split; [reflexivity|]. split; [reflexivity|exact globe_closed].
  - vm_compute. reflexivity.
Qed.
