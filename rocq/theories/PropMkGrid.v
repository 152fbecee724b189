(** Properties C13-C17 and C44: generated grids. *)
From Coq Require Import ZArith String List Bool PeanoNat Lia Permutation Init.Byte.
From Flocq Require Import IEEE754.Binary IEEE754.Bits.
Import ListNotations.
From Verif Require Import Prelude PreludeFacts Mat MatFacts Num Fields GridIO Float64 Float64Facts Util ComputeGrid
  ComputeGridFacts SpecGrid SpecHalf GridIOProofs TomitFacts TomitSpec Refine MkGrid RefineFacts Regrid RegridFacts
  Samples PropUtil PropFill.
Local Open Scope nat_scope.
Local Open Scope list_scope.
Local Arguments Nat.mul : simpl never.

Definition mkgrid64 (L : libm) (G : geod binary64) := mkgrid (b64ops L) G.
Definition tomitgrid64 (L : libm) (G : geod binary64) := tomitgrid (b64ops L) G.
Definition regrid64 (L : libm) (G : geod binary64) := regrid (b64ops L) b64codec G.

(** ** reading the explicit statements off [grid_of] *)
Section Read.
Context {F : Type} (N : numops F) (G : geod F).
Variables (H : nat -> nat -> F * F) (p q : nat) (g : grid F).
Hypothesis Hg : grid_of N G H p q g.

Lemma gf f i j : i < rows_of f p -> j < cols_of f q ->
  mat_at (g f) i j = spec_field N G H p q (flat_enough N G H p q) f i j.
Proof. destruct (Hg f) as (_ & _ & E). apply E. Qed.

Lemma grid_of_shaped : shaped g p q.
Proof. intros f. destruct (Hg f) as (Hr & Hc & _). auto. Qed.

Lemma grid_of_positions : positions_documented H p q g.
Proof.
  split; intros i j Hi Hj; rewrite !gf by (rewrite ?rows_of_delta, ?cols_of_delta; cbn; lia);
    cbn [spec_field]; symmetry; apply surjective_pairing.
Qed.

Ltac inner_true := match goal with |- context [inner ?i ?n] =>
  replace (inner i n) with true by (symmetry; apply inner_true; lia) end.

Lemma grid_of_edges : edges_documented N G H p q g.
Proof.
  repeat split; intros i j Hi Hj; rewrite !gf by (rewrite ?rows_of_delta, ?cols_of_delta; cbn; lia);
    cbn [spec_field]; try inner_true; reflexivity.
Qed.

Lemma grid_of_areas : areas_documented N G H p q g (flat_enough N G H p q).
Proof.
  repeat split; intros i j Hi Hj; rewrite !gf by (rewrite ?rows_of_delta, ?cols_of_delta; cbn; lia);
    cbn [spec_field]; repeat inner_true; reflexivity.
Qed.

Lemma grid_of_zero : boundary_zero N p q g.
Proof.
  intros f i j Hi Hj Hs. rewrite gf by auto.
  assert (Hout : forall x n, x = 0 \/ x = n -> inner x n = false) by (intros; apply inner_false; lia).
  destruct f; cbn [straddles spec_field] in *; try tauto; try (rewrite Hout by tauto; reflexivity).
  destruct Hs as [Hs|[Hs|Hs]].
  - rewrite (Hout i p) by tauto. reflexivity.
  - rewrite (Hout i p) by tauto. reflexivity.
  - rewrite (Hout j q) by tauto. rewrite andb_false_r. reflexivity.
Qed.
End Read.

(** ** what mkgrid and regrid produce *)
Lemma mkgrid64_ok L G lon1 lat1 lon2 lat2 ls lt : 1 <= ls -> 1 <= lt ->
  let C := box_corner lon1 lat1 lon2 lat2 in
  exists g H, mkgrid64 L G lon1 lat1 lon2 lat2 (Z.of_nat ls) (Z.of_nat lt) = Ok (g, ls, lt) /\
    subdivides (b64ops L) G (corners_pos (b64ops L) C 1 1) C ls lt 1 1 H /\
    grid_of (b64ops L) G H ls lt g.
Proof. apply (mkgrid_ok (b64ops L) (b64_laws L) G). Qed.

Lemma tomitgrid64_ok L G (cg : mat (binary64 * binary64)) p q :
  mrows cg = 2 * p + 3 -> mcols cg = 2 * q + 3 ->
  exists g, tomitgrid64 L G cg 0 1 (1 + 2 * p) (1 + 2 * p + 1) 0 1 (1 + 2 * q) (1 + 2 * q + 1) = Ok g /\
    grid_of (b64ops L) G (fun u v => mat_at cg (1 + u) (1 + v)) p q g.
Proof. apply (tomitgrid_spec (b64ops L) (b64_laws L) G). Qed.

Lemma regrid64_grid L G loadtxt fs lay o3 fuel a rr : layouts lay -> layouts o3 ->
  regrid64 L G loadtxt fs lay o3 fuel a = Ok rr ->
  exists C n m ls lt H,
    rr_ni rr = ls * n /\ rr_nj rr = lt * m /\ 1 <= n /\ 1 <= m /\ 1 <= ls /\ 1 <= lt /\
    ra_lon_subscale a = Z.of_nat ls /\ ra_lat_subscale a = Z.of_nat lt /\
    subdivides (b64ops L) G (corners_pos (b64ops L) C n m) C ls lt n m H /\
    grid_of (b64ops L) G H (ls * n) (lt * m) (rr_grid rr).
Proof.
  intros Hlay Ho3 E. apply layouts_order_ok in Hlay, Ho3.
  destruct (regrid_inv (b64ops L) (b64_laws L) G b64codec loadtxt fs lay o3 Hlay fuel a rr E)
    as (d & xg & yg & i1 & j1 & i2 & j2 & ls & lt & Es & Ex & Hf & Hi & Hj & Els & Elt & Hls & Hlt & Hfu).
  destruct (regrid_ok (b64ops L) (b64_laws L) G b64codec loadtxt fs lay o3 Hlay Ho3 fuel a d xg yg i1 j1 i2 j2 ls lt)
    as (g & H & Er & Hs & Hg); auto.
  change (regrid64 L G loadtxt fs lay o3 fuel a) with
    (regrid (b64ops L) b64codec G loadtxt fs lay o3 fuel a) in E. rewrite Er in E. inversion E. subst rr.
  cbn [rr_ni rr_nj rr_grid].
  exists (fun a b => (pick_at xg i1 j1 i2 j2 a b, pick_at yg i1 j1 i2 j2 a b)),
    (cells_i i1 j1 i2 j2), (cells_j i1 j1 i2 j2), ls, lt, H.
  assert (1 <= cells_i i1 j1 i2 j2 /\ 1 <= cells_j i1 j1 i2 j2).
  { unfold cells_i, cells_j, gap. destruct (Bool.eqb _ _); lia. }
  tauto.
Qed.

(** ** C13 *)
Theorem C13_mkgrid_shapes_and_positions : forall L G lon1 lat1 lon2 lat2 ls lt,
  1 <= ls -> 1 <= lt ->
  let C := box_corner lon1 lat1 lon2 lat2 in
  exists g H, mkgrid64 L G lon1 lat1 lon2 lat2 (Z.of_nat ls) (Z.of_nat lt) = Ok (g, ls, lt) /\
    subdivides (b64ops L) G (corners_pos (b64ops L) C 1 1) C ls lt 1 1 H /\
    shaped g ls lt /\ positions_documented H ls lt g.
Proof.
  intros L G lon1 lat1 lon2 lat2 ls lt Hls Hlt C.
  destruct (mkgrid64_ok L G lon1 lat1 lon2 lat2 ls lt Hls Hlt) as (g & H & E & Hs & Hg).
  exists g, H. split; auto. split; auto. split.
  - eapply grid_of_shaped; eauto.
  - eapply grid_of_positions; eauto.
Qed.

Theorem C13_regrid_shapes_and_positions : forall L G loadtxt fs lay o3 fuel a rr,
  layouts lay -> layouts o3 -> regrid64 L G loadtxt fs lay o3 fuel a = Ok rr ->
  exists C n m ls lt H,
    rr_ni rr = ls * n /\ rr_nj rr = lt * m /\ 1 <= n /\ 1 <= m /\
    ra_lon_subscale a = Z.of_nat ls /\ ra_lat_subscale a = Z.of_nat lt /\
    subdivides (b64ops L) G (corners_pos (b64ops L) C n m) C ls lt n m H /\
    shaped (rr_grid rr) (ls * n) (lt * m) /\ positions_documented H (ls * n) (lt * m) (rr_grid rr).
Proof.
  intros L G loadtxt fs lay o3 fuel a rr Hlay Ho3 E.
  destruct (regrid64_grid L G loadtxt fs lay o3 fuel a rr Hlay Ho3 E)
    as (C & n & m & ls & lt & H & E1 & E2 & Hn & Hm & Hls & Hlt & El & Et & Hs & Hg).
  exists C, n, m, ls, lt, H. repeat (split; [assumption|]). split.
  - eapply grid_of_shaped; eauto.
  - eapply grid_of_positions; eauto.
Qed.

Definition mkbits (r : res (grid binary64 * nat * nat)) (f : field) (i j : nat) : option Z :=
  match r with Ok (g, _, _) => Some (bits_of_b64 (mat_at (g f) i j)) | Err _ => None end.

(** A 2x1 grid between (0,2) and (8,0): corners every 4 degrees, centres at 2 and 6. *)
Definition ex_mk := mkgrid64 ex_libm ex_geod (ex_int 0) (ex_int 2) (ex_int 8) (ex_int 0) 2 1.
Example C13_case :
  mkbits ex_mk XG 1 0 = Some (ibits 4) /\ mkbits ex_mk XC 1 0 = Some (ibits 6) /\
  mkbits ex_mk YC 1 0 = Some (ibits 1) /\
  match ex_mk with Ok (g, _, _) => (mrows (g DXV), mcols (g DXV), mrows (g DYF), mcols (g DYF))
  | Err _ => (0, 0, 0, 0) end = (3, 2, 2, 1).
Proof. vm_compute. auto. Qed.

(** ** C14 *)
Theorem C14_edge_lengths : forall L G (cg : mat (binary64 * binary64)) p q,
  mrows cg = 2 * p + 3 -> mcols cg = 2 * q + 3 ->
  exists g, tomitgrid64 L G cg 0 1 (1 + 2 * p) (1 + 2 * p + 1) 0 1 (1 + 2 * q) (1 + 2 * q + 1) = Ok g /\
    edges_documented (b64ops L) G (fun u v => mat_at cg (1 + u) (1 + v)) p q g.
Proof.
  intros L G cg p q Hr Hc. destruct (tomitgrid64_ok L G cg p q Hr Hc) as (g & E & Hg).
  exists g. split; auto. eapply grid_of_edges; eauto.
Qed.

Theorem C14_mkgrid_edge_lengths : forall L G lon1 lat1 lon2 lat2 ls lt,
  1 <= ls -> 1 <= lt ->
  let C := box_corner lon1 lat1 lon2 lat2 in
  exists g H, mkgrid64 L G lon1 lat1 lon2 lat2 (Z.of_nat ls) (Z.of_nat lt) = Ok (g, ls, lt) /\
    subdivides (b64ops L) G (corners_pos (b64ops L) C 1 1) C ls lt 1 1 H /\
    edges_documented (b64ops L) G H ls lt g.
Proof.
  intros L G lon1 lat1 lon2 lat2 ls lt Hls Hlt C.
  destruct (mkgrid64_ok L G lon1 lat1 lon2 lat2 ls lt Hls Hlt) as (g & H & E & Hs & Hg).
  exists g, H. split; auto. split; auto. eapply grid_of_edges; eauto.
Qed.

Theorem C14_regrid_edge_lengths : forall L G loadtxt fs lay o3 fuel a rr,
  layouts lay -> layouts o3 -> regrid64 L G loadtxt fs lay o3 fuel a = Ok rr ->
  exists C n m ls lt H,
    rr_ni rr = ls * n /\ rr_nj rr = lt * m /\
    subdivides (b64ops L) G (corners_pos (b64ops L) C n m) C ls lt n m H /\
    positions_documented H (ls * n) (lt * m) (rr_grid rr) /\
    edges_documented (b64ops L) G H (ls * n) (lt * m) (rr_grid rr).
Proof.
  intros L G loadtxt fs lay o3 fuel a rr Hlay Ho3 E.
  destruct (regrid64_grid L G loadtxt fs lay o3 fuel a rr Hlay Ho3 E)
    as (C & n & m & ls & lt & H & E1 & E2 & Hn & Hm & Hls & Hlt & El & Et & Hs & Hg).
  exists C, n, m, ls, lt, H. repeat (split; [assumption|]). split.
  - eapply grid_of_positions; eauto.
  - eapply grid_of_edges; eauto.
Qed.

(** With squared distances each half cell of length 2 counts 4, of length 1 counts 1. *)
Example C14_case :
  mkbits ex_mk DXG 1 1 = Some (ibits 8) /\ mkbits ex_mk DYG 2 0 = Some (ibits 2) /\
  mkbits ex_mk DXC 1 0 = Some (ibits 8) /\ mkbits ex_mk DXC 2 0 = Some 0%Z.
Proof. vm_compute. auto. Qed.

(** ** C15 *)
Theorem C15_areas : forall L G (cg : mat (binary64 * binary64)) p q,
  mrows cg = 2 * p + 3 -> mcols cg = 2 * q + 3 ->
  let H := fun u v => mat_at cg (1 + u) (1 + v) in
  exists g, tomitgrid64 L G cg 0 1 (1 + 2 * p) (1 + 2 * p + 1) 0 1 (1 + 2 * q) (1 + 2 * q + 1) = Ok g /\
    areas_documented (b64ops L) G H p q g (flat_enough (b64ops L) G H p q).
Proof.
  intros L G cg p q Hr Hc. destruct (tomitgrid64_ok L G cg p q Hr Hc) as (g & E & Hg).
  exists g. split; auto. eapply grid_of_areas; eauto.
Qed.

Theorem C15_mkgrid_areas : forall L G lon1 lat1 lon2 lat2 ls lt,
  1 <= ls -> 1 <= lt ->
  let C := box_corner lon1 lat1 lon2 lat2 in
  exists g H, mkgrid64 L G lon1 lat1 lon2 lat2 (Z.of_nat ls) (Z.of_nat lt) = Ok (g, ls, lt) /\
    subdivides (b64ops L) G (corners_pos (b64ops L) C 1 1) C ls lt 1 1 H /\
    areas_documented (b64ops L) G H ls lt g (flat_enough (b64ops L) G H ls lt).
Proof.
  intros L G lon1 lat1 lon2 lat2 ls lt Hls Hlt C.
  destruct (mkgrid64_ok L G lon1 lat1 lon2 lat2 ls lt Hls Hlt) as (g & H & E & Hs & Hg).
  exists g, H. split; auto. split; auto. eapply grid_of_areas; eauto.
Qed.

Theorem C15_regrid_areas : forall L G loadtxt fs lay o3 fuel a rr,
  layouts lay -> layouts o3 -> regrid64 L G loadtxt fs lay o3 fuel a = Ok rr ->
  exists C n m ls lt H,
    rr_ni rr = ls * n /\ rr_nj rr = lt * m /\
    subdivides (b64ops L) G (corners_pos (b64ops L) C n m) C ls lt n m H /\
    positions_documented H (ls * n) (lt * m) (rr_grid rr) /\
    areas_documented (b64ops L) G H (ls * n) (lt * m) (rr_grid rr)
      (flat_enough (b64ops L) G H (ls * n) (lt * m)).
Proof.
  intros L G loadtxt fs lay o3 fuel a rr Hlay Ho3 E.
  destruct (regrid64_grid L G loadtxt fs lay o3 fuel a rr Hlay Ho3 E)
    as (C & n & m & ls & lt & H & E1 & E2 & Hn & Hm & Hls & Hlt & El & Et & Hs & Hg).
  exists C, n, m, ls, lt, H. repeat (split; [assumption|]). split.
  - eapply grid_of_positions; eauto.
  - eapply grid_of_areas; eauto.
Qed.

(** The stand-in functions sin, cos = identity turn the faceted formula into a polynomial. *)
Example C15_case :
  match mkbits ex_mk RAC 0 0, mkbits ex_mk RAW 1 0, mkbits ex_mk RAZ 0 0 with
  | Some a, Some b, Some z => (negb (a =? 0) && negb (b =? 0) && (z =? 0))%Z
  | _, _, _ => false
  end = true.
Proof. vm_compute. reflexivity. Qed.

(** ** C16 *)
Theorem C16_boundary_zero : forall L G (cg : mat (binary64 * binary64)) p q,
  mrows cg = 2 * p + 3 -> mcols cg = 2 * q + 3 ->
  exists g, tomitgrid64 L G cg 0 1 (1 + 2 * p) (1 + 2 * p + 1) 0 1 (1 + 2 * q) (1 + 2 * q + 1) = Ok g /\
    shaped g p q /\ boundary_zero (b64ops L) p q g.
Proof.
  intros L G cg p q Hr Hc. destruct (tomitgrid64_ok L G cg p q Hr Hc) as (g & E & Hg).
  exists g. split; auto. split; [eapply grid_of_shaped|eapply grid_of_zero]; eauto.
Qed.

Theorem C16_mkgrid_boundary_zero : forall L G lon1 lat1 lon2 lat2 sl st g ni nj,
  mkgrid64 L G lon1 lat1 lon2 lat2 sl st = Ok (g, ni, nj) -> boundary_zero (b64ops L) ni nj g.
Proof.
  intros L G lon1 lat1 lon2 lat2 sl st g ni nj E.
  assert (Hpos : (1 <= sl /\ 1 <= st)%Z).
  { unfold mkgrid64, mkgrid in E.
    destruct (cg_check (2 * sl + 3) (2 * st + 3) sl st) as [[]|] eqn:Ec; [|discriminate].
    apply cg_check_ok in Ec. lia. }
  destruct (mkgrid64_ok L G lon1 lat1 lon2 lat2 (Z.to_nat sl) (Z.to_nat st)) as (g' & H & E' & _ & Hg); try lia.
  rewrite !Z2Nat.id in E' by lia. rewrite E' in E. inversion E. subst. eapply grid_of_zero; eauto.
Qed.

Theorem C16_regrid_boundary_zero : forall L G loadtxt fs lay o3 fuel a rr,
  layouts lay -> layouts o3 -> regrid64 L G loadtxt fs lay o3 fuel a = Ok rr ->
  boundary_zero (b64ops L) (rr_ni rr) (rr_nj rr) (rr_grid rr).
Proof.
  intros L G loadtxt fs lay o3 fuel a rr Hlay Ho3 E.
  destruct (regrid64_grid L G loadtxt fs lay o3 fuel a rr Hlay Ho3 E)
    as (C & n & m & ls & lt & H & E1 & E2 & Hn & Hm & Hls & Hlt & El & Et & Hs & Hg).
  rewrite E1, E2. eapply grid_of_zero; eauto.
Qed.

Example C16_case :
  mkbits ex_mk DXV 0 1 = Some 0%Z /\ mkbits ex_mk RAZ 1 0 = Some 0%Z /\
  straddles 2 1 RAZ 1 0 /\ ~ straddles 2 1 DXV 1 0.
Proof. vm_compute. intuition discriminate. Qed.

(** ** C17 *)
Theorem C17_mkgrid_contract : forall L G lon1 lat1 lon2 lat2 ls lt, 1 <= ls -> 1 <= lt ->
  exists g, mkgrid64 L G lon1 lat1 lon2 lat2 (Z.of_nat ls) (Z.of_nat lt) = Ok (g, ls, lt) /\
    mat_at (g XG) 0 lt = lon1 /\ mat_at (g YG) 0 lt = lat1 /\
    mat_at (g XG) ls 0 = lon2 /\ mat_at (g YG) ls 0 = lat2 /\
    mat_at (g XG) 0 0 = lon1 /\ mat_at (g YG) 0 0 = lat2 /\
    mat_at (g XG) ls lt = lon2 /\ mat_at (g YG) ls lt = lat1.
Proof.
  intros L G lon1 lat1 lon2 lat2 ls lt Hls Hlt.
  destruct (mkgrid64_ok L G lon1 lat1 lon2 lat2 ls lt Hls Hlt) as (g & H & E & (S1 & _) & Hg).
  exists g. split; auto.
  destruct (grid_of_positions _ _ _ _ _ _ Hg) as (Hp & _).
  assert (Hc : forall a b, a <= 1 -> b <= 1 ->
    (mat_at (g XG) (ls * a) (lt * b), mat_at (g YG) (ls * a) (lt * b)) = box_corner lon1 lat1 lon2 lat2 a b).
  { intros a b Ha Hb. rewrite Hp by nia. rewrite !Nat.mul_assoc. apply S1; auto. }
  pose proof (Hc 0 0) as H00. pose proof (Hc 0 1) as H01. pose proof (Hc 1 0) as H10. pose proof (Hc 1 1) as H11.
  rewrite ?Nat.mul_0_r, ?Nat.mul_1_r in *. cbn [box_corner Nat.eqb] in *.
  specialize (H00 ltac:(lia) ltac:(lia)). specialize (H01 ltac:(lia) ltac:(lia)).
  specialize (H10 ltac:(lia) ltac:(lia)). specialize (H11 ltac:(lia) ltac:(lia)).
  apply pair_equal_spec in H00, H01, H10, H11. tauto.
Qed.

Theorem C17_mkgrid_rejects : forall L G lon1 lat1 lon2 lat2 sl st, (sl <= 0 \/ st <= 0)%Z ->
  is_err (mkgrid64 L G lon1 lat1 lon2 lat2 sl st).
Proof.
  intros L G lon1 lat1 lon2 lat2 sl st Hs. unfold mkgrid64, mkgrid.
  destruct (cg_check (2 * sl + 3) (2 * st + 3) sl st) as [[]|e] eqn:Ec; [|eexists; reflexivity].
  apply cg_check_ok in Ec. lia.
Qed.

Example C17_case :
  mkbits ex_mk YG 0 1 = Some (ibits 2) /\ mkbits ex_mk XG 2 0 = Some (ibits 8) /\
  mkgrid64 ex_libm ex_geod (ex_int 0) (ex_int 2) (ex_int 8) (ex_int 0) (-1) 5 = Err IndexError /\
  raises_value (mkgrid64 ex_libm ex_geod (ex_int 0) (ex_int 2) (ex_int 8) (ex_int 0) 3 0).
Proof. split; [|split; [|split]]; try (vm_compute; reflexivity). eexists. vm_compute. reflexivity. Qed.

(** ** C44 *)
Theorem C44_formula_choice : forall L G (cg : mat (binary64 * binary64)) p q,
  mrows cg = 2 * p + 3 -> mcols cg = 2 * q + 3 ->
  let H := fun u v => mat_at cg (1 + u) (1 + v) in
  let xs := nonzero_x (b64ops L) G H p q in
  let ys := nonzero_y (b64ops L) G H p q in
  exists g planar,
    tomitgrid64 L G cg 0 1 (1 + 2 * p) (1 + 2 * p + 1) 0 1 (1 + 2 * q) (1 + 2 * q + 1) = Ok g /\
    areas_documented (b64ops L) G H p q g planar /\
    (planar = true <-> xs <> [] /\ ys <> [] /\
       b64_ltb (lm_mean L xs) b64_10e3 = true /\ b64_ltb (lm_mean L ys) b64_10e3 = true).
Proof.
  intros L G cg p q Hr Hc H xs ys. destruct (tomitgrid64_ok L G cg p q Hr Hc) as (g & E & Hg).
  exists g, (flat_enough (b64ops L) G H p q). split; auto. split; [eapply grid_of_areas; eauto|].
  unfold flat_enough. fold xs ys. unfold mean_of. rewrite andb_true_iff.
  change (nltb (b64ops L)) with b64_ltb. change (n10e3 (b64ops L)) with b64_10e3.
  change (nmean (b64ops L)) with (lm_mean L). change (nnan (b64ops L)) with b64_nan.
  assert (Hnan : b64_ltb b64_nan b64_10e3 = false) by reflexivity.
  destruct xs as [|x xs'], ys as [|y ys']; rewrite ?Hnan; intuition congruence.
Qed.

Example C44_case :
  (* edges of squared length 4 and 1: the mean is far below 10e3 *)
  match ex_mk with Ok (g, _, _) => (mrows (g RAC), mcols (g RAC)) | Err _ => (0, 0) end = (2, 1) /\
  flat_enough (b64ops ex_libm) ex_geod (fun u v => (ex_int (2 * Z.of_nat u), ex_int (Z.of_nat v))) 2 1 = true /\
  flat_enough (b64ops ex_libm) ex_geod (fun u v => (ex_int (200 * Z.of_nat u), ex_int (Z.of_nat v))) 2 1 = false /\
  (* no nonzero edges at all *)
  flat_enough (b64ops ex_libm) ex_geod (fun _ _ => (ex_int 7, ex_int 7)) 2 1 = false.
Proof. vm_compute. auto. Qed.
