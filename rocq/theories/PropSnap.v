(** Property C98: which points nearest and regrid choose, in true distances. *)
From Coq Require Import Reals ZArith Lia Lra Psatz Bool List PeanoNat.
Import ListNotations.
From Flocq Require Import Core IEEE754.BinarySingleNaN IEEE754.Binary IEEE754.Bits.
From Verif Require Import Prelude Mat MatFacts Num Fields Util UtilFacts ComputeGrid Float64 Float64Facts PyFloatFacts FloorDivFacts RealInst RealFacts
  SpecGrid SpecHalf MkGrid Regrid SpecRegrid PropUtil PropFill PropMkGrid PropRegrid RoundFacts PropLengths Samples.
Local Open Scope R_scope.

(** the point of two matrices at an index *)
Definition point_at (lons lats : mat binary64) (i j : nat) : pos := (mat_at lons i j, mat_at lats i j).

(** The geodesic library measures the distance D from X to every point of the matrices to within e, and they are all
    closer than 1e10 metres (the start value of the search). *)
Definition measured (G : geod binary64) (D : pos -> pos -> R) (e : R) (X : pos) (lons lats : mat binary64) : Prop :=
  forall i j, (i < mrows lons)%nat -> (j < mcols lons)%nat ->
    let P := point_at lons lats i j in
    finite (g_inv G X P) = true /\ Rabs (R64 (g_inv G X P) - D X P) <= e /\ D X P + e < IZR (10 ^ 10).

(** (i,j) is nearer to X than every other point by more than twice the error. *)
Definition plainly_nearest (D : pos -> pos -> R) (e : R) (X : pos) (lons lats : mat binary64) (i j : nat) : Prop :=
  (i < mrows lons)%nat /\ (j < mcols lons)%nat /\
  forall a b, (a < mrows lons)%nat -> (b < mcols lons)%nat -> (a, b) <> (i, j) ->
    D X (point_at lons lats i j) + 2 * e < D X (point_at lons lats a b).

Lemma value_1e10 : finite b64_1e10 = true /\ R64 b64_1e10 = IZR (10 ^ 10).
Proof.
  assert (E : b64_1e10 = ex_int (10 ^ 10)). 
  { unfold ex_int, b64_1e10. apply (B2FF_inj 53 1024). vm_compute. reflexivity. }
  rewrite E. apply int_value. reflexivity.
Qed.

Lemma measured_close G D e X lons lats i j : measured G D e X lons lats -> (i < mrows lons)%nat -> (j < mcols lons)%nat ->
  b64_ltb (dist_to G (fst X) (snd X) lons lats (i, j)) b64_1e10 = true.
Proof.
  intros M Hi Hj. destruct (M i j Hi Hj) as (F & A & B). destruct value_1e10 as (FT & VT).
  apply b64_ltb_finite; [destruct X; exact F|exact FT|]. rewrite VT.
  destruct X as [x y]. change (dist_to G (fst (x, y)) (snd (x, y)) lons lats (i, j)) with (g_inv G (x, y) (point_at lons lats i j)).
  apply Rabs_le_inv in A. lra.
Qed.

(** What nearest returns is a point of the matrices, farther from X than no other by more than 2e, and its distance
    is returned to within e. *)
Theorem C98_nearest_within : forall L G D e order X lons lats,
  layout order (mrows lons) (mcols lons) -> same_shape lons lats -> measured G D e X lons lats ->
  exists i j d, nearest64 L G order (fst X) (snd X) lons lats = Ok (Z.of_nat i, Z.of_nat j, d) /\
    (i < mrows lons)%nat /\ (j < mcols lons)%nat /\ finite d = true /\ Rabs (R64 d - D X (point_at lons lats i j)) <= e /\
    forall a b, (a < mrows lons)%nat -> (b < mcols lons)%nat ->
      D X (point_at lons lats i j) <= D X (point_at lons lats a b) + 2 * e.
Proof.
  intros L G D e order X lons lats Hl Hs M.
  destruct (nearest_cases L G order (fst X) (snd X) lons lats Hl Hs) as [N|(i & j & N)].
  - pose proof Hs as (_ & _ & S3 & S4). specialize (N 0%nat 0%nat S3 S4). rewrite (measured_close _ _ _ _ _ _ _ _ M S3 S4) in N. discriminate N.
  - exists i, j, (dist_to G (fst X) (snd X) lons lats (i, j)).
    split; [apply nearest_of_is_nearest; assumption|]. destruct N as (Hi & Hj & _ & Hmin & _).
    destruct (M i j Hi Hj) as (F & A & _).
    assert (DT : forall a b, dist_to G (fst X) (snd X) lons lats (a, b) = g_inv G X (point_at lons lats a b)) by (intros; destruct X; reflexivity).
    rewrite DT in *. repeat (split; [assumption|]). intros a b Ha Hb. destruct (M a b Ha Hb) as (F' & A' & _).
    specialize (Hmin a b Ha Hb). rewrite DT in Hmin.
    assert (~ R64 (g_inv G X (point_at lons lats a b)) < R64 (g_inv G X (point_at lons lats i j))).
    { intros K. apply b64_ltb_finite in K; auto. congruence. }
    apply Rabs_le_inv in A, A'. lra.
Qed.

Lemma plainly_found G D e order X lons lats i j :
  layout order (mrows lons) (mcols lons) -> measured G D e X lons lats ->
  plainly_nearest D e X lons lats i j -> is_nearest G order (fst X) (snd X) lons lats i j.
Proof.
  intros [Hn Hl] M (Hi & Hj & P).
  assert (DT : forall a b, dist_to G (fst X) (snd X) lons lats (a, b) = g_inv G X (point_at lons lats a b)) by (intros; destruct X; reflexivity).
  destruct (M i j Hi Hj) as (F & A & _).
  assert (K : forall a b, (a < mrows lons)%nat -> (b < mcols lons)%nat -> (a, b) <> (i, j) ->
            finite (g_inv G X (point_at lons lats a b)) = true /\
            R64 (g_inv G X (point_at lons lats i j)) < R64 (g_inv G X (point_at lons lats a b))).
  { intros a b Ha Hb Hne. destruct (M a b Ha Hb) as (F' & A' & _). split; [exact F'|]. specialize (P a b Ha Hb Hne).
    apply Rabs_le_inv in A, A'. lra. }
  split; [exact Hi|]. split; [exact Hj|]. split; [apply (measured_close _ _ _ _ _ _ _ _ M Hi Hj)|]. split.
  - intros a b Ha Hb. rewrite !DT. apply not_true_is_false. intros Q.
    destruct (Nat.eq_dec a i) as [->|Na]; [destruct (Nat.eq_dec b j) as [->|Nb]|].
    + rewrite b64_ltb_irrefl in Q. discriminate Q.
    + destruct (K i b Ha Hb ltac:(congruence)) as (F' & R). apply b64_ltb_finite in Q; auto. lra.
    + destruct (K a b Ha Hb ltac:(congruence)) as (F' & R). apply b64_ltb_finite in Q; auto. lra.
  - assert (I : In (i, j) order) by (apply Hl; auto). apply in_split in I. destruct I as (pre & post & E).
    exists pre, post. split; [exact E|]. intros [a b] Q.
    assert (Ne : (a, b) <> (i, j)).
    { intros Eq. rewrite Eq in Q. subst order. apply NoDup_remove_2 in Hn. apply Hn. apply in_or_app. now left. }
    assert (In (a, b) order) by (rewrite E; apply in_or_app; now left). apply Hl in H. destruct H as (Ha & Hb).
    rewrite !DT. apply not_true_is_false. intros R. destruct (K a b Ha Hb Ne) as (F' & R').
    apply b64_leb_finite in R; auto. lra.
Qed.

(** A point plainly nearest is the one returned, in whatever order the matrices are visited. *)
Theorem C98_nearest_plain : forall L G D e order X lons lats i j,
  layout order (mrows lons) (mcols lons) -> same_shape lons lats -> measured G D e X lons lats ->
  plainly_nearest D e X lons lats i j ->
  nearest64 L G order (fst X) (snd X) lons lats = Ok (Z.of_nat i, Z.of_nat j, g_inv G X (point_at lons lats i j)).
Proof.
  intros L G D e order X lons lats i j Hl Hs M P.
  rewrite (nearest_of_is_nearest L G order (fst X) (snd X) lons lats i j Hl Hs (plainly_found _ _ _ _ _ _ _ _ _ Hl M P)).
  destruct X; reflexivity.
Qed.

(** regrid asked for two points, each plainly nearest to a corner of the tile and these not in one line: the refined
    piece has the two corners at its north-west and south-east ends, for every layout of the arrays. *)
Theorem C98_regrid_snaps : forall L G D e loadtxt fs lay o3 fuel a xg yg i1 j1 i2 j2 ls lt,
  layouts lay -> layouts o3 -> usable L loadtxt fs a xg yg ->
  measured G D e (ra_lon1 a, ra_lat1 a) xg yg -> measured G D e (ra_lon2 a, ra_lat2 a) xg yg ->
  plainly_nearest D e (ra_lon1 a, ra_lat1 a) xg yg i1 j1 -> plainly_nearest D e (ra_lon2 a, ra_lat2 a) xg yg i2 j2 ->
  i1 <> i2 -> j1 <> j2 -> subscales a ls lt -> (3 <= fuel)%nat ->
  exists rr, regrid64 L G loadtxt fs lay o3 fuel a = Ok rr /\
    corner_at (rr_grid rr) 0 (rr_nj rr) = point_at xg yg i1 j1 /\
    corner_at (rr_grid rr) (rr_ni rr) 0 = point_at xg yg i2 j2.
Proof.
  intros L G D e loadtxt fs lay o3 fuel a xg yg i1 j1 i2 j2 ls lt Hlay Ho3 US M1 M2 P1 P2 Ni Nj SS Fu.
  assert (CA : corners_at G lay a xg yg i1 j1 i2 j2).
  { split; [apply (plainly_found G D e _ (ra_lon1 a, ra_lat1 a))|apply (plainly_found G D e _ (ra_lon2 a, ra_lat2 a))]; auto. }
  destruct (C20_regrid_aligns_diagonal L G loadtxt fs lay o3 fuel a xg yg i1 j1 i2 j2 ls lt Hlay Ho3 US CA Ni Nj SS Fu)
    as (rr & E & A1 & A2 & A3 & A4).
  exists rr. split; [exact E|]. unfold corner_at, point_at. rewrite A1, A2, A3, A4. split; reflexivity.
Qed.

(** ** Examples *)

(** A tile of 2 x 2 cells of 300 by 300 on the map; two points asked for that are not corners. *)
Definition map_xg : mat binary64 := mkmat 3 3 (fun i _ => ex_int (10 + 300 * Z.of_nat i)).
Definition map_yg : mat binary64 := mkmat 3 3 (fun _ j => ex_int (20 + 300 * Z.of_nat j)).
Definition map_dict : griddict binary64 := fun f => match f with XG => Arr map_xg | YG => Arr map_yg | XC => Arr map_xg | _ => Missing end.
Definition map_args : regrid_args binary64 :=
  mk_regrid_args None None None (Some map_dict) None None (ex_int 37) (ex_int 590) (ex_int 560) (ex_int 50) 2 5 true.

Lemma map_measured x y : (0 <= x <= 1000)%Z -> (0 <= y <= 1000)%Z ->
  measured map_geod map_dist tiny (ex_int x, ex_int y) map_xg map_yg.
Proof.
  assert (OA : forall z, (0 <= z <= 1000)%Z -> on_axis (ex_int z)).
  { intros z Hz. destruct (int_value z ltac:(lia)) as (F & V). split; [exact F|]. rewrite V. split; [apply IZR_le; lia|apply IZR_le; lia]. }
  intros Hx Hy i j Hi Hj P. cbn [mrows mcols map_xg] in Hi, Hj.
  assert (OX : on_map (ex_int x, ex_int y)) by (split; apply OA; assumption).
  assert (OP : on_map P) by (split; apply OA; lia).
  destruct (map_accurate ex_libm true 1 eq_refl) as (A & _). destruct (A _ P OX OP) as (F & E). split; [exact F|]. split; [exact E|].
  pose proof tiny_small as T. destruct OX as ((_ & X1) & (_ & X2)). destruct OP as ((_ & P1) & (_ & P2)). unfold map_dist.
  assert (B : 10000 <= IZR (10 ^ 10)) by (apply IZR_le; discriminate).
  assert (Rabs (R64 (fst (ex_int x, ex_int y)) - R64 (fst P)) <= 1000) by (apply Rabs_le; lra).
  assert (Rabs (R64 (snd (ex_int x, ex_int y)) - R64 (snd P)) <= 1000) by (apply Rabs_le; lra). lra.
Qed.

Lemma map_plainly x y i j : (0 <= x <= 1000)%Z -> (0 <= y <= 1000)%Z -> (i < 3)%nat -> (j < 3)%nat ->
  (Z.abs (x - (10 + 300 * Z.of_nat i)) < 100)%Z -> (Z.abs (y - (20 + 300 * Z.of_nat j)) < 100)%Z ->
  plainly_nearest map_dist tiny (ex_int x, ex_int y) map_xg map_yg i j.
Proof.
  intros Hx Hy Hi Hj Ei Ej. split; [exact Hi|]. split; [exact Hj|]. intros a b Ha Hb Ne. cbn [mrows mcols map_xg] in Ha, Hb.
  unfold map_dist, point_at. cbn [fst snd mat_at map_xg map_yg].
  rewrite (proj2 (int_value x ltac:(lia))), (proj2 (int_value y ltac:(lia))).
  rewrite (proj2 (int_value (10 + 300 * Z.of_nat i) ltac:(lia))), (proj2 (int_value (20 + 300 * Z.of_nat j) ltac:(lia))).
  rewrite (proj2 (int_value (10 + 300 * Z.of_nat a) ltac:(lia))), (proj2 (int_value (20 + 300 * Z.of_nat b) ltac:(lia))).
  rewrite <- !minus_IZR, <- !abs_IZR, <- !plus_IZR.
  pose proof tiny_small as T.
  match goal with |- IZR ?u + _ < IZR ?v => assert (K : (u + 1 <= v)%Z); [|apply IZR_le in K; rewrite plus_IZR in K; lra] end.
  destruct (Nat.eq_dec a i) as [->|Na]; [destruct (Nat.eq_dec b j) as [->|Nb]; [congruence|lia]|lia].
Qed.

Example C98_case : forall L,
  exists rr, regrid64 L map_geod (fun _ => Err AssertionError) (fun _ => None) (fun r c => indices r c) (fun r c => indices r c) 3 map_args = Ok rr /\
    corner_at (rr_grid rr) 0 (rr_nj rr) = (ex_int 10, ex_int 620) /\
    corner_at (rr_grid rr) (rr_ni rr) 0 = (ex_int 610, ex_int 20).
Proof.
  intros L.
  assert (LA : layouts (fun r c => indices r c)) by (intros r c; apply perm_layout, Permutation.Permutation_refl).
  apply (C98_regrid_snaps L map_geod map_dist tiny (fun _ => Err AssertionError) (fun _ => None) _ _ 3 map_args map_xg map_yg 0 2 2 0 2 5); auto.
  - exists map_dict. split; [|split; [reflexivity|split; [reflexivity|]]].
    + apply (from_matrices _ _ _ _ map_args map_dict map_xg); try reflexivity; [left; reflexivity|left; left; reflexivity].
    + unfold same_shape. cbn. lia.
  - apply (map_measured 37 590); lia.
  - apply (map_measured 560 50); lia.
  - apply (map_plainly 37 590 0 2); cbn; lia.
  - apply (map_plainly 560 50 2 0); cbn; lia.
  - unfold subscales. cbn. lia.
Qed.

(** The margin cannot be dropped: a library one metre off takes the farther of two points 10 and 11 away. *)
Definition off_geod : geod binary64 :=
  {| g_inv := fun _ Q => b64_minus mode_NE (ex_int 21) (fst Q); g_npt := fun P _ _ _ => P; g_a := ex_int 1 |}.
Definition off_dist (P Q : pos) : R := R64 (fst Q).
Example C98_margin_case :
  let lons := mkmat 1 2 (fun _ j => ex_int (10 + Z.of_nat j)) in
  measured off_geod off_dist 1 (b64_zero, b64_zero) lons lons /\
  off_dist (b64_zero, b64_zero) (point_at lons lons 0 0) = 10 /\ off_dist (b64_zero, b64_zero) (point_at lons lons 0 1) = 11 /\
  forall L, nbits (nearest64 L off_geod (indices 1 2) b64_zero b64_zero lons lons) = Some (0%Z, 1%Z, bits_of_b64 (ex_int 10)).
Proof.
  set (lons := mkmat 1 2 (fun _ j => ex_int (10 + Z.of_nat j))). cbv zeta.
  assert (V : forall j, (j < 2)%nat -> R64 (mat_at lons 0 j) = IZR (10 + Z.of_nat j)) by (intros j Hj; apply int_value; lia).
  assert (S : forall j, (j < 2)%nat -> b64_minus mode_NE (ex_int 21) (ex_int (10 + Z.of_nat j)) = ex_int (11 - Z.of_nat j)).
  { intros j Hj. destruct j as [|[|]]; [| |lia]; apply (B2FF_inj 53 1024); vm_compute; reflexivity. }
  split; [|split; [|split]].
  - intros i j Hi Hj P. cbn in Hi, Hj. assert (i = 0%nat) by lia. subst i.
    assert (E : g_inv off_geod (b64_zero, b64_zero) P = ex_int (11 - Z.of_nat j)) by (apply S; exact Hj).
    rewrite E. destruct (int_value (11 - Z.of_nat j) ltac:(lia)) as (F & W). split; [exact F|].
    assert (D : off_dist (b64_zero, b64_zero) P = IZR (10 + Z.of_nat j)) by (apply V; exact Hj).
    rewrite D, W. split.
    + rewrite <- minus_IZR, <- abs_IZR. apply IZR_le. lia.
    + rewrite <- plus_IZR. apply IZR_lt. lia.
  - apply (V 0%nat). lia.
  - apply (V 1%nat). lia.
  - intros L. vm_compute. reflexivity.
Qed.
