(** Properties C45, C46, C63 and C64: lengths and areas on an exact sphere. *)
From Coq Require Import ZArith Reals Ratan String List Bool Lra Lia Psatz PeanoNat.
Import ListNotations.
From Verif Require Import Prelude PreludeFacts Mat MatFacts Num Fields GridIO Util ComputeGrid SpecGrid SpecHalf GridIOProofs TomitFacts
  TomitSpec Refine MkGrid RefineFacts Regrid RegridFacts PropFill PropMkGrid RealInst RealFacts SphereFacts SphereCut SphereGeod
  SphereGrid PropGeom SphereArea.
Local Open Scope R_scope.
Local Arguments Nat.mul : simpl never.

(** ** C45 *)

(** [g] has [ls*m] x [lt*n] cells, refining [m] x [n] original ones.  [c] are its corners on
    the unit sphere and [o] its cell centres.
    - every DYG is the great-circle distance between its two corners, and the lt cells of an
      original cell share the length of the line equally;
    - the same holds for DXG on the original grid lines;
    - DYC is the distance between its two centres unless an original line is between them;
    - elsewhere DXG and DXC, sums of two halves, are not shorter than the distance, or zero. *)
Definition lengths_on_sphere (a : R) (g : grid R) (ls lt m n : nat) : Prop :=
  let c i j := point (mat_at (g XG) i j, mat_at (g YG) i j) in
  let o i j := point (mat_at (g XC) i j, mat_at (g YC) i j) in
  (forall i j, (i <= ls * m)%nat -> (j < lt * n)%nat ->
     mat_at (g DYG) i j = a * gc (c i j) (c i (j + 1)%nat)) /\
  (forall i b j, (i <= ls * m)%nat -> (b < n)%nat -> (j < lt)%nat ->
     mat_at (g DYG) i (lt * b + j)%nat = a * gc (c i (lt * b)%nat) (c i (lt * (b + 1))%nat) / INR lt) /\
  (forall i b, (i < ls * m)%nat -> (b <= n)%nat ->
     mat_at (g DXG) i (lt * b)%nat = a * gc (c i (lt * b)%nat) (c (i + 1) (lt * b))%nat) /\
  (forall k i b, (k < m)%nat -> (i < ls)%nat -> (b <= n)%nat ->
     mat_at (g DXG) (ls * k + i)%nat (lt * b)%nat
     = a * gc (c (ls * k) (lt * b))%nat (c (ls * (k + 1)) (lt * b))%nat / INR ls) /\
  (forall i b j, (i < ls * m)%nat -> (b < n)%nat -> (0 < j < lt)%nat ->
     mat_at (g DYC) i (lt * b + j)%nat = a * gc (o i (lt * b + j - 1)%nat) (o i (lt * b + j)%nat)) /\
  (forall i j, (i < ls * m)%nat -> (j <= lt * n)%nat ->
     mat_at (g DXG) i j = 0 \/ a * gc (c i j) (c (i + 1)%nat j) <= mat_at (g DXG) i j) /\
  (forall i j, (0 < i < ls * m)%nat -> (j < lt * n)%nat ->
     mat_at (g DXC) i j = 0 \/ a * gc (o (i - 1)%nat j) (o i j) <= mat_at (g DXC) i j).

(** the corners of the original cells on the unit sphere *)
Definition original_corner (g : grid R) (ls lt a b : nat) : vec :=
  point (mat_at (g XG) (ls * a)%nat (lt * b)%nat, mat_at (g YG) (ls * a)%nat (lt * b)%nat).

Lemma sum2_ge P x y z : 0 <= x -> 0 <= y -> z <= x + y -> sum2 (r_ops P) x y = 0 \/ z <= sum2 (r_ops P) x y.
Proof. intros. destruct (sum2_r P x y) as [-> | (-> & _)]; auto. Qed.

Lemma lengths_of P G C pos ls lt m n H g : spherical G -> (1 <= ls)%nat -> (1 <= lt)%nat -> (1 <= m)%nat -> (1 <= n)%nat ->
  subdivides (r_ops P) G pos C ls lt m n H -> grid_of (r_ops P) G H (ls * m) (lt * n) g ->
  (forall a b, (a < m)%nat -> (b < n)%nat ->
     hemisphere (point (C a b)) (point (C (a + 1)%nat b)) (point (C (a + 1)%nat (b + 1)%nat)) (point (C a (b + 1)%nat))) ->
  lengths_on_sphere (g_a G) g ls lt m n.
Proof.
  intros SG Hls Hlt Hm Hn HS Hg HH.
  pose proof (grid_of_positions _ _ _ _ _ _ Hg) as (PG & PC).
  pose proof (grid_of_edges _ _ _ _ _ _ Hg) as (DG1 & DG2 & _ & _ & DC1 & DC2 & _).
  pose proof (sp_radius G SG) as RA.
  assert (YP := y_pair P G C pos ls lt m n H SG Hls Hlt HS HH Hm Hn).
  assert (XP := x_pair P G C pos ls lt m n H SG Hls Hlt HS HH Hm Hn).
  assert (Split : forall d k N, (0 < d)%nat -> (k < d * N)%nat -> exists b l, (b < N)%nat /\ (l < d)%nat /\ k = (d * b + l)%nat).
  { intros d k N Hd Hk. exists (k / d)%nat, (k mod d)%nat. split; [apply Nat.div_lt_upper_bound; lia|].
    split; [apply Nat.mod_upper_bound; lia|]. apply Nat.div_mod. lia. }
  assert (Tri : forall p q r, g_inv G p q + g_inv G q r >= g_a G * gc (point p) (point r)).
  { intros p q r. rewrite !(sp_inv G SG), <- Rmult_plus_distr_l. apply Rle_ge, Rmult_le_compat_l; [lra|].
    apply gc_triangle; apply point_unit. }
  assert (Pos : forall p q, 0 <= g_inv G p q).
  { intros p q. rewrite (sp_inv G SG). apply Rmult_le_pos; [lra|]. apply gc_range. }
  unfold lengths_on_sphere. cbv zeta. repeat split.
  - intros i j Hi Hj. rewrite DG2, !PG by lia. destruct (Split lt j n ltac:(lia) Hj) as (b & l & Hb & Hl & ->).
    pose proof (proj1 (YP (2 * i)%nat b (2 * l)%nat ltac:(lia) Hb ltac:(lia))) as E. cbv zeta in E.
    replace (2 * (lt * b + l))%nat with (2 * lt * b + 2 * l)%nat by lia.
    replace (2 * (lt * b + l + 1))%nat with (2 * lt * b + 2 * l + 2)%nat by lia. exact E.
  - intros i b j Hi Hb Hj. rewrite DG2, !PG by nia.
    pose proof (proj2 (YP (2 * i)%nat b (2 * j)%nat ltac:(lia) Hb ltac:(lia))) as E. cbv zeta in E.
    replace (2 * (lt * b + j))%nat with (2 * lt * b + 2 * j)%nat by lia. rewrite E. rewrite !Nat.mul_assoc. reflexivity.
  - intros i b Hi Hb. rewrite DG1, !PG by nia. destruct (Split ls i m ltac:(lia) Hi) as (a & k & Ha & Hk & ->).
    pose proof (proj1 (XP a b (2 * k)%nat Ha Hb ltac:(lia))) as E. cbv zeta in E.
    replace (2 * (ls * a + k))%nat with (2 * ls * a + 2 * k)%nat by lia.
    replace (2 * (ls * a + k + 1))%nat with (2 * ls * a + 2 * k + 2)%nat by lia. rewrite !Nat.mul_assoc. exact E.
  - intros a i b Ha Hi Hb. rewrite DG1, !PG by nia.
    pose proof (proj2 (XP a b (2 * i)%nat Ha Hb ltac:(lia))) as E. cbv zeta in E.
    replace (2 * (ls * a + i))%nat with (2 * ls * a + 2 * i)%nat by lia. rewrite !Nat.mul_assoc. exact E.
  - intros i b j Hi Hb Hj. rewrite DC2, !PC by nia.
    pose proof (proj1 (YP (2 * i + 1)%nat b (2 * j - 1)%nat ltac:(lia) Hb ltac:(lia))) as E. cbv zeta in E.
    replace (2 * lt * b + (2 * j - 1))%nat with (2 * (lt * b + j) - 1)%nat in E by lia.
    replace (2 * (lt * b + j) - 1 + 1)%nat with (2 * (lt * b + j))%nat in E by lia.
    replace (2 * (lt * b + j) - 1 + 2)%nat with (2 * (lt * b + j) + 1)%nat in E by lia.
    replace (2 * (lt * b + j - 1) + 1)%nat with (2 * (lt * b + j) - 1)%nat by lia. exact E.
  - intros i j Hi Hj. rewrite DG1, !PG by lia. apply sum2_ge; try apply Pos.
    unfold half_x. replace (2 * (i + 1))%nat with (2 * i + 1 + 1)%nat by lia. apply Rge_le, Tri.
  - intros i j Hi Hj. rewrite DC1, !PC by lia. apply sum2_ge; try apply Pos.
    unfold half_x. replace (2 * (i - 1) + 1)%nat with (2 * i - 1)%nat by lia.
    replace (2 * i - 1 + 1)%nat with (2 * i)%nat by lia. apply Rge_le, Tri.
Qed.

Lemma mkgrid_r P G lon1 lat1 lon2 lat2 ls lt : (1 <= ls)%nat -> (1 <= lt)%nat ->
  let C := box_corner lon1 lat1 lon2 lat2 in
  exists g H, mkgrid (r_ops P) G lon1 lat1 lon2 lat2 (Z.of_nat ls) (Z.of_nat lt) = Ok (g, ls, lt) /\
    subdivides (r_ops P) G (corners_pos (r_ops P) C 1 1) C ls lt 1 1 H /\
    grid_of (r_ops P) G H ls lt g.
Proof. apply (mkgrid_ok (r_ops P) (r_laws P) G). Qed.

Lemma one_cell (Q : nat -> nat -> Prop) : Q 0%nat 0%nat -> forall a b, (a < 1)%nat -> (b < 1)%nat -> Q a b.
Proof. intros. replace a with 0%nat by lia. replace b with 0%nat by lia. assumption. Qed.

Theorem C45_mkgrid_great_circles : forall P G lon1 lat1 lon2 lat2 ls lt,
  spherical G -> (1 <= ls)%nat -> (1 <= lt)%nat ->
  hemisphere (point (lon1, lat2)) (point (lon2, lat2)) (point (lon2, lat1)) (point (lon1, lat1)) ->
  exists g, mkgrid (r_ops P) G lon1 lat1 lon2 lat2 (Z.of_nat ls) (Z.of_nat lt) = Ok (g, ls, lt) /\
    lengths_on_sphere (g_a G) g ls lt 1 1.
Proof.
  intros P G lon1 lat1 lon2 lat2 ls lt SG Hls Hlt HH.
  destruct (mkgrid_r P G lon1 lat1 lon2 lat2 ls lt Hls Hlt) as (g & H & E & HS & Hg).
  exists g. split; auto. rewrite <- (Nat.mul_1_r ls) in Hg at 1. rewrite <- (Nat.mul_1_r lt) in Hg at 1.
  eapply lengths_of; eauto. apply one_cell. exact HH.
Qed.

(** For regrid the original cells are those spanned by every ls-th and lt-th corner. *)
Lemma regrid_r P G K loadtxt fs lay o3 fuel a rr : layouts lay -> layouts o3 ->
  regrid (r_ops P) K G loadtxt fs lay o3 fuel a = Ok rr ->
  exists C n m ls lt H,
    rr_ni rr = (ls * n)%nat /\ rr_nj rr = (lt * m)%nat /\ (1 <= n)%nat /\ (1 <= m)%nat /\ (1 <= ls)%nat /\ (1 <= lt)%nat /\
    ra_lon_subscale a = Z.of_nat ls /\ ra_lat_subscale a = Z.of_nat lt /\
    subdivides (r_ops P) G (corners_pos (r_ops P) C n m) C ls lt n m H /\
    grid_of (r_ops P) G H (ls * n) (lt * m) (rr_grid rr).
Proof.
  intros Hlay Ho3 E. apply layouts_order_ok in Hlay, Ho3.
  destruct (regrid_inv (r_ops P) (r_laws P) G K loadtxt fs lay o3 Hlay fuel a rr E)
    as (d & xg & yg & i1 & j1 & i2 & j2 & ls & lt & Es & Ex & Hf & Hi & Hj & Els & Elt & Hls & Hlt & Hfu).
  destruct (regrid_ok (r_ops P) (r_laws P) G K loadtxt fs lay o3 Hlay Ho3 fuel a d xg yg i1 j1 i2 j2 ls lt)
    as (g & H & Er & Hs & Hg); auto.
  rewrite Er in E. inversion E. subst rr. cbn [rr_ni rr_nj rr_grid].
  exists (fun a b => (pick_at xg i1 j1 i2 j2 a b, pick_at yg i1 j1 i2 j2 a b)),
    (cells_i i1 j1 i2 j2), (cells_j i1 j1 i2 j2), ls, lt, H.
  assert (1 <= cells_i i1 j1 i2 j2 /\ 1 <= cells_j i1 j1 i2 j2)%nat.
  { unfold cells_i, cells_j, gap. destruct (Bool.eqb _ _); lia. }
  tauto.
Qed.

Lemma original_corners P G C pos ls lt m n H g :
  subdivides (r_ops P) G pos C ls lt m n H -> grid_of (r_ops P) G H (ls * m) (lt * n) g ->
  forall a b, (a <= m)%nat -> (b <= n)%nat -> original_corner g ls lt a b = point (C a b).
Proof.
  intros (S1 & _) Hg a b Ha Hb. pose proof (grid_of_positions _ _ _ _ _ _ Hg) as (PG & _).
  unfold original_corner. rewrite PG by nia. rewrite <- S1 by auto. rewrite !Nat.mul_assoc. reflexivity.
Qed.

Theorem C45_regrid_great_circles : forall P G K loadtxt fs lay o3 fuel a rr,
  spherical G -> layouts lay -> layouts o3 ->
  regrid (r_ops P) K G loadtxt fs lay o3 fuel a = Ok rr ->
  exists n m ls lt, rr_ni rr = (ls * n)%nat /\ rr_nj rr = (lt * m)%nat /\ (1 <= n)%nat /\ (1 <= m)%nat /\
    ra_lon_subscale a = Z.of_nat ls /\ ra_lat_subscale a = Z.of_nat lt /\
    let c := original_corner (rr_grid rr) ls lt in
    ((forall i j, (i < n)%nat -> (j < m)%nat -> hemisphere (c i j) (c (i + 1) j)%nat (c (i + 1) (j + 1))%nat (c i (j + 1)%nat)) ->
     lengths_on_sphere (g_a G) (rr_grid rr) ls lt n m).
Proof.
  intros P G K loadtxt fs lay o3 fuel a rr SG Hlay Ho3 E.
  destruct (regrid_r P G K loadtxt fs lay o3 fuel a rr Hlay Ho3 E)
    as (C & n & m & ls & lt & H & E1 & E2 & Hn & Hm & Hls & Hlt & El & Et & Hs & Hg).
  exists n, m, ls, lt. repeat (split; [assumption|]). intros c HH.
  eapply lengths_of; eauto. intros i j Hi Hj. specialize (HH i j Hi Hj). unfold c in HH.
  rewrite !(original_corners P G C _ ls lt n m H _ Hs Hg) in HH by lia. exact HH.
Qed.

(** On the unit sphere, 2 x 3 cells between (0W,60N) and (90E,0N): the meridian of length
    pi/3 is cut into pi/9, the equator of length pi/2 into pi/4. *)
Lemma p0 : point (0, 0) = (1, 0, 0).
Proof. unfold point. cbn [fst snd]. rewrite Rmult_0_l, sin_0, cos_0. repeat (f_equal; try ring). Qed.
Lemma p90 : point (90, 0) = (0, 1, 0).
Proof.
  unfold point. cbn [fst snd]. rewrite Rmult_0_l, sin_0, cos_0.
  replace (90 * (PI / 180)) with (PI / 2) by field. rewrite cos_PI2, sin_PI2. repeat (f_equal; try ring).
Qed.
Lemma p60 : point (0, 60) = (/ 2, 0, sqrt 3 / 2).
Proof.
  unfold point. cbn [fst snd]. rewrite Rmult_0_l, sin_0, cos_0.
  replace (60 * (PI / 180)) with (PI / 3) by field. rewrite cos_PI3, sin_PI3. repeat (f_equal; try field).
Qed.
Lemma p9060 : point (90, 60) = (0, / 2, sqrt 3 / 2).
Proof.
  unfold point. cbn [fst snd]. replace (90 * (PI / 180)) with (PI / 2) by field.
  replace (60 * (PI / 180)) with (PI / 3) by field. rewrite cos_PI3, sin_PI3, cos_PI2, sin_PI2. repeat (f_equal; try field).
Qed.
Lemma sqrt3_pos : 0 < sqrt 3. Proof. apply sqrt_lt_R0. lra. Qed.

Definition ex_lengths (r : res (grid R * nat * nat)) : Prop :=
  exists g, r = Ok (g, 2%nat, 3%nat) /\ mat_at (g DYG) 0 1 = PI / 9 /\ mat_at (g DXG) 1 0 = PI / 4.

Example C45_case : ex_lengths (mkgrid (r_ops coq_partial) (sphere 1) 0 60 90 0 2 3).
Proof.
  destruct (C45_mkgrid_great_circles coq_partial (sphere 1) 0 60 90 0 2 3) as (g & E & _ & L1 & _ & L2 & _); try lia.
  - apply sphere_spherical. lra.
  - exists (1, 1, 1). rewrite p0, p90, p60, p9060. pose proof sqrt3_pos. cbn [vdot]. lra.
  - destruct (mkgrid_r coq_partial (sphere 1) 0 60 90 0 2 3) as (g' & H & E' & HS & Hg); try lia.
    rewrite E in E'. injection E' as <-.
    exists g. split; auto.
    rewrite <- (Nat.mul_1_r 2) in Hg at 1. rewrite <- (Nat.mul_1_r 3) in Hg at 1.
    pose proof (original_corners _ _ _ _ _ _ _ _ _ _ HS Hg) as OC. unfold original_corner in OC.
    specialize (L1 0%nat 0%nat 1%nat ltac:(lia) ltac:(lia) ltac:(lia)).
    specialize (L2 0%nat 1%nat 0%nat ltac:(lia) ltac:(lia) ltac:(lia)).
    cbn [Nat.mul Nat.add] in *.
    replace (3 * 0 + 1)%nat with 1%nat in L1 by lia. replace (2 * 0 + 1)%nat with 1%nat in L2 by lia.
    pose proof (OC 0 0 ltac:(lia) ltac:(lia))%nat as O1. pose proof (OC 1 0 ltac:(lia) ltac:(lia))%nat as O2.
    pose proof (OC 0 1 ltac:(lia) ltac:(lia))%nat as O3.
    change (3 * 0)%nat with 0%nat in *. change (2 * 0)%nat with 0%nat in *. change (2 * 1)%nat with 2%nat in *.
    change (3 * 1)%nat with 3%nat in *. change (2 * (0 + 1))%nat with 2%nat in *. change (3 * (0 + 1))%nat with 3%nat in *.
    unfold box_corner in *. cbn [Nat.eqb] in *.
    rewrite L1, L2, O1, O2, O3, p0, p90, p60. cbn [g_a sphere]. unfold gc. cbn [vdot]. split.
    + replace (1 * / 2 + 0 * 0 + 0 * (sqrt 3 / 2)) with (cos (PI / 3)) by (rewrite cos_PI3; field).
      rewrite acos_cos by (pose proof PI_RGT_0; lra). cbn [INR]. field.
    + replace (1 * 0 + 0 * 1 + 0 * 0) with (cos (PI / 2)) by (rewrite cos_PI2; field).
      rewrite acos_cos by (pose proof PI_RGT_0; lra). cbn [INR]. field.
Qed.

(** ** C46 *)

Lemma sum4_nonzero P x y z t : x <> 0 -> y <> 0 -> z <> 0 -> t <> 0 -> sum4 (r_ops P) x y z t = x + y + z + t.
Proof.
  intros X Y Z T. unfold sum4, is0. cbn [neqb nzero nadd r_ops].
  rewrite !(proj2 (req_false _ _)) by auto. reflexivity.
Qed.

Lemma rsum_inner p F f : F 0%nat = 0 -> F p = 0 ->
  (forall i, (0 < i < p)%nat -> F i = f (2 * i - 1)%nat + f (2 * i)%nat) ->
  rsum (p + 1) F = rsum (2 * p - 2) (fun u => f (u + 1)%nat).
Proof.
  intros F0 Fp Fi. destruct p as [|k].
  - replace (2 * 0 - 2)%nat with 0%nat by lia. cbn [rsum Nat.add]. rewrite F0. ring.
  - replace (S k + 1)%nat with (S (S k)) by lia. rewrite rsum_head, F0. cbn [rsum]. rewrite Fp.
    replace (2 * S k - 2)%nat with (2 * k)%nat by lia. rewrite rsum_pairs.
    rewrite (rsum_ext k _ (fun i => f (2 * i + 1)%nat + f (2 * i + 1 + 1)%nat)); [ring|].
    intros i Hi. rewrite Fi by lia. replace (2 * S i - 1)%nat with (2 * i + 1)%nat by lia.
    replace (2 * S i)%nat with (2 * i + 1 + 1)%nat by lia. reflexivity.
Qed.

(** The areas of tracer cells add up to that of all quarter cells [a], 0 <= u < 2p,
    0 <= v < 2q; those of vorticity, u and v cells to that of the quarter cells not on
    the outer ring in the direction(s) in which they straddle. *)
Definition areas_tile (a : nat -> nat -> R) (p q : nat) (g : grid R) : Prop :=
  let total r c f := rsum r (fun i => rsum c (fun j => mat_at (g f) i j)) in
  total p q RAC = rsum (2 * p) (fun u => rsum (2 * q) (fun v => a u v)) /\
  total (p + 1)%nat (q + 1)%nat RAZ = rsum (2 * p - 2) (fun u => rsum (2 * q - 2) (fun v => a (u + 1) (v + 1)))%nat /\
  total (p + 1)%nat q RAW = rsum (2 * p - 2) (fun u => rsum (2 * q) (fun v => a (u + 1)%nat v)) /\
  total p (q + 1)%nat RAS = rsum (2 * p) (fun u => rsum (2 * q - 2) (fun v => a u (v + 1)%nat)).

Lemma tile_of P G H p q g : (1 <= p)%nat -> (1 <= q)%nat -> grid_of (r_ops P) G H p q g ->
  let a := quarter (r_ops P) G H (flat_enough (r_ops P) G H p q) in
  (forall u v, (u < 2 * p)%nat -> (v < 2 * q)%nat -> a u v <> 0) -> areas_tile a p q g.
Proof.
  intros Hp Hq Hg a Ha.
  pose proof (grid_of_areas _ _ _ _ _ _ Hg) as (A1 & A2 & A3 & A4). fold a in A1, A2, A3, A4.
  pose proof (grid_of_zero _ _ _ _ _ _ Hg) as Z.
  assert (Z' : forall f i j, (i < rows_of f p)%nat -> (j < cols_of f q)%nat -> straddles p q f i j -> mat_at (g f) i j = 0) by exact Z.
  split; [|split; [|split]].
  - rewrite rsum_pairs. apply rsum_ext. intros i Hi. rewrite !rsum_pairs, <- rsum_plus. apply rsum_ext. intros j Hj.
    rewrite A1, sum4_nonzero by (auto; apply Ha; lia). ring.
  - apply (rsum_inner p _ (fun u => rsum (2 * q - 2) (fun v => a u (v + 1)%nat))).
    + apply rsum_const0. intros j Hj. apply Z'; [rewrite rows_of_delta; cbn; lia|rewrite cols_of_delta; cbn; lia|cbn; auto].
    + apply rsum_const0. intros j Hj. apply Z'; [rewrite rows_of_delta; cbn; lia|rewrite cols_of_delta; cbn; lia|cbn; auto].
    + intros i Hi. rewrite <- rsum_plus. apply (rsum_inner q _ (fun v => a (2 * i - 1)%nat v + a (2 * i)%nat v)).
      * apply Z'; [rewrite rows_of_delta; cbn; lia|rewrite cols_of_delta; cbn; lia|cbn; auto].
      * apply Z'; [rewrite rows_of_delta; cbn; lia|rewrite cols_of_delta; cbn; lia|cbn; auto].
      * intros j Hj. rewrite A2, sum4_nonzero by (auto; apply Ha; lia). ring.
  - apply (rsum_inner p _ (fun u => rsum (2 * q) (fun v => a u v))).
    + apply rsum_const0. intros j Hj. apply Z'; [rewrite rows_of_delta; cbn; lia|rewrite cols_of_delta; cbn; lia|cbn; auto].
    + apply rsum_const0. intros j Hj. apply Z'; [rewrite rows_of_delta; cbn; lia|rewrite cols_of_delta; cbn; lia|cbn; auto].
    + intros i Hi. rewrite <- rsum_plus, rsum_pairs. apply rsum_ext. intros j Hj.
      rewrite A3, sum4_nonzero by (auto; apply Ha; lia). ring.
  - rewrite rsum_pairs. apply rsum_ext. intros i Hi. rewrite <- rsum_plus.
    apply (rsum_inner q _ (fun v => a (2 * i)%nat v + a (2 * i + 1)%nat v)).
    + apply Z'; [rewrite rows_of_delta; cbn; lia|rewrite cols_of_delta; cbn; lia|cbn; auto].
    + apply Z'; [rewrite rows_of_delta; cbn; lia|rewrite cols_of_delta; cbn; lia|cbn; auto].
    + intros j Hj. rewrite A4, sum4_nonzero by (auto; apply Ha; lia). ring.
Qed.

(** For every compute grid, every geodesic and both area formulas. *)
Theorem C46_areas_tile : forall P G (cg : mat (R * R)) p q,
  (1 <= p)%nat -> (1 <= q)%nat -> mrows cg = (2 * p + 3)%nat -> mcols cg = (2 * q + 3)%nat ->
  let H := fun u v => mat_at cg (1 + u) (1 + v) in
  let a := quarter (r_ops P) G H (flat_enough (r_ops P) G H p q) in
  exists g, tomitgrid (r_ops P) G cg 0 1 (1 + 2 * p) (1 + 2 * p + 1) 0 1 (1 + 2 * q) (1 + 2 * q + 1) = Ok g /\
    ((forall u v, (u < 2 * p)%nat -> (v < 2 * q)%nat -> a u v <> 0) -> areas_tile a p q g).
Proof.
  intros P G cg p q Hp Hq Hr Hc H a.
  destruct (tomitgrid_spec (r_ops P) (r_laws P) G cg p q Hr Hc) as (g & E & Hg).
  exists g. split; auto. now apply tile_of.
Qed.

(** ** C63 *)

(** [w] is strictly inside the arc from [u] to [v] *)
Definition between (u v w : vec) : Prop :=
  unit w /\ exists s t, 0 < s /\ 0 < t /\ w = vplus (vscale s u) (vscale t v).

Definition cell_corners (cart : mat vec) (x y : nat) (A B C D : vec) : Prop :=
  mat_at cart x y = A /\ mat_at cart (x + 1) y = B /\ mat_at cart (x + 1) (y + 1) = C /\ mat_at cart x (y + 1) = D.

Lemma uarea_squad P cart x y A B C D : exact P -> cell_corners cart x y A B C D -> convex A B C D ->
  mat_at (squad_uarea (r_ops P) cart) x y = squad A B C D.
Proof.
  intros EP (<- & <- & <- & <-) H. pose proof (convex_apart _ _ _ _ H) as (AB & BC & AC & CD & AD & BD).
  destruct H as (UA & UB & UC & UD & _).
  exact (C43_two_excesses P EP cart x y UA UB UC UD AB BC AC CD AD).
Qed.

(** The spherical area of a convex cell does not depend on which diagonal it is cut along:
    naming the corners from another one gives the same area. *)
Theorem C63_any_diagonal : forall P cart cart' x y x' y' A B C D, exact P ->
  cell_corners cart x y A B C D -> cell_corners cart' x' y' B C D A -> convex A B C D ->
  mat_at (squad_uarea (r_ops P) cart') x' y' = mat_at (squad_uarea (r_ops P) cart) x y.
Proof.
  intros P cart cart' x y x' y' A B C D EP K K' H.
  rewrite (uarea_squad P _ _ _ _ _ _ _ EP K H), (uarea_squad P _ _ _ _ _ _ _ EP K' (convex_rot _ _ _ _ H)).
  now apply squad_diagonal.
Qed.

(** Areas are additive: cutting a convex cell from a point E of one side to a point F of the
    opposite one gives two convex cells whose areas add up to that of the whole. *)
Theorem C63_areas_add_up : forall P cart cart1 cart2 x y x1 y1 x2 y2 A B C D E F, exact P ->
  cell_corners cart x y A B C D -> convex A B C D -> between A B E -> between D C F ->
  cell_corners cart1 x1 y1 A E F D -> cell_corners cart2 x2 y2 E B C F ->
  convex A E F D /\ convex E B C F /\
  mat_at (squad_uarea (r_ops P) cart) x y
  = mat_at (squad_uarea (r_ops P) cart1) x1 y1 + mat_at (squad_uarea (r_ops P) cart2) x2 y2.
Proof.
  intros P cart cart1 cart2 x y x1 y1 x2 y2 A B C D E F EP K H (UE & a & b & Ha & Hb & EE) (UF & d & c & Hd & Hc & EF) K1 K2.
  assert (EF' : F = vplus (vscale c C) (vscale d D)) by (rewrite EF; clear; vring).
  destruct (convex_cut A B C D E F a b c d) as (H1 & H2); auto.
  split; auto. split; auto.
  rewrite (uarea_squad P _ _ _ _ _ _ _ EP K H), (uarea_squad P _ _ _ _ _ _ _ EP K1 H1), (uarea_squad P _ _ _ _ _ _ _ EP K2 H2).
  apply (squad_cut A B C D E F a b c d); auto.
Qed.

(** Latitude-longitude boxes are convex cells. *)
Lemma box_convex lon1 lat1 lon2 lat2 : -90 < lat1 < 90 -> -90 < lat2 < 90 -> lat1 <> lat2 ->
  sin ((lon2 - lon1) * (PI / 180)) <> 0 ->
  convex (point (lon1, lat2)) (point (lon2, lat2)) (point (lon2, lat1)) (point (lon1, lat1)).
Proof.
  intros L1 L2 Hne Hs. pose proof PI_RGT_0 as PP.
  repeat (split; [apply point_unit|]).
  assert (Cp : forall l, -90 < l < 90 -> 0 < cos (l * (PI / 180))).
  { intros l Hl. apply cos_gt_0; nra. }
  split.
  - assert (E : triple (point (lon1, lat2)) (point (lon2, lat2)) (point (lon2, lat1))
      = cos (lat2 * (PI / 180)) * sin (lat1 * (PI / 180) - lat2 * (PI / 180)) * sin ((lon2 - lon1) * (PI / 180))).
    { replace ((lon2 - lon1) * (PI / 180)) with (lon2 * (PI / 180) - lon1 * (PI / 180)) by ring. rewrite !sin_minus. unfold triple, point. cbn [fst snd vdot vcross]. ring. }
    rewrite E. repeat apply Rmult_integral_contrapositive_currified; auto.
    + specialize (Cp lat2 L2). lra.
    + intros Z. set (d := lat1 * (PI / 180) - lat2 * (PI / 180)) in *.
      assert (Hd : - PI < d < PI) by (unfold d; nra).
      assert (Hd0 : d <> 0).
      { unfold d. intros K. apply Hne. apply Rmult_eq_reg_r with (PI / 180); lra. }
      destruct (Rtotal_order d 0) as [K|[K|K]]; [|lra|].
      * assert (0 < sin (- d)) by (apply sin_gt_0; lra). rewrite sin_neg in *. lra.
      * assert (0 < sin d) by (apply sin_gt_0; lra). lra.
  - exists (cos (lat1 * (PI / 180))), (cos (lat2 * (PI / 180))), (cos (lat1 * (PI / 180))), (cos (lat2 * (PI / 180))).
    repeat (split; [auto|]). unfold point. cbn [fst snd vplus vscale]. repeat (f_equal; try ring).
Qed.

Lemma sin_turn_90 : sin (90 * (PI / 180)) = 1.
Proof. replace (90 * (PI / 180)) with (PI / 2) by field. apply sin_PI2. Qed.

(** The quarter of a hemispherical cap below 60N, cut along the meridian of 45E. *)
Example C63_case :
  let A := point (0, 0) in let B := point (90, 0) in let C := point (90, 60) in let D := point (0, 60) in
  let E := unitise (vplus A B) in let F := unitise (vplus C D) in
  convex A B C D /\ between A B E /\ between D C F /\ 0 < squad A E F D /\ squad A E F D < squad A B C D.
Proof.
  intros A B C D E F.
  assert (H : convex A B C D).
  { apply (box_convex 0 60 90 0); try lra. rewrite Rminus_0_r, sin_turn_90. lra. }
  pose proof sqrt3_pos as S3.
  assert (Bt : forall u v, vplus u v <> zerov -> between u v (unitise (vplus u v))).
  { intros u v N. split; [now apply unitise_unit|]. exists (/ vnorm (vplus u v)), (/ vnorm (vplus u v)).
    apply vnorm_pos in N. assert (0 < / vnorm (vplus u v)) by now apply Rinv_0_lt_compat.
    split; auto. split; auto. unfold unitise. generalize (/ vnorm (vplus u v)). vring. }
  assert (BE : between A B E).
  { apply Bt. unfold A, B. rewrite p0, p90. unfold zerov. cbn. intros K. inversion K. lra. }
  assert (BF : between D C F).
  { unfold F. replace (vplus C D) with (vplus D C) by (generalize C D; vring).
    apply Bt. unfold C, D. rewrite p60, p9060. unfold zerov. cbn. intros K. inversion K. lra. }
  split; auto. split; auto. split; auto.
  destruct BE as (UE & a & b & Ha & Hb & EE). destruct BF as (UF & d & c & Hd & Hc & EF).
  assert (EF' : F = vplus (vscale c C) (vscale d D)) by (rewrite EF; generalize C D; vring).
  destruct (convex_cut A B C D E F a b c d) as (H1 & H2); auto.
  pose proof (squad_pos _ _ _ _ H1). pose proof (squad_pos _ _ _ _ H2).
  pose proof (squad_cut A B C D E F a b c d H UE UF Ha Hb Hc Hd EE EF'). lra.
Qed.

(** ** C64 *)
Definition total_rac (g : grid R) (p q : nat) : R := rsum p (fun i => rsum q (fun j => mat_at (g RAC) i j)).

Lemma total_of P G C pos ls lt m n H g : exact P -> spherical G ->
  (1 <= ls)%nat -> (1 <= lt)%nat -> (1 <= m)%nat -> (1 <= n)%nat ->
  subdivides (r_ops P) G pos C ls lt m n H -> grid_of (r_ops P) G H (ls * m) (lt * n) g ->
  (forall a b, (a < m)%nat -> (b < n)%nat ->
     convex (point (C a b)) (point (C (a + 1)%nat b)) (point (C (a + 1)%nat (b + 1)%nat)) (point (C a (b + 1)%nat))) ->
  flat_enough (r_ops P) G H (ls * m) (lt * n) = false ->
  (forall i j, (i < ls * m)%nat -> (j < lt * n)%nat -> 0 < mat_at (g RAC) i j) /\
  total_rac g (ls * m) (lt * n) = g_a G * g_a G *
    rsum m (fun a => rsum n (fun b =>
      squad (point (C a b)) (point (C (a + 1)%nat b)) (point (C (a + 1)%nat (b + 1)%nat)) (point (C a (b + 1)%nat)))).
Proof.
  intros EP SG Hls Hlt Hm Hn HS Hg HC Hf.
  assert (Q := quarter_squad P G C pos ls lt m n H EP SG Hls Hlt Hm Hn HS HC).
  assert (Q' : forall u v, (u < 2 * (ls * m))%nat -> (v < 2 * (lt * n))%nat -> 0 < quarter (r_ops P) G H false u v).
  { intros u v Hu Hv. apply Q; lia. }
  split.
  - intros i j Hi Hj. pose proof (grid_of_areas _ _ _ _ _ _ Hg) as (A1 & _). rewrite Hf in A1.
    assert (K : forall u v, (u < 2 * (ls * m))%nat -> (v < 2 * (lt * n))%nat -> quarter (r_ops P) G H false u v <> 0).
    { intros u v Hu Hv. specialize (Q' u v Hu Hv). lra. }
    rewrite A1, sum4_nonzero by (auto; apply K; lia).
    repeat apply Rplus_lt_0_compat; apply Q'; lia.
  - pose proof (tile_of P G H (ls * m) (lt * n) g ltac:(nia) ltac:(nia) Hg) as T. cbv zeta in T. rewrite Hf in T.
    destruct T as (T & _). { intros u v Hu Hv. specialize (Q' u v Hu Hv). lra. }
    unfold total_rac. rewrite T, <- (total_area P G C pos ls lt m n H SG Hls Hlt Hm Hn HS HC), <- rsum_scale.
    replace (2 * (ls * m))%nat with (2 * ls * m)%nat by lia. replace (2 * (lt * n))%nat with (2 * lt * n)%nat by lia.
    apply rsum_ext. intros u Hu. rewrite <- rsum_scale. apply rsum_ext. intros v Hv. apply (Q u v Hu Hv).
Qed.

(** mkgrid on a sphere: when the spherical area formula is used, every cell area is positive
    and the areas add up to that of the spherical quadrilateral spanned by the box's corners,
    whatever the subscales. *)
Theorem C64_mkgrid_total_area : forall P G lon1 lat1 lon2 lat2 ls lt,
  exact P -> spherical G -> (1 <= ls)%nat -> (1 <= lt)%nat ->
  -90 < lat1 < 90 -> -90 < lat2 < 90 -> lat1 <> lat2 -> sin ((lon2 - lon1) * (PI / 180)) <> 0 ->
  let C := box_corner lon1 lat1 lon2 lat2 in
  exists g H, mkgrid (r_ops P) G lon1 lat1 lon2 lat2 (Z.of_nat ls) (Z.of_nat lt) = Ok (g, ls, lt) /\
    subdivides (r_ops P) G (corners_pos (r_ops P) C 1 1) C ls lt 1 1 H /\
    (flat_enough (r_ops P) G H ls lt = false ->
     (forall i j, (i < ls)%nat -> (j < lt)%nat -> 0 < mat_at (g RAC) i j) /\
     total_rac g ls lt = g_a G * g_a G *
       squad (point (lon1, lat2)) (point (lon2, lat2)) (point (lon2, lat1)) (point (lon1, lat1))).
Proof.
  intros P G lon1 lat1 lon2 lat2 ls lt EP SG Hls Hlt L1 L2 Hne Hs C.
  destruct (mkgrid_r P G lon1 lat1 lon2 lat2 ls lt Hls Hlt) as (g & H & E & HS & Hg).
  exists g, H. split; auto. split; auto. intros Hf.
  pose proof (total_of P G C _ ls lt 1 1 H g EP SG Hls Hlt (le_n 1) (le_n 1) HS) as T.
  rewrite !Nat.mul_1_r in T. specialize (T Hg).
  destruct T as (T1 & T2); auto.
  - apply one_cell. now apply box_convex.
  - split; auto. rewrite T2. cbn [rsum Nat.add]. unfold C, box_corner. cbn [Nat.eqb]. ring.
Qed.

Theorem C64_regrid_total_area : forall P G K loadtxt fs lay o3 fuel a rr,
  exact P -> spherical G -> layouts lay -> layouts o3 ->
  regrid (r_ops P) K G loadtxt fs lay o3 fuel a = Ok rr ->
  exists C n m ls lt H, rr_ni rr = (ls * n)%nat /\ rr_nj rr = (lt * m)%nat /\ (1 <= n)%nat /\ (1 <= m)%nat /\
    ra_lon_subscale a = Z.of_nat ls /\ ra_lat_subscale a = Z.of_nat lt /\
    subdivides (r_ops P) G (corners_pos (r_ops P) C n m) C ls lt n m H /\
    let c := original_corner (rr_grid rr) ls lt in
    let cell f i j := f (c i j) (c (i + 1) j)%nat (c (i + 1) (j + 1))%nat (c i (j + 1)%nat) in
    ((forall i j, (i < n)%nat -> (j < m)%nat -> cell convex i j) ->
     flat_enough (r_ops P) G H (ls * n) (lt * m) = false ->
     (forall i j, (i < ls * n)%nat -> (j < lt * m)%nat -> 0 < mat_at (rr_grid rr RAC) i j) /\
     total_rac (rr_grid rr) (ls * n) (lt * m) =
       g_a G * g_a G * rsum n (fun i => rsum m (fun j => squad (c i j) (c (i + 1) j)%nat (c (i + 1) (j + 1))%nat (c i (j + 1)%nat)))).
Proof.
  intros P G K loadtxt fs lay o3 fuel a rr EP SG Hlay Ho3 E.
  destruct (regrid_r P G K loadtxt fs lay o3 fuel a rr Hlay Ho3 E)
    as (C & n & m & ls & lt & H & E1 & E2 & Hn & Hm & Hls & Hlt & El & Et & Hs & Hg).
  exists C, n, m, ls, lt, H. repeat (split; [assumption|]). intros c cell HC Hf.
  assert (OC := original_corners P G C _ ls lt n m H _ Hs Hg).
  destruct (total_of P G C _ ls lt n m H (rr_grid rr) EP SG Hls Hlt Hn Hm Hs Hg) as (T1 & T2); auto.
  - intros i j Hi Hj. specialize (HC i j Hi Hj). unfold cell, c in HC. rewrite !OC in HC by lia. exact HC.
  - split; auto. rewrite T2. f_equal. apply rsum_ext. intros i Hi. apply rsum_ext. intros j Hj.
    unfold c. rewrite !OC by lia. reflexivity.
Qed.

(** When the spherical formula is used for sure: one half edge alone makes the mean large. *)
Lemma mean_lower P l x : exact P -> (forall y, In y l -> 0 <= y) -> In x l -> 0 < x ->
  x / INR (length l) <= mean_of (r_ops P) (filter (fun x => negb (neqb (r_ops P) x (nzero (r_ops P)))) l).
Proof.
  intros EP Hl Hx Hp. cbn [neqb nzero r_ops].
  assert (Hi : In x (filter (fun x => negb (req x 0)) l)).
  { apply filter_In. split; auto. rewrite (proj2 (req_false x 0)) by lra. reflexivity. }
  assert (Hsub : forall y, In y (filter (fun x => negb (req x 0)) l) -> 0 <= y).
  { intros y Hy. apply filter_In in Hy. apply Hl. tauto. }
  assert (Hlen : (length (filter (fun x => negb (req x 0)) l) <= length l)%nat).
  { clear. induction l as [|a l IH]; cbn; auto. destruct (negb _); cbn; lia. }
  revert Hi Hsub Hlen. generalize (filter (fun x => negb (req x 0)) l). intros fl Hi Hsub Hlen.
  assert (S : x <= fold_right Rplus 0 fl).
  { clear - Hi Hsub. assert (K : forall k, (forall y, In y k -> 0 <= y) -> 0 <= fold_right Rplus 0 k).
    { induction k as [|a k IH]; intros H; cbn; [lra|]. specialize (IH (fun y h => H y (or_intror h))).
      specialize (H a (or_introl eq_refl)). lra. }
    induction fl as [|a fl IH]; cbn in *; [tauto|]. destruct Hi as [->|Hi].
    - specialize (K fl (fun y h => Hsub y (or_intror h))). lra.
    - specialize (IH Hi (fun y h => Hsub y (or_intror h))). specialize (Hsub a (or_introl eq_refl)). lra. }
  destruct fl as [|a fl]; [destruct Hi|]. unfold mean_of. cbn [nmean r_ops].
  rewrite (ex_mean EP) by discriminate.
  set (k := a :: fl) in *. assert (K0 : (0 < length k)%nat) by (cbn; lia).
  assert (L1 : 0 < INR (length k)) by (now apply lt_0_INR).
  assert (L2 : INR (length k) <= INR (length l)) by (now apply le_INR).
  apply Rle_trans with (x / INR (length k)).
  - apply Rmult_le_compat_l; [lra|]. apply Rinv_le_contravar; auto.
  - apply Rmult_le_compat_r; auto. left. now apply Rinv_0_lt_compat.
Qed.

Lemma not_flat P G H p q u v : exact P -> (forall a b, 0 <= g_inv G a b) -> (u < 2 * p)%nat -> (v <= 2 * q)%nat ->
  10000 * INR (2 * p * (2 * q + 1)) <= half_x G H u v -> flat_enough (r_ops P) G H p q = false.
Proof.
  intros EP Hnn Hu Hv Hx. unfold flat_enough.
  replace (nltb (r_ops P) (mean_of (r_ops P) (nonzero_x (r_ops P) G H p q)) (n10e3 (r_ops P))) with false; auto.
  symmetry. cbn [nltb n10e3 r_ops]. apply rlt_false.
  assert (N0 : 0 < INR (2 * p * (2 * q + 1))) by (apply lt_0_INR; nia).
  eapply Rle_trans; [|apply (mean_lower P _ (half_x G H u v) EP)].
  - rewrite map_length, prod_length, !seq_length.
    apply Rmult_le_reg_r with (INR (2 * p * (2 * q + 1))); auto. unfold Rdiv. rewrite Rmult_assoc, Rinv_l by lra. lra.
  - intros y Hy. apply in_map_iff in Hy. destruct Hy as (uv & <- & _). apply Hnn.
  - apply in_map_iff. exists (u, v). split; auto. apply in_prod; apply in_seq; lia.
  - lra.
Qed.

(** 1 x 1 cells of 20 degrees, with half cells of 10 degrees *)
Definition ex_tile_cg : mat (R * R) := mkmat 5 5 (fun i j => (10 * INR (i - 1), 10 * INR (j - 1))).
Definition ex_tile_geod : geod R := {| g_inv _ _ := 1000000; g_npt p _ _ _ := p; g_a := 1 |}.
Definition ex_tiles (r : res (grid R)) : Prop :=
  exists g, r = Ok g /\ 0 < mat_at (g RAC) 0 0 /\
    mat_at (g RAC) 0 0 = squad (point (0, 0)) (point (10, 0)) (point (10, 10)) (point (0, 10))
                       + squad (point (0, 10)) (point (10, 10)) (point (10, 20)) (point (0, 20))
                       + (squad (point (10, 0)) (point (20, 0)) (point (20, 10)) (point (10, 10))
                       + squad (point (10, 10)) (point (20, 10)) (point (20, 20)) (point (10, 20))).

Example C46_case : ex_tiles (tomitgrid (r_ops coq_partial) ex_tile_geod ex_tile_cg 0 1 3 4 0 1 3 4).
Proof.
  destruct (C46_areas_tile coq_partial ex_tile_geod ex_tile_cg 1 1) as (g & E & T); try lia; try reflexivity.
  exists g. split; [exact E|]. clear E.
  set (H := fun u v => mat_at ex_tile_cg (1 + u) (1 + v)) in *.
  assert (Hf : flat_enough (r_ops coq_partial) ex_tile_geod H 1 1 = false).
  { apply (not_flat _ _ _ _ _ 0 0); try lia; [apply coq_exact|intros; cbn; lra|].
    replace (2 * 1 * (2 * 1 + 1))%nat with 6%nat by lia. cbn. lra. }
  rewrite Hf in T.
  assert (S10 : forall x, sin ((10 + x - x) * (PI / 180)) <> 0).
  { intros x. replace ((10 + x - x) * (PI / 180)) with (PI / 18) by field. pose proof PI_RGT_0.
    assert (0 < sin (PI / 18)) by (apply sin_gt_0; lra). lra. }
  assert (Q : forall u v, (u < 2)%nat -> (v < 2)%nat ->
    let s := squad (point (H u v)) (point (H (u + 1) v))%nat (point (H (u + 1) (v + 1)))%nat (point (H u (v + 1)%nat)) in
    quarter (r_ops coq_partial) ex_tile_geod H false u v = s /\ 0 < s).
  { intros u v Hu Hv s.
    assert (K : convex (point (H u v)) (point (H (u + 1) v))%nat (point (H (u + 1) (v + 1)))%nat (point (H u (v + 1)%nat))).
    { unfold H, ex_tile_cg. cbn [mat_at].
      replace (1 + u - 1)%nat with u by lia. replace (1 + v - 1)%nat with v by lia.
      replace (1 + (u + 1) - 1)%nat with (u + 1)%nat by lia. replace (1 + (v + 1) - 1)%nat with (v + 1)%nat by lia.
      rewrite !plus_INR. cbn [INR].
      assert (0 <= INR v <= 1) by (destruct v as [|[|]]; try lia; cbn; lra).
      apply box_convex; try lra.
      replace (10 * (INR u + 1) - 10 * INR u) with (10 + INR u - INR u) by ring. apply S10. }
    split; [|now apply squad_pos].
    pose proof (convex_apart _ _ _ _ K) as (AB & BC & AC & CD & AD & BD).
    unfold quarter. cbn [nmul g_a ex_tile_geod r_ops]. rewrite !cart1_point, <- !surjective_pairing.
    rewrite squad1_r; auto using point_unit, coq_exact. unfold s. ring. }
  destruct T as (T & _).
  { intros u v Hu Hv. destruct (Q u v) as (-> & ?); try lia. lra. }
  replace (2 * 1)%nat with 2%nat in T by lia. cbn [rsum] in T. rewrite !Rplus_0_l in T.
  destruct (Q 0%nat 0%nat) as (E1 & P1); try lia. destruct (Q 0%nat 1%nat) as (E2 & P2); try lia.
  destruct (Q 1%nat 0%nat) as (E3 & P3); try lia. destruct (Q 1%nat 1%nat) as (E4 & P4); try lia.
  rewrite E1, E2, E3, E4 in T. rewrite T. split; [lra|].
  unfold H, ex_tile_cg. cbn [mat_at Nat.add Nat.sub INR].
  replace (10 * 0) with 0 by ring. replace (10 * (1 + 1)) with 20 by ring. replace (10 * 1) with 10 by ring. reflexivity.
Qed.

(** The Earth as a sphere: 6 cells between the equator and 60N, 0E and 90E. *)
Definition ex_total (r : res (grid R * nat * nat)) : Prop :=
  exists g, r = Ok (g, 2%nat, 3%nat) /\ 0 < mat_at (g RAC) 1 1 /\
    total_rac g 2 3 = 6371000 * 6371000 * squad (1, 0, 0) (0, 1, 0) (0, / 2, sqrt 3 / 2) (/ 2, 0, sqrt 3 / 2).

Example C64_case : ex_total (mkgrid (r_ops coq_partial) (sphere 6371000) 0 60 90 0 2 3).
Proof.
  assert (SG : spherical (sphere 6371000)) by (apply sphere_spherical; lra).
  assert (S90 : sin ((90 - 0) * (PI / 180)) <> 0) by (rewrite Rminus_0_r, sin_turn_90; lra).
  destruct (C64_mkgrid_total_area coq_partial (sphere 6371000) 0 60 90 0 2 3) as (g & H & E & HS & T); try lia; try lra;
    auto using coq_exact.
  destruct T as (T1 & T2).
  - apply (not_flat _ _ _ _ _ 0 0); try lia; [apply coq_exact| |].
    + intros. cbn. apply Rmult_le_pos; [lra|]. apply gc_range.
    + pose proof (box_convex 0 60 90 0 ltac:(lra) ltac:(lra) ltac:(lra) S90) as HC.
      assert (XP := x_pieces coq_partial (sphere 6371000) _ _ 2 3 1 1 H SG ltac:(lia) ltac:(lia) HS
        (one_cell _ (convex_hemisphere _ _ _ _ HC)) ltac:(lia) ltac:(lia) 0%nat 0%nat 0%nat 1%nat ltac:(lia) ltac:(lia) ltac:(lia)).
      cbv beta in XP. unfold half_x. rewrite (sp_inv _ SG).
      replace (2 * 2 * 0 + 0)%nat with 0%nat in XP by lia. replace (2 * 3 * 0)%nat with 0%nat in XP by lia.
      replace (2 * 2 * 0)%nat with 0%nat in XP by lia.
      rewrite XP. replace (2 * 2 * (0 + 1))%nat with (2 * 2 * 1)%nat by lia.
      destruct HS as (S1 & _).
      pose proof (S1 0%nat 0%nat ltac:(lia) ltac:(lia)) as C0. pose proof (S1 1%nat 0%nat ltac:(lia) ltac:(lia)) as C1.
      replace (2 * 2 * 0)%nat with 0%nat in C0 by lia. replace (2 * 3 * 0)%nat with 0%nat in C0, C1 by lia.
      rewrite C0, C1. unfold box_corner. cbn [Nat.eqb]. rewrite p0, p90. unfold gc. cbn [vdot].
      replace (1 * 0 + 0 * 1 + 0 * 0) with (cos (PI / 2)) by (rewrite cos_PI2; ring).
      rewrite acos_cos by (pose proof PI_RGT_0; lra). pose proof PI2_1.
      replace (2 * 2 * (2 * 3 + 1))%nat with 28%nat by lia. replace (2 * 2)%nat with 4%nat by lia.
      cbn [g_a sphere]. rewrite !INR_IZR_INZ. cbn [Z.of_nat Pos.of_succ_nat Pos.succ]. lra.
  - exists g. split; [exact E|]. split; [apply T1; lia|]. rewrite T2, p0, p90, p60, p9060. reflexivity.
Qed.
