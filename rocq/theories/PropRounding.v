(** Properties C83-C86: how accurate the geometry is in double precision. *)
From Coq Require Import Reals ZArith Lia Lra Psatz Bool List.
Import ListNotations.
From Flocq Require Import Core IEEE754.BinarySingleNaN IEEE754.Binary IEEE754.Bits.
From Verif Require Import Prelude Mat MatFacts Num Fields Util ComputeGrid Float64 Float64Facts PyFloatFacts FloorDivFacts RealInst RealFacts
  SphereFacts SphereCut SphereGeod SpecGrid SpecHalf TomitFacts TomitSpec MkGrid PropMkGrid PiBounds RoundFacts RoundCart RoundGrid
  SphereFlat PropDegenerate Samples.
Local Open Scope R_scope.

(** ** C83 *)

(** The point on the unit sphere meant by two doubles, degrees east and north. *)
Definition meant (p : binary64 * binary64) : vec := point (R64 (fst p), R64 (snd p)).

(** With a C library whose sine and cosine are within d for angles up to 7, the coordinates
    computed for positions within 360 degrees are within 3 (d + 2^-49) of the exact ones:
    for a library correct to one unit in the last place, about 18 units in the last place. *)
Theorem C83_cartesian_accuracy : forall L d lons lats rad cart,
  good_libm d L -> 0 <= d <= / 2000 ->
  lonlat2cart (b64ops L) lons lats rad = Ok cart ->
  forall i j, in_range (mat_at lons i j, mat_at lats i j) ->
  let c := mat_at cart i j in let m := meant (mat_at lons i j, mat_at lats i j) in
  all3 (fun x => finite x = true) c /\
  coords (fun a x => Rabs (a - x) <= 3 * (d + bpow radix2 (-49))) (val c) m.
Proof.
  intros L d lons lats rad cart GL D H i j R. unfold lonlat2cart in H. destruct (negb _); [discriminate|]. injection H as <-.
  cbn [mat_at]. cbv zeta. destruct (cart_near L d _ GL D R) as (B & E). split; [|exact E].
  cbn [fst snd] in B. destruct (cart1 (b64ops L) (mat_at lons i j) (mat_at lats i j)) as [[x y] z].
  destruct B as ((? & _) & (? & _) & (? & _)). repeat split; assumption.
Qed.

(** They are that close to the point meant, and to the unit sphere. *)
Theorem C83_near_the_sphere : forall L d lons lats rad cart,
  good_libm d L -> 0 <= d <= / 2000 ->
  lonlat2cart (b64ops L) lons lats rad = Ok cart ->
  forall i j, in_range (mat_at lons i j, mat_at lats i j) ->
  vnorm (vminus (val (mat_at cart i j)) (meant (mat_at lons i j, mat_at lats i j))) <= 6 * (d + bpow radix2 (-49)) /\
  Rabs (vnorm (val (mat_at cart i j)) - 1) <= 6 * (d + bpow radix2 (-49)).
Proof.
  intros L d lons lats rad cart GL D H i j R.
  destruct (C83_cartesian_accuracy L d lons lats rad cart GL D H i j R) as (_ & E).
  apply coords_norm in E; [|pose proof (bpow_ge_0 radix2 (-49)); lra].
  assert (E' : vnorm (vminus (val (mat_at cart i j)) (meant (mat_at lons i j, mat_at lats i j))) <= 6 * (d + bpow radix2 (-49))) by lra.
  split; [exact E'|]. pose proof (vnorm_near (val (mat_at cart i j)) (meant (mat_at lons i j, mat_at lats i j))) as N.
  replace (vnorm (meant (mat_at lons i j, mat_at lats i j))) with 1 in N; [lra|].
  unfold vnorm, meant. rewrite point_unit. symmetry. apply sqrt_1.
Qed.

(** ** C84 *)

Lemma areas_entry {F} (N : numops F) G cg ex ey m x y : use_planar N ex ey = true -> areas N G cg ex ey = Ok m ->
  mat_at m x y = quarter N G (fun i j => mat_at cg i j) true x y.
Proof.
  intros PL H. unfold areas in H. destruct (lonlat2cart _ _ _ _) as [cart|] eqn:EC; [|discriminate]. cbn [rbind] in H. rewrite PL in H.
  unfold lonlat2cart in EC. destruct (negb _); [discriminate|]. injection EC as <-. injection H as <-. reflexivity.
Qed.

(** areas() with its planar formula: every entry is finite, not negative, and within
    4 e (s + e) a^2, where e = 6 (d + 2^-49), of a^2 times the area of the quadrilateral meant
    (half the product of its diagonals, C42), where s bounds the distances of its corners. *)
Theorem C84_planar_areas : forall L G d cg ex ey m s,
  good_libm d L -> 0 <= d <= / 2000 -> good_radius (g_a G) -> s <= 2 ->
  use_planar (b64ops L) ex ey = true -> areas (b64ops L) G cg ex ey = Ok m ->
  forall x y,
  let c i j := mat_at cg i j in
  in_range (c x y) -> in_range (c (x + 1)%nat y) -> in_range (c (x + 1)%nat (y + 1)%nat) -> in_range (c x (y + 1)%nat) ->
  let V i j := meant (c i j) in
  chords s (V x y) (V (x + 1)%nat y) (V (x + 1)%nat (y + 1)%nat) (V x (y + 1)%nat) ->
  let e := 6 * (d + bpow radix2 (-49)) in let w := R64 (g_a G) * R64 (g_a G) in
  finite (mat_at m x y) = true /\ 0 <= R64 (mat_at m x y) /\
  Rabs (R64 (mat_at m x y) - w * quad (V x y) (V (x + 1)%nat y) (V (x + 1)%nat (y + 1)%nat) (V x (y + 1)%nat)) <= 4 * e * (s + e) * w.
Proof.
  intros L G d cg ex ey m s GL D GR S PL H x y c R1 R2 R3 R4 V CH e w.
  rewrite (areas_entry _ _ _ _ _ _ x y PL H).
  destruct (quarter_near L G d c x y s GL D GR R1 R2 R3 R4 CH S) as (_ & Q1 & Q2 & Q3).
  split; [exact Q1|]. split; [exact Q2|].
  replace (e6 d) with e in Q3 by (unfold e6, e3, r49, e; ring). exact Q3.
Qed.

(** Four numbers added up to w times the sum of four areas. *)
Definition adds_up (d s w : R) (r : binary64) (A B C D : R) : Prop :=
  let e := 6 * (d + bpow radix2 (-49)) in
  finite r = true /\ 0 <= R64 r /\ Rabs (R64 r - w * (A + B + C + D)) <= 17 * e * (s + e) * w.

(** The areas of a grid of p x q cells, when the planar formula is used.  Each is within the
    bound of the sum over its four quarters, if no quarter is so small that it might be
    computed as zero. *)
Theorem C84_planar_grid : forall L G d (cg : mat (binary64 * binary64)) p q s,
  good_libm d L -> 0 <= d <= / 2000 -> good_radius (g_a G) -> s <= 2 ->
  mrows cg = (2 * p + 3)%nat -> mcols cg = (2 * q + 3)%nat ->
  let H u v := mat_at cg (1 + u)%nat (1 + v)%nat in
  flat_enough (b64ops L) G H p q = true ->
  (forall u v, (u <= 2 * p)%nat -> (v <= 2 * q)%nat -> in_range (H u v)) ->
  let V u v := meant (H u v) in
  let e := 6 * (d + bpow radix2 (-49)) in let w := R64 (g_a G) * R64 (g_a G) in
  let Q u v := quad (V u v) (V (u + 1)%nat v) (V (u + 1)%nat (v + 1)%nat) (V u (v + 1)%nat) in
  (forall u v, (u < 2 * p)%nat -> (v < 2 * q)%nat ->
     chords s (V u v) (V (u + 1)%nat v) (V (u + 1)%nat (v + 1)%nat) (V u (v + 1)%nat) /\ 4 * e * (s + e) < Q u v) ->
  exists g, tomitgrid64 L G cg 0 1 (1 + 2 * p) (1 + 2 * p + 1) 0 1 (1 + 2 * q) (1 + 2 * q + 1) = Ok g /\
  (forall i j, (i < p)%nat -> (j < q)%nat ->
     adds_up d s w (mat_at (g RAC) i j) (Q (2*i) (2*j)) (Q (2*i+1) (2*j)) (Q (2*i+1) (2*j+1)) (Q (2*i) (2*j+1)))%nat /\
  (forall i j, (0 < i < p)%nat -> (0 < j < q)%nat ->
     adds_up d s w (mat_at (g RAZ) i j) (Q (2*i-1) (2*j-1)) (Q (2*i) (2*j-1)) (Q (2*i) (2*j)) (Q (2*i-1) (2*j)))%nat /\
  (forall i j, (0 < i < p)%nat -> (j < q)%nat ->
     adds_up d s w (mat_at (g RAW) i j) (Q (2*i-1) (2*j)) (Q (2*i) (2*j)) (Q (2*i) (2*j+1)) (Q (2*i-1) (2*j+1)))%nat /\
  (forall i j, (i < p)%nat -> (0 < j < q)%nat ->
     adds_up d s w (mat_at (g RAS) i j) (Q (2*i) (2*j-1)) (Q (2*i+1) (2*j-1)) (Q (2*i+1) (2*j)) (Q (2*i) (2*j)))%nat.
Proof.
  intros L G d cg p q s GL D GR S Hr Hc H FE IR V e w Q AL.
  destruct (tomitgrid64_ok L G cg p q Hr Hc) as (g & E & Hg). exists g. split; [exact E|].
  pose proof (grid_of_areas _ _ _ _ _ _ Hg) as (A1 & A2 & A3 & A4). fold H in A1, A2, A3, A4. rewrite FE in A1, A2, A3, A4.
  assert (EE : e6 d = e) by (unfold e6, e3, r49, e; ring).
  assert (EB : 96 * u53 <= e <= / 300) by (rewrite <- EE; unfold e6, e3; rewrite r49_value, u53_val; lra).
  assert (W : 1 <= w <= 4503599627370496) by (destruct GR as (_ & A); unfold w; nra).
  assert (QN : forall u v, (u < 2 * p)%nat -> (v < 2 * q)%nat ->
    let x := quarter (b64ops L) G H true u v in
    0 <= Q u v <= s /\ finite x = true /\ 0 <= R64 x /\ Rabs (R64 x - w * Q u v) <= 4 * e * (s + e) * w /\ 4 * e * (s + e) < Q u v).
  { intros u v Hu Hv. destruct (AL u v Hu Hv) as (CH & LQ).
    destruct (quarter_near L G d H u v s GL D GR) as (Q1 & Q2 & Q3 & Q4); auto; try (apply IR; lia).
    rewrite EE in Q4. exact (conj Q1 (conj Q2 (conj Q3 (conj Q4 LQ)))). }
  clear AL IR Hg E FE.
  assert (SUM : forall a b a' b' a'' b'' a3 b3, (a < 2 * p)%nat -> (b < 2 * q)%nat -> (a' < 2 * p)%nat -> (b' < 2 * q)%nat ->
    (a'' < 2 * p)%nat -> (b'' < 2 * q)%nat -> (a3 < 2 * p)%nat -> (b3 < 2 * q)%nat ->
    adds_up d s w (sum4 (b64ops L) (quarter (b64ops L) G H true a b) (quarter (b64ops L) G H true a' b')
       (quarter (b64ops L) G H true a'' b'') (quarter (b64ops L) G H true a3 b3)) (Q a b) (Q a' b') (Q a'' b'') (Q a3 b3)).
  { intros a b a' b' a'' b'' a3 b3 H1 H2 H3 H4 H5 H6 H7 H8. unfold adds_up. fold e.
    destruct (QN a b H1 H2) as (B1 & F1 & P1 & E1 & L1). destruct (QN a' b' H3 H4) as (B2 & F2 & P2 & E2 & L2).
    destruct (QN a'' b'' H5 H6) as (B3 & F3 & P3 & E3 & L3). destruct (QN a3 b3 H7 H8) as (B4 & F4 & P4 & E4 & L4).
    apply sum4_near; assumption. }
  clear QN. clearbody Q.
  split; [|split; [|split]]; intros i j Hi Hj; [rewrite A1 by assumption|rewrite A2 by assumption|rewrite A3 by assumption|rewrite A4 by assumption];
    apply SUM; lia.
Qed.

(** ** C85 *)

(** How much the area of a small cell on the unit sphere (two spherical triangles, C43) differs
    from the flat one.  Chords up to s <= 1/2; both triangles turn the same way. *)
Theorem C85_flat_and_spherical : forall A B C D s, unit A -> unit B -> unit C -> unit D -> s <= / 2 ->
  (0 < triple A B C /\ 0 < triple A C D) \/ (triple A B C < 0 /\ triple A C D < 0) ->
  vnorm (vminus B A) <= s -> vnorm (vminus C A) <= s -> vnorm (vminus D A) <= s ->
  vnorm (vminus C B) <= s -> vnorm (vminus D C) <= s -> vnorm (vminus D B) <= s ->
  let Q := quad A B C D in
  Rabs (excess A B C + excess A C D - Q) * Q <= / 2 * s^2 * Q^2 + / 4 * s^6.
Proof.
  intros A B C D s UA UB UC UD S TN S1 S2 S3 S4 S5 S6 Q.
  pose proof (areas_flat A B C D s UA UB UC UD TN (conj S1 (conj S2 (conj S3 S6))) S4 S5 S) as F.
  unfold squad in F. fold Q in F. replace (/ 2 * s ^ 2 * Q ^ 2 + / 4 * s ^ 6) with (/ 2 * (s * s) * (Q * Q) + / 4 * (s * s * s * (s * s * s))) by ring.
  exact F.
Qed.

(** Cells that fill at least 1/k of the square on s: the difference is of fourth order. *)
Theorem C85_fourth_order : forall A B C D s k, unit A -> unit B -> unit C -> unit D -> 0 < s <= / 2 ->
  (0 < triple A B C /\ 0 < triple A C D) \/ (triple A B C < 0 /\ triple A C D < 0) ->
  vnorm (vminus B A) <= s -> vnorm (vminus C A) <= s -> vnorm (vminus D A) <= s ->
  vnorm (vminus C B) <= s -> vnorm (vminus D C) <= s -> vnorm (vminus D B) <= s ->
  0 < k -> s^2 / k <= quad A B C D ->
  Rabs (excess A B C + excess A C D - quad A B C D) <= (k + 1) / 4 * s^4.
Proof.
  intros A B C D s k UA UB UC UD S TN S1 S2 S3 S4 S5 S6 K F.
  pose proof (C85_flat_and_spherical A B C D s UA UB UC UD (proj2 S) TN S1 S2 S3 S4 S5 S6) as E. cbv zeta in E.
  assert (QB : quad A B C D <= / 2 * s^2).
  { unfold quad. pose proof (vnorm_cross (vminus C A) (vminus D B)). pose proof (vnorm_nonneg (vminus C A)). pose proof (vnorm_nonneg (vminus D B)).
    assert (vnorm (vminus C A) * vnorm (vminus D B) <= s * s) by (apply Rmult_le_compat; lra). lra. }
  set (Q := quad A B C D) in *. set (X := Rabs _) in *. assert (X0 : 0 <= X) by apply Rabs_pos. clearbody Q X.
  assert (SK : 0 < s ^ 2 / k) by (apply Rmult_lt_0_compat; [nra|now apply Rinv_0_lt_compat]).
  assert (KQ : s ^ 2 <= k * Q).
  { apply Rmult_le_compat_l with (r := k) in F; [|lra]. replace (k * (s ^ 2 / k)) with (s ^ 2) in F by (field; lra). exact F. }
  apply Rmult_le_reg_r with Q; [lra|]. eapply Rle_trans; [exact E|].
  assert (S2' : 0 <= s^2) by nra. replace (s ^ 6) with (s^2 * s^2 * s^2) by ring. replace (s ^ 4) with (s^2 * s^2) by ring.
  set (t := s ^ 2) in *. clearbody t.
  assert (t * t * t <= t * t * (k * Q)) by (apply Rmult_le_compat_l; nra).
  assert (Q ^ 2 <= / 2 * t * Q) by (replace (Q ^ 2) with (Q * Q) by ring; apply Rmult_le_compat_r; lra).
  assert (/ 2 * t * Q ^ 2 <= / 2 * t * (/ 2 * t * Q)) by (apply Rmult_le_compat_l; lra). lra.
Qed.

(** What a cell must be like: small, convex, and filling a part of the square on s. *)
Definition fair_cell (s k : R) (A B C D : vec) : Prop :=
  ((0 < triple A B C /\ 0 < triple A C D) \/ (triple A B C < 0 /\ triple A C D < 0)) /\
  vnorm (vminus B A) <= s /\ vnorm (vminus C A) <= s /\ vnorm (vminus D A) <= s /\
  vnorm (vminus C B) <= s /\ vnorm (vminus D C) <= s /\ vnorm (vminus D B) <= s /\ s^2 / k <= quad A B C D.

(** So in a grid whose quarters are fair cells, the computed RAC is the true area, on the
    sphere of radius a, of the four quarters, up to rounding and fourth order. *)
Theorem C85_planar_RAC : forall L G d (cg : mat (binary64 * binary64)) p q s k,
  good_libm d L -> 0 <= d <= / 2000 -> good_radius (g_a G) -> 0 < s <= / 2 -> 0 < k ->
  mrows cg = (2 * p + 3)%nat -> mcols cg = (2 * q + 3)%nat ->
  let H u v := mat_at cg (1 + u)%nat (1 + v)%nat in
  flat_enough (b64ops L) G H p q = true ->
  (forall u v, (u <= 2 * p)%nat -> (v <= 2 * q)%nat -> in_range (H u v)) ->
  let V u v := meant (H u v) in
  let e := 6 * (d + bpow radix2 (-49)) in let w := R64 (g_a G) * R64 (g_a G) in
  4 * e * (s + e) < s^2 / k ->
  (forall u v, (u < 2 * p)%nat -> (v < 2 * q)%nat -> fair_cell s k (V u v) (V (u + 1)%nat v) (V (u + 1)%nat (v + 1)%nat) (V u (v + 1)%nat)) ->
  let A u v := squad (V u v) (V (u + 1)%nat v) (V (u + 1)%nat (v + 1)%nat) (V u (v + 1)%nat) in
  exists g, tomitgrid64 L G cg 0 1 (1 + 2 * p) (1 + 2 * p + 1) 0 1 (1 + 2 * q) (1 + 2 * q + 1) = Ok g /\
  forall i j, (i < p)%nat -> (j < q)%nat ->
    finite (mat_at (g RAC) i j) = true /\
    Rabs (R64 (mat_at (g RAC) i j) - w * (A (2*i)%nat (2*j)%nat + A (2*i+1)%nat (2*j)%nat + A (2*i+1)%nat (2*j+1)%nat + A (2*i)%nat (2*j+1)%nat))
      <= (17 * e * (s + e) + (k + 1) * s^4) * w.
Proof.
  intros L G d cg p q s k GL D GR S K Hr Hc H FE IR V e w SM FC A.
  assert (CH : forall u v, (u < 2 * p)%nat -> (v < 2 * q)%nat ->
    chords s (V u v) (V (u + 1)%nat v) (V (u + 1)%nat (v + 1)%nat) (V u (v + 1)%nat) /\
    4 * e * (s + e) < quad (V u v) (V (u + 1)%nat v) (V (u + 1)%nat (v + 1)%nat) (V u (v + 1)%nat)).
  { intros u v Hu Hv. destruct (FC u v Hu Hv) as (_ & F1 & F2 & F3 & F4 & F5 & F6 & F7). split; [now repeat split|lra]. }
  destruct (C84_planar_grid L G d cg p q s GL D GR ltac:(lra) Hr Hc FE IR CH) as (g & E & RC & _).
  exists g. split; [exact E|]. intros i j Hi Hj. destruct (RC i j Hi Hj) as (F & _ & N). split; [exact F|]. fold e w in N.
  set (Q u v := quad (V u v) (V (u + 1)%nat v) (V (u + 1)%nat (v + 1)%nat) (V u (v + 1)%nat)).
  assert (N' : Rabs (R64 (mat_at (g RAC) i j) - w * (Q (2*i)%nat (2*j)%nat + Q (2*i+1)%nat (2*j)%nat + Q (2*i+1)%nat (2*j+1)%nat + Q (2*i)%nat (2*j+1)%nat))
    <= 17 * e * (s + e) * w) by exact N. clear N. rename N' into N.
  assert (W : 0 <= w) by (destruct GR as (_ & GA); unfold w; nra).
  assert (QA : forall u v, (u < 2 * p)%nat -> (v < 2 * q)%nat ->
    Rabs (A u v - Q u v) <= (k + 1) / 4 * s^4).
  { intros u v Hu Hv. destruct (FC u v Hu Hv) as (F0 & F1 & F2 & F3 & F4 & F5 & F6 & F7).
    unfold A, Q, squad. apply C85_fourth_order; auto; apply point_unit. }
  pose proof (QA (2 * i) (2 * j) ltac:(lia) ltac:(lia))%nat as X1. pose proof (QA (2 * i + 1) (2 * j) ltac:(lia) ltac:(lia))%nat as X2.
  pose proof (QA (2 * i + 1) (2 * j + 1) ltac:(lia) ltac:(lia))%nat as X3. pose proof (QA (2 * i) (2 * j + 1) ltac:(lia) ltac:(lia))%nat as X4.
  clear QA FC RC E CH. clearbody Q A. revert X1 X2 X3 X4 N.
  generalize (Q (2 * i) (2 * j))%nat (Q (2 * i + 1) (2 * j))%nat (Q (2 * i + 1) (2 * j + 1))%nat (Q (2 * i) (2 * j + 1))%nat. intros q1 q2 q3 q4.
  generalize (A (2 * i) (2 * j))%nat (A (2 * i + 1) (2 * j))%nat (A (2 * i + 1) (2 * j + 1))%nat (A (2 * i) (2 * j + 1))%nat (R64 (mat_at (g RAC) i j)).
  intros a1 a2 a3 a4 x X1 X2 X3 X4 N.
  match type of N with Rabs (x - w * ?t) <= _ => replace (x - w * (a1 + a2 + a3 + a4)) with ((x - w * t) - w * ((a1 + a2 + a3 + a4) - t)) by ring;
    assert (Y : Rabs ((a1 + a2 + a3 + a4) - t) <= (k + 1) * s^4) by (apply Rabs_le; apply Rabs_le_inv in X1, X2, X3, X4; lra);
    set (y := (a1 + a2 + a3 + a4) - t) in *; set (z := x - w * t) in * end.
  clearbody y z. unfold Rminus at 1. eapply Rle_trans; [apply Rabs_triang|]. rewrite Rabs_Ropp, Rabs_mult, (Rabs_pos_eq w) by assumption.
  assert (w * Rabs y <= w * ((k + 1) * s ^ 4)) by (apply Rmult_le_compat_l; assumption). lra.
Qed.

(** ** C86 *)

(** Near longitude and latitude 0, sines are tiny and cosines are 1. *)
Definition small_angles (L : libm) : Prop :=
  forall x, finite x = true -> Rabs (R64 x) <= bpow radix2 (-28) ->
    lm_cos L x = b64_one /\ finite (lm_sin L x) = true /\ Rabs (R64 (lm_sin L x)) <= bpow radix2 (-28).

Definition near_origin (p : binary64 * binary64) : Prop :=
  finite (fst p) = true /\ finite (snd p) = true /\ Rabs (R64 (fst p)) <= bpow radix2 (-23) /\ Rabs (R64 (snd p)) <= bpow radix2 (-23).

Lemma near_one v : generic_format radix2 fexp64 v -> Rabs (v - 1) <= bpow radix2 (-54) -> v = 1.
Proof.
  intros G D. change (bpow radix2 (-54)) with (/ 18014398509481984) in D. apply Rabs_le_inv in D.
  assert (M : (0 <= mag radix2 v)%Z).
  { apply mag_ge_bpow. change (bpow radix2 (0 - 1)) with (/ 2). rewrite Rabs_pos_eq; lra. }
  assert (C : (-53 <= cexp radix2 fexp64 v)%Z) by (unfold cexp, fexp64, SpecFloat.fexp, SpecFloat.emin; lia).
  rewrite G in D |- *. unfold F2R in *. cbn [Fnum Fexp] in *.
  set (m := Ztrunc (scaled_mantissa radix2 fexp64 v)) in *. set (k := cexp radix2 fexp64 v) in *. clearbody m k. clear G M v.
  replace (bpow radix2 k) with (IZR (2 ^ (k + 53)) * bpow radix2 (-53)) in *.
  2:{ change 2%Z with (radix_val radix2). rewrite IZR_Zpower by lia. rewrite <- bpow_plus. f_equal. lia. }
  change (bpow radix2 (-53)) with (/ 9007199254740992) in *. rewrite <- Rmult_assoc, <- mult_IZR in *.
  set (n := (m * 2 ^ (k + 53))%Z) in *. clearbody n.
  assert (n = 9007199254740992)%Z as ->; [|lra].
  assert (IZR n < IZR 9007199254740993) by (apply Rmult_lt_reg_r with (/ 9007199254740992); lra).
  assert (IZR 9007199254740991 < IZR n) by (apply Rmult_lt_reg_r with (/ 9007199254740992); lra).
  apply lt_IZR in H, H0. lia.
Qed.

Lemma is_one (x : binary64) : finite x = true -> R64 x = 1 -> x = b64_one.
Proof.
  intros F V. apply B2R_inj.
  - destruct x as [s|s|s pl H|s m e H]; try discriminate; [|reflexivity]. cbn in V. lra.
  - reflexivity.
  - rewrite V. symmetry. apply one_val.
Qed.

(** adding something tiny to 1 *)
Lemma one_absorbs t : finite t = true -> Rabs (R64 t) <= bpow radix2 (-55) -> b64_plus mode_NE b64_one t = b64_one.
Proof.
  intros F T. pose proof (Binary.Bplus_correct 53 1024 eq_refl eq_refl binop_nan_pl64 mode_NE b64_one t eq_refl F) as M.
  change (Binary.Bplus 53 1024 eq_refl eq_refl binop_nan_pl64 mode_NE b64_one t) with (b64_plus mode_NE b64_one t) in M.
  change (round_mode mode_NE) with ZnearestE in M. change (SpecFloat.fexp 53 1024) with fexp64 in M. rewrite one_val in M.
  change (bpow radix2 (-55)) with (/ 36028797018963968) in T.
  assert (G1 : generic_format radix2 fexp64 1) by (rewrite <- one_val; apply generic_format_B2R).
  assert (R : round radix2 fexp64 ZnearestE (1 + R64 t) = 1).
  { apply near_one; [apply generic_format_round; typeclasses eauto|].
    pose proof (round_N_pt radix2 fexp64 (fun x => negb (Z.even x)) (1 + R64 t)) as (_ & N). specialize (N 1 G1).
    replace (1 - (1 + R64 t)) with (- R64 t) in N by ring. rewrite Rabs_Ropp in N.
    change (bpow radix2 (-54)) with (/ 18014398509481984).
    replace (round radix2 fexp64 ZnearestE (1 + R64 t) - 1) with ((round radix2 fexp64 ZnearestE (1 + R64 t) - (1 + R64 t)) + R64 t) by ring.
    eapply Rle_trans; [apply Rabs_triang|]. lra. }
  rewrite R, Rlt_bool_true in M.
  - destruct M as (V & FI & _). now apply is_one.
  - rewrite Rabs_R1. change 1 with (bpow radix2 0). apply bpow_lt. lia.
Qed.

Lemma tiny_product y z : finite y = true -> finite z = true -> Rabs (R64 y) <= bpow radix2 (-28) -> Rabs (R64 z) <= bpow radix2 (-28) ->
  finite (b64_mult mode_NE y z) = true /\ Rabs (R64 (b64_mult mode_NE y z)) <= bpow radix2 (-55).
Proof.
  intros FY FZ Y Z. pose proof big_val as BV. pose proof u53_val as U.
  assert (P : Rabs (R64 y * R64 z) <= bpow radix2 (-28) * bpow radix2 (-28)).
  { rewrite Rabs_mult. apply Rmult_le_compat; auto using Rabs_pos. }
  rewrite <- bpow_plus in P. change (bpow radix2 (-28 + -28)) with (/ 72057594037927936) in P.
  destruct (mul_near y z FY FZ) as (F & E & _); [lra|]. split; [exact F|].
  assert (H : h75 <= / 1152921504606846976).
  { unfold h75. change (/ 1152921504606846976) with (bpow radix2 (-60)). apply Rle_trans with (1 * bpow radix2 (-1074)); [apply Rmult_le_compat_r; [apply bpow_ge_0|lra]|].
    rewrite Rmult_1_l. apply bpow_le. lia. }
  change (bpow radix2 (-55)) with (/ 36028797018963968). apply near_abs in E.
  assert (u53 * Rabs (R64 y * R64 z) <= / 9007199254740992 * / 72057594037927936) by (rewrite U; apply Rmult_le_compat_l; lra). lra.
Qed.

(** a computed point near longitude and latitude 0 *)
Definition tiny (c : fpoint) : Prop :=
  let '(x, y, z) := c in x = b64_one /\ (finite y = true /\ Rabs (R64 y) <= bpow radix2 (-28)) /\ (finite z = true /\ Rabs (R64 z) <= bpow radix2 (-28)).

Lemma tiny_cart L p : small_angles L -> near_origin p -> tiny (cart1 (b64ops L) (fst p) (snd p)).
Proof.
  intros SA (F1 & F2 & B1 & B2).
  assert (R : forall x, finite x = true -> Rabs (R64 x) <= bpow radix2 (-23) ->
    finite (radians (b64ops L) x) = true /\ Rabs (R64 (radians (b64ops L) x)) <= bpow radix2 (-28)).
  { intros x F B. change (bpow radix2 (-23)) with (/ 8388608) in B. destruct (radians_near L x F ltac:(lra)) as (FR & E). split; [exact FR|].
    apply near_abs in E. rewrite Rabs_mult, r49_value in E. pose proof PI_decimals. rewrite (Rabs_pos_eq (PI / 180)) in E by lra.
    assert (Rabs (R64 x) * (PI / 180) <= / 8388608 * (4 / 180)) by (apply Rmult_le_compat; [apply Rabs_pos|lra|exact B|lra]).
    change (bpow radix2 (-28)) with (/ 268435456). lra. }
  destruct (R (fst p) F1 B1) as (G1 & H1). destruct (R (snd p) F2 B2) as (G2 & H2). clear R.
  destruct (SA _ G1 H1) as (C1 & S1 & T1). destruct (SA _ G2 H2) as (C2 & S2 & T2). clear SA.
  unfold cart1, tiny. cbn [nmul ncos nsin b64ops]. rewrite C1, C2.
  split; [apply is_one; [reflexivity|vm_compute; lra]|]. split; [|split; assumption].
  destruct (times_one _ _ S1 (eq_refl : b64_eqb b64_one b64_one = true)) as (A & B). rewrite B. split; assumption.
Qed.

Lemma one_times_one : b64_mult mode_NE b64_one b64_one = b64_one.
Proof. apply is_one; [reflexivity|vm_compute; lra]. Qed.

Lemma tiny_dot L a b : tiny a -> tiny b -> dot (b64ops L) a b = b64_one.
Proof.
  destruct a as [[x y] z], b as [[x' y'] z']. intros (-> & (FY & Y) & (FZ & Z)) (-> & (FY' & Y') & (FZ' & Z')).
  unfold dot. cbn [nadd nmul b64ops]. rewrite one_times_one.
  destruct (tiny_product y y' FY FY' Y Y') as (F & B). destruct (tiny_product z z' FZ FZ' Z Z') as (F' & B').
  rewrite !one_absorbs; auto.
Qed.

(** The spherical formula fails for cells this close to longitude and latitude 0 -- within
    2^-23 degrees, about a centimetre on the Earth -- even with four different corners: all
    the computed cosines of the sides are 1, and 0/0 is NaN. *)
Theorem C86_tiny_cells : forall L a b c d, libm_ok L -> small_angles L ->
  near_origin a -> near_origin b -> near_origin c -> near_origin d ->
  let K p := cart1 (b64ops L) (fst p) (snd p) in
  nan64 (squad1 (b64ops L) (K a) (K b) (K c) (K d)).
Proof.
  intros L a b c d HL SA NA NB NC ND K.
  pose proof (tiny_cart L a SA NA) as TA. pose proof (tiny_cart L b SA NB) as TB. pose proof (tiny_cart L c SA NC) as TC.
  unfold squad1, tri_angles. unfold K. rewrite !tiny_dot by assumption. cbn [nacos nsin ndiv nsub nmul nadd b64ops].
  apply minus_nan_l. do 5 apply plus_nan_l.
  apply (angle_nan L HL) with (v := b64_one) (x := b64_one) (s := lm_sin L (lm_acos L b64_one)); auto.
  - left. reflexivity.
  - apply (sin_bounded _ HL).
Qed.

(** In a grid: RAC of the cell around such a quarter is NaN, where the spherical formula is used. *)
Theorem C86_tiny_RAC : forall L G (cg : mat (binary64 * binary64)) p q i j a b,
  libm_ok L -> small_angles L -> (mrows cg = 2 * p + 3 -> mcols cg = 2 * q + 3 -> i < p -> j < q -> a <= 1 -> b <= 1 ->
  let H u v := mat_at cg (1 + u) (1 + v) in
  let u := 2 * i + a in let v := 2 * j + b in
  flat_enough (b64ops L) G H p q = false ->
  near_origin (H u v) -> near_origin (H (u + 1) v) -> near_origin (H (u + 1) (v + 1)) -> near_origin (H u (v + 1)) ->
  exists g, tomitgrid64 L G cg 0 1 (1 + 2 * p) (1 + 2 * p + 1) 0 1 (1 + 2 * q) (1 + 2 * q + 1) = Ok g /\
    (nan64 (mat_at (g RAC) i j) \/
     exists a' b', a' <= 1 /\ b' <= 1 /\ (a', b') <> (a, b) /\
       b64_eqb (quarter (b64ops L) G H false (2 * i + a') (2 * j + b')) b64_zero = true))%nat.
Proof.
  intros L G cg p q i j a b HL SA Hr Hc Hi Hj Ha Hb H u v Hf N1 N2 N3 N4. apply nan_quarter_RAC; auto.
  unfold quarter. cbn [nmul b64ops]. apply mult_nan_l. now apply (C86_tiny_cells L (H u v) (H (u + 1) v) (H (u + 1) (v + 1)) (H u (v + 1)))%nat.
Qed.

(** ** Concrete cases *)

(** A number of at most 1 as a double: rounded to a multiple of 2^-53. *)
Definition near53 (v : R) : binary64 :=
  binary_normalize 53 1024 eq_refl eq_refl mode_NE (ZnearestE (v * bpow radix2 53)) (-53) false.

Lemma normalized m e : Rabs (F2R (Float radix2 m e)) <= 2 ->
  finite (binary_normalize 53 1024 eq_refl eq_refl mode_NE m e false) = true /\
  R64 (binary_normalize 53 1024 eq_refl eq_refl mode_NE m e false) = round radix2 fexp64 ZnearestE (F2R (Float radix2 m e)).
Proof.
  intros B. pose proof (binary_normalize_correct 53 1024 eq_refl eq_refl mode_NE m e false) as M.
  change (round_mode mode_NE) with ZnearestE in M. change (SpecFloat.fexp 53 1024) with fexp64 in M.
  rewrite Rlt_bool_true in M.
  - destruct M as (V & F & _). split; [exact F|exact V].
  - pose proof (round_any (F2R (Float radix2 m e))) as E. apply near_abs in E. pose proof u53_small. pose proof h75_small.
    assert (u53 * Rabs (F2R (Float radix2 m e)) <= 1 * 2) by (apply Rmult_le_compat; try lra; apply Rabs_pos).
    apply Rle_lt_trans with (bpow radix2 10); [change (bpow radix2 10) with 1024; lra|apply bpow_lt; lia].
Qed.

Lemma near53_mantissa v : Rabs (F2R (Float radix2 (ZnearestE (v * bpow radix2 53)) (-53)) - v) <= / 2 * bpow radix2 (-53).
Proof.
  unfold F2R. cbn [Fnum Fexp]. pose proof (Znearest_half (fun x => negb (Z.even x)) (v * bpow radix2 53)) as H.
  change (bpow radix2 (-53)) with (/ bpow radix2 53). set (b := bpow radix2 53) in *. assert (B : 0 < b) by apply bpow_gt_0.
  set (n := IZR (ZnearestE (v * b))) in *. rewrite Rabs_minus_sym in H. clearbody b n.
  replace (n * / b - v) with ((n - v * b) * / b) by (field; lra). rewrite Rabs_mult, (Rabs_pos_eq (/ b)) by (left; now apply Rinv_0_lt_compat).
  apply Rmult_le_compat_r; [left; now apply Rinv_0_lt_compat|exact H].
Qed.

Lemma near53_close v : Rabs v <= 1 -> finite (near53 v) = true /\ Rabs (R64 (near53 v) - v) <= bpow radix2 (-52).
Proof.
  intros B. pose proof (near53_mantissa v) as N. unfold near53. set (f := F2R _) in *.
  change (bpow radix2 (-53)) with (/ 9007199254740992) in N. pose proof (near_abs _ _ _ N) as A.
  destruct (normalized (ZnearestE (v * bpow radix2 53)) (-53)) as (F & V); [fold f; lra|]. fold f in V. split; [exact F|]. rewrite V.
  pose proof (round_any f) as E. rewrite u53_val in E. change (bpow radix2 (-52)) with (/ 4503599627370496).
  assert (H : h75 <= / 1152921504606846976).
  { unfold h75. change (/ 1152921504606846976) with (bpow radix2 (-60)). apply Rle_trans with (1 * bpow radix2 (-1074)); [apply Rmult_le_compat_r; [apply bpow_ge_0|lra]|].
    rewrite Rmult_1_l. apply bpow_le. lia. }
  replace (round radix2 fexp64 ZnearestE f - v) with ((round radix2 fexp64 ZnearestE f - f) + (f - v)) by ring.
  eapply Rle_trans; [apply Rabs_triang|]. lra.
Qed.

(** A library that meets every contract: sine and cosine rounded to multiples of 2^-53. *)
Definition lib83 : libm :=
  {| lm_sin := fun x => if Binary.is_finite 53 1024 x then near53 (sin (R64 x)) else b64_nan;
     lm_cos := fun x => if Binary.is_finite 53 1024 x then near53 (cos (R64 x)) else b64_nan;
     lm_acos := lm_acos lib58;
     lm_mean := lm_mean lib58 |}.

Lemma sin_le1 x : Rabs (sin x) <= 1. Proof. apply Rabs_le. pose proof (SIN_bound x). lra. Qed.
Lemma cos_le1 x : Rabs (cos x) <= 1. Proof. apply Rabs_le. pose proof (COS_bound x). lra. Qed.

Example lib83_good : good_libm (bpow radix2 (-52)) lib83.
Proof.
  split; intros x F B; cbn [lm_sin lm_cos lib83]; rewrite F; apply near53_close; [apply sin_le1|apply cos_le1].
Qed.

Lemma near53_zero : b64_eqb (near53 0) b64_zero = true.
Proof.
  unfold near53. rewrite Rmult_0_l. replace (ZnearestE 0) with 0%Z; [reflexivity|]. symmetry. apply (Zrnd_IZR ZnearestE 0).
Qed.

Example lib83_ok : libm_ok lib83.
Proof.
  pose proof lib58_ok as K. split; cbn [lm_acos lm_sin lib83].
  - exact (acos_nan _ K).
  - exact (acos_above _ K).
  - exact (acos_one _ K).
  - intros x E. destruct (Binary.is_finite 53 1024 x) eqn:F; [destruct x; discriminate|reflexivity].
  - intros x E. apply eqb_zero64 in E. destruct E as (s & ->). cbn [Binary.is_finite B2R]. rewrite sin_0. apply near53_zero.
  - intros x. destruct (Binary.is_finite 53 1024 x) eqn:F; [left|right; reflexivity]. apply near53_close, sin_le1.
Qed.

Example lib83_small : small_angles lib83.
Proof.
  intros x F B. cbn [lm_sin lm_cos lib83]. rewrite F. change (bpow radix2 (-28)) with (/ 268435456) in *.
  pose proof (near53_close _ (sin_le1 (R64 x))) as (FS & _). pose proof (near53_close _ (cos_le1 (R64 x))) as (FC & _).
  assert (SX : Rabs (sin (R64 x)) <= / 268435456).
  { pose proof (sin_lipschitz (R64 x) 0) as Lp. rewrite sin_0, !Rminus_0_r in Lp. lra. }
  assert (CX : 1 - / 72057594037927936 <= cos (R64 x) <= 1).
  { split; [|apply COS_bound]. replace (cos (R64 x)) with (1 - 2 * (sin (R64 x / 2) * sin (R64 x / 2))).
    2:{ replace (R64 x) with (2 * (R64 x / 2)) at 3 by field. rewrite cos_2a_sin. ring. }
    pose proof (sin_lipschitz (R64 x / 2) 0) as Lp. rewrite sin_0, !Rminus_0_r in Lp. unfold Rdiv in Lp at 2. rewrite Rabs_mult, (Rabs_pos_eq (/ 2)) in Lp by lra.
    assert (H : Rabs (sin (R64 x / 2)) <= / 536870912) by lra. apply Rabs_le_inv in H. nra. }
  split; [|split; [exact FS|]].
  - apply is_one; [exact FC|]. unfold near53. destruct (normalized (ZnearestE (cos (R64 x) * bpow radix2 53)) (-53)) as (_ & V).
    { pose proof (near53_mantissa (cos (R64 x))) as N. apply near_abs in N. pose proof (cos_le1 (R64 x)). change (bpow radix2 (-53)) with (/ 9007199254740992) in N. lra. }
    rewrite V. replace (ZnearestE (cos (R64 x) * bpow radix2 53)) with 9007199254740992%Z.
    + replace (F2R _) with 1 by (unfold F2R; cbn [Fnum Fexp]; change (bpow radix2 (-53)) with (/ 9007199254740992); lra).
      apply round_generic; [typeclasses eauto|]. rewrite <- one_val. apply generic_format_B2R.
    + symmetry. apply Znearest_imp. change (bpow radix2 53) with 9007199254740992. apply Rabs_lt. lra.
  - unfold near53. destruct (normalized (ZnearestE (sin (R64 x) * bpow radix2 53)) (-53)) as (_ & V).
    { pose proof (near53_mantissa (sin (R64 x))) as N. apply near_abs in N. change (bpow radix2 (-53)) with (/ 9007199254740992) in N. lra. }
    rewrite V. change (/ 268435456) with (bpow radix2 (-28)). apply abs_round_le_generic; [typeclasses eauto|typeclasses eauto| |].
    + apply generic_format_bpow. unfold fexp64, SpecFloat.fexp, SpecFloat.emin. lia.
    + unfold F2R. cbn [Fnum Fexp]. rewrite Rabs_mult, (Rabs_pos_eq (bpow radix2 (-53))) by apply bpow_ge_0.
      replace (bpow radix2 (-28)) with (IZR (2 ^ 25) * bpow radix2 (-53)).
      2:{ change (2 ^ 25)%Z with (radix2 ^ 25)%Z. rewrite IZR_Zpower by lia. now rewrite <- bpow_plus. }
      apply Rmult_le_compat_r; [apply bpow_ge_0|]. rewrite <- abs_IZR. apply IZR_le. apply Z.abs_le. apply Rabs_le_inv in SX.
      change (bpow radix2 53) with 9007199254740992.
      split.
      * rewrite <- (Zrnd_IZR ZnearestE (- 2 ^ 25)). apply Zrnd_le; [typeclasses eauto|]. change (IZR (- 2 ^ 25)) with (-33554432). lra.
      * rewrite <- (Zrnd_IZR ZnearestE (2 ^ 25)). apply Zrnd_le; [typeclasses eauto|]. change (IZR (2 ^ 25)) with 33554432. lra.
Qed.

(** whole numbers *)
Lemma int_val z : (Z.abs z <= 1024)%Z -> finite (ex_int z) = true /\ R64 (ex_int z) = IZR z.
Proof.
  intros B. unfold ex_int. pose proof (binary_normalize_correct 53 1024 eq_refl eq_refl mode_NE z 0 false) as M.
  assert (G : generic_format radix2 fexp64 (F2R (Float radix2 z 0))).
  { apply generic_format_F2R. intros NZ. unfold cexp, fexp64, SpecFloat.fexp, SpecFloat.emin. 
    assert (mag radix2 (F2R (Float radix2 z 0)) <= 11)%Z; [|lia].
    apply mag_le_bpow; [now apply F2R_neq_0|]. unfold F2R. cbn [Fnum Fexp]. change (bpow radix2 0) with 1. rewrite Rmult_1_r, <- abs_IZR.
    change (bpow radix2 11) with (IZR 2048). apply IZR_lt. lia. }
  change (SpecFloat.fexp 53 1024) with fexp64 in M. rewrite (round_generic radix2 fexp64 _ _ G) in M.
  assert (E : F2R (Float radix2 z 0) = IZR z) by (unfold F2R; cbn [Fnum Fexp]; change (bpow radix2 0) with 1; ring). rewrite E in M.
  rewrite Rlt_bool_true in M.
  - destruct M as (V & F & _). now split.
  - rewrite <- abs_IZR. apply Rle_lt_trans with (bpow radix2 10); [change (bpow radix2 10) with (IZR 1024); now apply IZR_le|apply bpow_lt; lia].
Qed.

Lemma int_range a b : (Z.abs a <= 360)%Z -> (Z.abs b <= 360)%Z -> in_range (ex_int a, ex_int b).
Proof.
  intros A B. destruct (int_val a ltac:(lia)) as (F & V). destruct (int_val b ltac:(lia)) as (F' & V').
  unfold in_range. cbn [fst snd]. rewrite V, V', <- !abs_IZR. repeat split; auto; now apply IZR_le.
Qed.

Lemma int_meant a b : (Z.abs a <= 360)%Z -> (Z.abs b <= 360)%Z -> meant (ex_int a, ex_int b) = point (IZR a, IZR b).
Proof.
  intros A B. unfold meant. cbn [fst snd]. destruct (int_val a ltac:(lia)) as (_ & ->). destruct (int_val b ltac:(lia)) as (_ & ->). reflexivity.
Qed.

(** C83: 45 degrees east, 30 degrees north *)
Example C83_case :
  let lons := mkmat 1 1 (fun _ _ => ex_int 45) in let lats := mkmat 1 1 (fun _ _ => ex_int 30) in
  good_libm (bpow radix2 (-52)) lib83 /\ 0 <= bpow radix2 (-52) <= / 2000 /\
  (exists cart, lonlat2cart (b64ops lib83) lons lats b64_one = Ok cart) /\ in_range (mat_at lons 0 0, mat_at lats 0 0) /\
  meant (mat_at lons 0 0, mat_at lats 0 0) = (/ sqrt 2 * (sqrt 3 / 2), / sqrt 2 * (sqrt 3 / 2), / 2).
Proof.
  cbv zeta. split; [exact lib83_good|]. split; [change (bpow radix2 (-52)) with (/ 4503599627370496); lra|].
  split; [eexists; reflexivity|]. cbn [mat_at]. split; [apply int_range; lia|]. rewrite int_meant by lia. unfold point. cbn [fst snd].
  replace (45 * (PI / 180)) with (PI / 4) by field. replace (30 * (PI / 180)) with (PI / 6) by field.
  rewrite cos_PI4, sin_PI4, cos_PI6, sin_PI6. repeat (f_equal; try lra).
Qed.

(** C84: quarters of 90 by 30 degrees, planar because the stand-in distances are 1. *)
Definition geod84 : geod binary64 := {| g_inv := fun _ _ => b64_one; g_npt := fun p _ _ _ => p; g_a := ex_int 6 |}.
Definition grid84 (x y : Z) : mat (binary64 * binary64) := mkmat 5 5 (fun i j => (ex_int (x * (Z.of_nat i - 1)), ex_int (y * (Z.of_nat j - 1)))).

Lemma radius84 : good_radius (g_a geod84).
Proof. cbn [g_a geod84]. unfold good_radius. destruct (int_val 6 ltac:(lia)) as (F & ->). split; [exact F|lra]. Qed.

Lemma flat84 x y : flat_enough (b64ops lib83) geod84 (fun u v => mat_at (grid84 x y) (1 + u)%nat (1 + v)%nat) 1 1 = true.
Proof. vm_compute. reflexivity. Qed.

Lemma grid84_at x y u v : mat_at (grid84 x y) (1 + u)%nat (1 + v)%nat = (ex_int (x * Z.of_nat u), ex_int (y * Z.of_nat v)).
Proof. cbn [grid84 mat_at]. f_equal; f_equal; lia. Qed.

Lemma unit_chord u v : unit u -> unit v -> vnorm (vminus u v) <= 2.
Proof.
  intros U V. replace (vminus u v) with (vplus u (vscale (-1) v)) by (destruct u as [[? ?] ?], v as [[? ?] ?]; unfold vminus; vring).
  eapply Rle_trans; [apply vnorm_plus|]. rewrite vscale_norm. unfold vnorm. unfold unit in U, V. rewrite U, V, sqrt_1, Rabs_left by lra. lra.
Qed.

Lemma quad_z A B C D : let '(_, _, z) := vcross (vminus C A) (vminus D B) in / 2 * Rabs z <= quad A B C D.
Proof.
  unfold quad. destruct (vcross (vminus C A) (vminus D B)) as [[x y] z]. pose proof (coord_le_norm x y z) as (_ & _ & H). lra.
Qed.

Lemma wide_quad l t t' : cos t' * cos t' <= cos t * cos t ->
  let P l t := (cos l * cos t, sin l * cos t, sin t) in
  / 2 * (cos t * cos t - cos t' * cos t') <= quad (P l t) (P (l + PI / 2) t) (P (l + PI / 2) t') (P l t').
Proof.
  intros H P. pose proof (quad_z (P l t) (P (l + PI / 2) t) (P (l + PI / 2) t') (P l t')) as Q. unfold P, vcross, vminus in *.
  cbn [vplus vscale vcross] in *. eapply Rle_trans; [|exact Q]. apply Rmult_le_compat_l; [lra|].
  rewrite (cos_plus l), (sin_plus l), cos_PI2, sin_PI2.
  pose proof (sin2_cos2 l) as S. unfold Rsqr in S.
  match goal with |- _ <= Rabs ?e => replace e with ((sin l * sin l + cos l * cos l) * (cos t * cos t - cos t' * cos t')) by ring end.
  rewrite S, Rmult_1_l. apply Rle_abs.
Qed.

Lemma two_cases n : (n < 2)%nat -> n = 0%nat \/ n = 1%nat.
Proof. lia. Qed.

Example C84_case :
  let d := bpow radix2 (-52) in let cg := grid84 90 30 in
  let H u v := mat_at cg (1 + u)%nat (1 + v)%nat in
  let V u v := meant (H u v) in
  let e := 6 * (d + bpow radix2 (-49)) in
  let Q u v := quad (V u v) (V (u + 1)%nat v) (V (u + 1)%nat (v + 1)%nat) (V u (v + 1)%nat) in
  good_libm d lib83 /\ 0 <= d <= / 2000 /\ good_radius (g_a geod84) /\
  mrows cg = (2 * 1 + 3)%nat /\ mcols cg = (2 * 1 + 3)%nat /\ flat_enough (b64ops lib83) geod84 H 1 1 = true /\
  (forall u v, (u <= 2 * 1)%nat -> (v <= 2 * 1)%nat -> in_range (H u v)) /\
  (forall u v, (u < 2 * 1)%nat -> (v < 2 * 1)%nat ->
     chords 2 (V u v) (V (u + 1)%nat v) (V (u + 1)%nat (v + 1)%nat) (V u (v + 1)%nat) /\ 4 * e * (2 + e) < Q u v).
Proof.
  intros d cg H V e Q. split; [exact lib83_good|]. split; [unfold d; change (bpow radix2 (-52)) with (/ 4503599627370496); lra|].
  split; [exact radius84|]. split; [reflexivity|]. split; [reflexivity|]. split; [apply (flat84 90 30)|].
  split.
  - intros u v Hu Hv. unfold H, cg. rewrite grid84_at. apply int_range; lia.
  - intros u v Hu Hv. split; [repeat split; apply unit_chord; apply point_unit|].
    assert (VE : forall a b, (a <= 2)%nat -> (b <= 2)%nat -> V a b = point (IZR (90 * Z.of_nat a), IZR (30 * Z.of_nat b))).
    { intros a b Ha Hb. unfold V, H, cg. rewrite grid84_at. apply int_meant; lia. }
    apply Rlt_le_trans with (/ 8).
    { unfold e, d. change (bpow radix2 (-52)) with (/ 4503599627370496). change (bpow radix2 (-49)) with (/ 562949953421312). lra. }
    unfold Q. rewrite !VE by lia. unfold point. cbn [fst snd]. clear VE Q V H.
    pose proof (wide_quad (IZR (90 * Z.of_nat u) * (PI / 180)) (IZR (30 * Z.of_nat v) * (PI / 180)) (IZR (30 * Z.of_nat (v + 1)) * (PI / 180))) as W.
    cbv zeta in W. replace (IZR (90 * Z.of_nat (u + 1)) * (PI / 180)) with (IZR (90 * Z.of_nat u) * (PI / 180) + PI / 2).
    2:{ replace (90 * Z.of_nat (u + 1))%Z with (90 * Z.of_nat u + 90)%Z by lia. rewrite plus_IZR. field. }
    eapply Rle_trans; [|apply W].
    + destruct (two_cases v Hv) as [-> | ->]; cbn [Nat.add].
      * change (IZR (30 * Z.of_nat 0)) with 0. change (IZR (30 * Z.of_nat 1)) with 30. replace (30 * (PI / 180)) with (PI / 6) by field.
        rewrite Rmult_0_l, cos_0, cos_PI6. pose proof (sqrt_sqrt 3 ltac:(lra)). lra.
      * change (IZR (30 * Z.of_nat 1)) with 30. change (IZR (30 * Z.of_nat 2)) with 60. replace (30 * (PI / 180)) with (PI / 6) by field.
        replace (60 * (PI / 180)) with (PI / 3) by field. rewrite cos_PI6, cos_PI3. pose proof (sqrt_sqrt 3 ltac:(lra)). lra.
    + destruct (two_cases v Hv) as [-> | ->]; cbn [Nat.add].
      * change (IZR (30 * Z.of_nat 0)) with 0. change (IZR (30 * Z.of_nat 1)) with 30. replace (30 * (PI / 180)) with (PI / 6) by field.
        rewrite Rmult_0_l, cos_0, cos_PI6. pose proof (sqrt_sqrt 3 ltac:(lra)). lra.
      * change (IZR (30 * Z.of_nat 1)) with 30. change (IZR (30 * Z.of_nat 2)) with 60. replace (30 * (PI / 180)) with (PI / 6) by field.
        replace (60 * (PI / 180)) with (PI / 3) by field. rewrite cos_PI6, cos_PI3. pose proof (sqrt_sqrt 3 ltac:(lra)). lra.
Qed.

(** the same in areas() *)
Example C84_areas_case :
  let cg := mkmat 2 2 (fun i j => (ex_int (Z.of_nat i), ex_int (Z.of_nat j))) in
  let ex := mkmat 1 2 (fun _ _ => b64_one) in let ey := mkmat 2 1 (fun _ _ => b64_one) in
  use_planar (b64ops lib83) ex ey = true /\ (exists m, areas (b64ops lib83) geod84 cg ex ey = Ok m) /\
  (forall i j, (i <= 1)%nat -> (j <= 1)%nat -> in_range (mat_at cg i j)) /\
  chords 2 (meant (mat_at cg 0 0)) (meant (mat_at cg 1 0)) (meant (mat_at cg 1 1)) (meant (mat_at cg 0 1)).
Proof.
  cbv zeta. split; [vm_compute; reflexivity|]. split.
  - unfold areas. destruct (lonlat2cart _ _ _ _) as [c|x] eqn:E.
    + cbn [rbind]. destruct (use_planar _ _ _); eexists; reflexivity.
    + unfold lonlat2cart in E. cbn in E. discriminate.
  - split; [intros i j Hi Hj; cbn [mat_at]; apply int_range; lia|]. repeat split; apply unit_chord; apply point_unit.
Qed.

(** C85: quarters of one by one degree at the equator *)
Lemma step_triples l t x : let P l t := (cos l * cos t, sin l * cos t, sin t) in
  triple (P l t) (P (l + x) t) (P (l + x) (t + x)) = cos t * (sin x * sin x) /\
  triple (P l t) (P (l + x) (t + x)) (P l (t + x)) = cos (t + x) * (sin x * sin x).
Proof.
  intros P.
  assert (SX : sin x = sin (t + x) * cos t - cos (t + x) * sin t).
  { replace x with ((t + x) - t) at 1 by ring. apply sin_minus. }
  assert (SL : sin x = sin (l + x) * cos l - cos (l + x) * sin l).
  { replace x with ((l + x) - l) at 1 by ring. apply sin_minus. }
  unfold triple, P. cbn [vdot vcross].
  split.
  - rewrite SX at 1. rewrite SL. ring.
  - rewrite SX at 1. rewrite SL. ring.
Qed.

Lemma point_chord l t l' t' : let P l t := (cos l * cos t, sin l * cos t, sin t) in
  vnorm (vminus (P l t) (P l' t')) <= 2 * (Rabs (l - l') + Rabs (t - t')).
Proof.
  intros P. pose proof (Rabs_pos (l - l')) as L0. pose proof (Rabs_pos (t - t')) as T0.
  assert (PR : forall a b a' b', Rabs (a - a') <= Rabs (l - l') -> Rabs (b - b') <= Rabs (t - t') -> Rabs a' <= 1 -> Rabs b <= 1 ->
    Rabs (a * b - a' * b') <= Rabs (l - l') + Rabs (t - t')).
  { intros a b a' b' A B A1 B1. replace (a * b - a' * b') with ((a - a') * b + a' * (b - b')) by ring. eapply Rle_trans; [apply Rabs_triang|].
    rewrite !Rabs_mult. apply Rplus_le_compat.
    - rewrite <- (Rmult_1_r (Rabs (l - l'))). apply Rmult_le_compat; auto using Rabs_pos.
    - rewrite <- (Rmult_1_l (Rabs (t - t'))). apply Rmult_le_compat; auto using Rabs_pos. }
  apply coords_norm; [lra|]. unfold P. cbn [coords]. split; [|split].
  - apply PR; auto using cos_lipschitz, cos_le1.
  - apply PR; auto using cos_lipschitz, sin_lipschitz, cos_le1, sin_le1.
  - pose proof (sin_lipschitz t t'). lra.
Qed.

Lemma degree : 349 / 20000 < PI / 180 < 175 / 10000. Proof. pose proof PI_decimals. lra. Qed.

Lemma degree_sin : 17 / 1000 <= sin (PI / 180).
Proof.
  pose proof degree as G. set (x := PI / 180) in *. clearbody x.
  destruct (MVT_cor2 sin cos 0 x) as (c & E & C1 & C2); [lra|intros; apply derivable_pt_lim_sin|].
  rewrite sin_0, !Rminus_0_r in E. rewrite E. pose proof (cos_lipschitz c 0) as Lp. rewrite cos_0, Rminus_0_r in Lp.
  rewrite (Rabs_pos_eq c) in Lp by lra. apply Rabs_le_inv in Lp. assert (982 / 1000 <= cos c) by lra. nra.
Qed.

Lemma fair_degree l t : 0 <= t <= PI / 180 ->
  let P l t := (cos l * cos t, sin l * cos t, sin t) in let x := PI / 180 in
  fair_cell (/ 10) 100 (P l t) (P (l + x) t) (P (l + x) (t + x)) (P l (t + x)).
Proof.
  intros T P x. pose proof degree as G. fold x in T, G. pose proof degree_sin as SX. fold x in SX.
  assert (CT : forall y, 0 <= y <= 2 * x -> 9 / 10 <= cos y).
  { intros y Y. pose proof (cos_lipschitz y 0) as Lp. rewrite cos_0, Rminus_0_r, (Rabs_pos_eq y) in Lp by lra. apply Rabs_le_inv in Lp. lra. }
  pose proof (CT t ltac:(lra)) as C1. pose proof (CT (t + x) ltac:(lra)) as C2. clear CT.
  assert (T1 : triple (P l t) (P (l + x) t) (P (l + x) (t + x)) = cos t * (sin x * sin x)) by exact (proj1 (step_triples l t x)).
  assert (T2 : triple (P l t) (P (l + x) (t + x)) (P l (t + x)) = cos (t + x) * (sin x * sin x)) by exact (proj2 (step_triples l t x)).
  assert (S2 : 289 / 1000000 <= sin x * sin x) by nra.
  assert (Z0 : forall a, a - a = 0) by (intros; ring). assert (Z1 : forall a, a + x - a = x) by (intros; ring). assert (Z2 : forall a, a - (a + x) = - x) by (intros; ring).
  assert (AX : Rabs x = x) by (apply Rabs_pos_eq; lra). assert (AN : Rabs (- x) = x) by (rewrite Rabs_Ropp; exact AX).
  assert (CH : forall a b c y, (a - c = 0 \/ a - c = x \/ a - c = - x) -> (b - y = 0 \/ b - y = x \/ b - y = - x) -> vnorm (vminus (P a b) (P c y)) <= / 10).
  { intros a b c y A B. eapply Rle_trans; [apply point_chord|].
    destruct A as [-> | [-> | ->]], B as [-> | [-> | ->]]; rewrite ?Rabs_R0, ?AX, ?AN; lra. }
  assert (TN : turning (P l t) (P (l + x) t) (P (l + x) (t + x)) (P l (t + x))) by (left; rewrite T1, T2; split; nra).
  assert (UP : forall a b, unit (P a b)).
  { intros a b. unfold P. pose proof (point_unit (a * (180 / PI), b * (180 / PI))) as U. unfold point in U. cbn [fst snd] in U.
    replace (a * (180 / PI) * (PI / 180)) with a in U by (field; pose proof PI_RGT_0; lra).
    replace (b * (180 / PI) * (PI / 180)) with b in U by (field; pose proof PI_RGT_0; lra). exact U. }
  assert (C6 : chords (/ 10) (P l t) (P (l + x) t) (P (l + x) (t + x)) (P l (t + x))).
  { repeat split; apply CH; rewrite ?Z0, ?Z1, ?Z2; tauto. }
  split; [exact TN|]. do 6 (split; [apply CH; rewrite ?Z0, ?Z1, ?Z2; tauto|]).
  destruct (quad_flat _ _ _ _ (/ 10) (UP l t) (UP (l + x) t) (UP (l + x) (t + x)) (UP l (t + x)) TN C6) as (Q & _). cbv zeta in Q.
  rewrite T1, T2 in Q. rewrite !Rabs_pos_eq in Q by nra. nra.
Qed.

Example C85_case :
  let d := bpow radix2 (-52) in let cg := grid84 1 1 in let s := / 10 in let k := 100 in
  let H u v := mat_at cg (1 + u)%nat (1 + v)%nat in
  let V u v := meant (H u v) in
  let e := 6 * (d + bpow radix2 (-49)) in
  good_libm d lib83 /\ 0 <= d <= / 2000 /\ good_radius (g_a geod84) /\ 0 < s <= / 2 /\ 0 < k /\
  mrows cg = (2 * 1 + 3)%nat /\ mcols cg = (2 * 1 + 3)%nat /\ flat_enough (b64ops lib83) geod84 H 1 1 = true /\
  (forall u v, (u <= 2 * 1)%nat -> (v <= 2 * 1)%nat -> in_range (H u v)) /\
  4 * e * (s + e) < s^2 / k /\
  (forall u v, (u < 2 * 1)%nat -> (v < 2 * 1)%nat -> fair_cell s k (V u v) (V (u + 1)%nat v) (V (u + 1)%nat (v + 1)%nat) (V u (v + 1)%nat)).
Proof.
  intros d cg s k H V e. split; [exact lib83_good|]. split; [unfold d; change (bpow radix2 (-52)) with (/ 4503599627370496); lra|].
  split; [exact radius84|]. split; [unfold s; lra|]. split; [unfold k; lra|]. split; [reflexivity|]. split; [reflexivity|]. split; [apply (flat84 1 1)|].
  split; [intros u v Hu Hv; unfold H, cg; rewrite grid84_at; apply int_range; lia|].
  split; [unfold e, d, s, k; change (bpow radix2 (-52)) with (/ 4503599627370496); change (bpow radix2 (-49)) with (/ 562949953421312); lra|].
  intros u v Hu Hv.
  assert (VE : forall a b, (a <= 2)%nat -> (b <= 2)%nat -> V a b = point (IZR (Z.of_nat a), IZR (Z.of_nat b))).
  { intros a b Ha Hb. unfold V, H, cg. rewrite grid84_at. rewrite !Z.mul_1_l. apply int_meant; lia. }
  rewrite !VE by lia. unfold point. cbn [fst snd].
  assert (NX : forall n, IZR (Z.of_nat (n + 1)) * (PI / 180) = IZR (Z.of_nat n) * (PI / 180) + PI / 180).
  { intros n. rewrite Nat2Z.inj_add, plus_IZR. change (IZR (Z.of_nat 1)) with 1. ring. }
  rewrite !NX. apply fair_degree. pose proof degree.
  destruct (two_cases v Hv) as [-> | ->]; [change (IZR (Z.of_nat 0)) with 0|change (IZR (Z.of_nat 1)) with 1]; lra.
Qed.

(** C86: four corners of a cell of 2^-24 by 2^-24 degrees; grid cells of 10^10 m otherwise *)
Definition speck (n : Z) : binary64 := binary_normalize 53 1024 eq_refl eq_refl mode_NE n (-24) false.
Definition grid86 : mat (binary64 * binary64) := mkmat 5 5 (fun i j => (speck (Z.of_nat i - 1), speck (Z.of_nat j - 1))).
Example C86_case :
  let H u v := mat_at grid86 (1 + u)%nat (1 + v)%nat in
  libm_ok lib83 /\ small_angles lib83 /\ mrows grid86 = (2 * 1 + 3)%nat /\ mcols grid86 = (2 * 1 + 3)%nat /\
  flat_enough (b64ops lib83) geod58 H 1 1 = false /\
  (forall u v, (u <= 2)%nat -> (v <= 2)%nat -> near_origin (H u v)) /\
  map (fun u => bits_of_b64 (fst (H u 0%nat))) [0; 1; 2]%nat = [0; 4499096027743125504; 4503599627370496000]%Z.
Proof.
  intros H. split; [exact lib83_ok|]. split; [exact lib83_small|]. split; [reflexivity|]. split; [reflexivity|].
  split; [vm_compute; reflexivity|]. split; [|vm_compute; reflexivity].
  assert (SP : forall n, (n <= 2)%nat -> finite (speck (Z.of_nat n)) = true /\ Rabs (R64 (speck (Z.of_nat n))) <= bpow radix2 (-23)).
  { intros n Hn. unfold speck. destruct (normalized (Z.of_nat n) (-24)) as (F & V).
    - unfold F2R. cbn [Fnum Fexp]. change (bpow radix2 (-24)) with (/ 16777216). rewrite Rabs_pos_eq.
      + assert (IZR (Z.of_nat n) <= 2) by (apply IZR_le; lia). lra.
      + assert (0 <= IZR (Z.of_nat n)) by (apply IZR_le; lia). lra.
    - split; [exact F|]. rewrite V. apply abs_round_le_generic; [typeclasses eauto|typeclasses eauto| |].
      + apply generic_format_bpow. unfold fexp64, SpecFloat.fexp, SpecFloat.emin. lia.
      + unfold F2R. cbn [Fnum Fexp]. change (bpow radix2 (-24)) with (/ 16777216). change (bpow radix2 (-23)) with (/ 8388608).
        assert (0 <= IZR (Z.of_nat n) <= 2) by (split; apply IZR_le; lia). rewrite Rabs_pos_eq; lra. }
  intros u v Hu Hv. unfold H, near_origin. cbn [grid86 mat_at fst snd].
  replace (Z.of_nat (1 + u) - 1)%Z with (Z.of_nat u) by lia. replace (Z.of_nat (1 + v) - 1)%Z with (Z.of_nat v) by lia.
  destruct (SP u Hu) as (F1 & B1). destruct (SP v Hv) as (F2 & B2). exact (conj F1 (conj F2 (conj B1 B2))).
Qed.
