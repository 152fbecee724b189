(** Cutting spherical triangles and quadrilaterals. *)
From Coq Require Import Reals Ratan List Bool Lra Psatz.
From Verif Require Import Num Util RealInst RealFacts SphereFacts.
Local Open Scope R_scope.

Definition zerov : vec := (0, 0, 0).

Lemma vnorm_pos u : u <> zerov -> 0 < vnorm u.
Proof.
  intros H. destruct (Rle_lt_or_eq_dec 0 (vnorm u) (vnorm_nonneg u)) as [|E]; auto.
  exfalso. apply H, vdot_zero. rewrite <- vnorm_sq, <- E. ring.
Qed.

Lemma angle_range u v : 0 <= angle u v <= PI. Proof. apply acos_bound. Qed.

Lemma cos_ok u v : u <> zerov -> v <> zerov -> -1 <= vdot u v / (vnorm u * vnorm v) <= 1.
Proof.
  intros U V. apply vnorm_pos in U, V. pose proof (cauchy u v) as C. rewrite <- (vnorm_sq u), <- (vnorm_sq v) in C.
  assert (K : 0 < vnorm u * vnorm v) by (now apply Rmult_lt_0_compat).
  assert (L : - (vnorm u * vnorm v) <= vdot u v <= vnorm u * vnorm v) by nra.
  split; (apply Rmult_le_reg_r with (vnorm u * vnorm v); [assumption|]; unfold Rdiv; rewrite Rmult_assoc, Rinv_l by lra; lra).
Qed.

Lemma angle_cos u v : u <> zerov -> v <> zerov -> cos (angle u v) = vdot u v / (vnorm u * vnorm v).
Proof. intros U V. unfold angle. apply cos_acos. now apply cos_ok. Qed.

Lemma angle_sin u v : u <> zerov -> v <> zerov -> sin (angle u v) = vnorm (vcross u v) / (vnorm u * vnorm v).
Proof.
  intros U V. unfold angle. rewrite sin_acos by (now apply cos_ok). apply vnorm_pos in U, V.
  assert (K : 0 < vnorm u * vnorm v) by (now apply Rmult_lt_0_compat).
  apply Rsqr_inj.
  - apply sqrt_pos.
  - apply Rmult_le_pos; [apply vnorm_nonneg|]. left. now apply Rinv_0_lt_compat.
  - assert (E : 1 - (vdot u v / (vnorm u * vnorm v))² = (vnorm (vcross u v) / (vnorm u * vnorm v))²).
    { unfold Rsqr. replace (vnorm (vcross u v) / (vnorm u * vnorm v) * (vnorm (vcross u v) / (vnorm u * vnorm v)))
        with ((vnorm (vcross u v) * vnorm (vcross u v)) / ((vnorm u * vnorm u) * (vnorm v * vnorm v))) by (field; lra).
      rewrite vnorm_sq, lagrange, <- (vnorm_sq u), <- (vnorm_sq v). field. lra. }
    rewrite E, Rsqr_sqrt; [reflexivity|]. apply Rle_0_sqr.
Qed.

Lemma angle_sym u v : angle u v = angle v u.
Proof. unfold angle. rewrite vdot_sym, Rmult_comm. reflexivity. Qed.

Lemma angle_eq x y : 0 <= x <= 2 * PI -> 0 <= y <= PI -> ~ (x = 2 * PI /\ y = 0) ->
  cos x = cos y -> sin x = sin y -> x = y.
Proof.
  intros Hx Hy Hn C S.
  assert (E : cos (x - y) = 1).
  { rewrite cos_minus, C, S. pose proof (sin2_cos2 y) as K. unfold Rsqr in K. lra. }
  replace (x - y) with (2 * ((x - y) / 2)) in E by field. rewrite cos_2a_sin in E.
  assert (Z : sin ((x - y) / 2) = 0) by nra.
  pose proof PI_RGT_0 as PP.
  destruct (Rtotal_order x y) as [L|[L|L]]; auto; exfalso.
  - assert (sin (- ((x - y) / 2)) > 0) by (apply sin_gt_0; lra). rewrite sin_neg in *. lra.
  - assert (x - y < 2 * PI).
    { destruct (Rlt_dec (x - y) (2 * PI)); auto. exfalso. apply Hn. lra. }
    assert (sin ((x - y) / 2) > 0) by (apply sin_gt_0; lra). lra.
Qed.

(** Angles add up when the middle vector lies between the outer ones. *)
Lemma angle_split u v w s t : u <> zerov -> v <> zerov -> w <> zerov -> 0 <= s -> 0 <= t ->
  w = vplus (vscale s u) (vscale t v) -> angle u w + angle w v = angle u v.
Proof.
  intros U V W S T E.
  pose proof (vnorm_pos u U) as PU. pose proof (vnorm_pos v V) as PV. pose proof (vnorm_pos w W) as PW.
  pose proof (vnorm_sq u) as NU. pose proof (vnorm_sq v) as NV. pose proof (vnorm_sq w) as NW.
  pose proof (vnorm_sq (vcross u v)) as NK. rewrite lagrange in NK.
  assert (PK := vnorm_nonneg (vcross u v)).
  assert (Euw : vdot u w = s * vdot u u + t * vdot u v) by (rewrite E, vdot_plus_r, !vdot_scale_r; ring).
  assert (Ewv : vdot w v = s * vdot u v + t * vdot v v) by (rewrite E, vdot_plus_l, !vdot_scale_l; ring).
  assert (Eww : vdot w w = s * vdot u w + t * vdot w v).
  { rewrite E at 1. rewrite vdot_plus_l, !vdot_scale_l, (vdot_sym v w). ring. }
  assert (Kuw : vnorm (vcross u w) = t * vnorm (vcross u v)).
  { replace (vcross u w) with (vscale t (vcross u v)) by (rewrite E; vring). unfold vnorm at 1.
    rewrite vdot_scale_l, vdot_scale_r, <- Rmult_assoc, sqrt_mult, sqrt_square; auto; [nra|apply vdot_nonneg]. }
  assert (Kwv : vnorm (vcross w v) = s * vnorm (vcross u v)).
  { replace (vcross w v) with (vscale s (vcross u v)) by (rewrite E; vring). unfold vnorm at 1.
    rewrite vdot_scale_l, vdot_scale_r, <- Rmult_assoc, sqrt_mult, sqrt_square; auto; [nra|apply vdot_nonneg]. }
  assert (C : cos (angle u w + angle w v) = cos (angle u v)).
  { rewrite cos_plus, !angle_cos, !angle_sin, Kuw, Kwv by auto.
    transitivity ((vdot u w * vdot w v - s * t * (vnorm (vcross u v) * vnorm (vcross u v)))
      / (vnorm u * (vnorm w * vnorm w) * vnorm v)); [field; lra|].
    rewrite NK, NW. replace (vdot u w * vdot w v - s * t * (vdot u u * vdot v v - vdot u v * vdot u v)) with (vdot u v * vdot w w).
    - rewrite <- NW. field. lra.
    - rewrite Eww, Euw, Ewv. ring. }
  assert (D : sin (angle u w + angle w v) = sin (angle u v)).
  { rewrite sin_plus, !angle_cos, !angle_sin, Kuw, Kwv by auto.
    transitivity (vnorm (vcross u v) * (t * vdot w v + s * vdot u w) / (vnorm u * (vnorm w * vnorm w) * vnorm v)); [field; lra|].
    rewrite NW. replace (t * vdot w v + s * vdot u w) with (vdot w w) by lra. rewrite <- NW. field. lra. }
  pose proof (angle_range u w) as R1. pose proof (angle_range w v) as R2. pose proof (angle_range u v) as R3.
  apply angle_eq; auto; [lra|]. intros (A & B).
  assert (A1 : cos (angle u w) = -1) by (replace (angle u w) with PI by lra; apply cos_PI).
  rewrite B, cos_0 in C. pose proof (angle_cos u v U V) as A2. rewrite B, cos_0 in A2.
  rewrite angle_cos in A1 by auto.
  assert (0 < vnorm u * vnorm v) by (now apply Rmult_lt_0_compat).
  assert (0 < vnorm u * vnorm w) by (now apply Rmult_lt_0_compat).
  assert (X : vdot u v = vnorm u * vnorm v).
  { apply Rmult_eq_reg_r with (/ (vnorm u * vnorm v)); [|apply Rinv_neq_0_compat; lra].
    rewrite Rinv_r by lra. symmetry. exact A2. }
  assert (Y : vdot u w = - (vnorm u * vnorm w)).
  { apply Rmult_eq_reg_r with (/ (vnorm u * vnorm w)); [|apply Rinv_neq_0_compat; lra].
    transitivity (-1); [exact A1|]. field. lra. }
  pose proof (vdot_nonneg u). assert (0 <= s * vdot u u + t * vdot u v) by (apply Rplus_le_le_0_compat; apply Rmult_le_pos; lra).
  lra.
Qed.

Lemma vnorm_scale k u : 0 <= k -> vnorm (vscale k u) = k * vnorm u.
Proof.
  intros K. unfold vnorm. rewrite vdot_scale_l, vdot_scale_r, <- Rmult_assoc, sqrt_mult, sqrt_square; auto; [nra|apply vdot_nonneg].
Qed.

Lemma angle_scale k u v : 0 < k -> v <> zerov -> u <> zerov -> angle u (vscale k v) = angle u v.
Proof.
  intros K V U. unfold angle. rewrite vnorm_scale, vdot_scale_r by lra. f_equal.
  apply vnorm_pos in U, V. field. lra.
Qed.

Lemma angle_opp k u v : 0 < k -> v <> zerov -> u <> zerov -> angle u (vscale (- k) v) = PI - angle u v.
Proof.
  intros K V U. unfold angle. rewrite <- acos_opp. f_equal.
  replace (vnorm (vscale (- k) v)) with (k * vnorm v).
  - rewrite vdot_scale_r. apply vnorm_pos in U, V. field. lra.
  - rewrite <- vnorm_scale by lra. unfold vnorm. f_equal. rewrite !vdot_scale_l, !vdot_scale_r. ring.
Qed.

Lemma excess_swap A B C : excess B A C = excess A B C.
Proof. unfold excess, angle_at. rewrite (angle_sym (vcross C B)). ring. Qed.
Lemma excess_swap2 A B C : excess A C B = excess A B C.
Proof. unfold excess, angle_at. rewrite (angle_sym (vcross A C)). ring. Qed.

(** A triangle cut from A to a point D between B and C. *)
Lemma excess_split A B C D s t : 0 < s -> 0 < t -> D = vplus (vscale s B) (vscale t C) ->
  apart A B -> apart A C -> apart A D -> apart B C ->
  excess A B D + excess A D C = excess A B C.
Proof.
  intros S T E AB AC AD BC.
  assert (BA := apart_sym _ _ AB). assert (CA := apart_sym _ _ AC). assert (DA := apart_sym _ _ AD). assert (CB := apart_sym _ _ BC).
  unfold apart in *. fold zerov in *.
  unfold excess, angle_at.
  assert (E1 : angle (vcross A B) (vcross A D) + angle (vcross A D) (vcross A C) = angle (vcross A B) (vcross A C)).
  { apply angle_split with (s := s) (t := t); auto; try lra. rewrite E. vring. }
  assert (E2 : angle (vcross B A) (vcross B D) = angle (vcross B A) (vcross B C)).
  { replace (vcross B D) with (vscale t (vcross B C)) by (rewrite E; vring). now apply angle_scale. }
  assert (E3 : angle (vcross C A) (vcross C D) = angle (vcross C A) (vcross C B)).
  { replace (vcross C D) with (vscale s (vcross C B)) by (rewrite E; vring). now apply angle_scale. }
  assert (E4 : angle (vcross D A) (vcross D B) = PI - angle (vcross D A) (vcross B C)).
  { replace (vcross D B) with (vscale (- t) (vcross B C)) by (rewrite E; vring). now apply angle_opp. }
  assert (E5 : angle (vcross D A) (vcross D C) = angle (vcross D A) (vcross B C)).
  { replace (vcross D C) with (vscale s (vcross B C)) by (rewrite E; vring). now apply angle_scale. }
  lra.
Qed.

(** ** Quadrilaterals *)

(** The area of a spherical quadrilateral: two triangles. *)
Definition squad (A B C D : vec) : R := excess A B C + excess A C D.

(** Convex, seen from inside the sphere: some point lies on both diagonals. *)
Definition convex (A B C D : vec) : Prop :=
  unit A /\ unit B /\ unit C /\ unit D /\ triple A B C <> 0 /\
  exists s t p q, 0 < s /\ 0 < t /\ 0 < p /\ 0 < q /\
    vplus (vscale s A) (vscale t C) = vplus (vscale p B) (vscale q D).

Lemma triple_apart A B C : triple A B C <> 0 -> apart A B /\ apart B C /\ apart A C.
Proof.
  intros HT. repeat split; intros E; apply HT; unfold triple.
  - replace (vdot A (vcross B C)) with (vdot (vcross A B) C) by vring. rewrite E. vring.
  - rewrite E. vring.
  - replace (vdot A (vcross B C)) with (- vdot (vcross A C) B) by vring. rewrite E. vring.
Qed.

Lemma triple_rot A B C : triple B C A = triple A B C. Proof. unfold triple. vring. Qed.
Lemma triple_swap A B C : triple B A C = - triple A B C. Proof. unfold triple. vring. Qed.
Lemma triple_lin A B u v s t : triple A B (vplus (vscale s u) (vscale t v)) = s * triple A B u + t * triple A B v.
Proof. unfold triple. vring. Qed.
Lemma triple_same A B : triple A B A = 0. Proof. unfold triple. vring. Qed.
Lemma triple_same2 A B : triple A B B = 0. Proof. unfold triple. vring. Qed.

(** The four triangles of a convex quadrilateral have the same orientation. *)
Lemma convex_triples A B C D : convex A B C D -> exists k1 k2 k3, 0 < k1 /\ 0 < k2 /\ 0 < k3 /\
  triple A C D = k1 * triple A B C /\ triple A B D = k2 * triple A B C /\ triple B C D = k3 * triple A B C.
Proof.
  intros (_ & _ & _ & _ & _ & s & t & p & q & S & T & P & Q & E).
  exists (p / q), (t / q), (s / q).
  assert (K : forall a b, 0 < a -> 0 < b -> 0 < a / b) by (intros; apply Rdiv_lt_0_compat; auto).
  repeat split; try (apply K; auto).
  - pose proof (f_equal (triple A C) E) as H. rewrite !triple_lin, triple_same, triple_same2 in H.
    replace (triple A C B) with (- triple A B C) in H by (unfold triple; vring).
    apply Rmult_eq_reg_l with q; [|lra]. field_simplify; [|lra]. lra.
  - pose proof (f_equal (triple A B) E) as H. rewrite !triple_lin, triple_same, triple_same2 in H.
    apply Rmult_eq_reg_l with q; [|lra]. field_simplify; [|lra]. lra.
  - pose proof (f_equal (triple B C) E) as H. rewrite !triple_lin, triple_same, triple_same2 in H.
    rewrite triple_rot in H.
    apply Rmult_eq_reg_l with q; [|lra]. field_simplify; [|lra]. lra.
Qed.

Lemma convex_apart A B C D : convex A B C D ->
  apart A B /\ apart B C /\ apart A C /\ apart C D /\ apart A D /\ apart B D.
Proof.
  intros H. destruct (convex_triples _ _ _ _ H) as (k1 & k2 & k3 & P1 & P2 & P3 & E1 & E2 & E3).
  destruct H as (_ & _ & _ & _ & T & _).
  destruct (triple_apart _ _ _ T) as (? & ? & ?).
  assert (T1 : triple A C D <> 0) by (rewrite E1; nra).
  assert (T2 : triple A B D <> 0) by (rewrite E2; nra).
  destruct (triple_apart _ _ _ T1) as (? & ? & ?). destruct (triple_apart _ _ _ T2) as (? & ? & ?). auto 10.
Qed.

Lemma convex_rot A B C D : convex A B C D -> convex B C D A.
Proof.
  intros H. destruct (convex_triples _ _ _ _ H) as (k1 & k2 & k3 & P1 & P2 & P3 & E1 & E2 & E3).
  destruct H as (UA & UB & UC & UD & T & s & t & p & q & S & T' & P & Q & E).
  repeat (split; auto).
  - rewrite E3. nra.
  - exists p, q, t, s. repeat (split; auto). rewrite <- E. vring.
Qed.

(** a unit vector in a given direction *)
Definition unitise (u : vec) : vec := vscale (/ vnorm u) u.
Lemma unitise_unit u : u <> zerov -> unit (unitise u).
Proof.
  intros U. apply vnorm_pos in U. unfold unit, unitise. rewrite vdot_scale_l, vdot_scale_r, <- vnorm_sq. field. lra.
Qed.

Lemma vscale_apart k u v : apart u (vscale k v) -> apart u v.
Proof.
  unfold apart. intros H E. apply H. replace (vcross u (vscale k v)) with (vscale k (vcross u v)) by vring. rewrite E.
  cbn [vscale]. repeat (f_equal; try ring).
Qed.

Lemma between_apart A B C s t : 0 < s -> 0 < t -> triple A B C <> 0 ->
  apart A (vplus (vscale s A) (vscale t C)) /\ apart B (vplus (vscale s A) (vscale t C)) /\
  apart C (vplus (vscale s A) (vscale t C)).
Proof.
  intros S T H.
  assert (E1 : triple A (vplus (vscale s A) (vscale t C)) B = - t * triple A B C) by (unfold triple; vring).
  assert (E2 : triple B (vplus (vscale s A) (vscale t C)) A = t * triple A B C) by (unfold triple; vring).
  assert (E3 : triple C (vplus (vscale s A) (vscale t C)) B = s * triple A B C) by (unfold triple; vring).
  repeat split.
  - apply (fun H => proj1 (triple_apart _ _ B H)). rewrite E1. apply Rmult_integral_contrapositive. split; lra.
  - apply (fun H => proj1 (triple_apart _ _ A H)). rewrite E2. apply Rmult_integral_contrapositive. split; lra.
  - apply (fun H => proj1 (triple_apart _ _ B H)). rewrite E3. apply Rmult_integral_contrapositive. split; lra.
Qed.

Lemma between_apart2 A C D s t : 0 < s -> 0 < t -> triple A C D <> 0 -> apart D (vplus (vscale s A) (vscale t C)).
Proof.
  intros S T H.
  assert (E2 : triple D (vplus (vscale s A) (vscale t C)) A = - t * triple A C D) by (unfold triple; vring).
  apply (fun H => proj1 (triple_apart _ _ A H)). rewrite E2. apply Rmult_integral_contrapositive. split; lra.
Qed.

(** The area does not depend on the diagonal. *)
Lemma squad_diagonal A B C D : convex A B C D -> squad B C D A = squad A B C D.
Proof.
  intros H. pose proof (convex_apart _ _ _ _ H) as (AB & BC & AC & CD & AD & BD).
  destruct (convex_triples _ _ _ _ H) as (k1 & k2 & k3 & P1 & P2 & P3 & E1 & E2 & E3).
  destruct H as (UA & UB & UC & UD & T & s & t & p & q & S & T' & P & Q & E).
  destruct (between_apart A B C s t) as (AM & BM & CM); auto.
  assert (DM : apart D (vplus (vscale s A) (vscale t C))) by (apply between_apart2; auto; rewrite E1; apply Rmult_integral_contrapositive; split; auto; lra).
  remember (vplus (vscale s A) (vscale t C)) as M eqn:HM.
  assert (X1 : excess B A M + excess B M C = excess B A C).
  { apply excess_split with (s := s) (t := t); auto using apart_sym. }
  assert (X2 : excess D A M + excess D M C = excess D A C).
  { apply excess_split with (s := s) (t := t); auto using apart_sym. }
  assert (X3 : excess A B M + excess A M D = excess A B D).
  { apply excess_split with (s := p) (t := q); auto using apart_sym. }
  assert (X4 : excess C B M + excess C M D = excess C B D).
  { apply excess_split with (s := p) (t := q); auto using apart_sym. }
  unfold squad.
  pose proof (excess_swap A B C). pose proof (excess_swap C B D).
  pose proof (excess_swap2 B D A). pose proof (excess_swap A B D).
  pose proof (excess_swap A D C). pose proof (excess_swap2 A D C).
  pose proof (excess_swap A B M). pose proof (excess_swap C B M). pose proof (excess_swap2 B C M).
  pose proof (excess_swap2 D M C). pose proof (excess_swap2 C M D). pose proof (excess_swap C D M).
  pose proof (excess_swap2 A D M). pose proof (excess_swap D A M).
  lra.
Qed.

(** Cutting a convex quadrilateral from one side to the opposite one. *)
Lemma convex_cut A B C D E F a b c d : convex A B C D -> unit E -> unit F ->
  0 < a -> 0 < b -> 0 < c -> 0 < d ->
  E = vplus (vscale a A) (vscale b B) -> F = vplus (vscale c C) (vscale d D) ->
  convex A E F D /\ convex E B C F.
Proof.
  intros H UE UF PA PB PC PD HE HF.
  destruct (convex_triples _ _ _ _ H) as (k1 & k2 & k3 & P1 & P2 & P3 & E1 & E2 & E3).
  destruct H as (UA & UB & UC & UD & T & s & t & p & q & S & T' & P & Q & X).
  assert (K : forall x y, 0 < x -> 0 < y -> 0 < x * y) by (intros; now apply Rmult_lt_0_compat).
  assert (K' : forall x y, 0 < x -> 0 < y -> 0 < x + y) by (intros; lra).
  assert (NZ : forall k, 0 < k -> k * triple A B C <> 0).
  { intros k Hk. apply Rmult_integral_contrapositive. split; [lra|assumption]. }
  split; repeat (split; [assumption|]).
  - split.
    + assert (Y : triple A E F = (b * c + b * d * k2) * triple A B C).
      { transitivity (b * c * triple A B C + b * d * triple A B D); [rewrite HE, HF; unfold triple; vring|rewrite E2; ring]. }
      rewrite Y. apply NZ. auto.
    + exists (b * c * s + c * p * a), (t * b), (c * p), (b * (c * q + d * t)). repeat split; auto.
      rewrite HE, HF.
      transitivity (vplus (vscale (b * c) (vplus (vscale s A) (vscale t C))) (vplus (vscale (c * p * a) A) (vscale (t * b * d) D))); [clear; vring|].
      rewrite X. clear. vring.
  - split.
    + assert (Y : triple E B C = a * triple A B C) by (rewrite HE; unfold triple; vring). rewrite Y. now apply NZ.
    + (* E C with B F *)
      exists (s * d), (d * t * a + a * q * c), (d * (p * a + s * b)), (a * q). repeat split; auto.
      rewrite HE, HF.
      transitivity (vplus (vscale (a * d) (vplus (vscale s A) (vscale t C))) (vplus (vscale (s * d * b) B) (vscale (a * q * c) C))); [clear; vring|].
      rewrite X. clear. vring.
Qed.

Lemma squad_cut A B C D E F a b c d : convex A B C D -> unit E -> unit F ->
  0 < a -> 0 < b -> 0 < c -> 0 < d ->
  E = vplus (vscale a A) (vscale b B) -> F = vplus (vscale c C) (vscale d D) ->
  squad A B C D = squad A E F D + squad E B C F.
Proof.
  intros H UE UF PA PB PC PD HE HF.
  destruct (convex_cut A B C D E F a b c d) as (H1 & H2); auto.
  pose proof (convex_apart _ _ _ _ H) as (AB & BC & AC & CD & AD & BD).
  pose proof (convex_apart _ _ _ _ H1) as (AE & EF & AF & FD & _ & ED).
  pose proof (convex_apart _ _ _ _ H2) as (EB & _ & EC & CF & EF' & BF).
  (* triangle A B C cut at E, triangle A C D cut at F *)
  assert (X1 : excess C A E + excess C E B = excess C A B).
  { apply excess_split with (s := a) (t := b); auto using apart_sym. }
  assert (X2 : excess A C F + excess A F D = excess A C D).
  { apply excess_split with (s := c) (t := d); auto using apart_sym. }
  (* the quadrilateral A E C F *)
  assert (H3 : convex A E C F).
  { destruct (convex_triples _ _ _ _ H) as (k1 & k2 & k3 & P1 & P2 & P3 & E1 & E2 & E3).
    destruct H as (UA & UB & UC & UD & T & s & t & p & q & S & T' & P & Q & X).
    repeat (split; [assumption|]). split.
    - assert (Y : triple A E C = b * triple A B C) by (rewrite HE; unfold triple; vring). rewrite Y.
      apply Rmult_integral_contrapositive. split; [lra|assumption].
    - exists (b * d * s + d * p * a), (b * d * t + b * q * c), (d * p), (b * q).
      repeat split; try (apply Rplus_lt_0_compat); repeat apply Rmult_lt_0_compat; auto.
      rewrite HE, HF.
      transitivity (vplus (vscale (b * d) (vplus (vscale s A) (vscale t C))) (vplus (vscale (d * p * a) A) (vscale (b * q * c) C))); [clear; vring|].
      rewrite X. clear. vring. }
  pose proof (squad_diagonal _ _ _ _ H3) as X3. unfold squad in *.
  pose proof (excess_swap2 A C B). pose proof (excess_swap A C B).
  pose proof (excess_swap C E B). pose proof (excess_swap2 E C B).
  pose proof (excess_swap A C E). pose proof (excess_swap2 A C E).
  pose proof (excess_swap2 E F A). pose proof (excess_swap A E F).
  lra.
Qed.
