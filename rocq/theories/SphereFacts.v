(** Spherical triangles. *)
From Coq Require Import Reals Ratan List Bool Lra Psatz.
From Verif Require Import Num Util RealInst RealFacts.
Local Open Scope R_scope.

(** The angle at A between the great circles through B and C. *)
Definition angle_at (A B C : vec) : R := angle (vcross A B) (vcross A C).
(** Girard's excess of a spherical triangle: its area on the unit sphere. *)
Definition excess (A B C : vec) : R := angle_at A B C + angle_at B A C + angle_at C A B - PI.

Definition apart (u v : vec) : Prop := vcross u v <> (0, 0, 0).

Lemma apart_dot u v : unit u -> unit v -> apart u v -> -1 < vdot u v < 1.
Proof.
  intros U V H. pose proof (unit_dot u v U V) as B.
  assert (vdot u v * vdot u v <> 1).
  { intros E. apply H. apply vdot_zero. rewrite lagrange, U, V. lra. }
  nra.
Qed.

Lemma apart_sym u v : apart u v -> apart v u.
Proof.
  unfold apart. intros H E. apply H. revert E. vdes. cbn [vcross]. intros E. injection E as E1 E2 E3.
  repeat (f_equal; try lra).
Qed.

Lemma cross_norm u v : unit u -> unit v -> vnorm (vcross u v) = sqrt (1 - vdot u v * vdot u v).
Proof. intros U V. unfold vnorm. rewrite lagrange, U, V. f_equal. ring. Qed.

Lemma sin_from a : -1 < a < 1 -> 0 < sqrt (1 - a * a).
Proof. intros H. apply sqrt_lt_R0. nra. Qed.

Lemma sq_sqrt a : -1 <= a <= 1 -> sqrt (1 - a * a) * sqrt (1 - a * a) = 1 - a * a.
Proof. intros H. apply sqrt_sqrt. nra. Qed.

(** cosine of the angle *)
Definition cos_at (a b c : R) : R := (a - b * c) / (sqrt (1 - b * b) * sqrt (1 - c * c)).

Lemma angle_at_cos A B C : unit A -> unit B -> unit C ->
  angle_at A B C = acos (cos_at (vdot B C) (vdot A C) (vdot A B)).
Proof.
  intros UA UB UC. unfold angle_at, angle, cos_at. rewrite !cross_norm, binet, UA by auto.
  f_equal. rewrite (vdot_sym B A), Rmult_1_l, (Rmult_comm (sqrt _) (sqrt _)). reflexivity.
Qed.

Section Tri.
Variables a b c T : R.
Hypothesis (Ha : -1 < a < 1) (Hb : -1 < b < 1) (Hc : -1 < c < 1).
Hypothesis HT : T * T = 1 + 2 * a * b * c - a * a - b * b - c * c.
Let sa := sqrt (1 - a * a).
Let sb := sqrt (1 - b * b).
Let sc := sqrt (1 - c * c).

Lemma cos_at_range : -1 <= cos_at a b c <= 1.
Proof.
  unfold cos_at. pose proof (sin_from b Hb) as Pb. pose proof (sin_from c Hc) as Pc.
  assert (Eb := sq_sqrt b ltac:(lra)). assert (Ec := sq_sqrt c ltac:(lra)).
  set (x := sqrt (1 - b * b)) in *. set (y := sqrt (1 - c * c)) in *.
  assert (Pxy : 0 < x * y) by nra.
  assert (S : (a - b * c) * (a - b * c) <= (x * y) * (x * y)).
  { replace (x * y * (x * y)) with ((x * x) * (y * y)) by ring. rewrite Eb, Ec.
    assert (0 <= T * T) by nra. nra. }
  assert (L : - (x * y) <= a - b * c <= x * y) by nra.
  split.
  - apply Rmult_le_reg_r with (x * y); auto. unfold Rdiv. rewrite Rmult_assoc, Rinv_l by lra. lra.
  - apply Rmult_le_reg_r with (x * y); auto. unfold Rdiv. rewrite Rmult_assoc, Rinv_l by lra. lra.
Qed.

Lemma sin_at : sin (acos (cos_at a b c)) = Rabs T / (sb * sc).
Proof.
  rewrite sin_acos by apply cos_at_range.
  pose proof (sin_from b Hb) as Pb. pose proof (sin_from c Hc) as Pc.
  assert (Eb := sq_sqrt b ltac:(lra)). assert (Ec := sq_sqrt c ltac:(lra)).
  unfold cos_at, sb, sc. set (x := sqrt (1 - b * b)) in *. set (y := sqrt (1 - c * c)) in *.
  assert (Pxy : 0 < x * y) by nra.
  apply Rsqr_inj.
  - apply sqrt_pos.
  - apply Rmult_le_pos; [apply Rabs_pos|]. left. now apply Rinv_0_lt_compat.
  - assert (E : 1 - ((a - b * c) / (x * y))² = (T * T) / ((x * y) * (x * y))).
    { unfold Rsqr. replace ((x * y) * (x * y)) with ((x * x) * (y * y)) by ring.
      rewrite HT. field_simplify_eq; [|split; lra].
      replace (x ^ 2 * y ^ 2) with ((x * x) * (y * y)) by ring. rewrite Eb, Ec. ring. }
    rewrite E, Rsqr_sqrt.
    + unfold Rsqr. replace (T * T) with (Rabs T * Rabs T) by (rewrite <- Rabs_mult; apply Rabs_pos_eq; nra). field. lra.
    + apply Rmult_le_pos; [nra|]. left. apply Rinv_0_lt_compat. nra.
Qed.
End Tri.

Lemma excess_key a b c T : -1 < a < 1 -> -1 < b < 1 -> -1 < c < 1 ->
  T * T = 1 + 2 * a * b * c - a * a - b * b - c * c ->
  let X := acos (cos_at a b c) in let Y := acos (cos_at b a c) in let Z := acos (cos_at c a b) in
  exists k, 0 < k /\ cos (X + Y) + cos Z = - k * ((1 - c) * (T * T)).
Proof.
  intros Ha Hb Hc HT X Y Z.
  pose proof (sin_from a Ha) as Pa. pose proof (sin_from b Hb) as Pb. pose proof (sin_from c Hc) as Pc.
  assert (Ea := sq_sqrt a ltac:(lra)). assert (Eb := sq_sqrt b ltac:(lra)). assert (Ec := sq_sqrt c ltac:(lra)).
  rewrite cos_plus. unfold X, Y, Z.
  rewrite (sin_at a b c T), (sin_at b a c T), !cos_acos;
    try (eapply cos_at_range with (T := T); eauto; rewrite HT; ring); auto; try (rewrite HT; ring).
  unfold cos_at. set (x := sqrt (1 - a * a)) in *. set (y := sqrt (1 - b * b)) in *. set (z := sqrt (1 - c * c)) in *.
  exists (/ (x * y * (z * z))). split.
  - apply Rinv_0_lt_compat. repeat apply Rmult_lt_0_compat; assumption.
  - assert (AT : Rabs T * Rabs T = T * T) by (rewrite <- Rabs_mult; apply Rabs_pos_eq; nra).
    transitivity (((a - b * c) * (b - a * c) - Rabs T * Rabs T + (c - a * b) * (z * z)) / (x * y * (z * z))).
    + field. repeat split; lra.
    + rewrite AT, Ec, HT. field. repeat split; try lra. nra.
Qed.

Lemma acos_ge0 x : 0 <= acos x <= PI. Proof. apply acos_bound. Qed.

Lemma excess_nonneg A B C : unit A -> unit B -> unit C -> apart A B -> apart B C -> apart A C ->
  0 <= excess A B C.
Proof.
  intros UA UB UC AB BC AC.
  pose proof (apart_dot _ _ UA UB AB) as Hc. pose proof (apart_dot _ _ UB UC BC) as Ha. pose proof (apart_dot _ _ UA UC AC) as Hb.
  unfold excess. rewrite !angle_at_cos by auto. rewrite (vdot_sym B A), (vdot_sym C B), (vdot_sym C A).
  destruct (excess_key _ _ _ (triple A B C) Ha Hb Hc) as (k & Pk & E).
  { rewrite gram_unit by auto. ring. }
  cbv zeta in E. set (X := acos (cos_at (vdot B C) (vdot A C) (vdot A B))) in *.
  set (Y := acos (cos_at (vdot A C) (vdot B C) (vdot A B))) in *.
  set (Z := acos (cos_at (vdot A B) (vdot B C) (vdot A C))) in *.
  assert (BX := acos_bound (cos_at (vdot B C) (vdot A C) (vdot A B))). fold X in BX.
  assert (BY := acos_bound (cos_at (vdot A C) (vdot B C) (vdot A B))). fold Y in BY.
  assert (BZ := acos_bound (cos_at (vdot A B) (vdot B C) (vdot A C))). fold Z in BZ.
  destruct (Rle_dec 0 (X + Y + Z - PI)) as [|N]; [assumption|exfalso].
  assert (L : cos (PI - Z) < cos (X + Y)) by (apply cos_decreasing_1; lra).
  replace (PI - Z) with (- (Z - PI)) in L by ring. rewrite cos_neg in L.
  replace (cos (Z - PI)) with (- cos Z) in L.
  2:{ rewrite cos_minus, cos_PI, sin_PI. ring. }
  assert (0 <= (1 - vdot A B) * (triple A B C * triple A B C)) by nra. nra.
Qed.

Lemma excess_pos A B C : unit A -> unit B -> unit C -> triple A B C <> 0 -> 0 < excess A B C.
Proof.
  intros UA UB UC HT.
  assert (AB : apart A B).
  { intros E. apply HT. unfold triple. rewrite <- (vdot_sym (vcross B C)).
    replace (vdot (vcross B C) A) with (vdot (vcross A B) C) by vring. rewrite E. vring. }
  assert (BC : apart B C).
  { intros E. apply HT. unfold triple. rewrite E. vring. }
  assert (AC : apart A C).
  { intros E. apply HT. unfold triple.
    replace (vdot A (vcross B C)) with (- vdot (vcross A C) B) by vring. rewrite E. vring. }
  pose proof (apart_dot _ _ UA UB AB) as Hc. pose proof (apart_dot _ _ UB UC BC) as Ha. pose proof (apart_dot _ _ UA UC AC) as Hb.
  unfold excess. rewrite !angle_at_cos by auto. rewrite (vdot_sym B A), (vdot_sym C B), (vdot_sym C A).
  destruct (excess_key _ _ _ (triple A B C) Ha Hb Hc) as (k & Pk & E).
  { rewrite gram_unit by auto. ring. }
  cbv zeta in E. set (X := acos (cos_at (vdot B C) (vdot A C) (vdot A B))) in *.
  set (Y := acos (cos_at (vdot A C) (vdot B C) (vdot A B))) in *.
  set (Z := acos (cos_at (vdot A B) (vdot B C) (vdot A C))) in *.
  assert (BX := acos_bound (cos_at (vdot B C) (vdot A C) (vdot A B))). fold X in BX.
  assert (BY := acos_bound (cos_at (vdot A C) (vdot B C) (vdot A B))). fold Y in BY.
  assert (BZ := acos_bound (cos_at (vdot A B) (vdot B C) (vdot A C))). fold Z in BZ.
  destruct (Rlt_dec 0 (X + Y + Z - PI)) as [|N]; [assumption|exfalso].
  assert (L : cos (PI - Z) <= cos (X + Y)) by (apply cos_decr_1; lra).
  replace (PI - Z) with (- (Z - PI)) in L by ring. rewrite cos_neg in L.
  replace (cos (Z - PI)) with (- cos Z) in L.
  2:{ rewrite cos_minus, cos_PI, sin_PI. ring. }
  assert (0 < triple A B C * triple A B C) by nra.
  assert (0 < (1 - vdot A B) * (triple A B C * triple A B C)) by nra. nra.
Qed.

Lemma excess_le A B C : excess A B C <= 2 * PI.
Proof.
  unfold excess, angle_at, angle.
  repeat match goal with |- context [acos ?x] => let H := fresh in pose proof (acos_bound x) as H; set (acos x) in * end. lra.
Qed.
