(** Rounding errors of the double operations and of the planar area. *)
From Coq Require Import Reals ZArith Lia Lra Psatz Bool.
From Flocq Require Import Core Relative Plus_error IEEE754.BinarySingleNaN IEEE754.Binary IEEE754.Bits.
From Verif Require Import Num Util Float64 FmtE FmtEFacts PyFloat PyFloatFacts FloorDivFacts RealInst RealFacts.
Local Open Scope R_scope.

#[local] Instance prec53 : Prec_gt_0 53 := eq_refl.

Definition h75 : R := / 2 * bpow radix2 (-1074).

Lemma u53_small : 0 < u53 <= / 1000000.
Proof. rewrite u53_value. split; [apply Rinv_0_lt_compat, IZR_lt; reflexivity|]. apply Rinv_le; [lra|apply IZR_le; discriminate]. Qed.
Lemma h75_small : 0 < h75 <= / 1000000.
Proof.
  unfold h75. split; [apply Rmult_lt_0_compat; [lra|apply bpow_gt_0]|].
  apply Rle_trans with (/ 2 * bpow radix2 (-30)); [apply Rmult_le_compat_l; [lra|apply bpow_le; lia]|].
  change (bpow radix2 (-30)) with (/ 1073741824). lra.
Qed.

Lemma round_any v : Rabs (round radix2 fexp64 ZnearestE v - v) <= u53 * Rabs v + h75.
Proof.
  destruct (error_N_FLT radix2 (-1074) 53 eq_refl (fun z => negb (Z.even z)) v) as (e & h & E & H & _ & V).
  change (FLT_exp (-1074) 53) with fexp64 in V. rewrite V. replace (v * (1 + e) + h - v) with (e * v + h) by ring.
  eapply Rle_trans; [apply Rabs_triang|]. rewrite Rabs_mult. apply Rplus_le_compat; [|exact H].
  apply Rmult_le_compat_r; [apply Rabs_pos|exact E].
Qed.

Definition big : R := IZR (2 ^ 60).

Lemma add_near x y : finite x = true -> finite y = true -> Rabs (R64 x + R64 y) <= big ->
  finite (b64_plus mode_NE x y) = true /\ Rabs (R64 (b64_plus mode_NE x y) - (R64 x + R64 y)) <= u53 * Rabs (R64 x + R64 y).
Proof.
  intros FX FY B. pose proof (Binary.Bplus_correct 53 1024 eq_refl eq_refl binop_nan_pl64 mode_NE x y FX FY) as M.
  change (Binary.Bplus 53 1024 eq_refl eq_refl binop_nan_pl64 mode_NE x y) with (b64_plus mode_NE x y) in M.
  change (round_mode mode_NE) with ZnearestE in M. change (SpecFloat.fexp 53 1024) with fexp64 in M.
  rewrite Rlt_bool_true in M by (now apply small_lt_emax). destruct M as (V & F & _). split; [exact F|]. rewrite V.
  apply round_sum; apply generic_format_B2R.
Qed.

Lemma sub_near x y : finite x = true -> finite y = true -> Rabs (R64 x - R64 y) <= big ->
  finite (b64_minus mode_NE x y) = true /\ Rabs (R64 (b64_minus mode_NE x y) - (R64 x - R64 y)) <= u53 * Rabs (R64 x - R64 y).
Proof.
  intros FX FY B. pose proof (Binary.Bminus_correct 53 1024 eq_refl eq_refl binop_nan_pl64 mode_NE x y FX FY) as M.
  change (Binary.Bminus 53 1024 eq_refl eq_refl binop_nan_pl64 mode_NE x y) with (b64_minus mode_NE x y) in M.
  change (round_mode mode_NE) with ZnearestE in M. change (SpecFloat.fexp 53 1024) with fexp64 in M.
  rewrite Rlt_bool_true in M by (now apply small_lt_emax). destruct M as (V & F & _). split; [exact F|]. rewrite V.
  replace (R64 x - R64 y) with (R64 x + - R64 y) by ring.
  apply round_sum; [apply generic_format_B2R|apply generic_format_opp, generic_format_B2R].
Qed.

Lemma mul_near x y : finite x = true -> finite y = true -> Rabs (R64 x * R64 y) <= big ->
  finite (b64_mult mode_NE x y) = true /\ Rabs (R64 (b64_mult mode_NE x y) - R64 x * R64 y) <= u53 * Rabs (R64 x * R64 y) + h75 /\
  (0 <= R64 x * R64 y -> 0 <= R64 (b64_mult mode_NE x y)).
Proof.
  intros FX FY B. pose proof (Binary.Bmult_correct 53 1024 eq_refl eq_refl binop_nan_pl64 mode_NE x y) as M.
  change (Binary.Bmult 53 1024 eq_refl eq_refl binop_nan_pl64 mode_NE x y) with (b64_mult mode_NE x y) in M.
  change (round_mode mode_NE) with ZnearestE in M. change (SpecFloat.fexp 53 1024) with fexp64 in M.
  rewrite Rlt_bool_true in M by (now apply small_lt_emax). rewrite FX, FY in M. destruct M as (V & F & _).
  split; [exact F|]. rewrite V. split; [apply round_any|]. intros P.
  rewrite <- (round_0 radix2 fexp64 ZnearestE). apply round_le; [typeclasses eauto|typeclasses eauto|exact P].
Qed.

Lemma sqrt_near x : finite x = true -> 0 <= R64 x ->
  finite (b64_sqrt mode_NE x) = true /\ Rabs (R64 (b64_sqrt mode_NE x) - sqrt (R64 x)) <= u53 * sqrt (R64 x) + h75 /\
  0 <= R64 (b64_sqrt mode_NE x).
Proof.
  intros FX P. pose proof (Binary.Bsqrt_correct 53 1024 eq_refl eq_refl unop_nan_pl64 mode_NE x) as (V & F & _).
  change (Binary.Bsqrt 53 1024 eq_refl eq_refl unop_nan_pl64 mode_NE x) with (b64_sqrt mode_NE x) in V, F.
  change (round_mode mode_NE) with ZnearestE in V. change (SpecFloat.fexp 53 1024) with fexp64 in V.
  split; [|split].
  - rewrite F. destruct x as [s|s|s pl|s m e H]; try discriminate FX; [reflexivity|]. destruct s; [|reflexivity]. exfalso.
    apply (Rle_not_lt _ _ P). apply F2R_lt_0. reflexivity.
  - rewrite V. rewrite <- (Rabs_pos_eq (sqrt (R64 x))) at 3 by apply sqrt_pos. apply round_any.
  - rewrite V. rewrite <- (round_0 radix2 fexp64 ZnearestE). apply round_le; [typeclasses eauto|typeclasses eauto|apply sqrt_pos].
Qed.

(** ** Propagation *)

Section Errors.
Variables (u h : R).
Hypothesis U : 0 <= u <= / 1000000.
Hypothesis H : 0 <= h.

Lemma near_abs a a' e : Rabs (a' - a) <= e -> Rabs a' <= Rabs a + e.
Proof. intros E. replace a' with (a + (a' - a)) by ring. eapply Rle_trans; [apply Rabs_triang|]. lra. Qed.

Lemma err_prod b z b' z' m : Rabs (b' - b) <= u * Rabs b -> Rabs (z' - z) <= u * Rabs z ->
  Rabs (m - b' * z') <= u * Rabs (b' * z') + h -> Rabs (m - b * z) <= 4 * u * Rabs (b * z) + h.
Proof.
  intros B Z M. pose proof (near_abs _ _ _ B) as B1. pose proof (near_abs _ _ _ Z) as Z1.
  pose proof (Rabs_pos b) as PB. pose proof (Rabs_pos z) as PZ. pose proof (Rabs_pos b') as PB'. pose proof (Rabs_pos z') as PZ'.
  assert (D : Rabs (b' * z' - b * z) <= (2 * u + u * u) * (Rabs b * Rabs z)).
  { replace (b' * z' - b * z) with ((b' - b) * z' + b * (z' - z)) by ring. eapply Rle_trans; [apply Rabs_triang|].
    rewrite !Rabs_mult. apply Rle_trans with (u * Rabs b * ((1 + u) * Rabs z) + Rabs b * (u * Rabs z)); [|right; ring].
    apply Rplus_le_compat; [apply Rmult_le_compat; [apply Rabs_pos|exact PZ'|exact B|lra]|apply Rmult_le_compat_l; [exact PB|exact Z]]. }
  assert (T : Rabs (b' * z') <= (1 + u) * (1 + u) * (Rabs b * Rabs z)).
  { rewrite Rabs_mult. apply Rle_trans with ((1 + u) * Rabs b * ((1 + u) * Rabs z)); [|right; ring].
    apply Rmult_le_compat; lra. }
  replace (m - b * z) with ((m - b' * z') + (b' * z' - b * z)) by ring. eapply Rle_trans; [apply Rabs_triang|].
  rewrite (Rabs_mult b z). set (t := Rabs b * Rabs z) in *. assert (0 <= t) by (apply Rmult_le_pos; assumption).
  assert (u * Rabs (b' * z') <= u * ((1 + u) * (1 + u) * t)) by (apply Rmult_le_compat_l; lra).
  assert (u * u <= u * / 1000000) by (apply Rmult_le_compat_l; lra).
  assert (u * u * u <= u * / 1000000) by (rewrite Rmult_assoc; apply Rmult_le_compat_l; nra).
  assert (u * ((1 + u) * (1 + u) * t) + (2 * u + u * u) * t <= 4 * u * t).
  { replace (u * ((1 + u) * (1 + u) * t) + (2 * u + u * u) * t) with ((3 * u + 3 * (u * u) + u * u * u) * t) by ring.
    apply Rmult_le_compat_r; lra. }
  lra.
Qed.

Lemma err_diff p q m n c : Rabs (m - p) <= 4 * u * Rabs p + h -> Rabs (n - q) <= 4 * u * Rabs q + h ->
  Rabs (c - (m - n)) <= u * Rabs (m - n) -> Rabs (c - (p - q)) <= 6 * u * (Rabs p + Rabs q) + 3 * h.
Proof.
  intros P Q C. pose proof (Rabs_pos p). pose proof (Rabs_pos q).
  assert (D : Rabs ((m - n) - (p - q)) <= 4 * u * (Rabs p + Rabs q) + 2 * h).
  { replace ((m - n) - (p - q)) with ((m - p) + - (n - q)) by ring. eapply Rle_trans; [apply Rabs_triang|]. rewrite Rabs_Ropp. lra. }
  assert (T : Rabs (m - n) <= (1 + 4 * u) * (Rabs p + Rabs q) + 2 * h).
  { apply near_abs in D. assert (Rabs (p - q) <= Rabs p + Rabs q).
    { unfold Rminus. eapply Rle_trans; [apply Rabs_triang|]. rewrite Rabs_Ropp. lra. }
    lra. }
  replace (c - (p - q)) with ((c - (m - n)) + ((m - n) - (p - q))) by ring. eapply Rle_trans; [apply Rabs_triang|].
  set (t := Rabs p + Rabs q) in *. assert (0 <= t) by (unfold t; lra).
  assert (u * Rabs (m - n) <= u * ((1 + 4 * u) * t + 2 * h)) by (apply Rmult_le_compat_l; lra).
  assert (u * u * t <= u * / 1000000 * t) by (apply Rmult_le_compat_r; [lra|apply Rmult_le_compat_l; lra]).
  assert (u * t >= 0) by (apply Rle_ge, Rmult_le_pos; lra). assert (u * h <= / 1000000 * h) by (apply Rmult_le_compat_r; lra).
  lra.
Qed.

Lemma err_sum x y P Q c d s : Rabs x <= P -> Rabs y <= Q ->
  Rabs (c - x) <= 6 * u * P + 3 * h -> Rabs (d - y) <= 6 * u * Q + 3 * h ->
  Rabs (s - (c + d)) <= u * Rabs (c + d) -> Rabs (s - (x + y)) <= 8 * u * (P + Q) + 7 * h.
Proof.
  intros PX PY C D S. pose proof (Rabs_pos x). pose proof (Rabs_pos y).
  assert (E : Rabs ((c + d) - (x + y)) <= 6 * u * (P + Q) + 6 * h).
  { replace ((c + d) - (x + y)) with ((c - x) + (d - y)) by ring. eapply Rle_trans; [apply Rabs_triang|]. lra. }
  assert (T : Rabs (c + d) <= (1 + 6 * u) * (P + Q) + 6 * h).
  { apply near_abs in E. pose proof (Rabs_triang x y). lra. }
  replace (s - (x + y)) with ((s - (c + d)) + ((c + d) - (x + y))) by ring. eapply Rle_trans; [apply Rabs_triang|].
  set (t := P + Q) in *. assert (0 <= t) by (unfold t; lra).
  assert (u * Rabs (c + d) <= u * ((1 + 6 * u) * t + 6 * h)) by (apply Rmult_le_compat_l; lra).
  assert (u * u * t <= u * / 1000000 * t) by (apply Rmult_le_compat_r; [lra|apply Rmult_le_compat_l; lra]).
  assert (u * t >= 0) by (apply Rle_ge, Rmult_le_pos; lra). assert (u * h <= / 1000000 * h) by (apply Rmult_le_compat_r; lra).
  lra.
Qed.

(** The sum of the squares of three numbers. *)
Lemma err_dot a b c x y z d e : Rabs (x - a * a) <= u * Rabs (a * a) + h -> Rabs (y - b * b) <= u * Rabs (b * b) + h ->
  Rabs (z - c * c) <= u * Rabs (c * c) + h -> Rabs (d - (x + y)) <= u * Rabs (x + y) -> Rabs (e - (d + z)) <= u * Rabs (d + z) ->
  Rabs (e - (a * a + b * b + c * c)) <= 4 * u * (a * a + b * b + c * c) + 5 * h.
Proof.
  assert (SQ : forall t, Rabs (t * t) = t * t) by (intros t; apply Rabs_pos_eq, Rle_0_sqr).
  rewrite !SQ. intros A B C D E. pose proof (Rle_0_sqr a) as PA. pose proof (Rle_0_sqr b) as PB. pose proof (Rle_0_sqr c) as PC.
  unfold Rsqr in *. set (p := a * a) in *. set (q := b * b) in *. set (r := c * c) in *.
  assert (XY : Rabs (x + y) <= (1 + u) * (p + q) + 2 * h).
  { pose proof (near_abs _ _ _ A) as A'. pose proof (near_abs _ _ _ B) as B'. rewrite (Rabs_pos_eq p) in A' by lra. rewrite (Rabs_pos_eq q) in B' by lra.
    eapply Rle_trans; [apply Rabs_triang|]. lra. }
  assert (UU : u * u <= u * / 1000000) by (apply Rmult_le_compat_l; lra).
  assert (UH : u * h <= / 1000000 * h) by (apply Rmult_le_compat_r; lra).
  assert (DD : Rabs (d - (p + q)) <= 5 / 2 * u * (p + q) + 3 * h).
  { replace (d - (p + q)) with ((d - (x + y)) + ((x - p) + (y - q))) by ring. eapply Rle_trans; [apply Rabs_triang|].
    pose proof (Rabs_triang (x - p) (y - q)).
    assert (u * Rabs (x + y) <= u * ((1 + u) * (p + q) + 2 * h)) by (apply Rmult_le_compat_l; lra).
    assert (u * u * (p + q) <= u * / 1000000 * (p + q)) by (apply Rmult_le_compat_r; lra).
    assert (0 <= u * (p + q)) by (apply Rmult_le_pos; lra). lra. }
  assert (DZ : Rabs (d + z) <= (1 + 3 * u) * (p + q + r) + 4 * h).
  { pose proof (near_abs _ _ _ DD) as D'. pose proof (near_abs _ _ _ C) as C'. rewrite (Rabs_pos_eq (p + q)) in D' by lra. rewrite (Rabs_pos_eq r) in C' by lra.
    assert (0 <= u * r) by (apply Rmult_le_pos; lra). assert (0 <= u * (p + q)) by (apply Rmult_le_pos; lra).
    eapply Rle_trans; [apply Rabs_triang|]. lra. }
  replace (e - (p + q + r)) with ((e - (d + z)) + ((d - (p + q)) + (z - r))) by ring. eapply Rle_trans; [apply Rabs_triang|].
  pose proof (Rabs_triang (d - (p + q)) (z - r)).
  assert (u * Rabs (d + z) <= u * ((1 + 3 * u) * (p + q + r) + 4 * h)) by (apply Rmult_le_compat_l; lra).
  assert (u * u * (p + q + r) <= u * / 1000000 * (p + q + r)) by (apply Rmult_le_compat_r; lra).
  assert (0 <= u * (p + q)) by (apply Rmult_le_pos; lra). assert (0 <= u * r) by (apply Rmult_le_pos; lra). lra.
Qed.
End Errors.

(** The square root of such a sum. *)
Definition g36 : R := bpow radix2 (-536).
Lemma g36_sq : g36 * g36 = 8 * h75.
Proof. unfold g36, h75. rewrite <- bpow_plus. change (-536 + -536)%Z with (2 + -1074)%Z. rewrite bpow_plus. change (bpow radix2 2) with 4. lra. Qed.
Lemma g36_small : 0 < g36 <= / 1000000.
Proof.
  unfold g36. split; [apply bpow_gt_0|]. apply Rle_trans with (bpow radix2 (-30)); [apply bpow_le; lia|].
  change (bpow radix2 (-30)) with (/ 1073741824). lra.
Qed.
Lemma h75_g36 : h75 <= / 1000000 * g36.
Proof. pose proof g36_sq. pose proof g36_small. pose proof h75_small. nra. Qed.

Lemma err_root N d n : 0 <= N -> 0 <= d -> Rabs (d - N * N) <= 4 * u53 * (N * N) + 5 * h75 ->
  Rabs (n - sqrt d) <= u53 * sqrt d + h75 -> Rabs (n - N) <= 6 * u53 * N + 3 * g36.
Proof.
  intros PN PD D R. pose proof u53_small as U. pose proof h75_small as H. pose proof g36_small as G. pose proof g36_sq as GS.
  pose proof h75_g36 as HG. set (u := u53) in *. set (h := h75) in *. set (g := g36) in *.
  apply Rabs_le_inv in D. pose proof (Rle_0_sqr N) as NN. unfold Rsqr in NN.
  assert (UP : sqrt d <= N * (1 + 4 * u) + g).
  { rewrite <- (sqrt_square (N * (1 + 4 * u) + g)) by nra. apply sqrt_le_1; [exact PD|exact (Rle_0_sqr _)|].
    assert (0 <= u * (N * N)) by (apply Rmult_le_pos; lra). assert (0 <= u * u * (N * N)) by (apply Rmult_le_pos; nra).
    assert (0 <= N * (1 + 4 * u) * g) by (apply Rmult_le_pos; nra). nra. }
  assert (LO : N * (1 - 4 * u) - g <= sqrt d).
  { destruct (Rle_lt_dec (N * (1 - 4 * u) - g) 0) as [L|L]; [pose proof (sqrt_pos d); lra|].
    rewrite <- (sqrt_square (N * (1 - 4 * u) - g)) by lra. apply sqrt_le_1; [exact (Rle_0_sqr _)|exact PD|].
    set (A := N * (1 - 4 * u)) in *. assert (AA : A * A <= N * N * (1 - 4 * u)).
    { unfold A. replace (N * (1 - 4 * u) * (N * (1 - 4 * u))) with (N * N * (1 - 4 * u) * (1 - 4 * u)) by ring.
      rewrite <- (Rmult_1_r (N * N * (1 - 4 * u))) at 2. apply Rmult_le_compat_l; [apply Rmult_le_pos; lra|lra]. }
    assert (A * g >= g * g) by (apply Rle_ge, Rmult_le_compat_r; lra). nra. }
  assert (Q : Rabs (sqrt d - N) <= 4 * u * N + g) by (apply Rabs_le; lra).
  replace (n - N) with ((n - sqrt d) + (sqrt d - N)) by ring. eapply Rle_trans; [apply Rabs_triang|].
  assert (u * sqrt d <= u * (N * (1 + 4 * u) + g)) by (apply Rmult_le_compat_l; lra).
  assert (u * u * N <= u * / 1000000 * N) by (apply Rmult_le_compat_r; [lra|apply Rmult_le_compat_l; lra]).
  assert (u * g <= / 1000000 * g) by (apply Rmult_le_compat_r; lra). assert (0 <= u * N) by (apply Rmult_le_pos; lra). lra.
Qed.

(** ** Vectors *)

Lemma vnorm_sqrt_le u b : 0 <= b -> vdot u u <= b * b -> vnorm u <= b.
Proof. intros B H. unfold vnorm. rewrite <- (sqrt_square b) by exact B. apply sqrt_le_1; [apply vdot_nonneg|exact (Rle_0_sqr _)|exact H]. Qed.

Lemma vdot_le_norms u v : vdot u v <= vnorm u * vnorm v.
Proof.
  pose proof (vnorm_nonneg u). pose proof (vnorm_nonneg v). pose proof (cauchy u v) as C. rewrite <- (vnorm_sq u), <- (vnorm_sq v) in C.
  assert (0 <= vnorm u * vnorm v) by (apply Rmult_le_pos; assumption). apply Rnot_lt_le. intros L.
  assert (vnorm u * vnorm v * (vnorm u * vnorm v) < vdot u v * vdot u v) by (apply Rmult_le_0_lt_compat; lra). lra.
Qed.

Lemma vnorm_plus u v : vnorm (vplus u v) <= vnorm u + vnorm v.
Proof.
  pose proof (vnorm_nonneg u). pose proof (vnorm_nonneg v). apply vnorm_sqrt_le; [lra|].
  rewrite vdot_plus_l, !vdot_plus_r, (vdot_sym v u), <- (vnorm_sq u), <- (vnorm_sq v). pose proof (vdot_le_norms u v). lra.
Qed.

Lemma vnorm_near u v : Rabs (vnorm u - vnorm v) <= vnorm (vminus u v).
Proof.
  assert (A : vnorm u <= vnorm v + vnorm (vminus u v)).
  { replace u with (vplus v (vminus u v)) at 1; [apply vnorm_plus|]. vring. }
  assert (B : vnorm v <= vnorm u + vnorm (vminus u v)).
  { replace v with (vplus u (vminus v u)) at 1 by vring. eapply Rle_trans; [apply vnorm_plus|]. right. f_equal.
    unfold vnorm. f_equal. vring. }
  apply Rabs_le. lra.
Qed.

Lemma vnorm_cross u v : vnorm (vcross u v) <= vnorm u * vnorm v.
Proof.
  apply vnorm_sqrt_le; [apply Rmult_le_pos; apply vnorm_nonneg|]. rewrite lagrange.
  replace (vnorm u * vnorm v * (vnorm u * vnorm v)) with ((vnorm u * vnorm u) * (vnorm v * vnorm v)) by ring. rewrite !vnorm_sq.
  pose proof (Rle_0_sqr (vdot u v)). unfold Rsqr in *. lra.
Qed.

Definition coords (P : R -> R -> Prop) (u v : vec) : Prop :=
  let '(a, b, c) := u in let '(x, y, z) := v in P a x /\ P b y /\ P c z.

Lemma coords_norm u v E : 0 <= E -> coords (fun a x => Rabs (a - x) <= E) u v -> vnorm (vminus u v) <= 2 * E.
Proof.
  intros PE. destruct u as [[a b] c], v as [[x y] z]. cbn. intros (A & B & C).
  apply vnorm_sqrt_le; [lra|]. cbn [vminus vdot].
  assert (SQ : forall t, Rabs t <= E -> t * t <= E * E).
  { intros t T. apply Rabs_le_inv in T. nra. }
  apply SQ in A, B, C. nra.
Qed.

Lemma two_products a b c x y z : Rabs (b * z) + Rabs (c * y) <= vnorm (a, b, c) * vnorm (x, y, z).
Proof.
  set (W := vnorm (a, b, c) * vnorm (x, y, z)). assert (PW : 0 <= W) by (apply Rmult_le_pos; apply vnorm_nonneg).
  assert (WW : W * W = (a * a + b * b + c * c) * (x * x + y * y + z * z)).
  { unfold W. replace (vnorm (a, b, c) * vnorm (x, y, z) * (vnorm (a, b, c) * vnorm (x, y, z)))
      with ((vnorm (a, b, c) * vnorm (a, b, c)) * (vnorm (x, y, z) * vnorm (x, y, z))) by ring. rewrite !vnorm_sq. reflexivity. }
  rewrite !Rabs_mult. pose proof (Rabs_pos b). pose proof (Rabs_pos z). pose proof (Rabs_pos c). pose proof (Rabs_pos y).
  assert (SQ : forall t, t * t = Rabs t * Rabs t) by (intros t; rewrite <- Rabs_mult; symmetry; apply Rabs_pos_eq, Rle_0_sqr).
  rewrite (SQ b), (SQ c), (SQ y), (SQ z) in WW. pose proof (Rle_0_sqr a). pose proof (Rle_0_sqr x). unfold Rsqr in *.
  set (B := Rabs b) in *. set (C := Rabs c) in *. set (Y := Rabs y) in *. set (Z := Rabs z) in *.
  assert ((B * Z + C * Y) * (B * Z + C * Y) <= W * W).
  { rewrite WW. pose proof (Rle_0_sqr (B * Y - C * Z)) as S. unfold Rsqr in S.
    assert (0 <= (a * a) * (x * x + Y * Y + Z * Z)) by (apply Rmult_le_pos; nra).
    assert (0 <= (B * B + C * C) * (x * x)) by (apply Rmult_le_pos; nra). nra. }
  assert (0 <= B * Z + C * Y) by nra. nra.
Qed.

(** ** The operations of the model on vectors of doubles *)

Definition fpoint : Type := (binary64 * binary64 * binary64)%type.
Definition val (p : fpoint) : vec := let '(x, y, z) := p in (R64 x, R64 y, R64 z).
Definition all3 (P : binary64 -> Prop) (p : fpoint) : Prop := let '(x, y, z) := p in P x /\ P y /\ P z.
Definition bounded (b : R) (x : binary64) : Prop := finite x = true /\ Rabs (R64 x) <= b.

Lemma big_value : 1000000000000 <= big. Proof. apply IZR_le. discriminate. Qed.

Lemma near_bounded a e v b : Rabs (a - v) <= u53 * Rabs v + e -> 0 <= e -> Rabs v <= b -> e <= 1 -> Rabs a <= 2 * b + 1.
Proof.
  intros N E V E1. apply near_abs in N. pose proof u53_small as U. pose proof (Rabs_pos v).
  assert (u53 * Rabs v <= / 1000000 * Rabs v) by (apply Rmult_le_compat_r; lra). lra.
Qed.

Lemma bounded_sub b x y : b <= 1000000 -> bounded b x -> bounded b y -> bounded (4 * b + 1) (b64_minus mode_NE x y) /\
  Rabs (R64 (b64_minus mode_NE x y) - (R64 x - R64 y)) <= u53 * Rabs (R64 x - R64 y).
Proof.
  intros B (FX & BX) (FY & BY). pose proof big_value.
  assert (V : Rabs (R64 x - R64 y) <= 2 * b) by (unfold Rminus; eapply Rle_trans; [apply Rabs_triang|]; rewrite Rabs_Ropp; lra).
  destruct (sub_near x y FX FY) as (F & E); [lra|]. split; [|exact E]. split; [exact F|].
  replace (4 * b + 1) with (2 * (2 * b) + 1) by ring. apply (near_bounded _ 0 (R64 x - R64 y)); lra.
Qed.

Lemma bounded_add b x y : b <= 1000000 -> bounded b x -> bounded b y -> bounded (4 * b + 1) (b64_plus mode_NE x y) /\
  Rabs (R64 (b64_plus mode_NE x y) - (R64 x + R64 y)) <= u53 * Rabs (R64 x + R64 y).
Proof.
  intros B (FX & BX) (FY & BY). pose proof big_value.
  assert (V : Rabs (R64 x + R64 y) <= 2 * b) by (eapply Rle_trans; [apply Rabs_triang|]; lra).
  destruct (add_near x y FX FY) as (F & E); [lra|]. split; [|exact E]. split; [exact F|].
  replace (4 * b + 1) with (2 * (2 * b) + 1) by ring. apply (near_bounded _ 0 (R64 x + R64 y)); lra.
Qed.

Lemma bounded_mul b x y : b <= 1000000 -> bounded b x -> bounded b y -> bounded (2 * (b * b) + 1) (b64_mult mode_NE x y) /\
  Rabs (R64 (b64_mult mode_NE x y) - R64 x * R64 y) <= u53 * Rabs (R64 x * R64 y) + h75 /\
  (0 <= R64 x * R64 y -> 0 <= R64 (b64_mult mode_NE x y)).
Proof.
  intros B (FX & BX) (FY & BY). pose proof big_value. pose proof (Rabs_pos (R64 x)). pose proof (Rabs_pos (R64 y)). pose proof h75_small.
  assert (V : Rabs (R64 x * R64 y) <= b * b) by (rewrite Rabs_mult; apply Rmult_le_compat; lra).
  assert (b * b <= 1000000 * 1000000) by (apply Rmult_le_compat; lra).
  destruct (mul_near x y FX FY) as (F & E & P); [lra|]. split; [|split; [exact E|exact P]]. split; [exact F|].
  apply (near_bounded _ h75 (R64 x * R64 y)); lra.
Qed.

Lemma bounded_weaken b c x : b <= c -> bounded b x -> bounded c x.
Proof. intros L (F & B). split; [exact F|lra]. Qed.

Section Planar.
Variable L : libm.
Notation N := (b64ops L).

Lemma vsub_near p q : all3 (bounded 2) p -> all3 (bounded 2) q ->
  all3 (bounded 9) (vsub N p q) /\ coords (fun a x => Rabs (a - x) <= u53 * Rabs x) (val (vsub N p q)) (vminus (val p) (val q)).
Proof.
  destruct p as [[a b] c], q as [[x y] z]. intros (A & B & C) (X & Y & Z). cbn [vsub nsub b64ops all3 val vminus coords].
  destruct (bounded_sub 2 a x ltac:(lra) A X) as (B1 & E1). destruct (bounded_sub 2 b y ltac:(lra) B Y) as (B2 & E2).
  destruct (bounded_sub 2 c z ltac:(lra) C Z) as (B3 & E3).
  split; [repeat split; try apply B1; try apply B2; try apply B3; [destruct B1|destruct B2|destruct B3]; lra|auto].
Qed.

(** One coordinate of a cross product. *)
Lemma minor_near b z c y rb rz rc ry : bounded 9 b -> bounded 9 z -> bounded 9 c -> bounded 9 y ->
  Rabs (R64 b - rb) <= u53 * Rabs rb -> Rabs (R64 z - rz) <= u53 * Rabs rz ->
  Rabs (R64 c - rc) <= u53 * Rabs rc -> Rabs (R64 y - ry) <= u53 * Rabs ry ->
  let m := nsub N (nmul N b z) (nmul N c y) in
  bounded 700 m /\ Rabs (R64 m - (rb * rz - rc * ry)) <= 6 * u53 * (Rabs (rb * rz) + Rabs (rc * ry)) + 3 * h75.
Proof.
  intros B Z C Y EB EZ EC EY. cbn [nsub nmul b64ops]. cbv zeta. pose proof u53_small as U. pose proof h75_small as H.
  destruct (bounded_mul 9 b z ltac:(lra) B Z) as (B1 & E1 & _). destruct (bounded_mul 9 c y ltac:(lra) C Y) as (B2 & E2 & _).
  replace (2 * (9 * 9) + 1) with 163 in B1, B2 by ring. destruct (bounded_sub 163 _ _ ltac:(lra) B1 B2) as (B3 & E3).
  split; [apply (bounded_weaken (4 * 163 + 1)); [lra|exact B3]|].
  eapply err_diff; [lra|lra| | |exact E3].
  - eapply err_prod; [lra|exact EB|exact EZ|exact E1].
  - eapply err_prod; [lra|exact EC|exact EY|exact E2].
Qed.

Lemma cross_near p q rp rq : all3 (bounded 9) p -> all3 (bounded 9) q ->
  coords (fun a x => Rabs (a - x) <= u53 * Rabs x) (val p) rp -> coords (fun a x => Rabs (a - x) <= u53 * Rabs x) (val q) rq ->
  all3 (bounded 700) (cross N p q) /\
  coords (fun a x => Rabs (a - x) <= 6 * u53 * (vnorm rp * vnorm rq) + 3 * h75) (val (cross N p q)) (vcross rp rq).
Proof.
  destruct p as [[a b] c], q as [[x y] z], rp as [[ra rb] rc], rq as [[rx ry] rz]. cbn [all3 val coords].
  intros (A & B & C) (X & Y & Z) (EA & EB & EC) (EX & EY & EZ). cbn [cross all3 val coords vcross].
  destruct (minor_near b z c y rb rz rc ry) as (B1 & E1); try assumption.
  destruct (minor_near c x a z rc rx ra rz) as (B2 & E2); try assumption.
  destruct (minor_near a y b x ra ry rb rx) as (B3 & E3); try assumption.
  pose proof u53_small as U.
  assert (T1 : Rabs (rb * rz) + Rabs (rc * ry) <= vnorm (ra, rb, rc) * vnorm (rx, ry, rz)) by apply two_products.
  assert (R1 : forall a b c : R, vnorm (a, b, c) = vnorm (b, c, a)) by (intros; unfold vnorm; f_equal; cbn; ring).
  assert (T2 : Rabs (rc * rx) + Rabs (ra * rz) <= vnorm (ra, rb, rc) * vnorm (rx, ry, rz)).
  { rewrite (R1 ra), (R1 rx). apply two_products. }
  assert (T3 : Rabs (ra * ry) + Rabs (rb * rx) <= vnorm (ra, rb, rc) * vnorm (rx, ry, rz)).
  { rewrite (R1 ra), (R1 rx), (R1 rb), (R1 ry). apply two_products. }
  assert (M : forall s t, s <= t -> 6 * u53 * s + 3 * h75 <= 6 * u53 * t + 3 * h75).
  { intros s t S. apply Rplus_le_compat_r, Rmult_le_compat_l; lra. }
  split; [exact (conj B1 (conj B2 B3))|]. split; [|split]; (eapply Rle_trans; [eassumption|]; now apply M).
Qed.

Lemma coord_le_norm a b c : Rabs a <= vnorm (a, b, c) /\ Rabs b <= vnorm (a, b, c) /\ Rabs c <= vnorm (a, b, c).
Proof.
  assert (G : forall t d, 0 <= d - t * t -> Rabs t <= sqrt d).
  { intros t d D. rewrite <- sqrt_Rsqr_abs. apply sqrt_le_1; unfold Rsqr in *; nra. }
  unfold vnorm. repeat split; apply G; cbn; nra.
Qed.

Lemma vadd_near p q rp rq P Q : all3 (bounded 700) p -> all3 (bounded 700) q -> vnorm rp <= P -> vnorm rq <= Q ->
  coords (fun a x => Rabs (a - x) <= 6 * u53 * P + 3 * h75) (val p) rp ->
  coords (fun a x => Rabs (a - x) <= 6 * u53 * Q + 3 * h75) (val q) rq ->
  all3 (bounded 3000) (vadd N p q) /\
  coords (fun a x => Rabs (a - x) <= 8 * u53 * (P + Q) + 7 * h75) (val (vadd N p q)) (vplus rp rq).
Proof.
  destruct p as [[a b] c], q as [[x y] z], rp as [[ra rb] rc], rq as [[rx ry] rz]. cbn [all3 val coords].
  intros (A & B & C) (X & Y & Z) NP NQ (EA & EB & EC) (EX & EY & EZ). cbn [vadd nadd b64ops all3 val coords vplus].
  destruct (bounded_add 700 a x ltac:(lra) A X) as (B1 & E1). destruct (bounded_add 700 b y ltac:(lra) B Y) as (B2 & E2).
  destruct (bounded_add 700 c z ltac:(lra) C Z) as (B3 & E3). pose proof u53_small as U. pose proof h75_small as H.
  destruct (coord_le_norm ra rb rc) as (L1 & L2 & L3). destruct (coord_le_norm rx ry rz) as (M1 & M2 & M3).
  split; [split; [|split]; (eapply bounded_weaken; [|eassumption]; lra)|].
  split; [|split]; (eapply err_sum; [lra|lra| | | | |eassumption]; [lra|lra|assumption|assumption]).
Qed.

Lemma norm_near p : all3 (bounded 3000) p ->
  finite (norm N p) = true /\ 0 <= R64 (norm N p) /\ Rabs (R64 (norm N p) - vnorm (val p)) <= 6 * u53 * vnorm (val p) + 3 * g36.
Proof.
  destruct p as [[a b] c]. intros (A & B & C). unfold norm. cbn [dot nadd nmul nsqrt b64ops]. pose proof u53_small as U. pose proof h75_small as H.
  destruct (bounded_mul 3000 a a ltac:(lra) A A) as ((F1 & B1) & E1 & P1). destruct (bounded_mul 3000 b b ltac:(lra) B B) as ((F2 & B2) & E2 & P2).
  destruct (bounded_mul 3000 c c ltac:(lra) C C) as ((F3 & B3) & E3 & P3). specialize (P1 (Rle_0_sqr _)). specialize (P2 (Rle_0_sqr _)). specialize (P3 (Rle_0_sqr _)).
  pose proof big_value as BV.
  set (x := b64_mult mode_NE a a) in *. set (y := b64_mult mode_NE b b) in *. set (z := b64_mult mode_NE c c) in *.
  destruct (add_near x y F1 F2) as (F4 & E4); [eapply Rle_trans; [apply Rabs_triang|]; lra|]. set (d := b64_plus mode_NE x y) in *.
  assert (D : Rabs (R64 d) <= 100000000).
  { assert (X : Rabs (R64 d) <= 2 * (2 * (2 * (3000 * 3000) + 1)) + 1).
    { apply (near_bounded _ 0 (R64 x + R64 y)); [lra|lra| |lra]. eapply Rle_trans; [apply Rabs_triang|]. lra. }
    lra. }
  destruct (add_near d z F4 F3) as (F5 & E5); [eapply Rle_trans; [apply Rabs_triang|]; lra|]. set (e := b64_plus mode_NE d z) in *.
  assert (ADD : forall s v w : R, Rabs (s - (v + w)) <= u53 * Rabs (v + w) -> 0 <= v -> 0 <= w -> 0 <= s).
  { intros s v w S V W. rewrite (Rabs_pos_eq (v + w)) in S by lra. apply Rabs_le_inv in S.
    assert (u53 * (v + w) <= / 1000000 * (v + w)) by (apply Rmult_le_compat_r; lra). lra. }
  assert (PD : 0 <= R64 d) by (apply (ADD _ _ _ E4); assumption). assert (PE : 0 <= R64 e) by (apply (ADD _ _ _ E5); assumption).
  destruct (sqrt_near e F5 PE) as (F6 & E6 & P6). split; [exact F6|]. split; [exact P6|].
  apply (err_root _ (R64 e)); [apply vnorm_nonneg|exact PE| |exact E6]. rewrite vnorm_sq. cbn [val vdot].
  eapply err_dot; [lra|lra|exact E1|exact E2|exact E3|exact E4|exact E5].
Qed.

Lemma half_value : R64 b64_half = / 2.
Proof. vm_compute. lra. Qed.

(** Half the length of the cross product of the diagonals. *)
Definition quad (A B C D : vec) : R := / 2 * vnorm (vcross (vminus C A) (vminus D B)).

Lemma planar_near A B C D : all3 (bounded 2) A -> all3 (bounded 2) B -> all3 (bounded 2) C -> all3 (bounded 2) D ->
  let r := pquad1 N A B C D in
  let W := vnorm (vminus (val C) (val A)) * (vnorm (vminus (val B) (val A)) + vnorm (vminus (val D) (val A))) in
  finite r = true /\ 0 <= R64 r /\ Rabs (R64 r - quad (val A) (val B) (val C) (val D)) <= 12 * u53 * W + 2 * g36.
Proof.
  intros BA BB BC BD r W. pose proof u53_small as U. pose proof h75_small as H. pose proof g36_small as G. pose proof h75_g36 as HG.
  destruct (vsub_near B A BB BA) as (B1 & E1). destruct (vsub_near C A BC BA) as (B2 & E2). destruct (vsub_near D A BD BA) as (B3 & E3).
  set (ab := vminus (val B) (val A)) in *. set (ac := vminus (val C) (val A)) in *. set (ad := vminus (val D) (val A)) in *.
  destruct (cross_near _ _ ab ac B1 B2 E1 E2) as (B4 & E4). destruct (cross_near _ _ ac ad B2 B3 E2 E3) as (B5 & E5).
  destruct (vadd_near _ _ _ _ _ _ B4 B5 (vnorm_cross ab ac) (vnorm_cross ac ad) E4 E5) as (B6 & E6).
  set (S := vplus (vcross ab ac) (vcross ac ad)) in *.
  assert (WE : vnorm ab * vnorm ac + vnorm ac * vnorm ad = W) by (unfold W; ring). rewrite WE in E6.
  assert (PW : 0 <= W) by (unfold W; pose proof (vnorm_nonneg ab); pose proof (vnorm_nonneg ac); pose proof (vnorm_nonneg ad); apply Rmult_le_pos; lra).
  assert (SW : vnorm S <= W).
  { unfold S. eapply Rle_trans; [apply vnorm_plus|]. rewrite <- WE. apply Rplus_le_compat; apply vnorm_cross. }
  assert (QS : quad (val A) (val B) (val C) (val D) = / 2 * vnorm S).
  { unfold quad, S, ab, ac, ad. do 2 f_equal. clear. destruct (val A) as [[? ?] ?], (val B) as [[? ?] ?], (val C) as [[? ?] ?], (val D) as [[? ?] ?]. vring. }
  rewrite QS. assert (UW : 0 <= u53 * W) by (apply Rmult_le_pos; lra).
  assert (NS : Rabs (vnorm (val (vadd N (cross N (vsub N B A) (vsub N C A)) (cross N (vsub N C A) (vsub N D A)))) - vnorm S) <= 16 * u53 * W + 14 * h75).
  { eapply Rle_trans; [apply vnorm_near|]. eapply Rle_trans; [eapply coords_norm; [|exact E6]; lra|]. lra. }
  destruct (norm_near _ B6) as (F7 & P7 & E7).
  unfold r, pquad1. set (s := vadd N _ _) in *. cbn [nmul nhalf b64ops].
  set (n := norm N s) in *. set (sn := vnorm (val s)) in *.
  apply near_abs in NS as NB. rewrite (Rabs_pos_eq (vnorm S)) in NB by apply vnorm_nonneg. rewrite Rabs_pos_eq in NB by apply vnorm_nonneg.
  assert (UU : u53 * u53 * W <= / 1000000 * u53 * W) by (apply Rmult_le_compat_r; [exact PW|apply Rmult_le_compat_r; lra]).
  assert (UH : u53 * h75 <= / 1000000 * h75) by (apply Rmult_le_compat_r; lra).
  assert (UG : u53 * g36 <= / 1000000 * g36) by (apply Rmult_le_compat_r; lra).
  assert (US : u53 * sn <= u53 * (W + (16 * u53 * W + 14 * h75))) by (apply Rmult_le_compat_l; lra).
  assert (NE : Rabs (R64 n - vnorm S) <= 45 / 2 * u53 * W + 7 / 2 * g36).
  { replace (R64 n - vnorm S) with ((R64 n - sn) + (sn - vnorm S)) by ring. eapply Rle_trans; [apply Rabs_triang|]. lra. }
  pose proof (near_abs _ _ _ NE) as NN. rewrite (Rabs_pos_eq (vnorm S)) in NN by apply vnorm_nonneg. rewrite Rabs_pos_eq in NN by exact P7.
  assert (WB : W <= 1000).
  { assert (V : forall p q, all3 (bounded 2) p -> all3 (bounded 2) q -> vnorm (vminus (val p) (val q)) <= 8).
    { intros [[p1 p2] p3] [[q1 q2] q3] ((_ & A1) & (_ & A2) & (_ & A3)) ((_ & C1) & (_ & C2) & (_ & C3)).
      apply Rle_trans with (2 * 4); [|lra]. apply coords_norm; [lra|]. cbn [val coords].
      assert (T : forall a c, Rabs a <= 2 -> Rabs c <= 2 -> Rabs (a - c) <= 4).
      { intros a c X Y. unfold Rminus. eapply Rle_trans; [apply Rabs_triang|]. rewrite Rabs_Ropp. lra. }
      auto. }
    pose proof (V B A BB BA). pose proof (V C A BC BA). pose proof (V D A BD BA).
    fold ab in H0. fold ac in H1. fold ad in H2. pose proof (vnorm_nonneg ab). pose proof (vnorm_nonneg ac). pose proof (vnorm_nonneg ad).
    unfold W. apply Rle_trans with (8 * 16); [apply Rmult_le_compat; lra|lra]. }
  assert (NB2 : Rabs (R64 b64_half * R64 n) <= 3000).
  { rewrite half_value, Rabs_mult, (Rabs_pos_eq (R64 n)) by exact P7. rewrite Rabs_pos_eq by lra.
    assert (u53 * W <= / 1000000 * 1000) by (apply Rmult_le_compat; lra). lra. }
  pose proof big_value.
  destruct (mul_near b64_half n eq_refl F7) as (F8 & E8 & P8); [lra|].
  split; [exact F8|]. split; [apply P8; rewrite half_value; lra|].
  rewrite half_value in E8. rewrite (Rabs_pos_eq (/ 2 * R64 n)) in E8 by lra.
  replace (R64 (b64_mult mode_NE b64_half n) - / 2 * vnorm S)
    with ((R64 (b64_mult mode_NE b64_half n) - / 2 * R64 n) + / 2 * (R64 n - vnorm S)) by ring.
  eapply Rle_trans; [apply Rabs_triang|]. rewrite (Rabs_mult (/ 2)), (Rabs_pos_eq (/ 2)) by lra.
  assert (u53 * (/ 2 * R64 n) <= u53 * (/ 2 * (W + (45 / 2 * u53 * W + 7 / 2 * g36)))) by (apply Rmult_le_compat_l; lra).
  lra.
Qed.
End Planar.
