(** Small spherical triangles and quadrilaterals are almost flat. *)
From Coq Require Import Reals Ratan List Bool Lra Psatz.
From Flocq Require Import Core.Raux.
From Verif Require Import Prelude Num Util RealInst RealFacts SphereFacts SphereCut RoundFacts RoundCart.
Local Open Scope R_scope.

(** ** The arc tangent near zero *)

Lemma atan_small x : 0 <= x -> x - x * x * x <= atan x <= x.
Proof.
  intros X. destruct (Req_dec x 0) as [-> | N]; [rewrite atan_0; lra|].
  assert (P : 0 < x) by lra.
  destruct (MVT_cor2 atan (fun y => / (1 + y ^ 2)) 0 x P) as (c & E & C1 & C2).
  { intros c _. exact (derivable_pt_lim_atan c). }
  rewrite atan_0, !Rminus_0_r in E. rewrite E.
  assert (S : 0 < 1 + c ^ 2) by nra. assert (I : / (1 + c ^ 2) * (1 + c ^ 2) = 1) by (apply Rinv_l; lra).
  set (k := / (1 + c ^ 2)) in *. assert (K : 0 < k) by (apply Rinv_0_lt_compat; exact S).
  assert (K1 : k <= 1) by nra. assert (CX : c ^ 2 <= x * x) by nra. assert (1 - k <= x * x) by nra. split; nra.
Qed.

(** ** The excess as an arc tangent *)

Lemma triple_apart A B C : triple A B C <> 0 -> apart A B /\ apart B C /\ apart A C.
Proof.
  intros HT. repeat split; intros E; apply HT; unfold triple.
  - rewrite <- (vdot_sym (vcross B C)). replace (vdot (vcross B C) A) with (vdot (vcross A B) C) by vring. rewrite E. vring.
  - rewrite E. vring.
  - replace (vdot A (vcross B C)) with (- vdot (vcross A C) B) by vring. rewrite E. vring.
Qed.

(** cos E and sin E of the excess E, from the cosines a, b, c of the sides. *)
Lemma excess_trig a b c T : -1 < a < 1 -> -1 < b < 1 -> -1 < c < 1 ->
  T * T = 1 + 2 * a * b * c - a * a - b * b - c * c ->
  let E := acos (cos_at a b c) + acos (cos_at b a c) + acos (cos_at c a b) - PI in
  sin E = Rabs T * (1 + a + b + c) / ((1 + a) * (1 + b) * (1 + c)) /\
  1 + cos E = (1 + a + b + c) * (1 + a + b + c) / ((1 + a) * (1 + b) * (1 + c)).
Proof.
  intros Ha Hb Hc HT. cbv zeta.
  pose proof (sin_from a Ha) as Pa. pose proof (sin_from b Hb) as Pb. pose proof (sin_from c Hc) as Pc.
  assert (Ea := sq_sqrt a ltac:(lra)). assert (Eb := sq_sqrt b ltac:(lra)). assert (Ec := sq_sqrt c ltac:(lra)).
  rewrite sin_minus, cos_minus, sin_PI, cos_PI. repeat rewrite ?sin_plus, ?cos_plus.
  rewrite (sin_at a b c T), (sin_at b a c T), (sin_at c a b T), !cos_acos;
    try (eapply cos_at_range with (T := T); eauto; rewrite HT; ring); auto; try (rewrite HT; ring).
  unfold cos_at. set (x := sqrt (1 - a * a)) in *. set (y := sqrt (1 - b * b)) in *. set (z := sqrt (1 - c * c)) in *.
  assert (AT : Rabs T * Rabs T = T * T) by (rewrite <- Rabs_mult; apply Rabs_pos_eq; nra).
  set (t := Rabs T) in *. clearbody t x y z. rewrite HT in AT.
  assert (N1 : (1 + a) * (1 + b) * (1 + c) <> 0) by (repeat apply Rmult_integral_contrapositive_currified; lra).
  assert (N2 : (1 - a * a) * (1 - b * b) * (1 - c * c) <> 0) by (repeat apply Rmult_integral_contrapositive_currified; nra).
  split.
  - transitivity (t * (t * t - (a - b * c) * (b - a * c) - (c - a * b) * (a - b * c) - (c - a * b) * (b - a * c)) / ((x * x) * (y * y) * (z * z))).
    + field. repeat split; lra.
    + rewrite Ea, Eb, Ec, AT. field. repeat split; try lra; nra.
  - transitivity (1 - ((a - b * c) * (b - a * c) * (c - a * b) - t * t * ((c - a * b) + (a - b * c) + (b - a * c))) / ((x * x) * (y * y) * (z * z))).
    + field. repeat split; lra.
    + rewrite Ea, Eb, Ec, AT. field. repeat split; try lra; nra.
Qed.

Lemma excess_atan A B C : unit A -> unit B -> unit C -> triple A B C <> 0 ->
  0 < 1 + vdot B C + vdot A C + vdot A B ->
  excess A B C = 2 * atan (Rabs (triple A B C) / (1 + vdot B C + vdot A C + vdot A B)).
Proof.
  intros UA UB UC HT D. destruct (triple_apart _ _ _ HT) as (AB & BC & AC).
  pose proof (apart_dot _ _ UA UB AB) as Hc. pose proof (apart_dot _ _ UB UC BC) as Ha. pose proof (apart_dot _ _ UA UC AC) as Hb.
  pose proof (excess_pos A B C UA UB UC HT) as EP. pose proof (excess_le A B C) as EL.
  destruct (excess_trig _ _ _ (triple A B C) Ha Hb Hc) as (S & K); [rewrite gram_unit by auto; ring|].
  assert (EE : excess A B C = acos (cos_at (vdot B C) (vdot A C) (vdot A B)) + acos (cos_at (vdot A C) (vdot B C) (vdot A B))
    + acos (cos_at (vdot A B) (vdot B C) (vdot A C)) - PI).
  { unfold excess. rewrite !angle_at_cos by auto. now rewrite (vdot_sym B A), (vdot_sym C B), (vdot_sym C A). }
  rewrite <- EE in S, K. set (E := excess A B C) in *. clearbody E. clear EE.
  set (a := vdot B C) in *. set (b := vdot A C) in *. set (c := vdot A B) in *. set (T := triple A B C) in *.
  assert (AT : 0 < Rabs T) by (now apply Rabs_pos_lt). set (t := Rabs T) in *. clearbody a b c t. clear T HT.
  assert (PP : 0 < (1 + a) * (1 + b) * (1 + c)) by (repeat apply Rmult_lt_0_compat; lra).
  set (p := (1 + a) * (1 + b) * (1 + c)) in *. clearbody p. set (s := 1 + a + b + c) in *. clearbody s.
  replace E with (2 * (E / 2)) in S, K by field. rewrite sin_2a in S. rewrite cos_2a_cos in K.
  set (y := E / 2) in *. assert (Y : 0 < y <= PI) by (unfold y; lra). replace E with (2 * y) by (unfold y; field). clearbody y.
  assert (SC : 0 < sin y * cos y).
  { assert (0 < t * s / p) by (apply Rmult_lt_0_compat; [nra | now apply Rinv_0_lt_compat]). lra. }
  assert (SY : 0 <= sin y) by (apply sin_ge_0; lra).
  assert (CY : 0 < cos y) by (destruct (Rlt_dec 0 (cos y)); [assumption|exfalso; nra]).
  assert (YH : y < PI / 2).
  { destruct (Rlt_dec y (PI / 2)); [assumption|exfalso]. assert (cos y <= 0) by (apply cos_le_0; lra). lra. }
  f_equal. rewrite <- (atan_tan y) by lra. f_equal. unfold tan.
  assert (C2 : 2 * (cos y * cos y) * p = s * s).
  { replace (2 * (cos y * cos y)) with (s * s / p) by lra. field. lra. }
  assert (S2 : 2 * (sin y * cos y) * p = t * s).
  { replace (2 * (sin y * cos y)) with (t * s / p) by lra. field. lra. }
  apply Rmult_eq_reg_r with (2 * (cos y * cos y) * p); [|nra].
  transitivity (2 * (sin y * cos y) * p); [field; lra|]. rewrite S2, C2. field. lra.
Qed.

(** ** Chords *)

Lemma dot_chord u v : unit u -> unit v -> vdot u v = 1 - vnorm (vminus u v) * vnorm (vminus u v) / 2.
Proof.
  intros U V. rewrite vnorm_sq. unfold unit in *. destruct u as [[a b] c], v as [[x y] z]. unfold vminus, vplus, vscale, vdot in *. lra.
Qed.

Lemma triple_corner A B C : triple A B C = vdot A (vcross (vminus B A) (vminus C A)).
Proof. unfold triple, vminus. destruct A as [[? ?] ?], B as [[? ?] ?], C as [[? ?] ?]. vring. Qed.

Lemma triple_le A B C : unit A -> Rabs (triple A B C) <= vnorm (vminus B A) * vnorm (vminus C A).
Proof.
  intros U. rewrite triple_corner. apply Rle_trans with (vnorm (vcross (vminus B A) (vminus C A))); [|apply vnorm_cross].
  set (n := vcross _ _). assert (NA : vnorm A = 1) by (unfold vnorm; rewrite U; apply sqrt_1).
  pose proof (vdot_le_norms A n) as P. pose proof (vdot_le_norms A (vscale (-1) n)) as M.
  replace (vdot A (vscale (-1) n)) with (- vdot A n) in M by (clearbody n; clear; destruct A as [[? ?] ?], n as [[? ?] ?]; vring).
  replace (vnorm (vscale (-1) n)) with (vnorm n) in M by (unfold vnorm; f_equal; clearbody n; clear; destruct n as [[? ?] ?]; vring).
  rewrite NA in *. apply Rabs_le. lra.
Qed.

(** A proper triangle with sides of chord at most s: the excess is half the triple product, up to s^4/4. *)
Lemma excess_flat A B C s : unit A -> unit B -> unit C -> triple A B C <> 0 -> s <= / 2 ->
  vnorm (vminus B A) <= s -> vnorm (vminus C A) <= s -> vnorm (vminus C B) <= s ->
  Rabs (excess A B C - / 2 * Rabs (triple A B C)) <= / 4 * (s * s) * Rabs (triple A B C).
Proof.
  intros UA UB UC HT S B1 B2 B3.
  pose proof (dot_chord A B UA UB) as DC. pose proof (dot_chord B C UB UC) as DA. pose proof (dot_chord A C UA UC) as DB.
  assert (SY : forall u v, vnorm (vminus u v) = vnorm (vminus v u)).
  { intros u v. unfold vnorm. f_equal. destruct u as [[? ?] ?], v as [[? ?] ?]. unfold vminus. vring. }
  rewrite (SY A B) in DC. rewrite (SY B C) in DA. rewrite (SY A C) in DB.
  pose proof (triple_le A B C UA) as TL.
  pose proof (vnorm_nonneg (vminus B A)) as N1. pose proof (vnorm_nonneg (vminus C A)) as N2. pose proof (vnorm_nonneg (vminus C B)) as N3.
  assert (Q1 : vnorm (vminus B A) * vnorm (vminus B A) <= s * s) by (apply Rmult_le_compat; lra).
  assert (Q2 : vnorm (vminus C A) * vnorm (vminus C A) <= s * s) by (apply Rmult_le_compat; lra).
  assert (Q3 : vnorm (vminus C B) * vnorm (vminus C B) <= s * s) by (apply Rmult_le_compat; lra).
  assert (Q4 : vnorm (vminus B A) * vnorm (vminus C A) <= s * s) by (apply Rmult_le_compat; lra).
  assert (P1 : 0 <= vnorm (vminus B A) * vnorm (vminus B A)) by (now apply Rmult_le_pos).
  assert (P2 : 0 <= vnorm (vminus C A) * vnorm (vminus C A)) by (now apply Rmult_le_pos).
  assert (P3 : 0 <= vnorm (vminus C B) * vnorm (vminus C B)) by (now apply Rmult_le_pos).
  assert (SS : s * s <= / 4) by nra.
  rewrite excess_atan; auto; [|lra].
  set (t := Rabs (triple A B C)) in *. assert (T0 : 0 <= t) by apply Rabs_pos.
  set (D := 1 + vdot B C + vdot A C + vdot A B) in *.
  assert (DD : 4 - 3 / 2 * (s * s) <= D <= 4) by (unfold D; lra). clearbody t D. clear - DD T0 TL Q4 SS.
  assert (T1 : t <= s * s) by lra. set (q := s * s) in *. clearbody q.
  assert (X0 : 0 <= t / D) by (apply Rmult_le_pos; [lra|left; apply Rinv_0_lt_compat; lra]).
  pose proof (atan_small (t / D) X0) as AS.
  assert (E : t / D * D = t) by (field; lra). set (x := t / D) in *. clearbody x.
  assert (XT : x <= / 3 * t) by nra.
  assert (XX : x * x <= / 9 * (t * t)) by nra.
  assert (X3 : x * x * x <= / 27 * (q * / 4 * t)).
  { apply Rle_trans with (/ 9 * (t * t) * (/ 3 * t)); [apply Rmult_le_compat; nra|].
    assert (t * t <= q * / 4) by (apply Rmult_le_compat; lra). nra. }
  assert (X4 : Rabs (2 * x - / 2 * t) <= 3 / 14 * (q * t)).
  { replace (2 * x - / 2 * t) with (/ 2 * (x * (4 - D))) by (rewrite <- E; field). rewrite Rabs_pos_eq by nra.
    assert (x <= 2 / 7 * t) by nra. assert (x * (4 - D) <= 2 / 7 * t * (3 / 2 * q)) by (apply Rmult_le_compat; lra). lra. }
  apply Rabs_le. apply Rabs_le_inv in X4. assert (0 <= q * t) by (apply Rmult_le_pos; lra). lra.
Qed.

(** ** Quadrilaterals *)

Lemma along_chord A X : unit A -> unit X -> vdot A (vminus X A) = - (vnorm (vminus X A) * vnorm (vminus X A) / 2).
Proof.
  intros UA UX. pose proof (dot_chord X A UX UA) as D.
  replace (vdot A (vminus X A)) with (vdot X A - 1) by (unfold unit in UA; rewrite <- UA; clear; destruct A as [[? ?] ?], X as [[? ?] ?]; vring). lra.
Qed.

Lemma vscale_norm k u : vnorm (vscale k u) = Rabs k * vnorm u.
Proof.
  unfold vnorm. rewrite <- (sqrt_Rsqr_abs k), <- sqrt_mult; [f_equal; unfold Rsqr; destruct u as [[? ?] ?]; vring|exact (Rle_0_sqr k)|apply vdot_nonneg].
Qed.

(** The two triangles of a quadrilateral turn the same way. *)
Definition turning (A B C D : vec) : Prop := (0 < triple A B C /\ 0 < triple A C D) \/ (triple A B C < 0 /\ triple A C D < 0).

Lemma quad_flat A B C D s : unit A -> unit B -> unit C -> unit D -> turning A B C D -> chords s A B C D ->
  let t := Rabs (triple A B C) + Rabs (triple A C D) in
  / 2 * t <= quad A B C D /\ quad A B C D * (quad A B C D - / 2 * t) <= / 4 * (s * s * s * (s * s * s)).
Proof.
  intros UA UB UC UD TN (S1 & S2 & S3 & S4) t. unfold quad. set (N := vcross (vminus C A) (vminus D B)).
  assert (AN : Rabs (vdot A N) = t).
  { assert (E : vdot A N = triple A B C + triple A C D).
    { unfold N. rewrite !triple_corner. clear. destruct A as [[? ?] ?], B as [[? ?] ?], C as [[? ?] ?], D as [[? ?] ?]. unfold vminus. vring. }
    rewrite E. unfold t. destruct TN as [(? & ?) | (? & ?)].
    - rewrite !Rabs_pos_eq; lra.
    - rewrite !Rabs_left; lra. }
  assert (LG : vnorm N * vnorm N = vdot A N * vdot A N + vnorm (vcross A N) * vnorm (vcross A N)).
  { rewrite !vnorm_sq, lagrange. unfold unit in UA. rewrite UA. ring. }
  pose proof (vnorm_nonneg (vminus B A)) as N1. pose proof (vnorm_nonneg (vminus C A)) as N2.
  pose proof (vnorm_nonneg (vminus D A)) as N3. pose proof (vnorm_nonneg (vminus D B)) as N4.
  assert (CR : vnorm (vcross A N) <= s * s * s).
  { replace (vcross A N) with (vplus (vscale (vdot A (vminus D A) - vdot A (vminus B A)) (vminus C A)) (vscale (- vdot A (vminus C A)) (vminus D B))).
    2:{ unfold N. clear. destruct A as [[? ?] ?], B as [[? ?] ?], C as [[? ?] ?], D as [[? ?] ?]. unfold vminus. vring. }
    eapply Rle_trans; [apply vnorm_plus|]. rewrite !vscale_norm, !along_chord by auto.
    set (n1 := vnorm (vminus B A)) in *. set (n2 := vnorm (vminus C A)) in *. set (n3 := vnorm (vminus D A)) in *. set (n4 := vnorm (vminus D B)) in *.
    clearbody n1 n2 n3 n4. clear - N1 N2 N3 N4 S1 S2 S3 S4.
    assert (n1 * n1 <= s * s) by (apply Rmult_le_compat; lra). assert (n2 * n2 <= s * s) by (apply Rmult_le_compat; lra).
    assert (n3 * n3 <= s * s) by (apply Rmult_le_compat; lra).
    assert (0 <= n1 * n1) by (now apply Rmult_le_pos). assert (0 <= n2 * n2) by (now apply Rmult_le_pos). assert (0 <= n3 * n3) by (now apply Rmult_le_pos).
    assert (R1 : Rabs (- (n3 * n3 / 2) - - (n1 * n1 / 2)) <= s * s / 2) by (apply Rabs_le; lra).
    assert (R2 : Rabs (- - (n2 * n2 / 2)) <= s * s / 2) by (apply Rabs_le; lra).
    assert (Rabs (- (n3 * n3 / 2) - - (n1 * n1 / 2)) * n2 <= s * s / 2 * s) by (apply Rmult_le_compat; auto using Rabs_pos).
    assert (Rabs (- - (n2 * n2 / 2)) * n4 <= s * s / 2 * s) by (apply Rmult_le_compat; auto using Rabs_pos). lra. }
  assert (AN2 : vdot A N * vdot A N = t * t) by (rewrite <- AN, <- Rabs_mult; symmetry; apply Rabs_pos_eq; exact (Rle_0_sqr (vdot A N))).
  assert (T0 : 0 <= t) by (rewrite <- AN; apply Rabs_pos).
  pose proof (vnorm_nonneg N) as NN. pose proof (vnorm_nonneg (vcross A N)) as NC. rewrite AN2 in LG.
  assert (CC : vnorm (vcross A N) * vnorm (vcross A N) <= s * s * s * (s * s * s)) by (apply Rmult_le_compat; lra).
  set (n := vnorm N) in *. set (c := vnorm (vcross A N)) in *. clearbody n c t. clear - LG CC T0 NN NC.
  assert (0 <= c * c) by (now apply Rmult_le_pos). assert (t <= n) by nra. split; [lra|].
  assert (t * (n - t) >= 0) by nra. nra.
Qed.

(** The spherical and the flat area of a small cell. *)
Lemma areas_flat A B C D s : unit A -> unit B -> unit C -> unit D -> turning A B C D -> chords s A B C D ->
  vnorm (vminus C B) <= s -> vnorm (vminus D C) <= s -> s <= / 2 ->
  Rabs (squad A B C D - quad A B C D) * quad A B C D <= / 2 * (s * s) * (quad A B C D * quad A B C D) + / 4 * (s * s * s * (s * s * s)).
Proof.
  intros UA UB UC UD TN CH S5 S6 S. destruct (quad_flat A B C D s UA UB UC UD TN CH) as (L & M). destruct CH as (S1 & S2 & S3 & S4).
  assert (T1 : triple A B C <> 0) by (destruct TN as [(? & ?) | (? & ?)]; lra).
  assert (T2 : triple A C D <> 0) by (destruct TN as [(? & ?) | (? & ?)]; lra).
  pose proof (excess_flat A B C s UA UB UC T1 S S1 S2 S5) as E1. pose proof (excess_flat A C D s UA UC UD T2 S S2 S3 S6) as E2.
  unfold squad. pose proof (Rabs_pos (triple A B C)). pose proof (Rabs_pos (triple A C D)).
  assert (SS : 0 <= s * s) by exact (Rle_0_sqr s).
  set (t1 := Rabs (triple A B C)) in *. set (t2 := Rabs (triple A C D)) in *. set (q := quad A B C D) in *.
  set (e1 := excess A B C) in *. set (e2 := excess A C D) in *. set (k := s * s * s * (s * s * s)) in *. set (w := s * s) in *.
  clearbody t1 t2 q e1 e2 k w. clear - L M E1 E2 H H0 SS.
  assert (X : Rabs (e1 + e2 - / 2 * (t1 + t2)) <= / 2 * w * q).
  { replace (e1 + e2 - / 2 * (t1 + t2)) with ((e1 - / 2 * t1) + (e2 - / 2 * t2)) by ring. eapply Rle_trans; [apply Rabs_triang|]. nra. }
  assert (Y : Rabs (e1 + e2 - q) <= / 2 * w * q + (q - / 2 * (t1 + t2))).
  { replace (e1 + e2 - q) with ((e1 + e2 - / 2 * (t1 + t2)) - (q - / 2 * (t1 + t2))) by ring. apply Rabs_le. apply Rabs_le_inv in X. lra. }
  assert (0 <= q) by lra.
  apply Rle_trans with ((/ 2 * w * q + (q - / 2 * (t1 + t2))) * q); [apply Rmult_le_compat_r; lra|]. nra.
Qed.
