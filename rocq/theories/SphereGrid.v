(** Subdivided grids on an exact sphere: lengths and areas. *)
From Coq Require Import Reals Ratan List Bool Lra Lia Psatz PeanoNat.
From Verif Require Import Prelude Mat Num Util SpecHalf RealInst RealFacts SphereFacts SphereCut SphereGeod.
Local Open Scope R_scope.
Local Arguments Nat.mul : simpl never.

Lemma ratio_range k n : (k <= n)%nat -> (0 < n)%nat -> 0 <= INR k / INR n <= 1.
Proof.
  intros Hk Hn. pose proof (lt_0_INR n Hn). pose proof (pos_INR k). pose proof (le_INR k n Hk). split.
  - apply Rmult_le_pos; auto. left. now apply Rinv_0_lt_compat.
  - apply Rmult_le_reg_r with (INR n); auto. unfold Rdiv. rewrite Rmult_assoc, Rinv_l by lra. lra.
Qed.

Lemma sum2_r P x y : sum2 (r_ops P) x y = x + y \/ sum2 (r_ops P) x y = 0 /\ (x = 0 \/ y = 0).
Proof.
  unfold sum2, is0. cbn [neqb nzero nadd r_ops]. destruct (req 0 x) eqn:E.
  - apply req_true in E. right. cbn. auto.
  - destruct (req 0 y) eqn:E'; cbn; auto. apply req_true in E'. auto.
Qed.
Lemma sum2_same P x : sum2 (r_ops P) x x = 2 * x.
Proof. destruct (sum2_r P x x) as [->|(-> & [-> | ->])]; ring. Qed.

Section Sub.
Variables (P : partial_ops) (G : geod R) (C : nat -> nat -> R * R) (pos : bool) (ls lt m n : nat)
  (H : nat -> nat -> R * R).
Hypotheses (EP : exact P) (SG : spherical G) (Hls : (1 <= ls)%nat) (Hlt : (1 <= lt)%nat)
  (HS : subdivides (r_ops P) G pos C ls lt m n H).
Let h u v := point (H u v).

Hypothesis HH : forall a b, (a < m)%nat -> (b < n)%nat ->
  hemisphere (point (C a b)) (point (C (a + 1)%nat b)) (point (C (a + 1)%nat (b + 1)%nat)) (point (C a (b + 1)%nat)).

Lemma h_unit u v : unit (h u v). Proof. apply point_unit. Qed.
Lemma h_corner a b : (a <= m)%nat -> (b <= n)%nat -> h (2 * ls * a) (2 * lt * b) = point (C a b).
Proof. intros. unfold h. destruct HS as (S1 & _). now rewrite S1. Qed.

(** The points of an original side along i divide its arc evenly. *)
Lemma x_arc_gen a b k : (a < m)%nat -> (b <= n)%nat -> (k <= 2 * ls)%nat ->
  ~ antipodal (point (C a b)) (point (C (a + 1)%nat b)) ->
  on_arc (point (C a b)) (point (C (a + 1)%nat b)) (INR k / INR (2 * ls)) (h (2 * ls * a + k) (2 * lt * b)).
Proof.
  intros Ha Hb Hk HA. destruct HS as (S1 & S2 & _).
  destruct (Nat.eq_dec k 0) as [->|K0].
  { rewrite Nat.add_0_r, h_corner by lia. replace (INR 0 / INR (2 * ls)) with 0.
    - apply arc_0, point_unit.
    - cbn [INR]. unfold Rdiv. ring. }
  destruct (Nat.eq_dec k (2 * ls)) as [->|K1].
  { replace (2 * ls * a + 2 * ls)%nat with (2 * ls * (a + 1))%nat by lia. rewrite h_corner by lia.
    replace (INR (2 * ls) / INR (2 * ls)) with 1.
    - apply arc_1, point_unit.
    - symmetry. apply Rinv_r. apply not_0_INR. lia. }
  unfold h. rewrite S2, wrap_point by lia.
  pose proof (sp_npt G SG (C a b) (C (a + 1)%nat b) (2 * ls - 1) (k - 1) ltac:(lia) HA) as A.
  replace (k - 1 + 1)%nat with k in A by lia. replace (2 * ls - 1 + 1)%nat with (2 * ls)%nat in A by lia. exact A.
Qed.

Lemma x_side_hemi a b : (a < m)%nat -> (b <= n)%nat -> (1 <= n)%nat ->
  ~ antipodal (point (C a b)) (point (C (a + 1)%nat b)).
Proof.
  intros Ha Hb Hn. destruct (Nat.eq_dec b n) as [->|Hb'].
  - destruct (HH a (n - 1)) as (d & D1 & D2 & D3 & D4); try lia.
    replace (n - 1 + 1)%nat with n in * by lia. eapply hemi_not_antipodal; eauto.
  - destruct (HH a b) as (d & D1 & D2 & D3 & D4); try lia. eapply hemi_not_antipodal; eauto.
Qed.

Hypotheses (Hm : (1 <= m)%nat) (Hn : (1 <= n)%nat).

Lemma x_arc a b k : (a < m)%nat -> (b <= n)%nat -> (k <= 2 * ls)%nat ->
  on_arc (point (C a b)) (point (C (a + 1)%nat b)) (INR k / INR (2 * ls)) (h (2 * ls * a + k) (2 * lt * b)).
Proof. intros. apply x_arc_gen; auto. apply x_side_hemi; auto. Qed.

(** every u lies on some original side *)
Lemma split_u u : (u <= 2 * ls * m)%nat -> exists a k, (a < m)%nat /\ (k <= 2 * ls)%nat /\ u = (2 * ls * a + k)%nat.
Proof.
  intros Hu. destruct (Nat.eq_dec u (2 * ls * m)) as [->|Hu'].
  - exists (m - 1)%nat, (2 * ls)%nat. repeat split; try lia. nia.
  - exists (u / (2 * ls))%nat, (u mod (2 * ls))%nat.
    pose proof (Nat.mod_upper_bound u (2 * ls) ltac:(lia)). pose proof (Nat.div_mod u (2 * ls) ltac:(lia)).
    repeat split; try lia. apply Nat.div_lt_upper_bound; lia.
Qed.

Lemma line_hemi u b : (u <= 2 * ls * m)%nat -> (b < n)%nat ->
  ~ antipodal (h u (2 * lt * b)) (h u (2 * lt * (b + 1))).
Proof.
  intros Hu Hb. destruct (split_u u Hu) as (a & k & Ha & Hk & ->).
  destruct (HH a b Ha Hb) as (d & D1 & D2 & D3 & D4).
  pose proof (x_arc a b k Ha ltac:(lia) Hk) as A1. pose proof (x_arc a (b + 1) k Ha ltac:(lia) Hk) as A2.
  pose proof (ratio_range k (2 * ls) Hk ltac:(lia)) as T.
  apply hemi_not_antipodal with d.
  - eapply arc_hemi with (t := INR k / INR (2 * ls)); eauto using point_unit.
    apply gc_lt_PI; auto using point_unit. eapply hemi_not_antipodal; eauto.
  - eapply arc_hemi with (t := INR k / INR (2 * ls)); eauto using point_unit.
    apply gc_lt_PI; auto using point_unit. eapply hemi_not_antipodal; eauto.
Qed.

(** The points of a line along j divide its arc evenly. *)
Lemma y_arc u b l : (u <= 2 * ls * m)%nat -> (b < n)%nat -> (l <= 2 * lt)%nat ->
  on_arc (h u (2 * lt * b)) (h u (2 * lt * (b + 1))) (INR l / INR (2 * lt)) (h u (2 * lt * b + l)).
Proof.
  intros Hu Hb Hl. destruct HS as (S1 & S2 & S3).
  destruct (Nat.eq_dec l 0) as [->|K0].
  { rewrite Nat.add_0_r. replace (INR 0 / INR (2 * lt)) with 0.
    - apply arc_0, h_unit.
    - cbn [INR]. unfold Rdiv. ring. }
  destruct (Nat.eq_dec l (2 * lt)) as [->|K1].
  { replace (2 * lt * b + 2 * lt)%nat with (2 * lt * (b + 1))%nat by lia.
    replace (INR (2 * lt) / INR (2 * lt)) with 1.
    - apply arc_1, h_unit.
    - symmetry. apply Rinv_r. apply not_0_INR. lia. }
  unfold h at 3. rewrite S3, wrap_point by lia.
  pose proof (sp_npt G SG (H u (2 * lt * b)) (H u (2 * lt * (b + 1))) (2 * lt - 1) (l - 1) ltac:(lia)
    (line_hemi u b Hu Hb)) as A.
  replace (l - 1 + 1)%nat with l in A by lia. replace (2 * lt - 1 + 1)%nat with (2 * lt)%nat in A by lia. exact A.
Qed.

(** ** lengths *)
Lemma arc_pieces u v t k d x y : unit u -> unit v -> ~ antipodal u v -> (0 < t)%nat -> (k + d <= t)%nat ->
  on_arc u v (INR k / INR t) x -> on_arc u v (INR (k + d) / INR t) y -> gc x y = INR d * gc u v / INR t.
Proof.
  intros U V HA Ht Hk X Y.
  pose proof (ratio_range k t ltac:(lia) Ht). pose proof (ratio_range (k + d) t Hk Ht).
  assert (E : (INR (k + d) / INR t - INR k / INR t) = INR d / INR t).
  { rewrite plus_INR. field. apply not_0_INR. lia. }
  rewrite (arc_dist u v (INR (k + d) / INR t) (INR k / INR t)); auto.
  - rewrite E. field. apply not_0_INR. lia.
  - now apply gc_lt_PI.
  - lra.
  - assert (0 <= INR d / INR t) by (apply (ratio_range d t); lia). lra.
  - lra.
Qed.

Lemma y_pieces u b l d : (u <= 2 * ls * m)%nat -> (b < n)%nat -> (l + d <= 2 * lt)%nat ->
  gc (h u (2 * lt * b + l)) (h u (2 * lt * b + l + d)) =
  INR d * gc (h u (2 * lt * b)) (h u (2 * lt * (b + 1))) / INR (2 * lt).
Proof.
  intros Hu Hb Hl. apply arc_pieces with (k := l); auto using h_unit, line_hemi; try lia.
  - apply y_arc; auto. lia.
  - replace (2 * lt * b + l + d)%nat with (2 * lt * b + (l + d))%nat by lia. now apply y_arc.
Qed.

Lemma x_pieces a b k d : (a < m)%nat -> (b <= n)%nat -> (k + d <= 2 * ls)%nat ->
  gc (h (2 * ls * a + k) (2 * lt * b)) (h (2 * ls * a + k + d) (2 * lt * b)) =
  INR d * gc (h (2 * ls * a) (2 * lt * b)) (h (2 * ls * (a + 1)) (2 * lt * b)) / INR (2 * ls).
Proof.
  intros Ha Hb Hk. rewrite !h_corner by lia.
  apply arc_pieces with (k := k); auto using point_unit, x_side_hemi; try lia.
  - apply x_arc; auto. lia.
  - replace (2 * ls * a + k + d)%nat with (2 * ls * a + (k + d))%nat by lia. now apply x_arc.
Qed.

Lemma y_pair u b l : (u <= 2 * ls * m)%nat -> (b < n)%nat -> (l + 2 <= 2 * lt)%nat ->
  let v := (2 * lt * b + l)%nat in
  sum2 (r_ops P) (half_y G H u v) (half_y G H u (v + 1)) = g_a G * gc (h u v) (h u (v + 2)) /\
  sum2 (r_ops P) (half_y G H u v) (half_y G H u (v + 1)) =
    g_a G * gc (h u (2 * lt * b)) (h u (2 * lt * (b + 1))) / INR lt.
Proof.
  intros Hu Hb Hl v. unfold half_y. rewrite !(sp_inv G SG).
  change (point (H u v)) with (h u v). change (point (H u (v + 1))) with (h u (v + 1)).
  change (point (H u (v + 1 + 1))) with (h u (v + 1 + 1)).
  pose proof (y_pieces u b l 1 Hu Hb ltac:(lia)) as E1. pose proof (y_pieces u b (l + 1) 1 Hu Hb ltac:(lia)) as E2.
  pose proof (y_pieces u b l 2 Hu Hb ltac:(lia)) as E3. fold v in E1, E3.
  replace (2 * lt * b + (l + 1))%nat with (v + 1)%nat in E2 by (unfold v; lia).
  rewrite E1, E2, E3, sum2_same.
  assert (E : INR (2 * lt) = 2 * INR lt) by (rewrite mult_INR; reflexivity). rewrite E.
  assert (INR lt <> 0) by (apply not_0_INR; lia). cbn [INR]. split; field; auto.
Qed.

Lemma x_pair a b k : (a < m)%nat -> (b <= n)%nat -> (k + 2 <= 2 * ls)%nat ->
  let u := (2 * ls * a + k)%nat in let v := (2 * lt * b)%nat in
  sum2 (r_ops P) (half_x G H u v) (half_x G H (u + 1) v) = g_a G * gc (h u v) (h (u + 2) v) /\
  sum2 (r_ops P) (half_x G H u v) (half_x G H (u + 1) v) =
    g_a G * gc (h (2 * ls * a) v) (h (2 * ls * (a + 1)) v) / INR ls.
Proof.
  intros Ha Hb Hk u v. unfold half_x. rewrite !(sp_inv G SG).
  change (point (H u v)) with (h u v). change (point (H (u + 1) v)) with (h (u + 1) v).
  change (point (H (u + 1 + 1) v)) with (h (u + 1 + 1) v).
  pose proof (x_pieces a b k 1 Ha Hb ltac:(lia)) as E1. pose proof (x_pieces a b (k + 1) 1 Ha Hb ltac:(lia)) as E2.
  pose proof (x_pieces a b k 2 Ha Hb ltac:(lia)) as E3. fold u v in E1, E3. fold v in E2.
  replace (2 * ls * a + (k + 1))%nat with (u + 1)%nat in E2 by (unfold u; lia).
  rewrite E1, E2, E3, sum2_same.
  assert (E : INR (2 * ls) = 2 * INR ls) by (rewrite mult_INR; reflexivity). rewrite E.
  assert (INR ls <> 0) by (apply not_0_INR; lia). cbn [INR]. split; field; auto.
Qed.
End Sub.
