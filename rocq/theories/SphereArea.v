(** Areas of subdivided grids on an exact sphere. *)
From Coq Require Import Reals Ratan List Bool Lra Lia Psatz PeanoNat.
From Verif Require Import Prelude Mat Num Util SpecHalf RealInst RealFacts SphereFacts SphereCut SphereGeod SphereGrid PropGeom.
Local Open Scope R_scope.
Local Arguments Nat.mul : simpl never.

(** f 0 + ... + f (n-1) *)
Fixpoint rsum (n : nat) (f : nat -> R) : R := match n with O => 0 | S k => rsum k f + f k end.

Lemma plus_S a k : (a + S k = a + k + 1)%nat. Proof. lia. Qed.

Lemma rsum_ext n f g : (forall k, (k < n)%nat -> f k = g k) -> rsum n f = rsum n g.
Proof. induction n as [|n IH]; intros E; cbn [rsum]; auto. rewrite IH, E by (auto; intros; apply E; lia). reflexivity. Qed.
Lemma rsum_plus n f g : rsum n (fun k => f k + g k) = rsum n f + rsum n g.
Proof. induction n as [|n IH]; cbn [rsum]; [ring|]. rewrite IH. ring. Qed.
Lemma rsum_scale n c f : rsum n (fun k => c * f k) = c * rsum n f.
Proof. induction n as [|n IH]; cbn [rsum]; [ring|]. rewrite IH. ring. Qed.
Lemma rsum_const0 n f : (forall k, (k < n)%nat -> f k = 0) -> rsum n f = 0.
Proof. induction n as [|n IH]; intros E; cbn [rsum]; auto. rewrite IH, E by (auto; intros; apply E; lia). ring. Qed.
Lemma rsum_app m n f : rsum (m + n) f = rsum m f + rsum n (fun k => f (m + k)%nat).
Proof.
  induction n as [|n IH]; [rewrite Nat.add_0_r; cbn [rsum]; ring|].
  rewrite Nat.add_succ_r. cbn [rsum]. rewrite IH. ring.
Qed.
Lemma rsum_head n f : rsum (S n) f = f 0%nat + rsum n (fun k => f (S k)).
Proof. change (S n) with (1 + n)%nat. rewrite rsum_app. cbn [rsum]. rewrite Rplus_0_l. reflexivity. Qed.
(** grouping by blocks *)
Lemma rsum_blocks c n f : rsum (c * n) f = rsum n (fun a => rsum c (fun k => f (c * a + k)%nat)).
Proof.
  induction n as [|n IH]; [rewrite Nat.mul_0_r; reflexivity|].
  replace (c * S n)%nat with (c * n + c)%nat by lia. rewrite rsum_app, IH. reflexivity.
Qed.
Lemma rsum_swap n p (f : nat -> nat -> R) : rsum n (fun a => rsum p (f a)) = rsum p (fun k => rsum n (fun a => f a k)).
Proof.
  induction n as [|n IH]; cbn [rsum].
  - symmetry. now apply rsum_const0.
  - rewrite IH, <- rsum_plus. reflexivity.
Qed.
Lemma rsum_pairs n f : rsum (2 * n) f = rsum n (fun i => f (2 * i)%nat + f (2 * i + 1)%nat).
Proof.
  rewrite rsum_blocks. apply rsum_ext. intros. cbn [rsum]. rewrite Nat.add_0_r. ring.
Qed.

(** ** strips *)
Lemma strip N (X Y : nat -> vec) : (1 <= N)%nat -> (forall k, unit (X k)) -> (forall k, unit (Y k)) ->
  convex (X 0%nat) (X N) (Y N) (Y 0%nat) ->
  (forall k, (S k < N)%nat -> exists s t, 0 < s /\ 0 < t /\ X (S k) = vplus (vscale s (X k)) (vscale t (X N))) ->
  (forall k, (S k < N)%nat -> exists s t, 0 < s /\ 0 < t /\ Y (S k) = vplus (vscale s (Y k)) (vscale t (Y N))) ->
  (forall k, (k < N)%nat -> convex (X k) (X (S k)) (Y (S k)) (Y k)) /\
  squad (X 0%nat) (X N) (Y N) (Y 0%nat) = rsum N (fun k => squad (X k) (X (S k)) (Y (S k)) (Y k)).
Proof.
  intros HN UX UY H0 HX HY.
  assert (K : forall j, (j < N)%nat -> convex (X j) (X N) (Y N) (Y j) /\
    (forall k, (k < j)%nat -> convex (X k) (X (S k)) (Y (S k)) (Y k)) /\
    squad (X 0%nat) (X N) (Y N) (Y 0%nat) = rsum j (fun k => squad (X k) (X (S k)) (Y (S k)) (Y k)) + squad (X j) (X N) (Y N) (Y j)).
  { induction j as [|j IH]; intros Hj.
    - cbn [rsum]. split; auto. split; [intros; lia|]. ring.
    - destruct (IH ltac:(lia)) as (Hc & Hk & E).
      destruct (HX j Hj) as (s & t & S1 & T1 & EX). destruct (HY j Hj) as (s' & t' & S2 & T2 & EY).
      assert (EY' : Y (S j) = vplus (vscale t' (Y N)) (vscale s' (Y j))).
      { rewrite EY. generalize (Y j) (Y N). vring. }
      destruct (convex_cut _ _ _ _ (X (S j)) (Y (S j)) s t t' s' Hc) as (C1 & C2); auto.
      pose proof (squad_cut _ _ _ _ (X (S j)) (Y (S j)) s t t' s' Hc) as Q. rewrite Q in E by auto.
      split; auto. split.
      + intros k Hk'. destruct (Nat.eq_dec k j) as [->|]; auto. apply Hk. lia.
      + cbn [rsum]. rewrite E. ring. }
  destruct (K (N - 1)%nat ltac:(lia)) as (Hc & Hk & E). assert (EN : S (N - 1) = N) by lia.
  split.
  - intros k Hk'. destruct (Nat.eq_dec k (N - 1)) as [->|]; [rewrite EN; auto|]. apply Hk. lia.
  - assert (ER : forall f, rsum N f = rsum (N - 1) f + f (N - 1)%nat) by (intros f; rewrite <- EN at 1; reflexivity).
    rewrite ER, EN, E. reflexivity.
Qed.

Lemma apart_gc u v : unit u -> unit v -> apart u v -> 0 < gc u v < PI.
Proof.
  intros U V A. pose proof (apart_dot u v U V A) as D. pose proof (gc_range u v) as R0. pose proof (gc_cos u v U V) as C.
  assert (gc u v <> 0) by (intros E; rewrite E, cos_0 in C; lra).
  assert (gc u v <> PI) by (intros E; rewrite E, cos_PI in C; lra). lra.
Qed.

(** successive points of an evenly divided arc *)
Lemma arc_succ u v N (X : nat -> vec) : (1 <= N)%nat -> unit u -> unit v -> apart u v ->
  (forall k, (k <= N)%nat -> on_arc u v (INR k / INR N) (X k)) ->
  X 0%nat = u /\ X N = v /\
  forall k, (S k < N)%nat -> exists s t, 0 < s /\ 0 < t /\ X (S k) = vplus (vscale s (X k)) (vscale t (X N)).
Proof.
  intros HN U V A HX. destruct (apart_gc u v U V A) as (G0 & G1).
  assert (NN : 0 < INR N) by (apply lt_0_INR; lia).
  assert (F : forall k, (k <= N)%nat -> X k = arcpt u v (INR k / INR N * gc u v)).
  { intros k Hk. apply arc_formula; auto. }
  assert (E0 : X 0%nat = u).
  { rewrite F by lia. cbn [INR]. unfold Rdiv. rewrite !Rmult_0_l. apply arcpt_u; auto. }
  assert (E1 : X N = v).
  { rewrite F by lia. unfold Rdiv. rewrite Rinv_r, Rmult_1_l by lra. apply arcpt_v; auto. }
  split; auto. split; auto. intros k Hk. rewrite E1, !F by lia.
  assert (L1 : INR k < INR (S k)) by (apply lt_INR; lia). assert (L2 : INR (S k) < INR N) by (apply lt_INR; lia).
  pose proof (pos_INR k).
  apply arcpt_step; auto.
  - apply Rmult_lt_compat_r; auto. apply Rmult_lt_compat_r; auto. now apply Rinv_0_lt_compat.
  - rewrite <- (Rmult_1_l (gc u v)) at 2. apply Rmult_lt_compat_r; auto.
    apply Rmult_lt_reg_r with (INR N); auto. unfold Rdiv. rewrite Rmult_assoc, Rinv_l by lra. lra.
  - apply Rmult_le_pos; [|lra]. apply Rmult_le_pos; auto. left. now apply Rinv_0_lt_compat.
Qed.

Lemma convex_hemisphere A B C D : convex A B C D -> hemisphere A B C D.
Proof.
  intros (_ & _ & _ & _ & T & s & t & p & q & S & T' & P & Q & E).
  set (e := (s + t) / (2 * p)). assert (He : 0 < e) by (apply Rdiv_lt_0_compat; lra).
  set (w := vplus (vcross B C) (vplus (vscale e (vcross C A)) (vcross A B))).
  assert (WA : vdot w A = triple A B C) by (unfold w, triple; clear; generalize e; vring).
  assert (WB : vdot w B = e * triple A B C) by (unfold w, triple; clear; generalize e; vring).
  assert (WC : vdot w C = triple A B C) by (unfold w, triple; clear; generalize e; vring).
  assert (WD : q * vdot w D = (s + t) / 2 * triple A B C).
  { pose proof (f_equal (vdot w) E) as X. rewrite !vdot_plus_r, !vdot_scale_r, WA, WB, WC in X.
    assert (Y : p * (e * triple A B C) = (s + t) / 2 * triple A B C) by (unfold e; field; lra). lra. }
  exists (vscale (/ triple A B C) w). rewrite !vdot_scale_l, WA, WB, WC.
  replace (vdot w D) with ((s + t) / 2 / q * triple A B C).
  - split; [rewrite Rinv_l by auto; lra|]. split.
    + replace (/ triple A B C * (e * triple A B C)) with e by (field; auto). auto.
    + split; [rewrite Rinv_l by auto; lra|].
      replace (/ triple A B C * ((s + t) / 2 / q * triple A B C)) with ((s + t) / 2 / q) by (field; split; [lra|auto]).
      apply Rdiv_lt_0_compat; lra.
  - apply Rmult_eq_reg_l with q; [|lra]. rewrite WD. field. lra.
Qed.

Lemma squad1_r P A B C D : exact P -> unit A -> unit B -> unit C -> unit D ->
  apart A B -> apart B C -> apart A C -> apart C D -> apart A D ->
  squad1 (r_ops P) A B C D = squad A B C D.
Proof.
  intros EP UA UB UC UD AB BC AC CD AD.
  exact (C43_two_excesses P EP (mkmat 2 2 (fun i j => match i, j with 0%nat, 0%nat => A | 0%nat, _ => D | _, 0%nat => B | _, _ => C end))
    0 0 UA UB UC UD AB BC AC CD AD).
Qed.

Lemma squad_pos A B C D : convex A B C D -> 0 < squad A B C D.
Proof.
  intros H. pose proof (convex_apart _ _ _ _ H) as (AB & BC & AC & CD & AD & BD).
  destruct (convex_triples _ _ _ _ H) as (k1 & k2 & k3 & P1 & P2 & P3 & E1 & E2 & E3).
  destruct H as (UA & UB & UC & UD & T & _).
  unfold squad. apply Rplus_lt_0_compat; apply excess_pos; auto.
  rewrite E1. apply Rmult_integral_contrapositive. split; [lra|auto].
Qed.

Section Area.
Variables (P : partial_ops) (G : geod R) (C : nat -> nat -> R * R) (pos : bool) (ls lt m n : nat)
  (H : nat -> nat -> R * R).
Hypotheses (EP : exact P) (SG : spherical G) (Hls : (1 <= ls)%nat) (Hlt : (1 <= lt)%nat)
  (Hm : (1 <= m)%nat) (Hn : (1 <= n)%nat)
  (HS : subdivides (r_ops P) G pos C ls lt m n H).
Let h u v := point (H u v).
Hypothesis HC : forall a b, (a < m)%nat -> (b < n)%nat ->
  convex (point (C a b)) (point (C (a + 1)%nat b)) (point (C (a + 1)%nat (b + 1)%nat)) (point (C a (b + 1)%nat)).

Let HH : forall a b, (a < m)%nat -> (b < n)%nat ->
  hemisphere (point (C a b)) (point (C (a + 1)%nat b)) (point (C (a + 1)%nat (b + 1)%nat)) (point (C a (b + 1)%nat)).
Proof. intros. apply convex_hemisphere. auto. Qed.

(** an original cell is cut into strips *)
Lemma cell_strips a b : (a < m)%nat -> (b < n)%nat ->
  let Q k := squad (h (2 * ls * a + k) (2 * lt * b)) (h (2 * ls * a + S k) (2 * lt * b))
                   (h (2 * ls * a + S k) (2 * lt * (b + 1))) (h (2 * ls * a + k) (2 * lt * (b + 1))) in
  (forall k, (k < 2 * ls)%nat ->
     convex (h (2 * ls * a + k) (2 * lt * b)) (h (2 * ls * a + S k) (2 * lt * b))
            (h (2 * ls * a + S k) (2 * lt * (b + 1))) (h (2 * ls * a + k) (2 * lt * (b + 1)))) /\
  squad (point (C a b)) (point (C (a + 1)%nat b)) (point (C (a + 1)%nat (b + 1)%nat)) (point (C a (b + 1)%nat))
  = rsum (2 * ls) Q.
Proof.
  intros Ha Hb Q. pose proof (HC a b Ha Hb) as HC'.
  pose proof (convex_apart _ _ _ _ HC') as (AB & BC & AC & CD & AD & BD).
  destruct (arc_succ (point (C a b)) (point (C (a + 1)%nat b)) (2 * ls) (fun k => h (2 * ls * a + k) (2 * lt * b)))
    as (X0 & X1 & X2); auto using point_unit; [lia| |].
  { intros k Hk. apply (x_arc P G C pos ls lt m n H SG Hls Hlt HS HH); auto. lia. }
  destruct (arc_succ (point (C a (b + 1)%nat)) (point (C (a + 1)%nat (b + 1)%nat)) (2 * ls) (fun k => h (2 * ls * a + k) (2 * lt * (b + 1))))
    as (Y0 & Y1 & Y2); auto using point_unit, apart_sym; [lia| |].
  { intros k Hk. apply (x_arc P G C pos ls lt m n H SG Hls Hlt HS HH); auto. lia. }
  destruct (strip (2 * ls) (fun k => h (2 * ls * a + k) (2 * lt * b)) (fun k => h (2 * ls * a + k) (2 * lt * (b + 1)))) as (K1 & K2).
  - lia.
  - intros. apply point_unit.
  - intros. apply point_unit.
  - cbv beta in *. rewrite X0, X1, Y0, Y1. exact HC'.
  - exact X2.
  - exact Y2.
  - cbv beta in *. split; [exact K1|]. rewrite X0, X1, Y0, Y1 in K2. rewrite K2. reflexivity.
Qed.

(** a strip is cut into quarter cells *)
Lemma strip_quarters u b : (u < 2 * ls * m)%nat -> (b < n)%nat ->
  let v0 := (2 * lt * b)%nat in let v1 := (2 * lt * (b + 1))%nat in
  convex (h u v0) (h (u + 1) v0) (h (u + 1) v1) (h u v1) ->
  let Q l := squad (h u (v0 + l)) (h (u + 1) (v0 + l)) (h (u + 1) (v0 + l + 1)) (h u (v0 + l + 1)) in
  (forall l, (l < 2 * lt)%nat ->
     convex (h u (v0 + l)) (h (u + 1) (v0 + l)) (h (u + 1) (v0 + l + 1)) (h u (v0 + l + 1))) /\
  squad (h u v0) (h (u + 1) v0) (h (u + 1) v1) (h u v1) = rsum (2 * lt) Q.
Proof.
  intros Hu Hb v0 v1 HC' Q.
  pose proof (convex_apart _ _ _ _ HC') as (AB & BC & AC & CD & AD & BD).
  destruct (arc_succ (h (u + 1) v0) (h (u + 1) v1) (2 * lt) (fun l => h (u + 1) (v0 + l)))
    as (X0 & X1 & X2); try apply point_unit; auto; [lia| |].
  { intros l Hl. apply (y_arc P G C pos ls lt m n H SG Hls Hlt HS HH Hm Hn); auto. lia. }
  destruct (arc_succ (h u v0) (h u v1) (2 * lt) (fun l => h u (v0 + l)))
    as (Y0 & Y1 & Y2); try apply point_unit; auto; [lia| |].
  { intros l Hl. apply (y_arc P G C pos ls lt m n H SG Hls Hlt HS HH Hm Hn); auto. lia. }
  destruct (strip (2 * lt) (fun l => h (u + 1) (v0 + l)) (fun l => h u (v0 + l))) as (K1 & K2).
  - lia.
  - intros. apply point_unit.
  - intros. apply point_unit.
  - cbv beta in *. rewrite X0, X1, Y0, Y1. apply convex_rot. exact HC'.
  - exact X2.
  - exact Y2.
  - cbv beta in *.
    assert (K3 : forall l, (l < 2 * lt)%nat ->
      convex (h u (v0 + l)) (h (u + 1) (v0 + l)) (h (u + 1) (v0 + l + 1)) (h u (v0 + l + 1))).
    { intros l Hl. specialize (K1 l Hl). rewrite (plus_S v0 l) in K1.
      do 3 apply convex_rot in K1. exact K1. }
    split; [exact K3|]. rewrite X0, X1, Y0, Y1, squad_diagonal in K2 by auto. rewrite K2.
    apply rsum_ext. intros l Hl. unfold Q. rewrite (plus_S v0 l). apply squad_diagonal. auto.
Qed.

(** every quarter cell is convex *)
Lemma quarters_convex u v : (u < 2 * ls * m)%nat -> (v < 2 * lt * n)%nat ->
  convex (h u v) (h (u + 1) v) (h (u + 1) (v + 1)) (h u (v + 1)).
Proof.
  intros Hu Hv.
  pose proof (Nat.div_mod u (2 * ls) ltac:(lia)) as Eu. pose proof (Nat.mod_upper_bound u (2 * ls) ltac:(lia)) as Lu.
  pose proof (Nat.div_mod v (2 * lt) ltac:(lia)) as Ev. pose proof (Nat.mod_upper_bound v (2 * lt) ltac:(lia)) as Lv.
  assert (Ha : (u / (2 * ls) < m)%nat) by (apply Nat.div_lt_upper_bound; lia).
  assert (Hb : (v / (2 * lt) < n)%nat) by (apply Nat.div_lt_upper_bound; lia).
  set (a := (u / (2 * ls))%nat) in *. set (b := (v / (2 * lt))%nat) in *.
  destruct (cell_strips a b Ha Hb) as (K & _). specialize (K _ Lu).
  rewrite plus_S, <- Eu in K.
  destruct (strip_quarters u b Hu Hb K) as (K' & _). specialize (K' _ Lv). rewrite <- Ev in K'. exact K'.
Qed.

Lemma total_area :
  rsum (2 * ls * m) (fun u => rsum (2 * lt * n) (fun v => squad (h u v) (h (u + 1) v) (h (u + 1) (v + 1)) (h u (v + 1))))
  = rsum m (fun a => rsum n (fun b =>
      squad (point (C a b)) (point (C (a + 1)%nat b)) (point (C (a + 1)%nat (b + 1)%nat)) (point (C a (b + 1)%nat)))).
Proof.
  rewrite rsum_blocks. apply rsum_ext. intros a Ha.
  transitivity (rsum (2 * ls) (fun k => rsum n (fun b =>
    squad (h (2 * ls * a + k) (2 * lt * b)) (h (2 * ls * a + S k) (2 * lt * b))
          (h (2 * ls * a + S k) (2 * lt * (b + 1))) (h (2 * ls * a + k) (2 * lt * (b + 1)))))).
  - apply rsum_ext. intros k Hk. rewrite rsum_blocks. apply rsum_ext. intros b Hb.
    destruct (cell_strips a b Ha Hb) as (K & _). specialize (K k Hk).
    rewrite (plus_S (2 * ls * a) k) in K |- *.
    assert (Hu : (2 * ls * a + k < 2 * ls * m)%nat) by nia.
    destruct (strip_quarters _ b Hu Hb K) as (_ & E). symmetry. exact E.
  - rewrite rsum_swap. apply rsum_ext. intros b Hb. destruct (cell_strips a b Ha Hb) as (_ & E). symmetry. exact E.
Qed.

Lemma quarter_squad u v : (u < 2 * ls * m)%nat -> (v < 2 * lt * n)%nat ->
  quarter (r_ops P) G H false u v = g_a G * g_a G * squad (h u v) (h (u + 1) v) (h (u + 1) (v + 1)) (h u (v + 1)) /\
  0 < quarter (r_ops P) G H false u v.
Proof.
  intros Hu Hv. pose proof (quarters_convex u v Hu Hv) as K. pose proof (squad_pos _ _ _ _ K) as K0.
  pose proof (convex_apart _ _ _ _ K) as (AB & BC & AC & CD & AD & BD).
  assert (E : quarter (r_ops P) G H false u v = g_a G * g_a G * squad (h u v) (h (u + 1) v) (h (u + 1) (v + 1)) (h u (v + 1))).
  { unfold quarter. cbn [nmul r_ops]. rewrite !cart1_point, <- !surjective_pairing.
    rewrite squad1_r; auto using point_unit. unfold h. ring. }
  split; auto. rewrite E. pose proof (sp_radius G SG). apply Rmult_lt_0_compat; auto. now apply Rmult_lt_0_compat.
Qed.
End Area.
