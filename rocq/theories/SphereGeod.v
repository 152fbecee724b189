(** An exact spherical geodesic: specification, and facts about points on great-circle arcs. *)
From Coq Require Import Reals Ratan List Bool Lra Lia Psatz PeanoNat.
From Verif Require Import Num Util SpecHalf RealInst RealFacts SphereFacts SphereCut.
Local Open Scope R_scope.

(** the unit vector at a longitude and latitude in degrees *)
Definition point (p : R * R) : vec :=
  let l := fst p * (PI / 180) in let t := snd p * (PI / 180) in
  (cos l * cos t, sin l * cos t, sin t).

(** great-circle distance on the unit sphere *)
Definition gc (u v : vec) : R := acos (vdot u v).

(** [x] divides the shortest arc from [u] to [v] in the ratio t : 1-t *)
Definition on_arc (u v : vec) (t : R) (x : vec) : Prop :=
  unit x /\ gc u x = t * gc u v /\ gc x v = (1 - t) * gc u v.

Definition antipodal (u v : vec) : Prop := vplus u v = (0, 0, 0).

(** [G] measures on a sphere of radius [g_a G]: inv gives great-circle distances, and
    npts gives the points dividing the arc between non-antipodal points evenly. *)
Record spherical (G : geod R) : Prop := {
  sp_radius : 0 < g_a G;
  sp_inv : forall p q, g_inv G p q = g_a G * gc (point p) (point q);
  sp_npt : forall p q n k, (k < n)%nat -> ~ antipodal (point p) (point q) ->
    on_arc (point p) (point q) (INR (k + 1) / INR (n + 1)) (point (g_npt G p q n k)) }.

(** four points in an open hemisphere *)
Definition hemisphere (A B C D : vec) : Prop :=
  exists d, 0 < vdot d A /\ 0 < vdot d B /\ 0 < vdot d C /\ 0 < vdot d D.

(** ** points *)
Lemma point_unit p : unit (point p).
Proof.
  unfold unit, point. cbn [vdot].
  set (l := fst p * (PI / 180)). set (t := snd p * (PI / 180)).
  pose proof (sin2_cos2 l) as A. pose proof (sin2_cos2 t) as B. unfold Rsqr in *. nra.
Qed.

Lemma cart1_point P a b : cart1 (r_ops P) a b = point (a, b).
Proof. reflexivity. Qed.

Lemma point_360 a b : point (a + 360, b) = point (a, b).
Proof.
  unfold point. cbn [fst snd].
  replace ((a + 360) * (PI / 180)) with (a * (PI / 180) + 2 * PI) by field.
  rewrite cos_plus, sin_plus, cos_2PI, sin_2PI. repeat (f_equal; try ring).
Qed.

Lemma wrap_point P pos x : point (wrap (r_ops P) pos x) = point x.
Proof.
  unfold wrap. destruct (pos && _); [|reflexivity]. cbn [nadd n360 r_ops]. rewrite point_360.
  destruct x; reflexivity.
Qed.

(** ** arcs *)
Lemma gc_range u v : 0 <= gc u v <= PI. Proof. apply acos_bound. Qed.
Lemma gc_cos u v : unit u -> unit v -> cos (gc u v) = vdot u v.
Proof. intros. apply cos_acos. now apply unit_dot. Qed.
Lemma gc_sym u v : gc u v = gc v u. Proof. unfold gc. now rewrite vdot_sym. Qed.

Lemma unit_eq u v : unit u -> unit v -> vdot u v = 1 -> u = v.
Proof.
  unfold unit. intros U V D.
  assert (Z : vdot (vminus u v) (vminus u v) = 0).
  { rewrite vdot_minus_l, !vdot_minus_r, (vdot_sym v u). lra. }
  apply vdot_zero in Z. destruct u as [[? ?] ?], v as [[? ?] ?]. cbn [vminus] in Z. inversion Z.
  repeat (f_equal; try lra).
Qed.

Lemma unit_opp u v : unit u -> unit v -> vdot u v = -1 -> antipodal u v.
Proof.
  unfold unit, antipodal. intros U V D. apply vdot_zero.
  rewrite vdot_plus_l, !vdot_plus_r, (vdot_sym v u). lra.
Qed.

Lemma gc_0 u v : unit u -> unit v -> gc u v = 0 -> u = v.
Proof. intros U V E. apply unit_eq; auto. rewrite <- gc_cos, E by auto. apply cos_0. Qed.
Lemma gc_self u : unit u -> gc u u = 0.
Proof. unfold unit, gc. intros ->. apply acos_1. Qed.
Lemma gc_lt_PI u v : unit u -> unit v -> ~ antipodal u v -> gc u v < PI.
Proof.
  intros U V H. destruct (gc_range u v) as (_ & [L|E]); auto. exfalso. apply H, unit_opp; auto.
  rewrite <- gc_cos, E by auto. apply cos_PI.
Qed.

Lemma arc_0 u v : unit u -> on_arc u v 0 u.
Proof. intros U. split; auto. rewrite gc_self by auto. lra. Qed.
Lemma arc_1 u v : unit v -> on_arc u v 1 v.
Proof. intros U. split; auto. rewrite gc_self by auto. lra. Qed.

(** the direction perpendicular to u towards v *)
Definition towards (u v : vec) : vec :=
  vscale (/ sin (gc u v)) (vminus v (vscale (cos (gc u v)) u)).

Lemma vcomb p q a b c d u w :
  vplus (vscale (p * a + q * b) u) (vscale (p * c + q * d) w) =
  vplus (vscale p (vplus (vscale a u) (vscale c w))) (vscale q (vplus (vscale b u) (vscale d w))).
Proof. vring. Qed.

Section Towards.
Variables (u v : vec).
Hypotheses (U : unit u) (V : unit v) (H0 : 0 < gc u v) (H1 : gc u v < PI).
Let th := gc u v.
Let w := towards u v.

Lemma sin_pos : 0 < sin th. Proof. apply sin_gt_0; auto. Qed.

Lemma towards_perp : vdot u w = 0.
Proof.
  unfold w, towards. rewrite vdot_scale_r, vdot_minus_r, vdot_scale_r. unfold unit in U. rewrite U, gc_cos by auto. ring.
Qed.
Lemma towards_unit : vdot w w = 1.
Proof.
  pose proof sin_pos as S. unfold w, towards. rewrite vdot_scale_l, vdot_scale_r, vdot_minus_l, !vdot_minus_r, !vdot_scale_l, !vdot_scale_r.
  rewrite (vdot_sym v u). unfold unit in U, V. rewrite U, V, <- (gc_cos u v) by auto. fold th.
  pose proof (sin2_cos2 th) as K. unfold Rsqr in K.
  transitivity (/ sin th * / sin th * (1 - cos th * cos th)); [ring|].
  replace (1 - cos th * cos th) with (sin th * sin th) by lra. field. lra.
Qed.
Lemma towards_v : v = vplus (vscale (cos th) u) (vscale (sin th) w).
Proof.
  pose proof sin_pos as S. unfold w, towards. fold th. clearbody th. clear - S. destruct u as [[a b] c], v as [[x y] z]. cbn [vscale vminus vplus].
  repeat (f_equal; [|]); try f_equal; field; lra.
Qed.

Definition arcpt (a : R) : vec := vplus (vscale (cos a) u) (vscale (sin a) w).

Lemma arcpt_dot a b : vdot (arcpt a) (arcpt b) = cos (a - b).
Proof.
  unfold arcpt. rewrite vdot_plus_l, !vdot_plus_r, !vdot_scale_l, !vdot_scale_r, (vdot_sym w u), towards_perp, towards_unit.
  unfold unit in U. rewrite U, cos_minus. ring.
Qed.
Lemma arcpt_u : arcpt 0 = u.
Proof. unfold arcpt. rewrite cos_0, sin_0. destruct u as [[? ?] ?], w as [[? ?] ?]. cbn. repeat (f_equal; try ring). Qed.
Lemma arcpt_v : arcpt th = v.
Proof. symmetry. apply towards_v. Qed.

Lemma arc_formula t x : on_arc u v t x -> x = arcpt (t * th).
Proof.
  intros (X & E1 & E2). set (a := t * th).
  assert (D1 : vdot u x = cos a) by (rewrite <- gc_cos, E1 by auto; reflexivity).
  assert (D2 : vdot x v = cos (a - th)).
  { rewrite <- gc_cos, E2 by auto. rewrite <- cos_neg. f_equal. unfold a, th. ring. }
  assert (D3 : vdot x w = sin a).
  { rewrite towards_v in D2. rewrite vdot_plus_r, !vdot_scale_r, (vdot_sym x u), D1, cos_minus in D2.
    pose proof sin_pos. apply Rmult_eq_reg_l with (sin th); [|lra]. lra. }
  apply unit_eq; auto.
  - unfold unit. rewrite arcpt_dot, Rminus_diag_eq by reflexivity. apply cos_0.
  - unfold arcpt. rewrite vdot_plus_r, !vdot_scale_r, (vdot_sym x u), D1, D3.
    pose proof (sin2_cos2 a) as K. unfold Rsqr in K. lra.
Qed.

(** a point further along as a combination of an earlier one and the end *)
Lemma arcpt_step a b : a < b -> b < th -> 0 <= a ->
  exists s t, 0 < s /\ 0 < t /\ arcpt b = vplus (vscale s (arcpt a)) (vscale t v).
Proof.
  intros Hab Hb Ha. assert (T : th < PI) by exact H1.
  assert (S1 : 0 < sin (th - a)) by (apply sin_gt_0; lra).
  assert (S2 : 0 < sin (th - b)) by (apply sin_gt_0; lra).
  assert (S3 : 0 < sin (b - a)) by (apply sin_gt_0; lra).
  exists (sin (th - b) / sin (th - a)), (sin (b - a) / sin (th - a)).
  split; [now apply Rdiv_lt_0_compat|]. split; [now apply Rdiv_lt_0_compat|].
  rewrite <- arcpt_v. unfold arcpt.
  assert (E1 : cos b = sin (th - b) / sin (th - a) * cos a + sin (b - a) / sin (th - a) * cos th).
  { apply Rmult_eq_reg_l with (sin (th - a)); [|lra].
    transitivity (sin (th - b) * cos a + sin (b - a) * cos th); [|field; lra]. rewrite !sin_minus. ring. }
  assert (E2 : sin b = sin (th - b) / sin (th - a) * sin a + sin (b - a) / sin (th - a) * sin th).
  { apply Rmult_eq_reg_l with (sin (th - a)); [|lra].
    transitivity (sin (th - b) * sin a + sin (b - a) * sin th); [|field; lra]. rewrite !sin_minus. ring. }
  rewrite E1, E2. generalize (sin (th - b) / sin (th - a)), (sin (b - a) / sin (th - a)).
  intros. apply vcomb.
Qed.
End Towards.

(** points of one arc lie on one another's arcs *)
Lemma arc_dist u v t s x y : unit u -> unit v -> gc u v < PI ->
  0 <= s -> s <= t -> t <= 1 -> on_arc u v s x -> on_arc u v t y -> gc x y = (t - s) * gc u v.
Proof.
  intros U V H1 Hs Hst Ht X Y. destruct (gc_range u v) as ([H0|H0] & _).
  - rewrite (arc_formula u v U V H0 H1 _ _ X), (arc_formula u v U V H0 H1 _ _ Y).
    unfold gc at 1. rewrite arcpt_dot by auto. rewrite <- cos_neg.
    replace (- (s * gc u v - t * gc u v)) with ((t - s) * gc u v) by ring. apply acos_cos.
    split; [apply Rmult_le_pos; lra|]. apply Rle_trans with (1 * gc u v); [|lra]. apply Rmult_le_compat_r; lra.
  - assert (Ex : x = u) by (symmetry; apply gc_0; [auto|apply X|destruct X as (_ & -> & _); rewrite <- H0; ring]).
    assert (Ey : y = u) by (symmetry; apply gc_0; [auto|apply Y|destruct Y as (_ & -> & _); rewrite <- H0; ring]).
    subst. rewrite gc_self, <- H0 by auto. ring.
Qed.

Lemma arc_hemi u v t x d : unit u -> unit v -> gc u v < PI -> 0 <= t <= 1 -> on_arc u v t x ->
  0 < vdot d u -> 0 < vdot d v -> 0 < vdot d x.
Proof.
  intros U V H1 Ht X Du Dv. destruct (gc_range u v) as ([H0|H0] & _).
  - destruct (Req_dec t 1) as [->|N1].
    { rewrite (arc_formula u v U V H0 H1 _ _ X), Rmult_1_l, arcpt_v by auto. exact Dv. }
    destruct (Req_dec t 0) as [->|N0].
    { rewrite (arc_formula u v U V H0 H1 _ _ X), Rmult_0_l, arcpt_u by auto. exact Du. }
    destruct (arcpt_step u v H0 H1 0 (t * gc u v)) as (p & q & Hp & Hq & E).
    + apply Rmult_lt_0_compat; lra.
    + rewrite <- (Rmult_1_l (gc u v)) at 2. apply Rmult_lt_compat_r; lra.
    + lra.
    + rewrite (arc_formula u v U V H0 H1 _ _ X), E, arcpt_u, vdot_plus_r, !vdot_scale_r by auto.
      apply Rplus_lt_0_compat; now apply Rmult_lt_0_compat.
  - replace x with u; auto. apply gc_0; [auto|apply X|]. destruct X as (_ & -> & _). rewrite <- H0. ring.
Qed.

Lemma hemi_not_antipodal d u v : 0 < vdot d u -> 0 < vdot d v -> ~ antipodal u v.
Proof.
  intros A B E. unfold antipodal in E.
  assert (Z : vdot d (vplus u v) = 0) by (rewrite E; destruct d as [[? ?] ?]; cbn; ring).
  rewrite vdot_plus_r in Z. lra.
Qed.

(** the spherical triangle inequality *)
Lemma gc_triangle u v w : unit u -> unit v -> unit w -> gc u w <= gc u v + gc v w.
Proof.
  intros U V W. pose proof (gc_range u v) as R1. pose proof (gc_range v w) as R2. pose proof (gc_range u w) as R3.
  destruct (Rle_lt_dec PI (gc u v + gc v w)) as [L|L]; [lra|].
  assert (K : cos (gc u v + gc v w) <= cos (gc u w)).
  { rewrite cos_plus, !gc_cos by auto. unfold gc. rewrite !sin_acos by (now apply unit_dot).
    unfold Rsqr. rewrite <- !cross_norm by auto.
    pose proof (cauchy (vcross u v) (vcross v w)) as C. rewrite <- !vnorm_sq in C. replace (vnorm (vcross u v) * vnorm (vcross u v) * (vnorm (vcross v w) * vnorm (vcross v w))) with
      ((vnorm (vcross u v) * vnorm (vcross v w)) * (vnorm (vcross u v) * vnorm (vcross v w))) in C by ring.
    pose proof (vnorm_nonneg (vcross u v)). pose proof (vnorm_nonneg (vcross v w)).
    rewrite binet in C. unfold unit in V. rewrite V in C.
    assert (0 <= vnorm (vcross u v) * vnorm (vcross v w)) by (now apply Rmult_le_pos).
    revert C H1. generalize (vnorm (vcross u v) * vnorm (vcross v w)) as k. intros. nra. }
  destruct (Rle_lt_dec (gc u w) (gc u v + gc v w)) as [|N]; auto. exfalso.
  assert (cos (gc u w) < cos (gc u v + gc v w)) by (apply cos_decreasing_1; lra). lra.
Qed.

(** ** A sphere *)
Definition lonlat (v : vec) : R * R :=
  let '(x, y, z) := v in
  let r := sqrt (1 - z * z) in
  ((if Req_EM_T r 0 then 0 else if Rle_dec 0 y then acos (x / r) else - acos (x / r)) / (PI / 180),
   asin z / (PI / 180)).

Lemma point_lonlat v : unit v -> point (lonlat v) = v.
Proof.
  destruct v as [[x y] z]. unfold unit, point, lonlat. cbn [vdot fst snd]. intros U.
  pose proof PI_RGT_0 as PP.
  assert (D : forall a, a / (PI / 180) * (PI / 180) = a) by (intros; field; lra). rewrite !D.
  assert (Z : -1 <= z <= 1) by nra.
  rewrite sin_asin, cos_asin by auto. unfold Rsqr.
  set (r := sqrt (1 - z * z)).
  assert (R2 : r * r = 1 - z * z) by (apply sqrt_sqrt; nra).
  assert (R0 : 0 <= r) by apply sqrt_pos.
  destruct (Req_EM_T r 0) as [E|E].
  - rewrite E in *. assert (x = 0 /\ y = 0) as (-> & ->) by (split; nra). repeat (f_equal; try ring).
  - assert (R1 : 0 < r) by lra.
    assert (X : -1 <= x / r <= 1).
    { split; (apply Rmult_le_reg_r with r; [lra|]; unfold Rdiv; rewrite Rmult_assoc, Rinv_l by lra; nra). }
    assert (C : cos (if Rle_dec 0 y then acos (x / r) else - acos (x / r)) = x / r).
    { destruct (Rle_dec 0 y); rewrite ?cos_neg; now apply cos_acos. }
    assert (S : sin (acos (x / r)) = Rabs y / r).
    { rewrite sin_acos by auto. apply Rsqr_inj.
      - apply sqrt_pos.
      - apply Rmult_le_pos; [apply Rabs_pos|]. left. now apply Rinv_0_lt_compat.
      - assert (K : 1 - (x / r)² = (Rabs y / r)²).
        { unfold Rsqr. replace (Rabs y / r * (Rabs y / r)) with (Rsqr (Rabs y) / (r * r)) by (unfold Rsqr; field; lra).
          rewrite <- Rsqr_abs. unfold Rsqr.
          replace (x / r * (x / r)) with (x * x / (r * r)) by (field; lra). rewrite R2 in *.
          apply Rmult_eq_reg_r with (r * r); [|nra]. rewrite R2. field_simplify; nra. }
        rewrite K, Rsqr_sqrt; auto. apply Rle_0_sqr. }
    assert (S' : sin (if Rle_dec 0 y then acos (x / r) else - acos (x / r)) = y / r).
    { destruct (Rle_dec 0 y); rewrite ?sin_neg, S.
      - rewrite Rabs_right by lra. reflexivity.
      - rewrite Rabs_left by lra. field. lra. }
    rewrite C, S'. repeat f_equal; field; lra.
Qed.

(** the geodesic of a sphere of radius [a] *)
Definition sphere (a : R) : geod R := {|
  g_inv p q := a * gc (point p) (point q);
  g_npt p q n k :=
    if Req_EM_T (gc (point p) (point q)) 0 then p
    else lonlat (arcpt (point p) (point q) (INR (k + 1) / INR (n + 1) * gc (point p) (point q)));
  g_a := a |}.

Lemma sphere_spherical a : 0 < a -> spherical (sphere a).
Proof.
  intros Ha. constructor; auto. intros p q n k Hk Hn. cbn [g_npt sphere].
  pose proof (point_unit p) as U. pose proof (point_unit q) as V.
  assert (T : 0 <= INR (k + 1) / INR (n + 1) <= 1).
  { pose proof (lt_0_INR (n + 1) ltac:(lia)). pose proof (pos_INR (k + 1)). pose proof (le_INR (k + 1) (n + 1) ltac:(lia)). split.
    - apply Rmult_le_pos; auto. left. now apply Rinv_0_lt_compat.
    - apply Rmult_le_reg_r with (INR (n + 1)); auto. unfold Rdiv. rewrite Rmult_assoc, Rinv_l by lra. lra. }
  set (t := INR (k + 1) / INR (n + 1)) in *.
  pose proof (gc_range (point p) (point q)) as R0. pose proof (gc_lt_PI _ _ U V Hn) as R1.
  destruct (Req_EM_T (gc (point p) (point q)) 0) as [E|E].
  - pose proof (gc_0 _ _ U V E) as E'. split; auto. rewrite gc_self, E by auto. lra.
  - assert (P0 : 0 < gc (point p) (point q)) by lra.
    assert (B : 0 <= t * gc (point p) (point q) <= gc (point p) (point q)) by nra.
    assert (W : unit (arcpt (point p) (point q) (t * gc (point p) (point q)))).
    { unfold unit. rewrite arcpt_dot, Rminus_diag_eq by auto. apply cos_0. }
    rewrite point_lonlat by auto. split; auto. split.
    + replace (gc (point p) (arcpt (point p) (point q) (t * gc (point p) (point q))))
        with (gc (arcpt (point p) (point q) 0) (arcpt (point p) (point q) (t * gc (point p) (point q)))) by now rewrite arcpt_u.
      unfold gc at 1. rewrite arcpt_dot by auto. rewrite <- cos_neg, Rminus_0_l, Ropp_involutive. apply acos_cos. lra.
    + replace (gc (arcpt (point p) (point q) (t * gc (point p) (point q))) (point q))
        with (gc (arcpt (point p) (point q) (t * gc (point p) (point q))) (arcpt (point p) (point q) (gc (point p) (point q))))
        by now rewrite arcpt_v.
      unfold gc at 1. rewrite arcpt_dot by auto. rewrite <- cos_neg.
      replace (- (t * gc (point p) (point q) - gc (point p) (point q))) with ((1 - t) * gc (point p) (point q)) by ring.
      apply acos_cos. split; [apply Rmult_le_pos; lra|]. rewrite Rmult_minus_distr_r, Rmult_1_l. lra.
Qed.
