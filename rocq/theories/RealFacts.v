(** Vector algebra over the reals. *)
From Coq Require Import Reals Ratan List Bool Lra Psatz.
From Verif Require Import Num Util RealInst.
Local Open Scope R_scope.

Ltac vdes := repeat match goal with v : vec |- _ => destruct v as [[? ?] ?] end.
Ltac vring := intros; vdes; cbn [vdot vcross vminus vplus vscale]; try ring; repeat (f_equal; try ring).

Lemma vdot_sym u v : vdot u v = vdot v u. Proof. vring. Qed.
Lemma vdot_minus_l u v w : vdot (vminus u v) w = vdot u w - vdot v w. Proof. vring. Qed.
Lemma vdot_plus_l u v w : vdot (vplus u v) w = vdot u w + vdot v w. Proof. vring. Qed.
Lemma vdot_scale_l k u v : vdot (vscale k u) v = k * vdot u v. Proof. vring. Qed.
Lemma vdot_minus_r u v w : vdot w (vminus u v) = vdot w u - vdot w v. Proof. vring. Qed.
Lemma vdot_plus_r u v w : vdot w (vplus u v) = vdot w u + vdot w v. Proof. vring. Qed.
Lemma vdot_scale_r k u v : vdot u (vscale k v) = k * vdot u v. Proof. vring. Qed.
Lemma vdot_nonneg u : 0 <= vdot u u.
Proof. vdes. cbn [vdot]. nra. Qed.
Lemma vdot_zero u : vdot u u = 0 -> u = (0, 0, 0).
Proof. vdes. cbn [vdot]. intros H. assert (r = 0) by nra. assert (r0 = 0) by nra. assert (r1 = 0) by nra. congruence. Qed.
Lemma vnorm_nonneg u : 0 <= vnorm u. Proof. apply sqrt_pos. Qed.
Lemma vnorm_sq u : vnorm u * vnorm u = vdot u u. Proof. apply sqrt_sqrt, vdot_nonneg. Qed.

Lemma binet u v w t : vdot (vcross u v) (vcross w t) = vdot u w * vdot v t - vdot u t * vdot v w. Proof. vring. Qed.
Lemma lagrange u v : vdot (vcross u v) (vcross u v) = vdot u u * vdot v v - vdot u v * vdot u v.
Proof. rewrite binet, (vdot_sym v u). ring. Qed.
Lemma cauchy u v : vdot u v * vdot u v <= vdot u u * vdot v v.
Proof. pose proof (vdot_nonneg (vcross u v)) as H. rewrite lagrange in H. lra. Qed.

(** the square of the volume is Gram's determinant *)
Lemma gram u v w : triple u v w * triple u v w =
  vdot u u * (vdot v v * vdot w w - vdot v w * vdot v w)
  - vdot u v * (vdot u v * vdot w w - vdot v w * vdot u w)
  + vdot u w * (vdot u v * vdot v w - vdot v v * vdot u w).
Proof. unfold triple. vring. Qed.

Lemma gram_unit u v w : unit u -> unit v -> unit w ->
  triple u v w * triple u v w = 1 + 2 * (vdot v w) * (vdot u w) * (vdot u v)
    - vdot v w * vdot v w - vdot u w * vdot u w - vdot u v * vdot u v.
Proof. unfold unit. intros A B C. rewrite gram, A, B, C. ring. Qed.

Lemma unit_dot u v : unit u -> unit v -> -1 <= vdot u v <= 1.
Proof. unfold unit. intros A B. pose proof (cauchy u v) as C. rewrite A, B in C. nra. Qed.

(** ** the model's vector operations *)
Section Ops.
Variables (P : partial_ops) (EP : exact P).
Lemma dot_r u v : dot (r_ops P) u v = vdot u v.
Proof. destruct u as [[? ?] ?], v as [[? ?] ?]. reflexivity. Qed.
Lemma cross_r u v : cross (r_ops P) u v = vcross u v.
Proof. destruct u as [[? ?] ?], v as [[? ?] ?]. reflexivity. Qed.
Lemma vsub_r u v : vsub (r_ops P) u v = vminus u v.
Proof. destruct u as [[? ?] ?], v as [[? ?] ?]. reflexivity. Qed.
Lemma vadd_r u v : vadd (r_ops P) u v = vplus u v.
Proof. destruct u as [[? ?] ?], v as [[? ?] ?]. reflexivity. Qed.
Lemma norm_r u : norm (r_ops P) u = vnorm u.
Proof. unfold norm. rewrite dot_r. apply (ex_sqrt EP), vdot_nonneg. Qed.
End Ops.
