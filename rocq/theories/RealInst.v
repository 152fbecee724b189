(** Exact real arithmetic as a number type for the model. *)
From Coq Require Import Reals Ratan List Bool Lra.
Import ListNotations.
From Verif Require Import Num.
Set Implicit Arguments.
Local Open Scope R_scope.

(** What the operations give outside their domain (division by zero, roots of negative
    numbers, arccosines outside [-1,1], the mean of nothing, NaN and infinity), and
    therefore anything that is said to hold for all [partial_ops] does not depend on it. *)
Record partial_ops := mk_partial {
  p_div : R -> R -> R; p_sqrt : R -> R; p_acos : R -> R; p_mean : list R -> R; p_nan : R; p_inf : R }.

Record exact (P : partial_ops) : Prop := {
  ex_div : forall x y, y <> 0 -> p_div P x y = x / y;
  ex_sqrt : forall x, 0 <= x -> p_sqrt P x = sqrt x;
  ex_acos : forall x, -1 <= x <= 1 -> p_acos P x = acos x;
  ex_mean : forall l, l <> [] -> p_mean P l = fold_right Rplus 0 l / INR (length l) }.

Definition rlt (x y : R) : bool := if Rlt_dec x y then true else false.
Definition rle (x y : R) : bool := if Rle_dec x y then true else false.
Definition req (x y : R) : bool := if Req_EM_T x y then true else false.

Definition r_ops (P : partial_ops) : numops R := {|
  nzero := 0; nadd := Rplus; nsub := Rminus; nmul := Rmult; ndiv := p_div P;
  nltb := rlt; nleb := rle; neqb := req; neqz := fun x z => req x (IZR z);
  nsqrt := p_sqrt P; nsin := sin; ncos := cos; nacos := p_acos P; nmean := p_mean P;
  n360 := 360; n1e10 := 10000000000; ninf := p_inf P; n1em6 := / 1000000; n10e3 := 10000;
  n4 := 4; nhalf := / 2; n2 := 2; npi := PI; nd2r := PI / 180; nnan := p_nan P |}.

Lemma rlt_true x y : rlt x y = true <-> x < y.
Proof. unfold rlt. destruct (Rlt_dec x y); split; intros; try discriminate; tauto. Qed.
Lemma rlt_false x y : rlt x y = false <-> y <= x.
Proof. unfold rlt. destruct (Rlt_dec x y); split; intros; try discriminate; try lra; auto. Qed.
Lemma rle_true x y : rle x y = true <-> x <= y.
Proof. unfold rle. destruct (Rle_dec x y); split; intros; try discriminate; tauto. Qed.
Lemma rle_false x y : rle x y = false <-> y < x.
Proof. unfold rle. destruct (Rle_dec x y); split; intros; try discriminate; try lra; auto. Qed.
Lemma req_true x y : req x y = true <-> x = y.
Proof. unfold req. destruct (Req_EM_T x y); split; intros; try discriminate; tauto. Qed.
Lemma req_false x y : req x y = false <-> x <> y.
Proof. unfold req. destruct (Req_EM_T x y); split; intros; try discriminate; tauto. Qed.

Lemma r_laws P : numlaws (r_ops P).
Proof.
  constructor; cbn [neqb nltb nleb nzero ninf r_ops].
  - now apply req_true.
  - intros x. apply rlt_false. lra.
  - intros x y z. rewrite !rlt_true. lra.
  - intros x y z. rewrite rlt_true, rlt_false, rle_false. lra.
  - intros x y z. rewrite !rle_true, rlt_false. lra.
  - intros x y _. now apply req_true.
  - now apply req_true.
Qed.

(** The operations of Coq's real numbers themselves. *)
Definition coq_partial : partial_ops :=
  mk_partial Rdiv sqrt acos (fun l => fold_right Rplus 0 l / INR (length l)) 0 0.
Lemma coq_exact : exact coq_partial.
Proof. constructor; reflexivity. Qed.

(** ** Vectors *)
Definition vec : Type := R * R * R.
Definition vdot (u v : vec) : R :=
  let '(a, b, c) := u in let '(x, y, z) := v in a * x + b * y + c * z.
Definition vcross (u v : vec) : vec :=
  let '(a, b, c) := u in let '(x, y, z) := v in (b * z - c * y, c * x - a * z, a * y - b * x).
Definition vminus (u v : vec) : vec :=
  let '(a, b, c) := u in let '(x, y, z) := v in (a - x, b - y, c - z).
Definition vplus (u v : vec) : vec :=
  let '(a, b, c) := u in let '(x, y, z) := v in (a + x, b + y, c + z).
Definition vscale (k : R) (u : vec) : vec := let '(a, b, c) := u in (k * a, k * b, k * c).
Definition vnorm (u : vec) : R := sqrt (vdot u u).
Definition unit (u : vec) : Prop := vdot u u = 1.
(** the volume spanned by three vectors *)
Definition triple (u v w : vec) : R := vdot u (vcross v w).
(** the angle between two nonzero vectors *)
Definition angle (u v : vec) : R := acos (vdot u v / (vnorm u * vnorm v)).
