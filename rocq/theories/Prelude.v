(** Results with exceptions, monadic loops.  No counterpart in /repo: this is the
    vocabulary in which the Python statements are transcribed. *)
From Coq Require Import String List ZArith Lia Bool PeanoNat.
Import ListNotations.
Local Open Scope nat_scope.

(** Python exceptions that the modelled code can raise, plus [OutOfFuel], which
    no Python program raises: it marks a [while] loop that has not finished within
    the given number of iterations. *)
Inductive exn : Set :=
| ValueError (msg : string)
| RuntimeError (msg : string)
| IndexError
| KeyError
| TypeError
| AttributeError
| OSError
| AssertionError
| ParseError
| OutOfFuel.

Inductive res (A : Type) : Type :=
| Ok (a : A)
| Err (e : exn).
Arguments Ok {A} a.
Arguments Err {A} e.

Definition rbind {A B} (r : res A) (k : A -> res B) : res B :=
  match r with Ok a => k a | Err e => Err e end.

Notation "x <- e ;; k" := (rbind e (fun x => k))
  (at level 61, e at next level, right associativity).
Notation "' p <- e ;; k" := (rbind e (fun p => k))
  (at level 61, p pattern, e at next level, right associativity).

Definition is_ok {A} (r : res A) : Prop := exists a, r = Ok a.
Definition is_err {A} (r : res A) : Prop := exists e, r = Err e.
Definition raises_value {A} (r : res A) : Prop := exists m, r = Err (ValueError m).

(** [for x in l: st = body st x], leaving the loop on the first exception. *)
Fixpoint foldM {S X} (body : S -> X -> res S) (l : list X) (s : S) : res S :=
  match l with
  | [] => Ok s
  | x :: l' => s' <- body s x ;; foldM body l' s'
  end.

(** [for i in range(r): for j in range(c)] visits these pairs in this order. *)
Definition indices (r c : nat) : list (nat * nat) := list_prod (seq 0 r) (seq 0 c).
