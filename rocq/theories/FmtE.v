(** The format '{:20.12E}' of a float, as wrmds writes times (mds.py:590-593). *)
From Coq Require Import Ascii String List Bool PeanoNat ZArith.
Import ListNotations.
From Flocq Require Import IEEE754.Binary IEEE754.Bits.
From Verif Require Import MdsMeta.
Local Open Scope Z_scope.
Local Open Scope list_scope.

(** a/b and k with a/b * 10^k the number and 1 <= a/b < 10. *)
Fixpoint scale_down (fuel : nat) (a b k : Z) : Z * Z * Z :=
  match fuel with
  | O => (a, b, k)
  | S f => if a <? 10 * b then (a, b, k) else scale_down f a (10 * b) (k + 1)
  end.
Fixpoint scale_up (fuel : nat) (a b k : Z) : Z * Z * Z :=
  match fuel with
  | O => (a, b, k)
  | S f => if b <=? a then (a, b, k) else scale_up f (10 * a) b (k - 1)
  end.
Definition scaled (a b : Z) : Z * Z * Z :=
  if b <=? a then scale_down (S (Z.to_nat (Z.log2 a))) a b 0
  else scale_up (S (Z.to_nat (Z.log2 b))) a b 0.

(** a/b to the nearest integer, a tie to the even one. *)
Definition half_even (a b : Z) : Z :=
  let q := a / b in
  let r := a mod b in
  if (b <? 2 * r) || ((2 * r =? b) && Z.odd q) then q + 1 else q.

(** Thirteen digits q and the exponent k of a/b: about q * 10^(k-12). *)
Definition digits13 (a b : Z) : Z * Z :=
  let '(a', b', k) := scaled a b in
  let q := half_even (a' * 10 ^ 12) b' in
  if q =? 10 ^ 13 then (10 ^ 12, k + 1) else (q, k).

(** The number m * 2^e as a fraction. *)
Definition fraction (m e : Z) : Z * Z :=
  if 0 <=? e then (m * 2 ^ e, 1) else (m, 2 ^ (- e)).

Definition exp_text (k : Z) : text :=
  (if k <? 0 then "-"%char else "+"%char) :: padl "0" 2 (int_text (Z.abs k)).

Definition e12_digits (q k : Z) : text :=
  let d := padl "0" 13 (int_text q) in
  firstn 1 d ++ ["."%char] ++ skipn 1 d ++ ["E"%char] ++ exp_text k.

Definition e12_text (x : binary64) : text :=
  match x with
  | B754_zero _ _ s => (if s then ["-"%char] else []) ++ e12_digits 0 0
  | B754_infinity _ _ s => (if s then ["-"%char] else []) ++ lit "INF"
  | B754_nan _ _ _ _ _ => lit "NAN"
  | B754_finite _ _ s m e _ =>
      let '(a, b) := fraction (Zpos m) e in
      let '(q, k) := digits13 a b in
      (if s then ["-"%char] else []) ++ e12_digits q k
  end.

Definition fmt_e12 (x : binary64) : text := padl " " 20 (e12_text x).
