(** Specification of the times in a meta file. *)
From Coq Require Import ZArith Reals.
From Flocq Require Import Core.
Local Open Scope R_scope.

Definition radix10 : radix := Build_radix 10 eq_refl.

(** The number of thirteen digits q with the exponent k: d.dddddddddddd * 10^k. *)
Definition decimal (q k : Z) : R := IZR q * bpow radix10 (k - 12).

(** No other number of thirteen digits is nearer to x. *)
Definition nearest13 (x : R) (q k : Z) : Prop :=
  (10 ^ 12 <= q < 10 ^ 13)%Z /\
  forall q' k', (10 ^ 12 <= q' < 10 ^ 13)%Z -> Rabs (x - decimal q k) <= Rabs (x - decimal q' k').

(** A number of at most thirteen decimal digits: a whole number below 10^13, or one with the
    decimal point elsewhere. *)
Definition digits_at_most_13 (x : R) : Prop :=
  exists q k, (Z.abs q < 10 ^ 13)%Z /\ x = IZR q * bpow radix10 k.

(** ** The text of a number *)
From Coq Require Import Ascii String List.
From Verif Require Import MdsMeta SpecMds.
Import ListNotations.
Local Open Scope list_scope.

(** The number a string of digits stands for. *)
Definition number (l : text) : Z := fold_left (fun a c => 10 * a + (Z.of_nat (nat_of_ascii c) - 48))%Z l 0%Z.

(** d.ddddddddddddE+dd with the sign before it: the thirteen digits and the exponent are those
    of a number nearest to x.  Zero is 0.000000000000E+00. *)
Definition written_as (x : R) (negative : bool) (t : text) : Prop :=
  exists d ds sg xs,
    t = (if negative then ["-"%char] else []) ++ d :: "."%char :: ds ++ "E"%char :: sg :: xs /\
    is_decimal (d :: ds) /\ length ds = 12%nat /\ is_decimal xs /\ (2 <= length xs)%nat /\
    (sg = "+"%char \/ sg = "-"%char) /\
    let q := number (d :: ds) in
    let k := (if Ascii.eqb sg "-" then - number xs else number xs)%Z in
    (x = 0 /\ q = 0%Z /\ k = 0%Z) \/ (x <> 0 /\ nearest13 (Rabs x) q k).

(** ** The width of a number

    Twenty characters take a sign, thirteen digits, the point, E, and a signed exponent of two
    digits with a blank left over.  The exponent has two digits between these bounds, the
    numbers that are rounded to 10^-99 and to 10^100.  (No binary64 lies on the bounds; they
    are left out.) *)
Definition least_usual : R := (IZR (10 ^ 13) - / 2) * bpow radix10 (-112).
Definition most_usual : R := (IZR (10 ^ 13) - / 2) * bpow radix10 87.
Definition usual (x : R) : Prop := x = 0 \/ least_usual < Rabs x < most_usual.
Definition unusual (x : R) : Prop := x <> 0 /\ (Rabs x < least_usual \/ most_usual < Rabs x).
