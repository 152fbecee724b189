(** What float() reads from a text. *)
From Coq Require Import Ascii String List Bool PeanoNat ZArith Reals.
Import ListNotations.
From Flocq Require Import Core IEEE754.Binary IEEE754.Bits.
From Verif Require Import MdsMeta SpecMds SpecMeta SpecTimes Float64.
Local Open Scope nat_scope.
Local Open Scope list_scope.

(** The double nearest to v (a tie goes to the even one), and v's sign; infinity if that is
    2^1024 or more. *)
Definition nearest_double (neg : bool) (v : R) (x : binary64) : Prop :=
  let r := round radix2 (FLT_exp (-1074) 53) ZnearestE v in
  ((r < bpow radix2 1024)%R -> is_finite 53 1024 x = true /\
     B2R 53 1024 x = (if neg then - r else r)%R /\ Bsign 53 1024 x = neg) /\
  ((bpow radix2 1024 <= r)%R -> x = B754_infinity 53 1024 neg).

(** Capital letters count as small ones. *)
Definition spells (w : string) (t : text) : Prop :=
  Forall2 (fun c d => d = c \/ (65 <= nat_of_ascii d <= 90 /\ nat_of_ascii c = nat_of_ascii d + 32)) (lit w) t.

Section Digits.
(** How the digits of a number may be spelled. *)
Variable run : text -> text -> Prop.

Definition maybe_run (t ds : text) : Prop := (t = [] /\ ds = []) \/ run t ds.

Definition exponent_text (t : text) (k : Z) : Prop :=
  (t = [] /\ k = 0%Z) \/
  exists c sg neg body ds, t = c :: sg ++ body /\ (c = "e"%char \/ c = "E"%char) /\ sign_text sg neg /\
    run body ds /\ k = (if neg then - decimal_value ds else decimal_value ds)%Z.

(** n * 10^k: digits with a point before, in or after them, and an exponent. *)
Definition number_text (t : text) (n k : Z) : Prop :=
  exists i is f fs e ek, t = i ++ f ++ e /\ maybe_run i is /\
    ((f = [] /\ fs = []) \/ exists g, f = "."%char :: g /\ maybe_run g fs) /\
    is ++ fs <> [] /\ exponent_text e ek /\
    n = decimal_value (is ++ fs) /\ k = (ek - Z.of_nat (length fs))%Z.

Definition float_text_by (t : text) (x : binary64) : Prop :=
  exists a sg neg body b, t = a ++ sg ++ body ++ b /\ white_text a /\ white_text b /\ sign_text sg neg /\
    (((spells "inf" body \/ spells "infinity" body) /\ x = B754_infinity 53 1024 neg) \/
     (spells "nan" body /\ x = b64_nan) \/
     exists n k, number_text body n k /\ nearest_double neg (IZR n * bpow radix10 k) x).
End Digits.

(** With single underscores between digits. *)
Definition float_text : text -> binary64 -> Prop := float_text_by spelled.
