(** The format '{:9.4f}' of a float, in which coordinates are printed (mkgrid.py:91-92,
    regrid.py:198-199). *)
From Coq Require Import Ascii String List Bool PeanoNat ZArith.
Import ListNotations.
From Flocq Require Import IEEE754.Binary IEEE754.Bits.
From Verif Require Import MdsMeta FmtE.
Local Open Scope Z_scope.
Local Open Scope list_scope.

(** q ten thousandths *)
Definition f4_digits (q : Z) : text :=
  int_text (q / 10 ^ 4) ++ ["."%char] ++ padl "0" 4 (int_text (q mod 10 ^ 4)).

Definition f4_text (x : binary64) : text :=
  match x with
  | B754_zero _ _ s => (if s then ["-"%char] else []) ++ f4_digits 0
  | B754_infinity _ _ s => (if s then ["-"%char] else []) ++ lit "inf"
  | B754_nan _ _ _ _ _ => lit "nan"
  | B754_finite _ _ s m e _ =>
      let '(a, b) := fraction (Zpos m) e in
      (if s then ["-"%char] else []) ++ f4_digits (half_even (a * 10 ^ 4) b)
  end.

Definition fmt_9_4f (x : binary64) : text := padl " " 9 (f4_text x).
