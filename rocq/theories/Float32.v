(** IEEE-754 binary32, as a storage format: astype('>f4') rounds to nearest even, and a
    single is read as the double of the same value.  NaN payloads are not kept. *)
From Coq Require Import ZArith NArith Strings.Byte List Reals Lia Bool.
From Flocq Require Import IEEE754.BinarySingleNaN IEEE754.Binary IEEE754.Bits Core.
Import ListNotations.
From Verif Require Import Num Float64.
Local Open Scope Z_scope.

Definition narrow (x : binary64) : binary32 :=
  match x with
  | Binary.B754_zero _ _ s => Binary.B754_zero 24 128 s
  | Binary.B754_infinity _ _ s => Binary.B754_infinity 24 128 s
  | Binary.B754_nan _ _ _ _ _ => proj1_sig default_nan_pl32
  | Binary.B754_finite _ _ s m e _ =>
      Binary.binary_normalize 24 128 eq_refl eq_refl mode_NE (cond_Zopp s (Zpos m)) e s
  end.

Definition widen (x : binary32) : binary64 :=
  match x with
  | Binary.B754_zero _ _ s => Binary.B754_zero 53 1024 s
  | Binary.B754_infinity _ _ s => Binary.B754_infinity 53 1024 s
  | Binary.B754_nan _ _ _ _ _ => b64_nan
  | Binary.B754_finite _ _ s m e _ =>
      Binary.binary_normalize 53 1024 eq_refl eq_refl mode_NE (cond_Zopp s (Zpos m)) e s
  end.

(** '>f4': four bytes, most significant first. *)
Definition b32codec : codec binary64 := {|
  enc := fun x => be_bytes 4 (bits_of_b32 (narrow x));
  dec := fun l => widen (b32_of_bits (be_Z l))
|}.
