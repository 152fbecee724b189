(** IEEE-754 binary64: the concrete numbers of the code.  Arithmetic is Flocq's
    correctly rounded (round-half-even) arithmetic on all 2^64 bit patterns.
    [libm] collects what the C library / numpy compute in an unspecified way. *)
From Coq Require Import ZArith NArith Strings.Byte List Reals Lia Bool.
From Flocq Require Import IEEE754.BinarySingleNaN IEEE754.Binary IEEE754.Bits Core.
Import ListNotations.
From Verif Require Import Num.
Local Open Scope Z_scope.

Record libm : Type := {
  lm_sin : binary64 -> binary64;
  lm_cos : binary64 -> binary64;
  lm_acos : binary64 -> binary64;
  lm_mean : list binary64 -> binary64
}.

Definition b64_ltb (x y : binary64) : bool :=
  match b64_compare x y with Some Lt => true | _ => false end.
Definition b64_leb (x y : binary64) : bool :=
  match b64_compare x y with Some Lt | Some Eq => true | _ => false end.
Definition b64_eqb (x y : binary64) : bool :=
  match b64_compare x y with Some Eq => true | _ => false end.

(** the literals of the code, by bit pattern *)
Definition b64_zero : binary64 := b64_of_bits 0x0000000000000000.
Definition b64_one : binary64 := b64_of_bits 0x3FF0000000000000.
Definition b64_360 : binary64 := b64_of_bits 0x4076800000000000.
Definition b64_1e10 : binary64 := b64_of_bits 0x4202A05F20000000.
Definition b64_inf : binary64 := b64_of_bits 0x7FF0000000000000.
Definition b64_1em6 : binary64 := b64_of_bits 0x3EB0C6F7A0B5ED8D.
Definition b64_10e3 : binary64 := b64_of_bits 0x40C3880000000000.
Definition b64_4 : binary64 := b64_of_bits 0x4010000000000000.
Definition b64_half : binary64 := b64_of_bits 0x3FE0000000000000.
Definition b64_2 : binary64 := b64_of_bits 0x4000000000000000.
Definition b64_pi : binary64 := b64_of_bits 0x400921FB54442D18.
Definition b64_d2r : binary64 := b64_of_bits 0x3F91DF46A2529D39.
Definition b64_nan : binary64 := b64_of_bits 0x7FF8000000000000.

(** A float and an int compare by value, without rounding. *)
Definition b64_eqz (x : binary64) (z : Z) : bool :=
  match x with
  | B754_zero _ _ _ => (z =? 0)%Z
  | B754_finite _ _ s m e _ =>
      let n := if s then Z.neg m else Z.pos m in
      if (0 <=? e)%Z then (n * 2 ^ e =? z)%Z else (n =? z * 2 ^ (- e))%Z
  | _ => false
  end.

Definition b64ops (L : libm) : numops binary64 := {|
  nzero := b64_zero;
  nadd := b64_plus mode_NE;
  nsub := b64_minus mode_NE;
  nmul := b64_mult mode_NE;
  ndiv := b64_div mode_NE;
  nltb := b64_ltb;
  nleb := b64_leb;
  neqb := b64_eqb;
  neqz := b64_eqz;
  nsqrt := b64_sqrt mode_NE;
  nsin := lm_sin L;
  ncos := lm_cos L;
  nacos := lm_acos L;
  nmean := lm_mean L;
  n360 := b64_360;
  n1e10 := b64_1e10;
  ninf := b64_inf;
  n1em6 := b64_1em6;
  n10e3 := b64_10e3;
  n4 := b64_4;
  nhalf := b64_half;
  n2 := b64_2;
  npi := b64_pi;
  nd2r := b64_d2r;
  nnan := b64_nan
|}.

(** '>f8': eight bytes, most significant first. *)
Definition byte_of_Z (z : Z) : byte :=
  match Byte.of_N (Z.to_N z) with Some b => b | None => x00 end.
Definition Z_of_byte (b : byte) : Z := Z.of_N (Byte.to_N b).

Fixpoint be_bytes (n : nat) (z : Z) : list byte :=
  match n with
  | O => []
  | S n' => be_bytes n' (z / 256) ++ [byte_of_Z (z mod 256)]
  end.
Definition be_Z (l : list byte) : Z := fold_left (fun acc b => acc * 256 + Z_of_byte b) l 0.

Definition b64codec : codec binary64 := {|
  enc := fun x => be_bytes 8 (bits_of_b64 x);
  dec := fun l => b64_of_bits (be_Z l)
|}.
