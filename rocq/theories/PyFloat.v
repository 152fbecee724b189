(** float(s) of a text, as parse1 calls it (mds.py:63-64). *)
From Coq Require Import Ascii String List Bool PeanoNat ZArith.
Import ListNotations.
From Flocq Require Import IEEE754.BinarySingleNaN IEEE754.Binary IEEE754.Bits.
From Verif Require Import MdsMeta Float64.
Local Open Scope Z_scope.
Local Open Scope list_scope.

(** The binary64 nearest to a/b (a tie to the even one; too large a number is infinite).  The
    quotient is taken to at least 64 bits; one more bit says whether a remainder was left. *)
Definition quotient_bits (a b e : Z) : Z :=
  let a' := if e <? 0 then a * 2 ^ (- e) else a in
  let b' := if e <? 0 then b else b * 2 ^ e in
  2 * (a' / b') + (if a' mod b' =? 0 then 0 else 1).
Definition b64_ratio (s : bool) (a b : Z) : binary64 :=
  let e := Z.log2 a - Z.log2 b - 64 in
  let m := quotient_bits a b e in
  Binary.binary_normalize 53 1024 eq_refl eq_refl mode_NE (if s then - m else m) (e - 1) s.

Fixpoint take_digits (acc : Z) (count : nat) (l : text) : Z * nat * text :=
  match l with
  | c :: r => if is_digit c then take_digits (10 * acc + Z.of_N (digit_val c)) (S count) r else (acc, count, l)
  | [] => (acc, count, [])
  end.

Definition take_sign (l : text) : bool * text :=
  match l with
  | c :: r => if Ascii.eqb c "-" then (true, r) else if Ascii.eqb c "+" then (false, r) else (false, l)
  | [] => (false, [])
  end.

(** The exponent part, if any. *)
Definition exponent (l : text) : option Z :=
  match l with
  | [] => Some 0
  | c :: r =>
      if Ascii.eqb c "e" || Ascii.eqb c "E"
      then let '(s, r1) := take_sign r in
           match take_digits 0 0 r1 with
           | (k, S _, []) => Some (if s then - k else k)
           | _ => None
           end
      else None
  end.

Definition lower_is (w : string) (l : text) : bool :=
  text_eqb (map (fun c => let n := nat_of_ascii c in
                          if (65 <=? n)%nat && (n <=? 90)%nat then ascii_of_nat (n + 32) else c) l) (lit w).

(** Underscores between digits, which float also accepts, are not modelled (None here). *)
Definition py_float (t : text) : option binary64 :=
  let '(s, l) := take_sign (strip is_space t) in
  if lower_is "inf" l || lower_is "infinity" l then Some (B754_infinity 53 1024 s)
  else if lower_is "nan" l then Some b64_nan
  else
    let '(n1, c1, r1) := take_digits 0 0 l in
    let '(n, c2, r2) := match r1 with
                        | c :: r => if Ascii.eqb c "." then take_digits n1 0 r else (n1, O, r1)
                        | [] => (n1, O, r1)
                        end in
    match (c1 + c2)%nat, exponent r2 with
    | S _, Some k =>
        let d := k - Z.of_nat c2 in
        Some (if n =? 0 then B754_zero 53 1024 s
              else if 0 <=? d then b64_ratio s (n * 10 ^ d) 1 else b64_ratio s n (10 ^ (- d)))
    | _, _ => None
    end.

(** ** int(x // y) (mds.py:555) *)

(** The number as m * 2^e with a sign; zero for what is not finite. *)
Definition parts (x : binary64) : Z * Z :=
  match x with
  | B754_finite _ _ s m e _ => (if s then Zneg m else Zpos m, e)
  | _ => (0, 0)
  end.

(** C's fmod of finite numbers, y not zero: the remainder has the sign of x and is exact. *)
Definition b64_fmod (x y : binary64) : binary64 :=
  let '(m, e) := parts x in
  let '(n, f) := parts y in
  let g := Z.min e f in
  Binary.binary_normalize 53 1024 eq_refl eq_refl mode_NE
    (Z.rem (m * 2 ^ (e - g)) (n * 2 ^ (f - g))) g (Bsign 53 1024 x).

(** The integer below, or above if that is nearer by more than half; the second is Python's
    guard against a quotient rounded down. *)
Definition floor_guarded (x : binary64) : Z :=
  let '(m, e) := parts x in
  if 0 <=? e then m * 2 ^ e
  else let q := m / 2 ^ (- e) in
       if 2 ^ (- e) <? 2 * (m mod 2 ^ (- e)) then q + 1 else q.

Inductive quotient := Whole_number (z : Z) | Not_finite | By_zero.

(** float.__floordiv__ (CPython) followed by int(). *)
Definition b64_floordiv (x y : binary64) : quotient :=
  match y with
  | B754_zero _ _ _ => By_zero
  | B754_nan _ _ _ _ _ => Not_finite
  | B754_infinity _ _ s =>
      match x with
      | B754_zero _ _ _ => Whole_number 0
      | B754_finite _ _ s' _ _ _ => Whole_number (if Bool.eqb s s' then 0 else -1)
      | _ => Not_finite
      end
  | B754_finite _ _ s _ _ _ =>
      match x with
      | B754_nan _ _ _ _ _ | B754_infinity _ _ _ => Not_finite
      | _ =>
          let r := b64_fmod x y in
          let d := b64_div mode_NE (b64_minus mode_NE x r) y in
          let d' := match r with
                    | B754_finite _ _ s' _ _ _ => if Bool.eqb s s' then d else b64_minus mode_NE d b64_one
                    | _ => d
                    end in
          if is_finite 53 1024 d' then Whole_number (floor_guarded d') else Not_finite
      end
  end.

(** The float of an integer (rounded if it has more than 53 bits). *)
Definition b64_of_Z (z : Z) : binary64 := Binary.binary_normalize 53 1024 eq_refl eq_refl mode_NE z 0 false.
