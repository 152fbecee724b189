(** Concrete inputs used by the examples beside the theorems. *)
From Coq Require Import ZArith List Bool PeanoNat Strings.Byte.
From Flocq Require Import IEEE754.BinarySingleNaN IEEE754.Binary IEEE754.Bits Core.
Import ListNotations.
From Verif Require Import Prelude Mat Num Fields Float64 SpecGrid.

(** A stand-in mathematical library (the theorems hold for every one). *)
Definition ex_libm : libm :=
  {| lm_sin := fun x => x; lm_cos := fun x => x; lm_acos := fun x => x;
     lm_mean := fun l => nth 0 l b64_zero |}.

(** The double with bit pattern 0x3FF0000000000000 + k: 1.0 and its successors. *)
Definition ex_dbl (k : nat) : binary64 := b64_of_bits (4607182418800017408 + Z.of_nat k).

(** A grid of 2 x 1 cells in which every entry of every field is a different number. *)
Definition ex_grid : grid binary64 :=
  fun f => mkmat (rows_of f 2) (cols_of f 1) (fun i j => ex_dbl (file_pos f * 100 + i * 10 + j)).

(** Whole numbers as doubles. *)
Definition ex_int (z : Z) : binary64 :=
  binary_normalize 53 1024 eq_refl eq_refl mode_NE z 0 false.

(** A stand-in geodesic on the plane: squared distance, linear interpolation. *)
Definition ex_lerp (n k : nat) (x y : binary64) : binary64 :=
  b64_plus mode_NE x (b64_div mode_NE
    (b64_mult mode_NE (b64_minus mode_NE y x) (ex_int (Z.of_nat k + 1))) (ex_int (Z.of_nat n + 1))).
Definition ex_geod : geod binary64 :=
  {| g_inv := fun p q =>
       let dx := b64_minus mode_NE (fst p) (fst q) in
       let dy := b64_minus mode_NE (snd p) (snd q) in
       b64_plus mode_NE (b64_mult mode_NE dx dx) (b64_mult mode_NE dy dy);
     g_npt := fun p q n k => (ex_lerp n k (fst p) (fst q), ex_lerp n k (snd p) (snd q));
     g_a := ex_int 1 |}.

(** A matrix from a list of rows. *)
Definition ex_mat (rows : list (list Z)) : mat binary64 :=
  mkmat (length rows) (length (nth 0 rows [])) (fun i j => ex_int (nth j (nth i rows []) 0%Z)).
