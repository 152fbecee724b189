(** Specification vocabulary for grid files and grids, written down from the
    documentation (mitgridfilefields.py docstring, MITgcm grid conventions), not from
    the code that reads and writes them. *)
From Coq Require Import ZArith List Bool PeanoNat Strings.Byte.
From Flocq Require Import IEEE754.Binary IEEE754.Bits.
Import ListNotations.
From Verif Require Import Mat Fields Float64.

(** Position of each field's segment in a file. *)
Definition file_pos (f : field) : nat :=
  match f with
  | XC => 0 | YC => 1 | DXF => 2 | DYF => 3 | RAC => 4 | XG => 5 | YG => 6 | DXV => 7
  | DYU => 8 | RAZ => 9 | DXC => 10 | DYC => 11 | RAW => 12 | RAS => 13 | DXG => 14 | DYG => 15
  end.

(** Where on the C-grid a field lives.  A field on the i-staggered positions has ni+1
    rows, one on the j-staggered positions nj+1 columns. *)
Inductive place := Centre | Corner | UFace | VFace.
Definition place_of (f : field) : place :=
  match f with
  | XC | YC | DXF | DYF | RAC => Centre
  | XG | YG | DXV | DYU | RAZ => Corner
  | DXC | RAW | DYG => UFace
  | DYC | RAS | DXG => VFace
  end.
Definition rows_of (f : field) (ni : nat) : nat :=
  match place_of f with Corner | UFace => ni + 1 | Centre | VFace => ni end.
Definition cols_of (f : field) (nj : nat) : nat :=
  match place_of f with Corner | VFace => nj + 1 | Centre | UFace => nj end.

(** All sixteen matrices have the shapes belonging to [ni] x [nj] cells. *)
Definition shaped {F} (g : grid F) (ni nj : nat) : Prop :=
  forall f, mrows (g f) = rows_of f ni /\ mcols (g f) = cols_of f nj.

(** [inside f ni nj i j]: (i,j) is an entry of field f (not padding). *)
Definition inside (f : field) (ni nj i j : nat) : Prop := i < rows_of f ni /\ j < cols_of f nj.

(** Number of doubles and bytes of a complete file. *)
Definition slot (ni nj : nat) : nat := (ni + 1) * (nj + 1).
Definition file_doubles (ni nj : nat) : nat := 16 * slot ni nj.
Definition file_bytes (ni nj : nat) : nat := 8 * file_doubles ni nj.

(** The double number [k] of a file: its eight bytes, and the 64-bit integer they
    spell most significant byte first. *)
Definition double_at (bs : list byte) (k : nat) : list byte := firstn 8 (skipn (8 * k) bs).
Definition word_at (bs : list byte) (k : nat) : Z := be_Z (double_at bs k).

(** Column-major position of entry (i,j) of field f. *)
Definition pos (f : field) (ni nj i j : nat) : nat :=
  file_pos f * slot ni nj + j * (ni + 1) + i.

(** Bit patterns of +0.0 and -0.0. *)
Definition zero_word (w : Z) : Prop := (w = 0 \/ w = 2 ^ 63)%Z.
