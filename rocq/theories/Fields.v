(** mitgridfilefields.py *)
From Coq Require Import List String Bool.
Import ListNotations.
From Verif Require Import Prelude Mat.

Inductive field : Set :=
| XC | YC | DXF | DYF | RAC | XG | YG | DXV | DYU | RAZ | DXC | DYC | RAW | RAS | DXG | DYG.

(** mitgridfilefields.py:27-28, the order of the segments in a file. *)
Definition fields : list field :=
  [XC; YC; DXF; DYF; RAC; XG; YG; DXV; DYU; RAZ; DXC; DYC; RAW; RAS; DXG; DYG].

(** mitgridfilefields.py:30-31 *)
Definition ni_delta (f : field) : nat :=
  match f with
  | XC | YC | DXF | DYF | RAC => 0
  | XG | YG | DXV | DYU | RAZ => 1
  | DXC => 1 | DYC => 0 | RAW => 1 | RAS => 0 | DXG => 0 | DYG => 1
  end.

(** mitgridfilefields.py:33-34 *)
Definition nj_delta (f : field) : nat :=
  match f with
  | XC | YC | DXF | DYF | RAC => 0
  | XG | YG | DXV | DYU | RAZ => 1
  | DXC => 0 | DYC => 1 | RAW => 0 | RAS => 1 | DXG => 1 | DYG => 0
  end.

Scheme Equality for field.

(** A complete grid: the 16 matrices by name. *)
Definition grid (F : Type) := field -> mat F.

(** A user-supplied dictionary: a name may be missing, bound to None, or to an array. *)
Inductive entry (F : Type) : Type :=
| Missing
| NoneVal
| Arr (m : mat F).
Arguments Missing {F}. Arguments NoneVal {F}. Arguments Arr {F} m.
Definition griddict (F : Type) := field -> entry F.
Definition dict_of_grid {F} (g : grid F) : griddict F := fun f => Arr (g f).

(** Specification: all sixteen matrices have their nominal shapes. *)
Definition nominal {F} (g : grid F) (ni nj : nat) : Prop :=
  forall f, mrows (g f) = ni + ni_delta f /\ mcols (g f) = nj + nj_delta f.

(** Specification: equality of grids as users see it. *)
Definition geq {F} (g g' : grid F) : Prop := forall f, meq (g f) (g' f).
