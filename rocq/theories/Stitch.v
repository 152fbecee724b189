(** simplegrid/stitch.py *)
From Coq Require Import String List ZArith Bool PeanoNat Init.Byte.
Import ListNotations.
From Verif Require Import Prelude Num Mat Fields GridIO MatchEdges AddFringe.
Set Implicit Arguments.
Local Open Scope nat_scope.

(** [m[1:,:]], [m[:-1,:]], [m[:,1:]], [m[:,:-1]] *)
Definition but_first_row {A} (m : mat A) : mat A := mslice 1 (mrows m) 1 0 (mcols m) 1 m.
Definition but_last_row {A} (m : mat A) : mat A := mslice 0 (mrows m - 1) 1 0 (mcols m) 1 m.
Definition but_first_col {A} (m : mat A) : mat A := mslice 0 (mrows m) 1 1 (mcols m) 1 m.
Definition but_last_col {A} (m : mat A) : mat A := mslice 0 (mrows m) 1 0 (mcols m - 1) 1 m.

(** The fields of tile B from which a row is dropped (stitch.py:99-122 and 149-172; the
    two branches name the same fields), and a column (stitch.py:124-147 and 174-197). *)
Definition drops_row (f : field) : bool :=
  match f with
  | XG | YG | DYG | RAZ | DXC | RAW | DXV | DYU => true
  | XC | YC | RAC | DXG | DYC | DYF | RAS | DXF => false
  end.
Definition drops_col (f : field) : bool :=
  match f with
  | XG | YG | DXG | RAZ | DYC | DXV | RAS | DYU => true
  | XC | YC | RAC | DYG | DXC | RAW | DYF | DXF => false
  end.

(** the order in which the fields are set *)
Definition stitch_order : list field :=
  [XG; YG; XC; YC; RAC; DXG; DYG; RAZ; DXC; DYC; RAW; DXV; DYF; RAS; DXF; DYU].

Section Stitch.
Context {F : Type} (N : numops F) (C : codec F) (G : geod F).

(** One field of the combined tile (stitch.py:94-197).  Other edge pairs leave the
    fields None, and taking the shape of None raises AttributeError. *)
Definition join_field (edges : nat * nat) (f : field) (a b : mat F) : res (mat F) :=
  let is e := ((fst edges =? fst e) && (snd edges =? snd e))%bool in
  if is (eE, eW) then vcat a (if drops_row f then but_first_row b else b)
  else if is (eN, eS) then hcat a (if drops_col f then but_first_col b else b)
  else if is (eW, eE) then vcat (if drops_row f then but_last_row b else b) a
  else if is (eS, eN) then hcat (if drops_col f then but_last_col b else b) a
  else Err AttributeError.

(** stitch.py:94-199 on tiles already read *)
Definition join (edges : nat * nat) (a b : grid F) : res (grid F * nat * nat) :=
  c <- foldM (fun c f => x <- join_field edges f (a f) (b f) ;; Ok (gset c f x))
         stitch_order a ;;
  Ok (c, mrows (c XC), mcols (c XC)).

Variable fs : string -> option (list byte).

(** stitch.py:45-199; nothing writes to the file system between the two reads of tile B *)
Definition stitch (t : two_tiles) : res (grid F * nat * nat) :=
  ' (ea, eb, a) <- addfringe N C G fs t ;;
  b <- read_tile N C fs (tt_b t) (tt_nib t) (tt_njb t) (tt_strict t) ;;
  join (ea, eb) a b.
End Stitch.
