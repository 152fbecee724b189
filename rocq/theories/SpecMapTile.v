(** Specification of tiles with a map2glob entry: where their elements lie in the array. *)
From Coq Require Import Ascii String List Bool PeanoNat ZArith Init.Byte.
Import ListNotations.
From Verif Require Import Num MdsMeta Mds SpecMds RdMds SpecRdMds.
Set Implicit Arguments.
Local Open Scope nat_scope.
Local Open Scope list_scope.

(** Some tiles have an entry map2glob, of two integers: a step to the next row of the tile is
    a step of that many columns and that many rows in the array.  The rows of the array follow
    each other, so a step across the end of one leads into the next. *)
Definition tile_map := text * list nat -> option (Z * Z).

Definition row_step (td : tiled) (m : Z * Z) : Z := (snd m * Z.of_nat (td_nx td) + fst m)%Z.

(** The place of the first element of a tile, counted along the rows. *)
Definition first_place (td : tiled) (lo : list nat) : nat :=
  let k := length (td_lead td) in nth k lo 0 * td_nx td + nth (S k) lo 0.

(** The index in the array of the element of a tile with index [idx]. *)
Definition placed (td : tiled) (mp : tile_map) (t : text * list nat) (idx : list nat) : list nat :=
  match mp t with
  | None => add_idx (snd t) idx
  | Some m =>
      let k := length (td_lead td) in
      let f := first_place td (snd t) + nth k idx 0 * Z.to_nat (row_step td m) + nth (S k) idx 0 in
      add_idx (firstn k (snd t)) (firstn k idx) ++ [f / td_nx td; f mod td_nx td]
  end.

(** A tile without map2glob lies in the array.  With it, the rows do not overlap each other,
    the last element lies in the array, and so would all steps. *)
Definition tile_placed (td : tiled) (mp : tile_map) (t : text * list nat) : Prop :=
  match mp t with
  | None => tile_inside td (snd t)
  | Some m =>
      let k := length (td_lead td) in
      let rows := Z.of_nat (nth k (td_ext td) 0) in
      let cols := Z.of_nat (nth (S k) (td_ext td) 0) in
      let total := (Z.of_nat (td_ny td) * Z.of_nat (td_nx td))%Z in
      length (snd t) = k + 2 /\ length (td_ext td) = k + 2 /\
      Forall2 le (add_idx (firstn k (snd t)) (firstn k (td_ext td))) (td_lead td) /\
      (1 <= rows /\ cols <= row_step td m
       /\ Z.of_nat (first_place td (snd t)) + (rows - 1) * row_step td m + cols <= total
       /\ rows * row_step td m <= total)%Z
  end.

Definition placed_heading (td : tiled) (mp : tile_map) (step : option Z) (t : text * list nat) : tile_head :=
  mk_tile_head (rev (tile_bounds td (snd t))) (td_prec td) (td_nrec td) (mp t) step.

(** The records of a tile, one after the other. *)
Definition placed_content {F} (td : tiled) (mp : tile_map) (A : list nat -> F) (t : text * list nat) : list F :=
  flat_map (fun r => map (fun idx => A (r :: placed td mp t idx)) (all_idx (td_ext td))) (seq 0 (td_nrec td)).

(** The files of one iteration. *)
Definition placed_files {F} (C8 C4 : codec F) (fs : directory) (base : text) (od : order) (td : tiled)
    (mp : tile_map) (step : option Z) (A : list nat -> F) : Prop :=
  forall name lo, In (name, lo) (td_tiles td) ->
    dget fs (base ++ name ++ lit ".meta")
      = Some (text_bytes (tile_text (placed_heading td mp step (name, lo)))) /\
    dget fs (base ++ name ++ lit ".data")
      = Some (flat_map (enc_item C8 C4 (td_prec td) od) (placed_content td mp A (name, lo))).

(** The element with record and index [g]: that of the field if one of a tile's elements is
    placed there, else the fill value. *)
Definition has_place (td : tiled) (mp : tile_map) (idx : list nat) (t : text * list nat) : bool :=
  existsb (fun i => if list_eq_dec Nat.eq_dec idx (placed td mp t i) then true else false) (all_idx (td_ext td)).
Definition placed_element {F} (o : rdopts F) (td : tiled) (mp : tile_map) (A : list nat -> F) (g : list nat) : F :=
  match g with
  | r :: idx => if existsb (has_place td mp idx) (td_tiles td) then A g else o_fill o
  | [] => o_fill o
  end.
