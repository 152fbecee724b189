(** Specification vocabulary for stitched tiles: where the two tiles lie in the combined
    one, independent of concatenations. *)
From Coq Require Import List Bool PeanoNat.
From Verif Require Import Mat Fields SpecGrid SpecTiles.
Local Open Scope nat_scope.

Section Place.
(** A has p x q cells, B p' x q', and B lies on side [s] of A *)
Variables (s : side) (p q p' q' : nat).

(** counts along the common edge *)
Definition along_a : nat := if zonal s then q else p.
Definition along_b : nat := if zonal s then q' else p'.
(** counts of the combined tile *)
Definition total_ni : nat := if zonal s then p + p' else p.
Definition total_nj : nat := if zonal s then q else q + q'.

(** the cell of the combined tile in which each tile starts *)
Definition origin_a : nat * nat :=
  match s with East | North => (0, 0) | West => (p', 0) | South => (0, q') end.
Definition origin_b : nat * nat :=
  match s with East => (p, 0) | North => (0, q) | West | South => (0, 0) end.

(** position [ij] of the combined tile is position [kl] of the tile starting at [o] *)
Definition located (o kl ij : nat * nat) : Prop :=
  fst ij = fst o + fst kl /\ snd ij = snd o + snd kl.
Definition in_a (f : field) (i j : nat) : Prop :=
  exists k l, inside f p q k l /\ located origin_a (k, l) (i, j).
Definition in_b (f : field) (i j : nat) : Prop :=
  exists k l, inside f p' q' k l /\ located origin_b (k, l) (i, j).
(** the common line, present in both tiles *)
Definition on_seam (f : field) (i j : nat) : Prop := in_a f i j /\ in_b f i j.

(** fields whose entries on the common line belong to cells of both tiles *)
Definition straddles_seam (f : field) : bool :=
  if zonal s then match f with DXC | DXV | RAW | RAZ => true | _ => false end
  else match f with DYC | DYU | RAS | RAZ => true | _ => false end.
(** the common line, in the combined tile *)
Definition seam_line : nat :=
  match s with East => p | West => p' | North => q | South => q' end.
Definition on_seam_line (i j : nat) : Prop := if zonal s then i = seam_line else j = seam_line.

(** [c] holds tile [a], and outside it tile [b] *)
Definition combines {F} (a b c : grid F) : Prop :=
  (forall f k l i j, inside f p q k l -> located origin_a (k, l) (i, j) ->
     mat_at (c f) i j = mat_at (a f) k l) /\
  (forall f k l i j, inside f p' q' k l -> located origin_b (k, l) (i, j) -> ~ in_a f i j ->
     mat_at (c f) i j = mat_at (b f) k l) /\
  (forall f i j, inside f total_ni total_nj i j -> in_a f i j \/ in_b f i j).
End Place.
