(** Specification vocabulary for adjacent tiles: sides, corners and what "near" means,
    independent of index expressions and of the order of the comparisons. *)
From Coq Require Import List ZArith Bool PeanoNat.
Import ListNotations.
From Verif Require Import Num Mat Fields SpecHalf MatchEdges.
Set Implicit Arguments.
Local Open Scope nat_scope.

Inductive side : Set := North | South | East | West.
(** the documented edge indicators (matchedges.py docstring) *)
Definition side_code (s : side) : nat := match s with North => 0 | South => 1 | East => 2 | West => 3 end.
Definition opposite (s : side) : side :=
  match s with North => South | South => North | East => West | West => East end.
Definition zonal (s : side) : bool := match s with East | West => true | _ => false end.

(** points on a side of an r x c matrix, and the line next to it, as positions *)
Definition side_len (s : side) (r c : nat) : nat := if zonal s then c else r.
Definition side_pos (s : side) (r c k : nat) : nat * nat :=
  match s with North => (k, c - 1) | South => (k, 0) | East => (r - 1, k) | West => (0, k) end.
Definition beside_pos (s : side) (r c k : nat) : nat * nat :=
  match s with North => (k, c - 2) | South => (k, 1) | East => (r - 2, k) | West => (1, k) end.
Definition point {A} (m : mat A) (ij : nat * nat) : A := mat_at m (fst ij) (snd ij).

(** corners: [e] east, [n] north *)
Definition corner_of {A} (m : mat A) (e n : bool) : A :=
  mat_at m (if e then mrows m - 1 else 0) (if n then mcols m - 1 else 0).
Definition on_side (s : side) (e n : bool) : Prop :=
  match s with North => n = true | South => n = false | East => e = true | West => e = false end.

(** what an index expression selects from extent n, and an index pair from a matrix *)
Definition index_set (x : index) (n : nat) : list nat :=
  match x with
  | At k => [Z.to_nat (if (k <? 0)%Z then Z.of_nat n + k else k)]
  | All => seq 0 n
  | Inner => seq 1 (n - 2)
  end.
Definition selected (s : slice2) (r c : nat) : list (nat * nat) :=
  list_prod (index_set (fst s) r) (index_set (snd s) c).

Section Near.
Context {F : Type} (N : numops F) (G : geod F).
Notation pt := (F * F)%type.
Variables a b : mat pt.

(** a millionth of the mean length of the four diagonals *)
Definition diagonal (m : mat pt) (n : bool) : F := g_inv G (corner_of m false n) (corner_of m true (negb n)).
Definition diagonal' (m : mat pt) : F := g_inv G (corner_of m true false) (corner_of m false true).
Definition near_limit : F :=
  nmul N (ndiv N (nadd N (nadd N (nadd N (diagonal a false) (diagonal' a)) (diagonal b false)) (diagonal' b))
                 (n4 N)) (n1em6 N).
Definition near (p q : pt) : Prop := nleb N (g_inv G p q) near_limit = true.

(** corner (e,n) of A is near some corner of B, and vice versa *)
Definition a_meets (e n : bool) : Prop := exists e' n', near (corner_of a e n) (corner_of b e' n').
Definition b_meets (e n : bool) : Prop := exists e' n', near (corner_of a e' n') (corner_of b e n).

(** both corners of a side *)
Definition side_meets (meets : bool -> bool -> Prop) (s : side) : Prop :=
  forall e n, on_side s e n -> meets e n.
Definition nonempty : Prop := 1 <= mrows a /\ 1 <= mcols a /\ 1 <= mrows b /\ 1 <= mcols b.

(** B is wide enough: a second row or column behind the common edge, and a point for
    each of A's edge points; and the edge has at least one cell *)
Definition big_enough (s : side) : Prop :=
  if zonal s then 2 <= mcols a /\ mcols a <= mcols b /\ 2 <= mrows b
  else 2 <= mrows a /\ mrows a <= mrows b /\ 2 <= mcols b.

(** The strip of cells of B next to side [s] of A: line 0 is the western or southern one of
    A's edge and B's next line, point [k] counts along the edge. *)
Definition across (s : side) (u k : nat) : pt :=
  if Bool.eqb (u =? 0) (match s with East | North => true | _ => false end)
  then point a (side_pos s (mrows a) (mcols a) k)
  else point b (beside_pos (opposite s) (mrows b) (mcols b) k).
Definition strip_corner (s : side) (x y : nat) : pt := if zonal s then across s x y else across s y x.

(** the half-cell points of the strip's middle line, from one end of the edge to the other *)
Definition edge_midpoints (s : side) (l : list pt) : Prop :=
  let m := if zonal s then 1 else mrows a - 1 in
  let n := if zonal s then mcols a - 1 else 1 in
  exists H, subdivides N G (corners_pos N (strip_corner s) m n) (strip_corner s) 1 1 m n H /\
    l = map (fun k => if zonal s then H 1 k else H k 1)
          (seq 0 (2 * side_len s (mrows a) (mcols a) - 1)).
End Near.
