(** Specification of a generated grid in terms of its half-cell points.
    A grid of [p] x [q] cells is described by the points [H u v], u <= 2p, v <= 2q: cell
    corners at even positions, cell centres at odd ones, edge midpoints at mixed ones. *)
From Coq Require Import List Bool PeanoNat.
Import ListNotations.
From Verif Require Import Num Mat Fields Util SpecGrid.
Set Implicit Arguments.
Local Open Scope nat_scope.

Section Spec.
Context {F : Type} (N : numops F) (G : geod F).
Variables (H : nat -> nat -> F * F) (p q : nat) (planar : bool).

(** lengths of the half-cell edges starting at (u,v) in the two directions *)
Definition half_x (u v : nat) : F := g_inv G (H u v) (H (u + 1) v).
Definition half_y (u v : nat) : F := g_inv G (H u v) (H u (v + 1)).

(** area of the quarter cell with corners (u,v), (u+1,v), (u+1,v+1), (u,v+1) *)
Definition quarter (u v : nat) : F :=
  let c u v := cart1 N (fst (H u v)) (snd (H u v)) in
  let a := (if planar then pquad1 N else squad1 N) in
  nmul N (a (c u v) (c (u + 1) v) (c (u + 1) (v + 1)) (c u (v + 1)))
         (nmul N (g_a G) (g_a G)).

(** a sum is suppressed if one of its terms is zero *)
Definition is0 (x : F) : bool := neqb N (nzero N) x.
Definition sum2 (x y : F) : F := if is0 x || is0 y then nzero N else nadd N x y.
Definition sum4 (x y z t : F) : F :=
  if is0 x || is0 y || is0 z || is0 t then nzero N
  else nadd N (nadd N (nadd N x y) z) t.

(** strictly inside: not on the boundary of 0..n *)
Definition inner (i n : nat) : bool := (0 <? i) && (i <? n).

(** The sixteen fields.  Lengths along i at cell faces (DXG), centres (DXF), and between
    centres (DXC) or v-points (DXV), which straddle face i and exist for inner i only;
    likewise in j; areas of tracer (RAC), vorticity (RAZ), u (RAW) and v (RAS) cells. *)
Definition spec_field (f : field) (i j : nat) : F :=
  match f with
  | XG => fst (H (2 * i) (2 * j))
  | YG => snd (H (2 * i) (2 * j))
  | XC => fst (H (2 * i + 1) (2 * j + 1))
  | YC => snd (H (2 * i + 1) (2 * j + 1))
  | DXG => sum2 (half_x (2 * i) (2 * j)) (half_x (2 * i + 1) (2 * j))
  | DXF => sum2 (half_x (2 * i) (2 * j + 1)) (half_x (2 * i + 1) (2 * j + 1))
  | DXC => if inner i p
           then sum2 (half_x (2 * i - 1) (2 * j + 1)) (half_x (2 * i) (2 * j + 1)) else nzero N
  | DXV => if inner i p
           then sum2 (half_x (2 * i - 1) (2 * j)) (half_x (2 * i) (2 * j)) else nzero N
  | DYG => sum2 (half_y (2 * i) (2 * j)) (half_y (2 * i) (2 * j + 1))
  | DYF => sum2 (half_y (2 * i + 1) (2 * j)) (half_y (2 * i + 1) (2 * j + 1))
  | DYC => if inner j q
           then sum2 (half_y (2 * i + 1) (2 * j - 1)) (half_y (2 * i + 1) (2 * j)) else nzero N
  | DYU => if inner j q
           then sum2 (half_y (2 * i) (2 * j - 1)) (half_y (2 * i) (2 * j)) else nzero N
  | RAC => sum4 (quarter (2 * i) (2 * j)) (quarter (2 * i + 1) (2 * j))
                (quarter (2 * i + 1) (2 * j + 1)) (quarter (2 * i) (2 * j + 1))
  | RAZ => if inner i p && inner j q
           then sum4 (quarter (2 * i - 1) (2 * j - 1)) (quarter (2 * i) (2 * j - 1))
                     (quarter (2 * i) (2 * j)) (quarter (2 * i - 1) (2 * j)) else nzero N
  | RAW => if inner i p
           then sum4 (quarter (2 * i - 1) (2 * j)) (quarter (2 * i) (2 * j))
                     (quarter (2 * i) (2 * j + 1)) (quarter (2 * i - 1) (2 * j + 1)) else nzero N
  | RAS => if inner j q
           then sum4 (quarter (2 * i) (2 * j - 1)) (quarter (2 * i + 1) (2 * j - 1))
                     (quarter (2 * i + 1) (2 * j)) (quarter (2 * i) (2 * j)) else nzero N
  end.

(** The nonzero half-cell edge lengths of the whole grid, by direction. *)
Definition nonzero_x : list F :=
  filter (fun x => negb (neqb N x (nzero N)))
    (map (fun uv => half_x (fst uv) (snd uv)) (list_prod (seq 0 (2 * p)) (seq 0 (2 * q + 1)))).
Definition nonzero_y : list F :=
  filter (fun x => negb (neqb N x (nzero N)))
    (map (fun uv => half_y (fst uv) (snd uv)) (list_prod (seq 0 (2 * p + 1)) (seq 0 (2 * q)))).
Definition mean_of (l : list F) : F := match l with [] => nnan N | _ => nmean N l end.
Definition flat_enough : bool :=
  nltb N (mean_of nonzero_x) (n10e3 N) && nltb N (mean_of nonzero_y) (n10e3 N).

End Spec.

(** [g] is the grid of [p] x [q] cells with half-cell points [H]. *)
Definition grid_of {F} (N : numops F) (G : geod F) (H : nat -> nat -> F * F) (p q : nat)
    (g : grid F) : Prop :=
  forall f, mat_is (g f) (rows_of f p) (cols_of f q)
              (spec_field N G H p q (flat_enough N G H p q) f).

Section Subdiv.
Context {F : Type} (N : numops F) (G : geod F).

(** the longitude convention of interpolated points *)
Definition wrap (pos : bool) (x : F * F) : F * F :=
  if pos && nltb N (fst x) (nzero N) then (nadd N (fst x) (n360 N), snd x) else x.

(** [H] subdivides the [m] x [n] cells with corners [C]: each cell side along i is cut into
    [2*ls] pieces between the given corners, then each line along j into [2*lt] pieces. *)
Definition subdivides (pos : bool) (C : nat -> nat -> F * F) (ls lt m n : nat)
    (H : nat -> nat -> F * F) : Prop :=
  (forall a b, a <= m -> b <= n -> H (2 * ls * a) (2 * lt * b) = C a b) /\
  (forall a b k, a < m -> b <= n -> 0 < k < 2 * ls ->
     H (2 * ls * a + k) (2 * lt * b) =
     wrap pos (g_npt G (C a b) (C (a + 1) b) (2 * ls - 1) (k - 1))) /\
  (forall u b l, u <= 2 * ls * m -> b < n -> 0 < l < 2 * lt ->
     H u (2 * lt * b + l) =
     wrap pos (g_npt G (H u (2 * lt * b)) (H u (2 * lt * (b + 1))) (2 * lt - 1) (l - 1))).

(** no given corner has a negative longitude *)
Definition corners_pos (C : nat -> nat -> F * F) (m n : nat) : bool :=
  forallb (fun ab => negb (nltb N (fst (C (fst ab) (snd ab))) (nzero N)))
    (list_prod (seq 0 (m + 1)) (seq 0 (n + 1))).
End Subdiv.

Section Documented.
Context {F : Type} (N : numops F) (G : geod F).
Variables (H : nat -> nat -> F * F) (p q : nat) (g : grid F).
Let hx := half_x G H.
Let hy := half_y G H.
Notation at_ f i j := (mat_at (g f) i j).

(** positions of corners and centres *)
Definition positions_documented : Prop :=
  (forall i j, i <= p -> j <= q -> (at_ XG i j, at_ YG i j) = H (2 * i) (2 * j)) /\
  (forall i j, i < p -> j < q -> (at_ XC i j, at_ YC i j) = H (2 * i + 1) (2 * j + 1)).

(** the eight edge-length fields: where they span two half cells inside the grid *)
Definition edges_documented : Prop :=
  (forall i j, i < p -> j <= q -> at_ DXG i j = sum2 N (hx (2*i) (2*j)) (hx (2*i+1) (2*j))) /\
  (forall i j, i <= p -> j < q -> at_ DYG i j = sum2 N (hy (2*i) (2*j)) (hy (2*i) (2*j+1))) /\
  (forall i j, i < p -> j < q -> at_ DXF i j = sum2 N (hx (2*i) (2*j+1)) (hx (2*i+1) (2*j+1))) /\
  (forall i j, i < p -> j < q -> at_ DYF i j = sum2 N (hy (2*i+1) (2*j)) (hy (2*i+1) (2*j+1))) /\
  (forall i j, 0 < i < p -> j < q -> at_ DXC i j = sum2 N (hx (2*i-1) (2*j+1)) (hx (2*i) (2*j+1))) /\
  (forall i j, i < p -> 0 < j < q -> at_ DYC i j = sum2 N (hy (2*i+1) (2*j-1)) (hy (2*i+1) (2*j))) /\
  (forall i j, 0 < i < p -> j <= q -> at_ DXV i j = sum2 N (hx (2*i-1) (2*j)) (hx (2*i) (2*j))) /\
  (forall i j, i <= p -> 0 < j < q -> at_ DYU i j = sum2 N (hy (2*i) (2*j-1)) (hy (2*i) (2*j))).

(** the four area fields: where they cover four quarter cells inside the grid *)
Definition areas_documented (planar : bool) : Prop :=
  let a := quarter N G H planar in
  (forall i j, i < p -> j < q ->
     at_ RAC i j = sum4 N (a (2*i) (2*j)) (a (2*i+1) (2*j)) (a (2*i+1) (2*j+1)) (a (2*i) (2*j+1))) /\
  (forall i j, 0 < i < p -> 0 < j < q ->
     at_ RAZ i j = sum4 N (a (2*i-1) (2*j-1)) (a (2*i) (2*j-1)) (a (2*i) (2*j)) (a (2*i-1) (2*j))) /\
  (forall i j, 0 < i < p -> j < q ->
     at_ RAW i j = sum4 N (a (2*i-1) (2*j)) (a (2*i) (2*j)) (a (2*i) (2*j+1)) (a (2*i-1) (2*j+1))) /\
  (forall i j, i < p -> 0 < j < q ->
     at_ RAS i j = sum4 N (a (2*i) (2*j-1)) (a (2*i+1) (2*j-1)) (a (2*i+1) (2*j)) (a (2*i) (2*j))).

(** the entries that straddle the boundary *)
Definition straddles (f : field) (i j : nat) : Prop :=
  match f with
  | DXC | DXV | RAW => i = 0 \/ i = p
  | DYC | DYU | RAS => j = 0 \/ j = q
  | RAZ => i = 0 \/ i = p \/ j = 0 \/ j = q
  | _ => False
  end.
Definition boundary_zero : Prop :=
  forall f i j, i < rows_of f p -> j < cols_of f q -> straddles f i j -> at_ f i j = nzero N.
End Documented.

(** the corners of a box given by its north-west and south-east points *)
Definition box_corner {F} (lon1 lat1 lon2 lat2 : F) (a b : nat) : F * F :=
  (if a =? 0 then lon1 else lon2, if b =? 0 then lat2 else lat1).
