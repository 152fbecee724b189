(** Specifications for the getobcs.py properties, independent of the code's helpers. *)
From Coq Require Import Ascii String List Bool PeanoNat ZArith Init.Byte.
Import ListNotations.
From Verif Require Import Prelude Mat MdsMeta SpecMds SpecGlob GetObcs.
Set Implicit Arguments.
Local Open Scope nat_scope.
Local Open Scope list_scope.

(** Cell x of the outermost row of tracer cells on a side (i to the east, j to the north). *)
Definition edge_cell (ni nj : nat) (s : side) (x : nat) : nat * nat :=
  match s with
  | North => (x, nj - 1)
  | South => (x, 0)
  | East => (ni - 1, x)
  | West => (0, x)
  end.

(** U points lie on west faces (index i is the west face of cell i), V points on south
    faces.  The face through which the edge cell touches the interior. *)
Definition inner_face (ni nj : nat) (s : side) (x : nat) : nat * nat :=
  match s with
  | North => (x, nj - 1)   (* south face of cell (x,nj-1) *)
  | South => (x, 1)        (* north face of cell (x,0) *)
  | East => (ni - 1, x)    (* west face of cell (ni-1,x) *)
  | West => (1, x)         (* east face of cell (0,x) *)
  end.

(** Velocity normal to the side *)
Definition is_normal (s : side) (k : kind) : bool :=
  match s, k with
  | North, Vpoint | South, Vpoint | East, Upoint | West, Upoint => true
  | _, _ => false
  end.

Definition sample_point (ni nj : nat) (s : side) (k : kind) (x : nat) : nat * nat :=
  if is_normal s k then inner_face ni nj s x else edge_cell ni nj s x.

(** The points of a kind on an ni x nj grid *)
Definition points (ni nj : nat) (k : kind) : nat * nat :=
  match k with
  | Tracer => (ni, nj)
  | Upoint => (ni + 1, nj)
  | Vpoint => (ni, nj + 1)
  end.

Definition cells_along (ni nj : nat) (s : side) : nat :=
  match s with North | South => ni | East | West => nj end.

(** None, 0, an empty vector, or a vector holding one 0 *)
Definition void_arg (a : obarg) : Prop :=
  a = ONone \/ a = OScalar 0 \/ a = OVector [] \/ a = OVector [0%Z].

(** Number k (of w bytes each) of a file *)
Definition item (w : nat) (bs : list byte) (k : nat) : list byte := firstn w (skipn (k * w) bs).

(** An array of the given extents in column-major order: first index fastest *)
Definition fortran_bytes {F} (enc1 : F -> list byte) (n nd nt : nat) (a : nat -> nat -> nat -> F) : list byte :=
  flat_map (fun t => flat_map (fun d => flat_map (fun x => enc1 (a x d t)) (seq 0 n)) (seq 0 nd)) (seq 0 nt).

(** At most one of three extents exceeds 1 *)
Definition at_most_one_long (n nd nt : nat) : Prop :=
  (n <= 1 /\ nd <= 1) \/ (n <= 1 /\ nt <= 1) \/ (nd <= 1 /\ nt <= 1).

(** A result file: one that the shell would list for stem.*.data *)
Definition result_file (l : list text) (stem : text) : Prop :=
  exists s, In s l /\ file_match (stem ++ lit ".*.data") s.

(** The number a file name stands for: the first run of digits of its last component. *)
Definition has_number (s : text) (z : Z) : Prop :=
  exists b, ~ In "/"%char b /\ (s = b \/ exists d, s = d ++ ["/"%char] ++ b) /\
  exists pre ds post, b = pre ++ ds ++ post /\ Forall (fun c => is_digit c = false) pre /\
    is_decimal ds /\ ds <> [] /\ (post = [] \/ exists c r, post = c :: r /\ is_digit c = false) /\ decimal_value ds = z.
