(** simplegrid/addfringe.py *)
From Coq Require Import String List ZArith Bool PeanoNat Init.Byte.
Import ListNotations.
From Verif Require Import Prelude Num Mat Fields GridIO ComputeGrid Refine Regrid MatchEdges.
Set Implicit Arguments.
Local Open Scope nat_scope.

(** addfringe.py:136-137: [m[s] = v] for the join slices (k,1:-1) and (1:-1,k) *)
Definition sset {A} (m : mat A) (s : slice2) (v : list A) (z : A) : res (mat A) :=
  let mismatch := Err (ValueError "could not broadcast input array") in
  match s with
  | (At k, Inner) =>
      r <- norm_index (mrows m) k ;;
      if length v =? mcols m - 2
      then Ok (mkmat (mrows m) (mcols m) (fun i j =>
             if (i =? r) && (1 <=? j) && (j <? mcols m - 1) then nth (j - 1) v z else mat_at m i j))
      else mismatch
  | (Inner, At k) =>
      c <- norm_index (mcols m) k ;;
      if length v =? mrows m - 2
      then Ok (mkmat (mrows m) (mcols m) (fun i j =>
             if (j =? c) && (1 <=? i) && (i <? mrows m - 1) then nth (i - 1) v z else mat_at m i j))
      else mismatch
  | _ => Err IndexError  (* not used *)
  end.

(** The arguments, all required (addfringe.py:84-89). *)
Record two_tiles : Type := mk_two_tiles {
  tt_a : string; tt_nia : nat; tt_nja : nat;
  tt_b : string; tt_nib : nat; tt_njb : nat;
  tt_strict : bool
}.

Section AddFringe.
Context {F : Type} (N : numops F) (C : codec F) (G : geod F).
Notation pt := (F * F)%type.

(** addfringe.py:100-101: XG and YG of a tile as one matrix of points *)
Definition tile_points (g : grid F) : mat pt :=
  mkmat (mrows (g XG)) (mcols (g XG)) (fun i j => (mat_at (g XG) i j, mat_at (g YG) i j)).

(** addfringe.py:112-137: the compute grid of tile A with tile B's edge data *)
Definition fringe_cg (a : mat pt) (m : matched (F := F)) : res (mat pt) :=
  let z := (nzero N, nzero N) in
  let cg := mconst (2 * (mrows a - 1) + 3) (2 * (mcols a - 1) + 3) z in
  cg <- scatter indices (mrows a) (mcols a) 1 1 (mat_at a) cg ;;
  sset cg (me_join m) (me_edge m) z.

(** addfringe.py:155-164, one field: entries of [old] that are not zero are kept.  Each
    entry is decided separately. *)
Definition merge (old new : mat F) : res (mat F) :=
  if negb ((mrows old =? mrows new) && (mcols old =? mcols new))
  then Err (ValueError "operands could not be broadcast together")
  else if (mrows old =? 0) || (mcols old =? 0)
  then Err (ValueError "Iteration of zero-sized operands is not enabled")
  else Ok (mkmat (mrows new) (mcols new) (fun i j =>
         if negb (neqb N (nzero N) (mat_at old i j)) then mat_at old i j else mat_at new i j)).

(** new_tilea_mitgrid[name] = m *)
Definition gset (g : grid F) (f : field) (m : mat F) : grid F :=
  fun f' => if field_beq f' f then m else g f'.

(** addfringe.py:94-166 on tiles already read *)
Definition fringe (a b : grid F) : res (nat * nat * grid F) :=
  m <- matchedges N G (tile_points a) (tile_points b) ;;
  let p := mrows (a XG) - 1 in
  let q := mcols (a XG) - 1 in
  cg <- fringe_cg (tile_points a) m ;;
  new <- finish N G cg p q 1 1 ;;
  g <- foldM (fun g f => x <- merge (a f) (g f) ;; Ok (gset g f x)) fields new ;;
  Ok (me_a m, me_b m, g).

Variable fs : string -> option (list byte).

(** gridio.read_mitgridfile on a file system; np.fromfile raises for a missing file *)
Definition read_tile (p : string) (ni nj : nat) (strict : bool) : res (grid F) :=
  match fs p with
  | None => Err OSError
  | Some bs => read_mitgrid N C bs ni nj strict
  end.

(** addfringe.py:46-166 *)
Definition addfringe (t : two_tiles) : res (nat * nat * grid F) :=
  a <- read_tile (tt_a t) (tt_nia t) (tt_nja t) (tt_strict t) ;;
  b <- read_tile (tt_b t) (tt_nib t) (tt_njb t) (tt_strict t) ;;
  fringe a b.
End AddFringe.
