(** simplegrid/matchedges.py *)
From Coq Require Import String List ZArith Bool PeanoNat.
Import ListNotations.
From Verif Require Import Prelude Num Mat ComputeGrid.
Set Implicit Arguments.
Local Open Scope nat_scope.

(** util.py:5, the edge indicators *)
Definition eN : nat := 0.
Definition eS : nat := 1.
Definition eE : nat := 2.
Definition eW : nat := 3.

(** The index expressions np.s_[k], np.s_[:] and np.s_[1:-1] used here, and an index pair. *)
Inductive index : Set := At (k : Z) | All | Inner.
Definition slice2 : Set := (index * index)%type.

(** Python's treatment of an integer index for extent [n] *)
Definition norm_index (n : nat) (k : Z) : res nat :=
  if (k <? 0)%Z
  then if (Z.of_nat n + k <? 0)%Z then Err IndexError else Ok (Z.to_nat (Z.of_nat n + k))
  else if (k <? Z.of_nat n)%Z then Ok (Z.to_nat k) else Err IndexError.

(** [m[i,j]] for arbitrary integers *)
Definition zget {A} (m : mat A) (i j : Z) : res A :=
  r <- norm_index (mrows m) i ;; c <- norm_index (mcols m) j ;; Ok (mat_at m r c).

(** [m[s][i]] where [s] is (k,:) or (:,k) *)
Definition sget {A} (m : mat A) (s : slice2) (i : nat) : res A :=
  match s with
  | (At k, All) => zget m k (Z.of_nat i)
  | (All, At k) => zget m (Z.of_nat i) k
  | _ => Err IndexError   (* not used *)
  end.

(** matchedges.py:61 *)
Definition SW : Z * Z := (0, 0)%Z.
Definition SE : Z * Z := (-1, 0)%Z.
Definition NE : Z * Z := (-1, -1)%Z.
Definition NW : Z * Z := (0, -1)%Z.
Definition corners : list (Z * Z) := [SW; SE; NE; NW].

Section MatchEdges.
Context {F : Type} (N : numops F) (G : geod F).
Notation pt := (F * F)%type.

(** The matrices aXG and aYG are one matrix [a] of points here, bXG and bYG [b]; so XG
    and YG of one tile have the same shape. *)

(** aXG[c],aYG[c] *)
Definition corner (m : mat pt) (c : Z * Z) : res pt := zget m (fst c) (snd c).

(** The four corner points of a tile.  The code looks each up where it is used. *)
Record tile_corners : Type := mk_corners4 { c_sw : pt; c_se : pt; c_ne : pt; c_nw : pt }.
Definition corner4 (m : mat pt) : res tile_corners :=
  sw <- corner m SW ;; ne <- corner m NE ;; se <- corner m SE ;; nw <- corner m NW ;;
  Ok (mk_corners4 sw se ne nw).
Definition points4 (t : tile_corners) : list pt := [c_sw t; c_se t; c_ne t; c_nw t].

(** matchedges.py:65-69 *)
Definition nom_diag (a b : tile_corners) : F :=
  ndiv N (nadd N (nadd N (nadd N (g_inv G (c_sw a) (c_ne a)) (g_inv G (c_se a) (c_nw a)))
                         (g_inv G (c_sw b) (c_ne b))) (g_inv G (c_se b) (c_nw b))) (n4 N).

(** config.py:9, matchedges.py:95,100,101 *)
Definition tolerance (a b : tile_corners) : F := nmul N (nom_diag a b) (n1em6 N).

(** matchedges.py:72-91: each entry of the two tables separately *)
Definition min_dist (ds : list F) : F :=
  fold_left (fun m d => if nltb N d m then d else m) ds (ninf N).
Definition a_to_b (b : tile_corners) (p : pt) : F := min_dist (map (fun q => g_inv G p q) (points4 b)).
Definition b_to_a (a : tile_corners) (q : pt) : F := min_dist (map (fun p => g_inv G p q) (points4 a)).

(** matchedges.py:94, np.amin of a non-empty list without NaN whose entries are at most inf *)
Definition amin (l : list F) : F :=
  fold_left (fun m d => if nltb N d m then d else m) l (ninf N).

(** matchedges.py:103-124 and 126-151: which edge has both corners close.  Row 0 of the
    2x2 tables holds SW and NW, row -1 SE and NE, column 0 SW and SE, column -1 NW and NE. *)
Definition find_edge (t : tile_corners) (close : pt -> bool) : option nat :=
  if close (c_sw t) && close (c_nw t) then Some eW
  else if close (c_se t) && close (c_ne t) then Some eE
  else if close (c_sw t) && close (c_se t) then Some eS
  else if close (c_nw t) && close (c_ne t) then Some eN
  else None.

Definition far_msg : string := "Input tiles not sufficiently close to determine common edge".
Definition first_msg : string := "No matching edge found for first input tile".
Definition second_msg : string := "No matching edge found for second input tile".
Definition inconsistent_msg : string := "Inconsistent edge match for input grids".

(** matchedges.py:65-154 on the corners *)
Definition decide4 (a b : tile_corners) : res (nat * nat) :=
  let tol := tolerance a b in
  if nltb N tol (amin [amin (map (a_to_b b) (points4 a)); amin (map (b_to_a a) (points4 b))])
  then Err (ValueError far_msg)
  else match find_edge a (fun p => nleb N (a_to_b b p) tol) with
  | None => Err (ValueError first_msg)
  | Some ea =>
      match find_edge b (fun q => nleb N (b_to_a a q) tol) with
      | None => Err (ValueError second_msg)
      | Some eb =>
          if negb (ea + eb =? eN + eS) && negb (ea + eb =? eE + eW)
          then Err (ValueError inconsistent_msg)
          else Ok (ea, eb)
      end
  end.

(** matchedges.py:105,110,115,120,128,134,140,146 *)
Definition edge_slice (e : nat) : slice2 :=
  if e =? eW then (At 0, All) else if e =? eE then (At (-1), All)
  else if e =? eS then (All, At 0) else (All, At (-1)).
(** matchedges.py:129,135,141,147 *)
Definition next_slice (e : nat) : slice2 :=
  if e =? eW then (At 1, All) else if e =? eE then (At (-2), All)
  else if e =? eS then (All, At 1) else (All, At (-2)).

(** matchedges.py:164-200 *)
Definition strip (a b : mat pt) (ea eb : nat) : res (mat pt) :=
  let z := (nzero N, nzero N) in
  if (ea =? eE) || (ea =? eW)
  then foldM (fun g i =>
         pa <- sget a (edge_slice ea) i ;; g <- mset g (if ea =? eE then 0 else 2) (2 * i) pa ;;
         pb <- sget b (next_slice eb) i ;; mset g (if ea =? eE then 2 else 0) (2 * i) pb)
       (seq 0 (mcols a)) (mconst 3 (2 * mcols a - 1) z)
  else foldM (fun g i =>
         pa <- sget a (edge_slice ea) i ;; g <- mset g (2 * i) (if ea =? eN then 0 else 2) pa ;;
         pb <- sget b (next_slice eb) i ;; mset g (2 * i) (if ea =? eN then 2 else 0) pb)
       (seq 0 (mrows a)) (mconst (2 * mrows a - 1) 3 z).

(** matchedges.py:204-206; the bounds are set in lines 168-169 and 187-188 *)
Definition fill_strip (a : mat pt) (ea : nat) (g : mat pt) : res (mat pt) :=
  if (ea =? eE) || (ea =? eW)
  then fill N G g 0 2 0 (2 * (mcols a - 1)) 1 1
  else fill N G g 0 (2 * (mrows a - 1)) 0 2 1 1.

(** matchedges.py:211-213,219-221 *)
Definition middle (ea : nat) (g : mat pt) : list pt :=
  if (ea =? eE) || (ea =? eW)
  then map (fun j => mat_at g 1 j) (seq 0 (mcols g))
  else map (fun i => mat_at g i 1) (seq 0 (mrows g)).

(** matchedges.py:214-217,222-225 *)
Definition join_slice (ea : nat) : slice2 :=
  if ea =? eE then (At (-1), Inner) else if ea =? eW then (At 0, Inner)
  else if ea =? eN then (Inner, At (-1)) else (Inner, At 0).

Record matched : Type := mk_matched {
  me_a : nat; me_a_slice : slice2;
  me_b : nat; me_b_slice : slice2;
  me_edge : list pt;            (* compute_grid_edge_xg and _yg *)
  me_join : slice2
}.

(** matchedges.py:9-231.  The verbose output: see Verbose.v. *)
Definition matchedges (a b : mat pt) : res matched :=
  ca <- corner4 a ;; cb <- corner4 b ;;
  ' (ea, eb) <- decide4 ca cb ;;
  g <- strip a b ea eb ;;
  g <- fill_strip a ea g ;;
  Ok (mk_matched ea (edge_slice ea) eb (edge_slice eb) (middle ea g) (join_slice ea)).
End MatchEdges.
