(** util.py *)
From Coq Require Import String List ZArith Bool PeanoNat.
Import ListNotations.
From Verif Require Import Prelude Mat Num.
Set Implicit Arguments.
Local Open Scope nat_scope.

Section Util.
Context {F : Type} (N : numops F) (G : geod F).

Definition shapes_equal {A B} (x : mat A) (y : mat B) : bool :=
  (mrows x =? mrows y) && (mcols x =? mcols y).

(** np.radians *)
Definition radians (x : F) : F := nmul N x (nd2r N).

(** util.py:34-36, one point.  [rad] does not occur there. *)
Definition cart1 (lon lat : F) : F * F * F :=
  (nmul N (ncos N (radians lon)) (ncos N (radians lat)),
   nmul N (nsin N (radians lon)) (ncos N (radians lat)),
   nsin N (radians lat)).

(** util.py:8-38 lonlat2cart.  The whole-array assignments become one entry function.
    Arrays are two-dimensional by typing. *)
Definition lonlat2cart (lons lats : mat F) (rad : F) : res (mat (F * F * F)) :=
  if negb (shapes_equal lons lats)
  then Err (ValueError "lons and lats must be two-dimensional matrices of equal size.")
  else Ok (mkmat (mrows lons) (mcols lons)
             (fun i j => cart1 (mat_at lons i j) (mat_at lats i j))).

(** util.py:71-78, one step of the search. *)
Definition nearest_step (p : F * F) (lons lats : mat F)
    (st : Z * Z * F) (ij : nat * nat) : Z * Z * F :=
  let '(i, j, dist) := st in
  let '(a, b) := ij in
  let distance := g_inv G p (mat_at lons a b, mat_at lats a b) in
  if nltb N distance dist then (Z.of_nat a, Z.of_nat b, distance) else st.

(** util.py:41-80 nearest.  [order] is the order in which np.nditer visits the
    array; it follows the memory layout, so any permutation of the index pairs is
    possible.  np.nditer refuses zero-sized operands. *)
Definition nearest_ord (order : list (nat * nat)) (lon lat : F) (lons lats : mat F)
    : res (Z * Z * F) :=
  if negb (shapes_equal lons lats)
  then Err (ValueError "lons and lats must be two-dimensional matrices of equal size.")
  else if (mrows lons =? 0) || (mcols lons =? 0)
  then Err (ValueError "Iteration of zero-sized operands is not enabled")
  else Ok (fold_left (nearest_step (lon, lat) lons lats) order ((-1)%Z, (-1)%Z, n1e10 N)).

(** np.dot, np.cross, np.linalg.norm on 3-vectors, evaluated left to right. *)
Definition vsub (u v : F * F * F) : F * F * F :=
  let '(a,b,c) := u in let '(x,y,z) := v in (nsub N a x, nsub N b y, nsub N c z).
Definition vadd (u v : F * F * F) : F * F * F :=
  let '(a,b,c) := u in let '(x,y,z) := v in (nadd N a x, nadd N b y, nadd N c z).
Definition dot (u v : F * F * F) : F :=
  let '(a,b,c) := u in let '(x,y,z) := v in
  nadd N (nadd N (nmul N a x) (nmul N b y)) (nmul N c z).
Definition cross (u v : F * F * F) : F * F * F :=
  let '(a,b,c) := u in let '(x,y,z) := v in
  (nsub N (nmul N b z) (nmul N c y), nsub N (nmul N c x) (nmul N a z),
   nsub N (nmul N a y) (nmul N b x)).
Definition norm (u : F * F * F) : F := nsqrt N (dot u u).

(** util.py:121-126 (and 129-134): the three interior angles of a triangle. *)
Definition tri_angles (at_ bt ct : F * F * F) : F * F * F :=
  let ca := dot bt ct in
  let cb := dot at_ ct in
  let cc := dot at_ bt in
  let sa := nsin N (nacos N ca) in
  let sb := nsin N (nacos N cb) in
  let sc := nsin N (nacos N cc) in
  (nacos N (ndiv N (nsub N ca (nmul N cb cc)) (nmul N sb sc)),
   nacos N (ndiv N (nsub N cb (nmul N ca cc)) (nmul N sa sc)),
   nacos N (ndiv N (nsub N cc (nmul N ca cb)) (nmul N sa sb))).

(** util.py:114-137: one cell. *)
Definition squad1 (ptA ptB ptC ptD : F * F * F) : F :=
  let '(A1, B1, C1) := tri_angles ptA ptB ptC in
  let '(A2, B2, C2) := tri_angles ptA ptC ptD in
  nsub N (nadd N (nadd N (nadd N (nadd N (nadd N A1 B1) C1) A2) B2) C2)
         (nmul N (n2 N) (npi N)).

(** util.py:167-178: one cell. *)
Definition pquad1 (ptA ptB ptC ptD : F * F * F) : F :=
  let ab := vsub ptB ptA in
  let ac := vsub ptC ptA in
  let ad := vsub ptD ptA in
  nmul N (nhalf N) (norm (vadd (cross ab ac) (cross ac ad))).

(** util.py:109-112,139 and 162-165,180: the double loop over cells, each of which is
    assigned once. *)
Definition per_cell (area1 : F * F * F -> F * F * F -> F * F * F -> F * F * F -> F)
    (cart : mat (F * F * F)) : mat F :=
  mkmat (mrows cart - 1) (mcols cart - 1)
    (fun x y => area1 (mat_at cart x y) (mat_at cart (x + 1) y)
                      (mat_at cart (x + 1) (y + 1)) (mat_at cart x (y + 1))).

(** util.py:83-139 squad_uarea *)
Definition squad_uarea : mat (F * F * F) -> mat F := per_cell squad1.

(** util.py:142-180 pquad_uarea *)
Definition pquad_uarea : mat (F * F * F) -> mat F := per_cell pquad1.

End Util.
