(** simplegrid/regrid.py *)
From Coq Require Import String Ascii List ZArith Bool PeanoNat Init.Byte.
Import ListNotations.
From Verif Require Import Prelude Num Mat Fields GridIO Util ComputeGrid Refine.
Set Implicit Arguments.
Local Open Scope nat_scope.

(** os.path.splitext(p)[1] (posixpath): the part of the last component from its last dot,
    unless only dots precede that dot. *)
Fixpoint last_index_from (c : ascii) (l : list ascii) (k : nat) (found : option nat) : option nat :=
  match l with
  | [] => found
  | x :: l' => last_index_from c l' (S k) (if Ascii.eqb x c then Some k else found)
  end.
Definition last_index (c : ascii) (l : list ascii) : option nat := last_index_from c l 0 None.
Definition ext (p : string) : string :=
  let l := list_ascii_of_string p in
  let start := match last_index "/"%char l with Some k => S k | None => 0 end in
  match last_index "."%char l with
  | Some dot =>
      if (start <=? dot) && existsb (fun c => negb (Ascii.eqb c "."%char)) (firstn (dot - start) (skipn start l))
      then string_of_list_ascii (skipn dot l) else EmptyString
  | None => EmptyString
  end.

(** bool(s) of an optional string, bool(n) of an optional count *)
Definition str_arg (s : option string) : option string :=
  match s with Some EmptyString => None | _ => s end.
Definition num_arg (n : option nat) : option nat :=
  match n with Some 0 => None | _ => n end.

(** The keyword arguments (regrid.py:123-135); [None] is Python's None or an absent
    argument.  Cell counts are non-negative.  The corner coordinates and the subscales are
    always given. *)
Record regrid_args (F : Type) : Type := mk_regrid_args {
  ra_mitgridfile : option string;
  ra_xg_file : option string;
  ra_yg_file : option string;
  ra_matrices : option (griddict F);
  ra_ni : option nat;
  ra_nj : option nat;
  ra_lon1 : F; ra_lat1 : F; ra_lon2 : F; ra_lat2 : F;
  ra_lon_subscale : Z; ra_lat_subscale : Z;
  ra_strict : bool
}.

(** What regrid produces: grid and counts, and the dictionary it worked on as it is at the
    end, which is the caller's own dictionary when mitgrid_matrices was used. *)
Record regrid_result (F : Type) : Type := mk_regrid_result {
  rr_grid : grid F;
  rr_ni : nat;
  rr_nj : nat;
  rr_dict : griddict F
}.

(** The matrices and the two located points during lines 176-193. *)
Record located (F : Type) : Type := mk_located {
  lc_xg : mat F;
  lc_yg : mat F;
  lc_order : list (nat * nat);
  lc_nw : Z * Z;
  lc_se : Z * Z
}.

Section Regrid.
Context {F : Type} (N : numops F) (C : codec F) (G : geod F).
(** np.loadtxt(...,delimiter=','): the array, or [None] if the text does not give a
    two-dimensional one. *)
Variable loadtxt : list byte -> res (option (mat F)).
(** The files. *)
Variable fs : string -> option (list byte).
(** The order in which np.nditer visits an r x c array; for a rotated view the order of
    the same memory locations. *)
Variable lay : nat -> nat -> list (nat * nat).

Definition read_bytes (p : string) : res (list byte) :=
  match fs p with Some b => Ok b | None => Err OSError end.

Definition setd (d : griddict F) (f : field) (m : mat F) : griddict F :=
  fun f' => if field_beq f' f then Arr m else d f'.

Definition dict_empty (d : griddict F) : bool :=
  forallb (fun f => match d f with Missing => true | _ => false end) fields.

(** regrid.py:145-161: an xg/yg file pair. *)
Definition read_pair (xg yg : string) (ni nj : nat) : res (griddict F) :=
  if (String.eqb (ext xg) ".csv" && String.eqb (ext yg) ".csv")%bool
  then
    bx <- read_bytes xg ;;
    x <- loadtxt bx ;;
    by_ <- read_bytes yg ;;
    y <- loadtxt by_ ;;
    match x, y with
    | Some x, Some y => Ok (setd (setd (fun _ => NoneVal) XG x) YG y)
    | _, _ => (* raised by the first call of util.nearest, line 176 *)
        Err (ValueError "lons and lats must be two-dimensional matrices of equal size.")
    end
  else
    bx <- read_bytes xg ;;
    x <- reshapeF N (fromfile C bx) (ni + 1) (nj + 1) ;;
    by_ <- read_bytes yg ;;
    y <- reshapeF N (fromfile C by_) (ni + 1) (nj + 1) ;;
    Ok (setd (setd (fun _ => NoneVal) XG x) YG y).

(** regrid.py:137-168: the source of XG and YG. *)
Definition source (a : regrid_args F) : res (griddict F) :=
  match str_arg (ra_mitgridfile a) with
  | Some p =>
      match num_arg (ra_ni a), num_arg (ra_nj a) with
      | Some ni, Some nj =>
          bs <- read_bytes p ;;
          g <- read_mitgrid N C bs ni nj (ra_strict a) ;;
          Ok (dict_of_grid g)
      | _, _ => Err (ValueError "ni, nj required if mitgridfile specified")
      end
  | None =>
  match str_arg (ra_xg_file a), str_arg (ra_yg_file a) with
  | Some xg, Some yg =>
      match num_arg (ra_ni a), num_arg (ra_nj a) with
      | Some ni, Some nj => read_pair xg yg ni nj
      | _, _ => Err (ValueError "ni, nj required if xg/yg_file specified")
      end
  | _, _ =>
  match ra_matrices a with
  | Some d =>
      if dict_empty d
      then Err (ValueError "Either mitgridfile, xg_file/yg_file pair, or mitgrid_matrices must be provided.")
      else match d XC with (* 165 *)
           | Missing => Err KeyError
           | NoneVal => Err AttributeError
           | Arr _ => Ok d
           end
  | None => Err (ValueError "Either mitgridfile, xg_file/yg_file pair, or mitgrid_matrices must be provided.")
  end end end.

(** regrid.py:176-177, 190-191 *)
Definition locate (a : regrid_args F) (xg yg : mat F) (order : list (nat * nat)) : res (located F) :=
  ' (i_nw, j_nw, _) <- nearest_ord N G order (ra_lon1 a) (ra_lat1 a) xg yg ;;
  ' (i_se, j_se, _) <- nearest_ord N G order (ra_lon2 a) (ra_lat2 a) xg yg ;;
  Ok (mk_located xg yg order (i_nw, j_nw) (i_se, j_se)).

(** where np.rot90 moves entry (i,j) of an array with [c] columns *)
Definition rot_index (c : nat) (ij : nat * nat) : nat * nat := (c - 1 - snd ij, fst ij).

Definition aligned (l : located F) : bool :=
  ((snd (lc_se l) <? snd (lc_nw l)) && (fst (lc_nw l) <? fst (lc_se l)))%Z.

(** regrid.py:184-193.  [fuel] bounds the number of rotations; running out of it marks a
    loop that is still going. *)
Fixpoint rot_loop (fuel : nat) (a : regrid_args F) (l : located F) : res (located F) :=
  if aligned l then Ok l
  else match fuel with
  | 0 => Err OutOfFuel
  | S fuel' =>
      l' <- locate a (rot90 (lc_xg l)) (rot90 (lc_yg l))
              (map (rot_index (mcols (lc_xg l))) (lc_order l)) ;;
      rot_loop fuel' a l'
  end.

(** mitgrid['XG'], mitgrid['YG'] as arguments of util.nearest (176): evaluated in this
    order; None has no attribute ndim. *)
Definition xg_yg (d : griddict F) : res (mat F * mat F) :=
  match d XG, d YG with
  | Missing, _ => Err KeyError
  | _, Missing => Err KeyError
  | NoneVal, _ => Err AttributeError
  | _, NoneVal => Err AttributeError
  | Arr x, Arr y => Ok (x, y)
  end.

(** regrid.py:264-282: copy the selected points to every (2*subscale)-th compute grid
    point.  [o3] is the visiting order. *)
Definition scatter (o3 : nat -> nat -> list (nat * nat)) (r c ls lt : nat)
    (val : nat -> nat -> F * F) (cg : mat (F * F)) : res (mat (F * F)) :=
  foldM (fun g ab => mset g (1 + 2 * ls * fst ab) (1 + 2 * lt * snd ab) (val (fst ab) (snd ab)))
    (o3 r c) cg.

(** regrid.py:170-319, on the matrices read.  The verbose output: see Verbose.v. *)
Definition regrid_from (o3 : nat -> nat -> list (nat * nat)) (fuel : nat) (a : regrid_args F) (d : griddict F)
    : res (regrid_result F) :=
  ' (xg, yg) <- xg_yg d ;;
  l0 <- locate a xg yg (lay (mrows xg) (mcols xg)) ;;
  if ((fst (lc_nw l0) =? fst (lc_se l0)) || (snd (lc_nw l0) =? snd (lc_se l0)))%Z
  then Err (ValueError "lon/lat input pairs must be diagonally-opposed.")
  else
  l <- rot_loop fuel a l0 ;;
  let ilb := Z.to_nat (Z.min (fst (lc_nw l)) (fst (lc_se l))) in
  let iub := Z.to_nat (Z.max (fst (lc_nw l)) (fst (lc_se l))) in
  let jlb := Z.to_nat (Z.min (snd (lc_nw l)) (snd (lc_se l))) in
  let jub := Z.to_nat (Z.max (snd (lc_nw l)) (snd (lc_se l))) in
  let n := iub - ilb in
  let m := jub - jlb in
  _ <- cg_check (2 * ra_lon_subscale a * Z.of_nat n + 3) (2 * ra_lat_subscale a * Z.of_nat m + 3)
         (ra_lon_subscale a) (ra_lat_subscale a) ;;
  let ls := Z.to_nat (ra_lon_subscale a) in
  let lt := Z.to_nat (ra_lat_subscale a) in
  let cg := mconst (2 * (ls * n) + 3) (2 * (lt * m) + 3) (nzero N, nzero N) in
  cg <- scatter o3 (n + 1) (m + 1) ls lt
          (fun i j => (mat_at (lc_xg l) (ilb + i) (jlb + j), mat_at (lc_yg l) (ilb + i) (jlb + j))) cg ;;
  g <- finish N G cg (ls * n) (lt * m) ls lt ;;
  Ok (mk_regrid_result g (ls * n) (lt * m) (setd (setd d XG (lc_xg l)) YG (lc_yg l))).

(** regrid.py:66-319 *)
Definition regrid (o3 : nat -> nat -> list (nat * nat)) (fuel : nat) (a : regrid_args F)
    : res (regrid_result F) :=
  d <- source a ;; regrid_from o3 fuel a d.

End Regrid.
