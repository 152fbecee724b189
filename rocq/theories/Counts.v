(** Cell counts of any sign: gridio.py, the readers of regrid.py, addfringe.py, stitch.py and
    getobcs.py, and main(), where a count may be negative.  numpy takes a negative extent in
    reshape for one to be worked out, and negative indices and slice bounds from the end. *)
From Coq Require Import Ascii String List Bool PeanoNat ZArith Init.Byte.
Import ListNotations.
From Verif Require Import Prelude Num Mat Fields GridIO Refine Regrid MatchEdges AddFringe Stitch Cli MdsMeta Mds GetObcs.
Set Implicit Arguments.
Local Open Scope nat_scope.
Local Open Scope list_scope.

(** A bound k of a slice of an axis of n entries: negative ones count from the end, and then
    it is cut to 0..n. *)
Definition py_bound (n : nat) (k : Z) : nat :=
  if (k <? 0)%Z then Z.to_nat (Z.of_nat n + k) else Nat.min n (Z.to_nat k).

(** l[a:b] *)
Definition py_slice {A} (l : list A) (a b : Z) : list A :=
  let s := py_bound (length l) a in
  firstn (py_bound (length l) b - s) (skipn s l).

(** m[:r,:c] *)
Definition py_trim {A} (r c : Z) (m : mat A) : mat A :=
  mtrim (py_bound (mrows m) r) (py_bound (mcols m) c) m.

(** bool(n) of a number *)
Definition nonzero (n : Z) : bool := negb (n =? 0)%Z.

(** The two tiles with their counts (addfringe.py:84-89). *)
Record two_tilesZ : Type := mk_two_tilesZ {
  tz_a : string; tz_nia : Z; tz_nja : Z;
  tz_b : string; tz_nib : Z; tz_njb : Z;
  tz_strict : bool
}.

(** The commands that take counts, see [Cli.command]. *)
Inductive commandZ (F : Type) : Type :=
| zregrid (mitgridfile xg_file yg_file : option string) (ni nj : Z)
    (lon1 lat1 lon2 lat2 : F) (lon_subscale lat_subscale : Z) (strict : bool)
    (outfile : string)
| zaddfringe (t : two_tilesZ) (outfile : string)
| zstitch (t : two_tilesZ) (outfile : string).
Arguments zregrid {F}. Arguments zaddfringe {F}. Arguments zstitch {F}.

Section Counts.
Context {F : Type} (N : numops F) (C : codec F) (G : geod F).

(** The extents np.reshape gives an array of n entries (numpy's _fix_unknown_dimension): one
    negative extent is worked out from the other. *)
Definition extents (n : nat) (r c : Z) : res (nat * nat) :=
  let mismatch := Err (ValueError "cannot reshape array") in
  let other known :=
    if (Z.to_nat known =? 0) || negb (n mod Z.to_nat known =? 0)
    then mismatch else Ok (n / Z.to_nat known) in
  match (r <? 0)%Z, (c <? 0)%Z with
  | true, true => Err (ValueError "can only specify one unknown dimension")
  | true, false => r' <- other c ;; Ok (r', Z.to_nat c)
  | false, true => c' <- other r ;; Ok (Z.to_nat r, c')
  | false, false => Ok (Z.to_nat r, Z.to_nat c)
  end.

(** np.reshape(v,(r,c),order='F') *)
Definition reshapeZ (v : list F) (r c : Z) : res (mat F) :=
  ' (r', c') <- extents (length v) r c ;; reshapeF N v r' c'.

(** gridio.py:106-110 *)
Definition padding_nonzeroZ (f : field) (ni nj : Z) (m : mat F) : res bool :=
  rows <- (if 0 <? ni_delta f then Ok false
           else i <- norm_index (mrows m) ni ;; Ok (existsb (fun j => truthy N (mat_at m i j)) (seq 0 (mcols m)))) ;;
  if (rows : bool) then Ok true
  else if 0 <? nj_delta f then Ok false
  else j <- norm_index (mcols m) nj ;; Ok (existsb (fun i => truthy N (mat_at m i j)) (seq 0 (mrows m))).

(** gridio.py:97-118, one field *)
Definition read_fieldZ (raw : list F) (ni nj : Z) (strict : bool) (g : grid F) (f : field) : res (grid F) :=
  let slice_size := ((ni + 1) * (nj + 1))%Z in
  let k := Z.of_nat (index_of f fields) in
  m <- reshapeZ (py_slice raw (slice_size * k) (slice_size * (k + 1))) (ni + 1) (nj + 1) ;;
  bad <- (if strict then padding_nonzeroZ f ni nj m else Ok false) ;;
  if (bad : bool)
  then Err (RuntimeError "trying to trim nonzero rows or columns")
  else Ok (upd g f (py_trim (ni + Z.of_nat (ni_delta f)) (nj + Z.of_nat (nj_delta f)) m)).

(** gridio.py:7-121 *)
Definition read_mitgridZ (bs : list byte) (ni nj : Z) (strict : bool) : res (grid F) :=
  foldM (read_fieldZ (fromfile C bs) ni nj strict) fields (fun _ => mconst 0 0 (nzero N)).

(** gridio.py:151-152: np.zeros refuses a negative extent *)
Definition paddedZ (e : entry F) (ni nj : Z) (f : field) : res (mat F) :=
  if ((ni + 1 <? 0) || (nj + 1 <? 0))%Z
  then Err (ValueError "negative dimensions are not allowed")
  else
  let p := Z.to_nat (ni + 1) in
  let q := Z.to_nat (nj + 1) in
  let r := py_bound p (ni + Z.of_nat (ni_delta f)) in
  let c := py_bound q (nj + Z.of_nat (nj_delta f)) in
  let z := nzero N in
  match e with
  | Missing => Err KeyError
  | NoneVal => Ok (mkmat p q (fun i j => if (i <? r) && (j <? c) then nnan N else z))
  | Arr m =>
      if bcast_ok (mrows m) r && bcast_ok (mcols m) c
      then Ok (mkmat p q
            (fun i j => if (i <? r) && (j <? c)
                        then mat_at m (bidx (mrows m) i) (bidx (mcols m) j) else z))
      else Err (ValueError "could not broadcast input array")
  end.

(** gridio.py:148-161 *)
Fixpoint write_fieldsZ (d : griddict F) (ni nj : Z) (fs : list field) : list byte * res unit :=
  match fs with
  | [] => ([], Ok tt)
  | f :: fs' =>
      match paddedZ (d f) ni nj f with
      | Err e => ([], Err e)
      | Ok m =>
          let '(bs, o) := write_fieldsZ d ni nj fs' in
          (tofile C (ravelF m) ++ bs, o)
      end
  end.

(** gridio.py:124-164 *)
Definition write_mitgridZ (d : griddict F) (ni nj : Z) : list byte * res unit :=
  write_fieldsZ d ni nj fields.

Section Commands.
Variable loadtxt : list byte -> res (option (mat F)).
Variables lay o3 : nat -> nat -> list (nat * nat).
Variable fuel : nat.

(** regrid.py:145-161 *)
Definition read_pairZ (fs : filesystem) (xg yg : string) (ni nj : Z) : res (griddict F) :=
  if (String.eqb (ext xg) ".csv" && String.eqb (ext yg) ".csv")%bool
  then read_pair N C loadtxt fs xg yg 0 0 (* the counts are not used *)
  else
    bx <- read_bytes fs xg ;;
    x <- reshapeZ (fromfile C bx) (ni + 1) (nj + 1) ;;
    by_ <- read_bytes fs yg ;;
    y <- reshapeZ (fromfile C by_) (ni + 1) (nj + 1) ;;
    Ok (setd (setd (fun _ => NoneVal) XG x) YG y).

(** regrid.py:137-168, without matrices *)
Definition sourceZ (fs : filesystem) (mitgridfile xg_file yg_file : option string) (ni nj : Z) (strict : bool)
    : res (griddict F) :=
  match str_arg mitgridfile with
  | Some p =>
      if nonzero ni && nonzero nj
      then bs <- read_bytes fs p ;; g <- read_mitgridZ bs ni nj strict ;; Ok (dict_of_grid g)
      else Err (ValueError "ni, nj required if mitgridfile specified")
  | None =>
  match str_arg xg_file, str_arg yg_file with
  | Some xg, Some yg =>
      if nonzero ni && nonzero nj
      then read_pairZ fs xg yg ni nj
      else Err (ValueError "ni, nj required if xg/yg_file specified")
  | _, _ =>
      Err (ValueError "Either mitgridfile, xg_file/yg_file pair, or mitgrid_matrices must be provided.")
  end
  end.

(** gridio.read_mitgridfile on a file system *)
Definition read_tileZ (fs : filesystem) (p : string) (ni nj : Z) (strict : bool) : res (grid F) :=
  match fs p with
  | None => Err OSError
  | Some bs => read_mitgridZ bs ni nj strict
  end.

(** addfringe.py:46-166 *)
Definition addfringeZ (fs : filesystem) (t : two_tilesZ) : res (nat * nat * grid F) :=
  a <- read_tileZ fs (tz_a t) (tz_nia t) (tz_nja t) (tz_strict t) ;;
  b <- read_tileZ fs (tz_b t) (tz_nib t) (tz_njb t) (tz_strict t) ;;
  fringe N G a b.

(** stitch.py:45-199 *)
Definition stitchZ (fs : filesystem) (t : two_tilesZ) : res (grid F * nat * nat) :=
  ' (ea, eb, a) <- addfringeZ fs t ;;
  b <- read_tileZ fs (tz_b t) (tz_nib t) (tz_njb t) (tz_strict t) ;;
  Stitch.join (ea, eb) a b.

(** What main() computes: regrid.py:327-340, addfringe.py:180-188, stitch.py:212-220. *)
Definition computeZ (fs : filesystem) (c : commandZ F) : res (grid F * Z * Z) :=
  match c with
  | zregrid mg xg yg ni nj lon1 lat1 lon2 lat2 ls lt strict _ =>
      d <- sourceZ fs mg xg yg ni nj strict ;;
      r <- regrid_from N G lay o3 fuel
             (mk_regrid_args mg xg yg None None None lon1 lat1 lon2 lat2 ls lt strict) d ;;
      Ok (rr_grid r, Z.of_nat (rr_ni r), Z.of_nat (rr_nj r))
  | zaddfringe t _ =>
      ' (_, _, g) <- addfringeZ fs t ;; Ok (g, tz_nia t, tz_nja t)
  | zstitch t _ =>
      ' (g, ni, nj) <- stitchZ fs t ;; Ok (g, Z.of_nat ni, Z.of_nat nj)
  end.

Definition outfileZ (c : commandZ F) : string :=
  match c with
  | zregrid _ _ _ _ _ _ _ _ _ _ _ _ o => o
  | zaddfringe _ o => o
  | zstitch _ o => o
  end.

(** main() of the three commands, see [Cli.run]. *)
Definition runZ (can_write : string -> bool) (fs : filesystem) (c : commandZ F) : filesystem * res unit :=
  match computeZ fs c with
  | Err e => (fs, Err e)
  | Ok (g, ni, nj) =>
      if can_write (outfileZ c)
      then let '(bs, o) := write_mitgridZ (dict_of_grid g) ni nj in (fs_set fs (outfileZ c) bs, o)
      else (fs, Err OSError)
  end.
End Commands.

Section Obcs.
Variable C4 : codec F.
Variable float_of : text -> option F.
Variables lay o3 : nat -> nat -> list (nat * nat).
Variable fuel : nat.
Variable W : Type.
Variable xe_weights : mat F -> mat F -> mat F -> mat F -> res W.
Variable xe_value : W -> mat F -> nat -> nat -> F.

(** getobcs.py:240,244,248,252: np.ones refuses a negative extent. *)
Definition ones (n v : Z) : res (list Z) :=
  if (n <? 0)%Z then Err (ValueError "negative dimensions are not allowed") else Ok (repeat v (Z.to_nat n)).
Definition ob_defaultZ (ni nj : Z) (s : side) : res (list Z) :=
  match s with
  | North => ones ni nj
  | South => ones ni 1
  | East => ones nj ni
  | West => ones nj 1
  end.

(** getobcs.py:239-254 *)
Definition ob_selectZ (ni nj : Z) (s : side) (a : obarg) : res (bool * list Z) :=
  t <- ob_truth a ;;
  if (t : bool)
  then (n <- ob_any a ;; Ok (n, ob_entries a))
  else (l <- ob_defaultZ ni nj s ;; Ok (true, l)).

(** getobcs.py:257-265 *)
Definition ob_zero_basedZ (ni nj : Z) (s : side) (l : list Z) : list Z :=
  match s with
  | North => map (fun j => ((if (j <? 0)%Z then nj + 1 + j else j) - 1)%Z) l
  | East => map (fun i => ((if (i <? 0)%Z then ni + 1 + i else i) - 1)%Z) l
  | South | West => map (fun i => (i - 1)%Z) l
  end.

Definition ob_resolveZ (ni nj : Z) (s : side) (a : obarg) : res boundary :=
  ' (use, l) <- ob_selectZ ni nj s a ;;
  Ok (mk_boundary use (if (use : bool) then ob_zero_basedZ ni nj s l else l)).

Definition ob_allZ (ni nj : Z) (arg : side -> obarg) : res (side -> boundary) :=
  bn <- ob_resolveZ ni nj North (arg North) ;;
  bs <- ob_resolveZ ni nj South (arg South) ;;
  be <- ob_resolveZ ni nj East (arg East) ;;
  bw <- ob_resolveZ ni nj West (arg West) ;;
  Ok (fun s => match s with North => bn | South => bs | East => be | West => bw end).

(** getobcs.py:175-183, 204-212 *)
Definition grid_from_fileZ (fs : directory) (p : text) (ni nj : Z) (strict : bool) : res (griddict F * Z * Z) :=
  if nonzero ni && nonzero nj
  then match dget fs p with
       | None => Err OSError
       | Some bs => g <- read_mitgridZ bs ni nj strict ;; Ok (dict_of_grid g, ni, nj)
       end
  else Err (ValueError "ni and nj required if mitgridfile specified.").

(** The four counts, with the other arguments in an [obcs_args] without counts. *)
Record obcs_counts := mk_obcs_counts { oc_nip : Z; oc_njp : Z; oc_nir : Z; oc_njr : Z }.

(** getobcs.py:174-194 *)
Definition parent_gridZ (fs : directory) (a : obcs_args) (n : obcs_counts) (dir : text)
    : res (griddict F * Z * Z) :=
  match txt_arg (oa_parent_file a) with
  | Some p => grid_from_fileZ fs p (oc_nip n) (oc_njp n) (oa_strict a)
  | None => ' (d, ni, nj) <- parent_grid N C C4 float_of fs a dir ;; Ok (d, Z.of_nat ni, Z.of_nat nj)
  end.

(** getobcs.py:202-221 *)
Definition regional_gridZ (fs : directory) (a : obcs_args) (n : obcs_counts) : res (griddict F * Z * Z) :=
  match txt_arg (oa_regional_file a) with
  | Some p => grid_from_fileZ fs p (oc_nir n) (oc_njr n) (oa_strict a)
  | None => ' (d, ni, nj) <- regional_grid N C fs a ;; Ok (d, Z.of_nat ni, Z.of_nat nj)
  end.

(** getobcs.py:95-483.  The counts of the parent grid are used no further: regrid is given
    matrices.  With a negative count of the regional grid the matrices are empty, and their
    corners are taken before the counts are used. *)
Definition getobcsZ (ws : list (text * W)) (fs : directory) (a : obcs_args) (n : obcs_counts)
    : list (text * W) * directory * res unit :=
  match txt_arg (oa_parent_resultsdir a) with
  | None => (ws, fs, Err (ValueError "Global solution results directory (parent_resultsdir) must be specified."))
  | Some dir =>
  match (p <- parent_gridZ fs a n dir ;; r <- regional_gridZ fs a n ;;
         b <- ob_allZ (snd (fst r)) (snd r) (oa_ob a) ;; Ok (p, r, b)) with
  | Err e => (ws, fs, Err e)
  | Ok ((p, pi, pj), (r, ri, rj), bd) =>
      getobcs_from N C C4 G float_of lay o3 fuel xe_weights xe_value ws fs a dir
        p (Z.to_nat pi) (Z.to_nat pj) r (Z.to_nat ri) (Z.to_nat rj) bd
  end end.
End Obcs.
End Counts.
