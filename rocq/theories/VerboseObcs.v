(** What getobcs and mds2mitgrid print when verbose: simplegrid/getobcs.py and
    simplegrid/mds2mitgrid.py with their print statements; without them they are [getobcsZ]
    and [mds2mitgrid] (see VerboseObcsFacts).  rdmds and regrid are called without verbose
    here and print nothing.  Not modelled: the debugging output of getobcs.py:464-475, which
    is switched off in the code, and what xESMF prints. *)
From Coq Require Import Ascii String List Bool PeanoNat ZArith Init.Byte.
Import ListNotations.
From Verif Require Import Prelude Num Mat Fields GridIO Regrid Cli MdsMeta Mds GetObcs Counts Verbose.
Set Implicit Arguments.
Local Open Scope nat_scope.
Local Open Scope list_scope.

Section VerboseObcs.
Context {F : Type} (N : numops F) (C : codec F) (G : geod F) (C4 : codec F) (float_of : text -> option F).
Variable v : bool.
Notation out := (out F).

(** mds2mitgrid.py:29-49, one field.  The handler of the exception takes any. *)
Definition mds_stepV (fs : directory) (rundir : text) (st : (field -> option (mat F)) * nat * nat) (f : field)
    : out ((field -> option (mat F)) * nat * nat) :=
  _ <~ say v [Text (lit "reading " ++ padl " " 3 (field_text f) ++ lit "...")] ;;
  match rdmds N C C4 float_of fs (rundir ++ ["/"%char] ++ field_text f) NoIter (lit "b") with
  | Err _ => _ <~ say v [line (lit "............no data")] ;; still (Ok st)
  | Ok a =>
      _ <~ say v [Text (lit "reformatting...")] ;;
      x <~ still (recast N f a) ;;
      _ <~ say v [line (lit "done")] ;;
      let '(g, ni, nj) := st in
      let '(m, (r, c)) := x in
      let g' := fun f' => if field_beq f' f then Some m else g f' in
      still (Ok (if (ni =? 0) && (nj =? 0) then (g', r, c) else (g', ni, nj)))
  end.

(** mds2mitgrid.py:11-51 *)
Definition mds2mitgridV (fs : directory) (rundir : text) : out ((field -> option (mat F)) * nat * nat) :=
  ofold (mds_stepV fs rundir) fields (fun _ => None, 0, 0).

(** getobcs.py:176-178, 205-207 and their siblings *)
Definition reading_from (which : string) (source : text) : item F :=
  line (lit "reading " ++ lit which ++ lit " grid from " ++ source ++ lit "...").

(** getobcs.py:175-183, 204-212 *)
Definition grid_from_fileV (which : string) (fs : directory) (p : text) (ni nj : Z) (strict : bool)
    : out (griddict F * Z * Z) :=
  if nonzero ni && nonzero nj
  then
    _ <~ say v [reading_from which p] ;;
    g <~ read_tileV N C v (fun _ => dget fs p) (string_of_list_ascii p) ni nj strict ;;
    still (Ok (dict_of_grid g, ni, nj))
  else still (Err (ValueError "ni and nj required if mitgridfile specified.")).

(** The counts of matrices, or of what mds2mitgrid finds. *)
Definition with_integers (r : griddict F * nat * nat) : griddict F * Z * Z :=
  let '(d, ni, nj) := r in (d, Z.of_nat ni, Z.of_nat nj).

(** getobcs.py:195-196, 222-223 *)
Definition read_grid (o : out (griddict F * Z * Z)) : out (griddict F * Z * Z) :=
  r <~ o ;;
  _ <~ say v [line (lit "...successfully read " ++ int_text (snd (fst r)) ++ lit "x" ++ int_text (snd r) ++ lit " grid.")] ;;
  still (Ok r).

(** Matrices that are given and not empty. *)
Definition given_matrices (d : option (griddict F)) : option (griddict F) :=
  match d with Some d => if dict_empty d then None else Some d | None => None end.

(** getobcs.py:172-196 *)
Definition parent_gridV (fs : directory) (a : obcs_args) (n : obcs_counts) (dir : text) : out (griddict F * Z * Z) :=
  read_grid
  match txt_arg (oa_parent_file a) with
  | Some p => grid_from_fileV "parent" fs p (oc_nip n) (oc_njp n) (oa_strict a)
  | None =>
  match given_matrices (oa_parent_matrices a) with
  | Some d =>
      _ <~ say v [reading_from "parent" (lit "parent_mitgrid_matrices")] ;;
      r <~ still (grid_from_matrices d) ;; still (Ok (with_integers r))
  | None =>
      _ <~ say v [reading_from "parent" dir] ;;
      ' (g, ni, nj) <~ mds2mitgridV fs dir ;; still (Ok (with_integers (mds_entry g, ni, nj)))
  end end.

(** getobcs.py:202-223 *)
Definition regional_gridV (fs : directory) (a : obcs_args) (n : obcs_counts) : out (griddict F * Z * Z) :=
  read_grid
  match txt_arg (oa_regional_file a) with
  | Some p => grid_from_fileV "regional" fs p (oc_nir n) (oc_njr n) (oa_strict a)
  | None =>
  match given_matrices (oa_regional_matrices a) with
  | Some d =>
      _ <~ say v [reading_from "regional" (lit "regional_mitgrid_matrices")] ;;
      r <~ still (grid_from_matrices d) ;; still (Ok (with_integers r))
  | None => still (Err (ValueError "Either regional_mitgridfile or regional_mitgrid_matrices must be provided."))
  end end.

Variables lay o3 : nat -> nat -> list (nat * nat).
Variable fuel : nat.
Variable W : Type.
Variable xe_weights : mat F -> mat F -> mat F -> mat F -> res W.
Variable xe_value : W -> mat F -> nat -> nat -> F.

(** getobcs.py:397 *)
Definition announce (resp : string) : item F := line (lit "computing obcs for '" ++ lit resp ++ lit "'...").

(** getobcs.py:394-483 *)
Fixpoint response_loopV (dir resultsdir : text) (ni nj : nat) (bd : side -> boundary)
    (rg : kind -> regridder W) (times : list Z) (l : list (string * kind)) (fs : directory)
    : list (item F) * (directory * res unit) :=
  match l with
  | [] => ([], (fs, Ok tt))
  | rk :: r =>
      let said := if existsb (glob_match (data_pat (path_join dir (lit (fst rk))))) (names fs)
                  then (if v then [announce (fst rk)] else []) else [] in
      match response_step N C C4 float_of xe_value dir resultsdir ni nj bd rg times fs rk with
      | Ok fs' => let o := response_loopV dir resultsdir ni nj bd rg times r fs' in (said ++ fst o, snd o)
      | Err e => (said, (fs, Err e))
      end
  end.

(** getobcs.py:338-346: the time steps, and T1.shape[0] *)
Definition times_and_depths (fs : directory) (dir : text) : res (list Z * nat) :=
  times <- times_of fs dir ;;
  match times with
  | [] => Err IndexError
  | t0 :: _ =>
      a <- read_response N C C4 float_of fs dir "T" t0 ;;
      match shape a with [] => Err IndexError | n :: _ => Ok (times, n) end
  end.

(** getobcs.py:347-349 *)
Definition computing (ndepths ntimes : nat) : item F :=
  line (lit "Computing boundary matrices for " ++ int_text (Z.of_nat ndepths) ++ lit " depths and "
        ++ int_text (Z.of_nat ntimes) ++ lit " times...").

(** getobcs.py:267-483 *)
Definition getobcs_fromV (ws : list (text * W)) (fs : directory) (a : @obcs_args F) (dir : text)
    (p : griddict F) (pi pj : nat) (r : griddict F) (ri rj : nat) (bd : side -> boundary)
    : list (item F) * (list (text * W) * directory * res unit) :=
  let out := results_dir a dir in
  match make_regridders N C G lay o3 fuel xe_weights ws out p pi pj r ri rj with
  | (ws1, Err e) => ([], (ws1, fs, Err e))
  | (ws1, Ok rg) =>
  match times_and_depths fs dir with
  | Err e => ([], (ws1, fs, Err e))
  | Ok (times, n) =>
      let o := response_loopV dir out ri rj bd rg times responses fs in
      ((if v then [computing n (length times)] else []) ++ fst o, (ws1, fst (snd o), snd (snd o)))
  end end.

(** getobcs.py:95-483 *)
Definition getobcsV (ws : list (text * W)) (fs : directory) (a : obcs_args) (n : obcs_counts)
    : list (item F) * (list (text * W) * directory * res unit) :=
  match txt_arg (oa_parent_resultsdir a) with
  | None => ([], (ws, fs, Err (ValueError "Global solution results directory (parent_resultsdir) must be specified.")))
  | Some dir =>
  let o := (p <~ parent_gridV fs a n dir ;; r <~ regional_gridV fs a n ;;
            b <~ still (ob_allZ (snd (fst r)) (snd r) (oa_ob a)) ;; still (Ok (p, r, b))) in
  match snd o with
  | Err e => (fst o, (ws, fs, Err e))
  | Ok ((p, pi, pj), (r, ri, rj), bd) =>
      let q := getobcs_fromV ws fs a dir p (Z.to_nat pi) (Z.to_nat pj) r (Z.to_nat ri) (Z.to_nat rj) bd in
      (fst o ++ fst q, snd q)
  end end.
End VerboseObcs.
