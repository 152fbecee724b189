(** getobcs.py with the caller's dictionaries: getobcs hands the dictionaries it was given to
    regrid, which replaces their XG and YG by rotated ones (regrid.py:184-193). *)
From Coq Require Import Ascii String List Bool PeanoNat ZArith.
Import ListNotations.
From Verif Require Import Prelude Num Mat Fields GridIO Regrid MdsMeta Mds GetObcs.
Set Implicit Arguments.
Local Open Scope nat_scope.
Local Open Scope list_scope.

Section ObcsDicts.
Context {F : Type} (N : numops F) (C8 C4 : codec F) (G : geod F) (float_of : text -> option F).
Variables lay o3 : nat -> nat -> list (nat * nat).
Variable fuel : nat.
Variable W : Type.
Variable xe_weights : mat F -> mat F -> mat F -> mat F -> res W.
Variable xe_value : W -> mat F -> nat -> nat -> F.

(** The caller's dictionaries, numbered; one used for both grids has one number. *)
Definition store := nat -> griddict F.

(** A grid getobcs works with: a dictionary of the caller or one it has read itself. *)
Inductive place := Given (n : nat) | Own (d : griddict F).

Definition contents (st : store) (p : place) : griddict F :=
  match p with Given n => st n | Own d => d end.
Definition replaced (st : store) (p : place) (d : griddict F) : store :=
  match p with Given n => fun n' => if n' =? n then d else st n' | Own _ => st end.

(** getobcs.py:293-310.  regrid raises only before its first rotation here: its subscales are 2. *)
Definition doubled_in (st : store) (p : place) (ni nj : nat) : store * res (grid F) :=
  let d := contents st p in
  match (x1 <- corner_nw d XG ;;
         y1 <- corner_nw d YG ;;
         x2 <- corner_se d XG ;;
         y2 <- corner_se d YG ;;
         regrid N C8 G (fun _ => Err OSError) (fun _ => None) lay o3 fuel
           (mk_regrid_args None None None (Some d) (Some ni) (Some nj) x1 y1 x2 y2 2 2 false)) with
  | Ok r => (replaced st p (rr_dict r), Ok (rr_grid r))
  | Err e => (st, Err e)
  end.

(** getobcs.py:276-332 *)
Definition make_regridders_in (ws : list (text * W)) (resultsdir : text) (st : store)
    (p : place) (pi pj : nat) (r : place) (ri rj : nat)
    : store * (list (text * W) * res (kind -> regridder W)) :=
  match tracer_regridder xe_weights ws resultsdir (contents st p) (contents st r) with
  | (ws1, Err e) => (st, (ws1, Err e))
  | (ws1, Ok rt) =>
  match doubled_in st p pi pj with
  | (st1, Err e) => (st1, (ws1, Err e))
  | (st1, Ok p2) =>
  match doubled_in st1 r ri rj with
  | (st2, Err e) => (st2, (ws1, Err e))
  | (st2, Ok r2) =>
      (st2,
       match velocity_regridder xe_weights ws1 resultsdir p2 r2 0 1 (lit "U") with
       | (ws2, Err e) => (ws2, Err e)
       | (ws2, Ok ru) =>
       match velocity_regridder xe_weights ws2 resultsdir p2 r2 1 0 (lit "V") with
       | (ws3, Err e) => (ws3, Err e)
       | (ws3, Ok rv) => (ws3, Ok (fun k => match k with Tracer => rt | Upoint => ru | Vpoint => rv end))
       end end)
  end end end.

(** getobcs.py:334-483: the results, which no longer involve the dictionaries *)
Definition obcs_results (fs : directory) (dir out : text) (ri rj : nat) (bd : side -> boundary)
    (x : list (text * W) * res (kind -> regridder W)) : list (text * W) * directory * res unit :=
  match x with
  | (ws1, Err e) => (ws1, fs, Err e)
  | (ws1, Ok rg) =>
  match (times <- times_of fs dir ;;
         match times with
         | [] => Err IndexError
         | t0 :: _ => _ <- read_response N C8 C4 float_of fs dir "T" t0 ;; Ok times
         end) with
  | Err e => (ws1, fs, Err e)
  | Ok times =>
      let '(fs', o) := response_loop N C8 C4 float_of xe_value dir out ri rj bd rg times responses fs in (ws1, fs', o)
  end end.

(** The arguments with their matrices taken from the store: parent_mitgrid_matrices and
    regional_mitgrid_matrices are dictionaries [pn] and [rn] of the caller. *)
Definition args_in (st : store) (pn rn : option nat) (a : obcs_args (F := F)) : obcs_args :=
  mk_obcs_args (oa_parent_file a) (option_map st pn) (oa_ni_parent a) (oa_nj_parent a)
    (oa_regional_file a) (option_map st rn) (oa_ni_regional a) (oa_nj_regional a)
    (oa_parent_resultsdir a) (oa_ob a) (oa_resultsdir a) (oa_strict a).

(** Which dictionary a grid is (getobcs.py:174-194, 202-221): that of the caller unless a
    file name is given or the dictionary is empty. *)
Definition place_of_grid (st : store) (file : option text) (n : option nat) (d : griddict F) : place :=
  match txt_arg file, n with
  | None, Some n => if dict_empty (st n) then Own d else Given n
  | _, _ => Own d
  end.

(** getobcs.py:95-483.  State: the caller's dictionaries, the weight files and all other files. *)
Definition getobcs_in (st : store) (ws : list (text * W)) (fs : directory) (pn rn : option nat) (a0 : obcs_args (F := F))
    : store * (list (text * W) * directory * res unit) :=
  let a := args_in st pn rn a0 in
  match txt_arg (oa_parent_resultsdir a) with
  | None => (st, (ws, fs, Err (ValueError "Global solution results directory (parent_resultsdir) must be specified.")))
  | Some dir =>
  match (p <- parent_grid N C8 C4 float_of fs a dir ;; r <- regional_grid N C8 fs a ;;
         b <- ob_all (snd (fst r)) (snd r) (oa_ob a) ;; Ok (p, r, b)) with
  | Err e => (st, (ws, fs, Err e))
  | Ok ((p, pi, pj), (r, ri, rj), bd) =>
      let out := results_dir a dir in
      let '(st', x) := make_regridders_in ws out st (place_of_grid st (oa_parent_file a) pn p) pi pj
                         (place_of_grid st (oa_regional_file a) rn r) ri rj in
      (st', obcs_results fs dir out ri rj bd x)
  end end.

End ObcsDicts.
