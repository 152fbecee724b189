(** The command-line entry points main() of mkgrid.py, regrid.py, addfringe.py and
    stitch.py, as functions of the parsed arguments and the file system. *)
From Coq Require Import String List ZArith Bool PeanoNat Init.Byte.
Import ListNotations.
From Verif Require Import Prelude Num Mat Fields GridIO MkGrid Regrid AddFringe Stitch.
Set Implicit Arguments.
Local Open Scope nat_scope.

(** File contents by path.  Two paths naming one file (links, "./") are not modelled. *)
Definition filesystem := string -> option (list byte).
Definition fs_set (fs : filesystem) (p : string) (bs : list byte) : filesystem :=
  fun q => if String.eqb q p then Some bs else fs q.

(** Parsed arguments.  An argument that is not required is None when left out; the parsers
    of mkgrid (mkgrid.py:12-42) require none.  The verbose flag: see Verbose.v. *)
Inductive command (F : Type) : Type :=
| sgmkgrid (lon1 lat1 lon2 lat2 : option F) (lon_subscale lat_subscale : option Z)
    (outfile : option string)
| sgregrid (mitgridfile xg_file yg_file : option string) (ni nj : nat)
    (lon1 lat1 lon2 lat2 : F) (lon_subscale lat_subscale : Z) (strict : bool)
    (outfile : string)
| sgaddfringe (t : two_tiles) (outfile : string)
| sgstitch (t : two_tiles) (outfile : string).
Arguments sgmkgrid {F}. Arguments sgregrid {F}. Arguments sgaddfringe {F}. Arguments sgstitch {F}.

Section Cli.
Context {F : Type} (N : numops F) (C : codec F) (G : geod F).
Variable loadtxt : list byte -> res (option (mat F)).
Variables lay o3 : nat -> nat -> list (nat * nat).
Variable fuel : nat.

(** None stored into an array of doubles becomes NaN. *)
Definition as_double (x : option F) : F := match x with Some v => v | None => nnan N end.

(** What main() computes before it writes: mkgrid.py:171-178, regrid.py:327-340,
    addfringe.py:180-188, stitch.py:212-220; the grid, and the two counts passed on to
    write_mitgridfile. *)
Definition compute (fs : filesystem) (c : command F) : res (grid F * nat * nat) :=
  match c with
  | sgmkgrid lon1 lat1 lon2 lat2 (Some ls) (Some lt) _ =>
      mkgrid N G (as_double lon1) (as_double lat1) (as_double lon2) (as_double lat2) ls lt
  | sgmkgrid _ _ _ _ _ _ _ => Err TypeError (* 2*None, mkgrid.py:120 *)
  | sgregrid mg xg yg ni nj lon1 lat1 lon2 lat2 ls lt strict _ =>
      r <- regrid N C G loadtxt fs lay o3 fuel
             (mk_regrid_args mg xg yg None (Some ni) (Some nj) lon1 lat1 lon2 lat2 ls lt strict) ;;
      Ok (rr_grid r, rr_ni r, rr_nj r)
  | sgaddfringe t _ =>
      ' (_, _, g) <- addfringe N C G fs t ;;
      Ok (g, tt_nia t, tt_nja t)
  | sgstitch t _ => stitch N C G fs t
  end.

Definition outfile_of (c : command F) : option string :=
  match c with
  | sgmkgrid _ _ _ _ _ _ o => o
  | sgregrid _ _ _ _ _ _ _ _ _ _ _ _ o => Some o
  | sgaddfringe _ o => Some o
  | sgstitch _ o => Some o
  end.

(** gridio.py:124-164: open(None,'wb') raises TypeError; [can_write] says whether the
    path can be opened for writing.  The file is truncated when it is opened. *)
Definition write_file (can_write : string -> bool) (fs : filesystem) (p : option string)
    (d : griddict F) (ni nj : nat) : filesystem * res unit :=
  match p with
  | None => (fs, Err TypeError)
  | Some p =>
      if can_write p
      then let '(bs, o) := write_mitgrid N C d ni nj in (fs_set fs p bs, o)
      else (fs, Err OSError)
  end.

(** main() of the four commands: mkgrid.py:166-184, regrid.py:322-346,
    addfringe.py:169-197, stitch.py:202-229 *)
Definition run (can_write : string -> bool) (fs : filesystem) (c : command F) : filesystem * res unit :=
  match compute fs c with
  | Err e => (fs, Err e)
  | Ok (g, ni, nj) => write_file can_write fs (outfile_of c) (dict_of_grid g) ni nj
  end.

(** A history of commands, each with its outcome dropped; permissions may change. *)
Definition history (fs : filesystem) (l : list (command F * (string -> bool))) : filesystem :=
  fold_left (fun fs cw => fst (run (snd cw) fs (fst cw))) l fs.
End Cli.
