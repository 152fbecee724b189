(** main() of the five commands, from the argument strings: setup.py:25-33 (the commands),
    mkgrid.py:166-184, regrid.py:322-346, addfringe.py:169-197, stitch.py:202-229,
    getobcs.py:486-505, without what they print; see [MainV] for that. *)
From Coq Require Import Ascii String List Bool PeanoNat ZArith Init.Byte.
Import ListNotations.
From Flocq Require Import IEEE754.Binary IEEE754.Bits.
From Verif Require Import Prelude Mat Num Fields GridIO Float64 Float32 AddFringe Cli MdsMeta Mds GetObcs Counts ArgParse.
Set Implicit Arguments.
Local Open Scope nat_scope.

Inductive program := Sgmkgrid | Sgregrid | Sgaddfringe | Sgstitch | Sggetobcs.

Definition parser_of (g : program) : parser :=
  match g with
  | Sgmkgrid => mkgrid_parser
  | Sgregrid => regrid_parser
  | Sgaddfringe | Sgstitch => tiles_parser
  | Sggetobcs => getobcs_parser
  end.

(** A number of cells that is not negative. *)
Definition get_count (ns : namespace) (n : string) : option nat :=
  match get_int ns n with
  | Some z => if (z <? 0)%Z then None else Some (Z.to_nat z)
  | None => None
  end.

Definition path_arg (ns : namespace) (n : string) : option string :=
  option_map string_of_list_ascii (get_text ns n).

(** addfringe.py:180-188, stitch.py:212-220 *)
Definition tiles_of (ns : namespace) : option two_tiles :=
  match path_arg ns "tilea", get_count ns "nia", get_count ns "nja",
        path_arg ns "tileb", get_count ns "nib", get_count ns "njb" with
  | Some a, Some nia, Some nja, Some b, Some nib, Some njb =>
      Some (mk_two_tiles a nia nja b nib njb (get_flag ns "strict"))
  | _, _, _, _, _, _ => None
  end.

(** The calls made with the attributes of the parsed arguments; None if a number of cells is
    negative (and for getobcs, which has its own state below). *)
Definition command_of (g : program) (ns : namespace) : option (command binary64) :=
  match g with
  | Sgmkgrid =>
      Some (sgmkgrid (get_float ns "lon1") (get_float ns "lat1") (get_float ns "lon2") (get_float ns "lat2")
              (get_int ns "lon_subscale") (get_int ns "lat_subscale") (path_arg ns "outfile"))
  | Sgregrid =>
      match get_count ns "ni", get_count ns "nj", get_float ns "lon1", get_float ns "lat1",
            get_float ns "lon2", get_float ns "lat2", get_int ns "lon_subscale", get_int ns "lat_subscale",
            path_arg ns "outfile" with
      | Some ni, Some nj, Some lon1, Some lat1, Some lon2, Some lat2, Some ls, Some lt, Some o =>
          Some (sgregrid (path_arg ns "mitgridfile") (path_arg ns "xg_file") (path_arg ns "yg_file") ni nj
                  lon1 lat1 lon2 lat2 ls lt (get_flag ns "strict") o)
      | _, _, _, _, _, _, _, _, _ => None
      end
  | Sgaddfringe =>
      match tiles_of ns, path_arg ns "outfile" with
      | Some t, Some o => Some (sgaddfringe t o)
      | _, _ => None
      end
  | Sgstitch =>
      match tiles_of ns, path_arg ns "outfile" with
      | Some t, Some o => Some (sgstitch t o)
      | _, _ => None
      end
  | Sggetobcs => None
  end.

(** The same with counts of any sign; None for sgmkgrid, which has none. *)
Definition tiles_ofZ (ns : namespace) : option two_tilesZ :=
  match path_arg ns "tilea", get_int ns "nia", get_int ns "nja",
        path_arg ns "tileb", get_int ns "nib", get_int ns "njb" with
  | Some a, Some nia, Some nja, Some b, Some nib, Some njb =>
      Some (mk_two_tilesZ a nia nja b nib njb (get_flag ns "strict"))
  | _, _, _, _, _, _ => None
  end.
Definition command_ofZ (g : program) (ns : namespace) : option (commandZ binary64) :=
  match g with
  | Sgregrid =>
      match get_int ns "ni", get_int ns "nj", get_float ns "lon1", get_float ns "lat1",
            get_float ns "lon2", get_float ns "lat2", get_int ns "lon_subscale", get_int ns "lat_subscale",
            path_arg ns "outfile" with
      | Some ni, Some nj, Some lon1, Some lat1, Some lon2, Some lat2, Some ls, Some lt, Some o =>
          Some (zregrid (path_arg ns "mitgridfile") (path_arg ns "xg_file") (path_arg ns "yg_file") ni nj
                  lon1 lat1 lon2 lat2 ls lt (get_flag ns "strict") o)
      | _, _, _, _, _, _, _, _, _ => None
      end
  | Sgaddfringe =>
      match tiles_ofZ ns, path_arg ns "outfile" with
      | Some t, Some o => Some (zaddfringe t o)
      | _, _ => None
      end
  | Sgstitch =>
      match tiles_ofZ ns, path_arg ns "outfile" with
      | Some t, Some o => Some (zstitch t o)
      | _, _ => None
      end
  | Sgmkgrid | Sggetobcs => None
  end.

(** getobcs.py:491-505.  A number is passed for an OB option that was given. *)
Definition ob_option (ns : namespace) (s : side) : obarg :=
  match get_int ns (match s with North => "OB_Jnorth" | South => "OB_Jsouth"
                              | East => "OB_Ieast" | West => "OB_Iwest" end) with
  | Some z => OScalar z
  | None => ONone
  end.

Definition obcs_of (ns : namespace) : option (@obcs_args binary64) :=
  match get_count ns "ni_parent", get_count ns "nj_parent", get_count ns "ni_regional", get_count ns "nj_regional" with
  | Some nip, Some njp, Some nir, Some njr =>
      Some (mk_obcs_args (get_text ns "parent_mitgridfile") None (Some nip) (Some njp)
              (get_text ns "regional_mitgridfile") None (Some nir) (Some njr)
              (get_text ns "parent_resultsdir") (ob_option ns) (get_text ns "resultsdir") (get_flag ns "strict"))
  | _, _, _, _ => None
  end.

Definition obcs_ofZ (ns : namespace) : option (@obcs_args binary64 * obcs_counts) :=
  match get_int ns "ni_parent", get_int ns "nj_parent", get_int ns "ni_regional", get_int ns "nj_regional" with
  | Some nip, Some njp, Some nir, Some njr =>
      Some (mk_obcs_args (get_text ns "parent_mitgridfile") None None None
              (get_text ns "regional_mitgridfile") None None None
              (get_text ns "parent_resultsdir") (ob_option ns) (get_text ns "resultsdir") (get_flag ns "strict"),
            mk_obcs_counts nip njp nir njr)
  | _, _, _, _ => None
  end.

(** sgmkgrid -v prints its coordinates before anything else (mkgrid.py:88-92), and None cannot
    be formatted. *)
Definition unprintable (g : program) (ns : namespace) : bool :=
  match g with
  | Sgmkgrid =>
      get_flag ns "verbose" &&
      match get_float ns "lon1", get_float ns "lat1", get_float ns "lon2", get_float ns "lat2" with
      | Some _, Some _, Some _, Some _ => false
      | _, _, _, _ => true
      end
  | _ => false
  end.

(** How a command ends: sys.exit(code) from parse_args; the end of main(), or an exception;
    a required argument without a value, which does not happen. *)
Inductive ending := Exited (code : Z) | Ended (r : res unit) | Unmodelled.

Section Main.
Variables (L : libm) (G : geod binary64).
Variable loadtxt : list byte -> res (option (mat binary64)).
Variables lay o3 : nat -> nat -> list (nat * nat).
Variable fuel : nat.

(** main() of the first four commands.  Counts of any sign are read by [Counts]; where none
    is negative that is the same. *)
Definition main (g : program) (argv : list text) (can_write : string -> bool) (fs : filesystem)
    : filesystem * ending :=
  match parse_args (parser_of g) argv with
  | Exit c => (fs, Exited c)
  | Parsed ns =>
      if unprintable g ns then (fs, Ended (Err TypeError)) else
      match command_of g ns with
      | Some c =>
          let '(fs', r) := run (b64ops L) b64codec G loadtxt lay o3 fuel can_write fs c in (fs', Ended r)
      | None =>
      match command_ofZ g ns with
      | Some c =>
          let '(fs', r) := runZ (b64ops L) b64codec G loadtxt lay o3 fuel can_write fs c in (fs', Ended r)
      | None => (fs, Unmodelled)
      end
      end
  end.

(** main() of sggetobcs; the weight files and all other files. *)
Definition main_obcs (float_of : text -> option binary64) (W : Type)
    (xw : mat binary64 -> mat binary64 -> mat binary64 -> mat binary64 -> res W)
    (xv : W -> mat binary64 -> nat -> nat -> binary64)
    (argv : list text) (ws : list (text * W)) (fs : directory) : list (text * W) * directory * ending :=
  match parse_args (parser_of Sggetobcs) argv with
  | Exit c => (ws, fs, Exited c)
  | Parsed ns =>
      match obcs_of ns with
      | Some a =>
          let '(ws', fs', r) := getobcs (b64ops L) b64codec b32codec G float_of lay o3 fuel xw xv ws fs a in
          (ws', fs', Ended r)
      | None =>
      match obcs_ofZ ns with
      | Some (a, n) =>
          let '(ws', fs', r) := getobcsZ (b64ops L) b64codec G b32codec float_of lay o3 fuel xw xv ws fs a n in
          (ws', fs', Ended r)
      | None => (ws, fs, Unmodelled)
      end
      end
  end.
End Main.
