(** main() of the five commands with what it prints on standard output. *)
From Coq Require Import Ascii String List Bool PeanoNat ZArith Init.Byte.
Import ListNotations.
From Flocq Require Import IEEE754.Binary IEEE754.Bits.
From Verif Require Import Prelude Mat Num Fields GridIO Float64 Float32 Cli MdsMeta Counts ArgParse FmtF Verbose VerboseObcs Main.
Set Implicit Arguments.
Local Open Scope nat_scope.

Section MainV.
Variables (L : libm) (G : geod binary64).
Variable loadtxt : list byte -> res (option (mat binary64)).
Variables lay o3 : nat -> nat -> list (nat * nat).
Variable fuel : nat.

(** mkgrid.py:166-184, regrid.py:322-346, addfringe.py:169-197, stitch.py:202-229.  What
    argparse prints before it exits is not modelled, and neither is the failure to print an
    argument that standard output's encoding has no bytes for. *)
Definition mainV (g : program) (argv : list text) (can_write : string -> bool) (fs : filesystem)
    : list (item binary64) * (filesystem * ending) :=
  let ended o := (fst o, (fst (snd o), Ended (snd (snd o)))) in
  match parse_args (parser_of g) argv with
  | Exit c => ([], (fs, Exited c))
  | Parsed ns =>
      let v := get_flag ns "verbose" in
      match g with
      | Sgmkgrid =>
          ended (run_mkgridV (b64ops L) b64codec G fmt_9_4f v can_write fs
                   (get_float ns "lon1") (get_float ns "lat1") (get_float ns "lon2") (get_float ns "lat2")
                   (get_int ns "lon_subscale") (get_int ns "lat_subscale") (path_arg ns "outfile"))
      | _ =>
          match command_ofZ g ns with
          | Some c => ended (runV (b64ops L) b64codec G fmt_9_4f v lay o3 loadtxt fuel can_write fs c)
          | None => ([], (fs, Unmodelled))
          end
      end
  end.

(** main() of sggetobcs, getobcs.py:486-505; the weight files and all other files. *)
Definition mainV_obcs (float_of : text -> option binary64) (W : Type)
    (xw : mat binary64 -> mat binary64 -> mat binary64 -> mat binary64 -> res W)
    (xv : W -> mat binary64 -> nat -> nat -> binary64)
    (argv : list text) (ws : list (text * W)) (fs : directory)
    : list (item binary64) * (list (text * W) * directory * ending) :=
  match parse_args (parser_of Sggetobcs) argv with
  | Exit c => ([], (ws, fs, Exited c))
  | Parsed ns =>
      match obcs_ofZ ns with
      | Some (a, n) =>
          let o := getobcsV (b64ops L) b64codec G b32codec float_of (get_flag ns "verbose") lay o3 fuel xw xv ws fs a n in
          (fst o, (fst (snd o), Ended (snd (snd o))))
      | None => ([], (ws, fs, Unmodelled))
      end
  end.
End MainV.
