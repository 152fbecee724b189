(** np.loadtxt(file, delimiter=','), as regrid calls it (regrid.py:151-152).

    numpy's own code is not in the repository; this is what its documentation and its Python implementation say:
    the file is read as latin-1 text with universal newlines, the part of a line from a hash sign on is a comment,
    empty lines are left out, a line is split at every comma, each piece is passed to float, all lines must have
    equally many pieces, and axes of length one are squeezed out of the result.  Simplified: the texts of the error
    messages are without line numbers and values; hexadecimal numbers and underscores, and the whitespace characters
    beyond ASCII that float ignores, are not modelled (ValueError here). *)
From Coq Require Import Ascii String List Bool PeanoNat ZArith Init.Byte.
Import ListNotations.
From Flocq Require Import IEEE754.Binary IEEE754.Bits.
From Verif Require Import Prelude Mat MdsMeta Mds Float64 PyFloat.
Local Open Scope list_scope.

(** str.split at a set of characters (regrid.py:151-152, delimiter=','); with both newline characters also the lines
    of the file, up to empty ones. *)
Fixpoint pieces (sep : ascii -> bool) (t : text) : list text :=
  match t with
  | [] => [[]]
  | c :: r =>
      if sep c then [] :: pieces sep r
      else match pieces sep r with x :: xs => (c :: x) :: xs | [] => [[c]] end
  end.

Definition is_newline (c : ascii) : bool := Ascii.eqb c "010" || Ascii.eqb c "013".
Definition is_comma (c : ascii) : bool := Ascii.eqb c ",".

(** The part before a hash sign (comments='#', the default at regrid.py:151-152). *)
Fixpoint cut_comment (t : text) : text :=
  match t with
  | [] => []
  | c :: r => if Ascii.eqb c "#" then [] else c :: cut_comment r
  end.

Definition nonempty (t : text) : bool := match t with [] => false | _ => true end.

(** float of one piece (dtype=float, the default at regrid.py:151-152). *)
Definition float_cell (t : text) : res binary64 :=
  match py_float t with
  | Some x => Ok x
  | None => Err (ValueError "could not convert string to float")
  end.

(** One line, which must have as many pieces as the first. *)
Definition read_line (n : nat) (l : text) : res (list binary64) :=
  let cells := pieces is_comma l in
  if (length cells =? n)%nat then mapM float_cell cells else Err (ValueError "Wrong number of columns").

(** The array if two-dimensional, [None] for a result of fewer dimensions (regrid.py:151-152). *)
Definition loadtxt64 (bs : list byte) : res (option (mat binary64)) :=
  let lines := filter nonempty (map cut_comment (pieces is_newline (byte_text bs))) in
  match lines with
  | [] => Ok None
  | first :: _ =>
      let n := length (pieces is_comma first) in
      rows <- mapM (read_line n) lines ;;
      Ok (if (length rows =? 1)%nat || (n =? 1)%nat then None
          else Some (mkmat (length rows) n (fun i j => nth j (nth i rows []) b64_zero)))
  end.
