(** Specification of the names of the files of an iteration, and of a series of them. *)
From Coq Require Import Ascii String List Bool PeanoNat ZArith.
Import ListNotations.
From Verif Require Import MdsMeta SpecMds RdMds SpecRdMds.
Local Open Scope nat_scope.
Local Open Scope list_scope.

(** An iteration number in a file name: the decimal digits, with a minus sign before them if
    it is negative; ten characters in all, filled up with zeros, and more only if the digits
    take them. *)
Definition iteration_text (z : Z) (t : text) : Prop :=
  exists ds, t = (if (z <? 0)%Z then ["-"%char] else []) ++ ds /\
    is_decimal ds /\ decimal_value ds = Z.abs z /\ 10 <= length t /\
    (10 < length t -> exists c r, ds = c :: r /\ c <> "0"%char).

(** The file names of the iteration z without their endings: fname itself if no iteration is
    asked for (rdmds takes -1 for that), else fname, a point and the number. *)
Definition base_for (fname : text) (it : itarg) (z : Z) (b : text) : Prop :=
  match it with
  | ItNone | ItOne (-1)%Z => b = fname
  | _ => exists t, iteration_text z t /\ b = fname ++ ["."%char] ++ t
  end.

(** k is a meta or a data file under the name b, in one piece or a tile. *)
Definition file_of (b k : text) : Prop :=
  exists name, (name = [] \/ tile_name name) /\ (k = b ++ name ++ lit ".meta" \/ k = b ++ name ++ lit ".data").

(** The iterations given one by one. *)
Definition given (it : itarg) : option (list Z) :=
  match it with
  | ItNone => Some [(-1)%Z]
  | ItOne z => Some [z]
  | ItList l => Some l
  | ItNaN | ItInf => None
  end.

(** The last one of a list of pairs with the key z. *)
Fixpoint latest {A} (l : list (Z * A)) (z : Z) : option A :=
  match l with
  | [] => None
  | (y, a) :: r => match latest r z with
                   | Some b => Some b
                   | None => if (y =? z)%Z then Some a else None
                   end
  end.

(** A field in one file: no tiles, all records. *)
Definition one_file (lead : list nat) (ny nx nrec : nat) (p : Mds.prec) : tiled :=
  mk_tiled lead ny nx nrec p (lead ++ [ny; nx]) [([], map (fun _ => 0) (lead ++ [ny; nx]))].

(** The element with record number r and index idx of an array whose leading extents [recs]
    are those of the records. *)
Definition item {F} (recs : list nat) (a : Mds.nd F) (g : list nat) : F :=
  match g with
  | r :: idx => Mds.at_ a (nth r (Mds.all_idx recs) [] ++ idx)
  | [] => Mds.at_ a []
  end.
