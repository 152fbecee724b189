(** Specifications for the mds.py properties, independent of the code's helpers. *)
From Coq Require Import Ascii String List Bool PeanoNat ZArith.
Import ListNotations.
From Verif Require Import MdsMeta Mds.
Set Implicit Arguments.
Local Open Scope nat_scope.
Local Open Scope list_scope.

(** ** Comments *)

Definition no_line_end (t : text) : Prop := ~ In newline t.
Definition at_line_end (t : text) : Prop := t = [] \/ exists r, t = newline :: r.

(** //, up to the end of the line. *)
Definition line_comment (s : text) : Prop := exists b, s = lit "//" ++ b /\ no_line_end b.

(** slash-star, up to the first star-slash after it. *)
Definition block_comment (s : text) : Prop :=
  exists b, s = lit "/*" ++ b ++ lit "*/"
    /\ forall x y, b ++ ["*"%char] <> x ++ lit "*/" ++ y.

(** What may stand between two quotes [q]: characters other than the quote and the
    backslash, and pairs of a backslash and any character. *)
Inductive string_inner (q : ascii) : text -> Prop :=
| si_nil : string_inner q []
| si_char : forall c b, c <> q -> c <> "\"%char -> string_inner q b -> string_inner q (c :: b)
| si_pair : forall d b, string_inner q b -> string_inner q ("\"%char :: d :: b).

Definition string_literal (s : text) : Prop :=
  exists q b, (q = quote \/ q = dquote) /\ s = q :: b ++ [q] /\ string_inner q b.

(** A comment or a complete string literal starts here. *)
Definition token_here (t : text) : Prop :=
  exists s r, t = s ++ r /\ (line_comment s \/ block_comment s \/ string_literal s).

(** [strips t u]: reading t from the left, u is t without its comments. *)
Inductive strips : text -> text -> Prop :=
| st_end : strips [] []
| st_line : forall s t u, line_comment s -> at_line_end t -> strips t u -> strips (s ++ t) u
| st_block : forall s t u, block_comment s -> strips t u -> strips (s ++ t) u
| st_string : forall s t u, string_literal s -> strips t u -> strips (s ++ t) (s ++ u)
| st_char : forall c t u, ~ token_here (c :: t) -> strips t u -> strips (c :: t) (c :: u).

(** ** Numbers in file names *)

Definition is_decimal (ds : text) : Prop :=
  Forall (fun c => 48 <= nat_of_ascii c <= 57) ds.

Fixpoint decimal_value (ds : text) : Z :=
  match ds with
  | [] => 0
  | c :: r => (Z.of_nat (nat_of_ascii c) - 48) * 10 ^ Z.of_nat (length r) + decimal_value r
  end.

(** The listing has a file for iteration n: ten digits between fname and the ending. *)
Definition has_iteration (l : list text) (fname ending : text) (n : Z) : Prop :=
  exists ds, length ds = 10 /\ is_decimal ds /\ decimal_value ds = n
    /\ In (fname ++ ["."%char] ++ ds ++ ending) l.

(** The listing has a tile fname.ddd.ddd.meta. *)
Definition has_tile (l : list text) (fname : text) : Prop :=
  exists d e, length d = 3 /\ length e = 3 /\ is_decimal d /\ is_decimal e
    /\ In (fname ++ ["."%char] ++ d ++ ["."%char] ++ e ++ lit ".meta") l.

(** ** Arrays *)

(** The index tuples of an array. *)
Definition valid_idx (sh idx : list nat) : Prop := Forall2 lt idx sh.

Definition nd_eq {F} (a b : nd F) : Prop :=
  shape a = shape b /\ forall idx, valid_idx (shape a) idx -> at_ a idx = at_ b idx.
