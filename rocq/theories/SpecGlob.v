(** Specification of file name patterns, as the shell reads them. *)
From Coq Require Import Ascii String List Bool PeanoNat.
Import ListNotations.
From Verif Require Import MdsMeta.
Local Open Scope nat_scope.
Local Open Scope list_scope.

(** A name that stands for itself only. *)
Definition plain_name (t : text) : Prop := ~ In "*"%char t /\ ~ In "?"%char t /\ ~ In "["%char t.

(** What may stand between the brackets of a set: an optional !, one character (which may be
    a closing bracket), and no further closing bracket. *)
Definition set_text (b : text) : Prop :=
  exists x y, ~ In "]"%char y /\ ((b = x :: y /\ x <> "!"%char) \/ b = "!"%char :: x :: y).

(** The characters of a set, read from the left: a-b is a range. *)
Definition range_first (b : text) : Prop := exists x y r, b = x :: "-"%char :: y :: r.
Inductive in_set : text -> ascii -> Prop :=
| in_range_first : forall x y r c, nat_of_ascii x <= nat_of_ascii c <= nat_of_ascii y ->
    in_set (x :: "-"%char :: y :: r) c
| in_after_range : forall x y r c, in_set r c -> in_set (x :: "-"%char :: y :: r) c
| in_char_first : forall c r, ~ range_first (c :: r) -> in_set (c :: r) c
| in_after_char : forall x r c, ~ range_first (x :: r) -> in_set r c -> in_set (x :: r) c.
Definition set_allows (b : text) (c : ascii) : Prop :=
  (exists r, b = "!"%char :: r /\ ~ in_set r c) \/ ((forall r, b <> "!"%char :: r) /\ in_set b c).

(** A bracket that no closing bracket belongs to is an ordinary character. *)
Definition set_opens (p : text) : Prop := exists b r, set_text b /\ p = b ++ "]"%char :: r.

Inductive shell_match : text -> text -> Prop :=
| sm_end : shell_match [] []
| sm_char : forall c p s, plain_name [c] -> shell_match p s -> shell_match (c :: p) (c :: s)
| sm_any : forall c p s, shell_match p s -> shell_match ("?"%char :: p) (c :: s)
| sm_star : forall u p s, shell_match p s -> shell_match ("*"%char :: p) (u ++ s)
| sm_set : forall b p c s, set_text b -> set_allows b c -> shell_match p s ->
    shell_match ("["%char :: b ++ "]"%char :: p) (c :: s)
| sm_bracket : forall p s, ~ set_opens p -> shell_match p s -> shell_match ("["%char :: p) ("["%char :: s).

(** Paths are matched part by part; wildcards do not match a dot at the start of a part. *)
Definition starts_dot (t : text) : Prop := exists r, t = "."%char :: r.
Definition one_part (p s : text) : Prop :=
  (plain_name p /\ s = p) \/ (~ plain_name p /\ (starts_dot s -> starts_dot p) /\ shell_match p s).
Inductive file_match : text -> text -> Prop :=
| fm_last : forall p s, ~ In "/"%char p -> ~ In "/"%char s -> one_part p s -> file_match p s
| fm_part : forall p s p' s', ~ In "/"%char p -> ~ In "/"%char s -> one_part p s -> file_match p' s' ->
    file_match (p ++ "/"%char :: p') (s ++ "/"%char :: s').
