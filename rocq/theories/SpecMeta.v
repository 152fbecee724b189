(** What a meta file says, apart from how it is parsed. *)
From Coq Require Import Ascii String List Bool PeanoNat ZArith.
Import ListNotations.
From Verif Require Import MdsMeta SpecMds.
Local Open Scope nat_scope.
Local Open Scope list_scope.

(** ** Characters *)

Definition blank_text (t : text) : Prop := Forall (eq " "%char) t.

(** Tabulator, line ends, the separators 28 to 31, blank. *)
Definition white_char (c : ascii) : Prop := 9 <= nat_of_ascii c <= 13 \/ 28 <= nat_of_ascii c <= 32.
Definition white_text (t : text) : Prop := Forall white_char t.

Definition word_char (c : ascii) : Prop :=
  48 <= nat_of_ascii c <= 57 \/ 65 <= nat_of_ascii c <= 90 \/ 97 <= nat_of_ascii c <= 122 \/ c = "_"%char.

Definition not_first (P : ascii -> Prop) (t : text) : Prop := forall c r, t = c :: r -> ~ P c.
Definition not_last (P : ascii -> Prop) (t : text) : Prop := forall c r, t = r ++ [c] -> ~ P c.

(** [core] is what is left of [t] without the characters of [P] at both ends. *)
Definition within (P : ascii -> Prop) (t core : text) : Prop :=
  exists a b, t = a ++ core ++ b /\ Forall P a /\ Forall P b /\ not_first P core /\ not_last P core.

(** ** Integers: white space around, a sign, digits with single underscores between them. *)

Definition digit (c : ascii) : Prop := 48 <= nat_of_ascii c <= 57.

Inductive spelled : text -> text -> Prop :=
| sp_one : forall c, digit c -> spelled [c] [c]
| sp_next : forall c t ds, digit c -> spelled t ds -> spelled (c :: t) (c :: ds)
| sp_under : forall c t ds, digit c -> spelled t ds -> spelled (c :: "_"%char :: t) (c :: ds).

(** A sign and whether it is a minus. *)
Inductive sign_text : text -> bool -> Prop :=
| no_sign : sign_text [] false
| plus_sign : sign_text ["+"%char] false
| minus_sign : sign_text ["-"%char] true.

Definition integer_text (t : text) (z : Z) : Prop :=
  exists a sg neg body ds b, t = a ++ sg ++ body ++ b /\ white_text a /\ white_text b /\
    sign_text sg neg /\ spelled body ds /\ z = (if neg then - decimal_value ds else decimal_value ds)%Z.

(** ** Values *)

(** Two quotes stand for one. *)
Inductive unquoted : text -> text -> Prop :=
| uq_end : unquoted [] []
| uq_pair : forall t u, unquoted t u -> unquoted (quote :: quote :: t) (quote :: u)
| uq_one : forall t u, not_first (eq quote) t -> unquoted t u -> unquoted (quote :: t) (quote :: u)
| uq_char : forall c t u, c <> quote -> unquoted t u -> unquoted (c :: t) (c :: u).

Definition in_quotes (s : text) : Prop := exists b, s = quote :: b ++ [quote].
Definition like_float (s : text) : Prop := In "."%char s \/ In "e"%char s \/ In "E"%char s.

Section Values.
Context {F : Type}.
Variable float_text : text -> F -> Prop.

(** One value of a list. *)
Inductive item_value : text -> value F -> Prop :=
| iv_string : forall b u, unquoted b u -> item_value (quote :: b ++ [quote]) (Vstr u)
| iv_float : forall s x, ~ in_quotes s -> like_float s -> float_text s x -> item_value s (Vfloat x)
| iv_int : forall s z, ~ in_quotes s -> ~ like_float s -> integer_text s z -> item_value s (Vint z).

Definition separator (c : ascii) : Prop := c = " "%char \/ c = ","%char.

(** The items of a list: between two of them a comma or a blank, and the blanks after it. *)
Inductive separated : text -> list text -> Prop :=
| sep_one : forall s, Forall (fun c => ~ separator c) s -> separated s [s]
| sep_more : forall s c b t l, Forall (fun c => ~ separator c) s -> separator c -> blank_text b ->
    not_first (eq " "%char) t -> separated t l -> separated (s ++ c :: b ++ t) (s :: l).

(** A quote, blanks and a quote begin here. *)
Definition gap (t : text) : Prop := exists b r, b <> [] /\ blank_text b /\ t = quote :: b ++ quote :: r.

(** The parts of a text between the gaps, the first gap being taken first. *)
Inductive parted : text -> list text -> Prop :=
| pt_last : forall s, (forall a t, s = a ++ t -> ~ gap t) -> parted s [s]
| pt_more : forall s b t l, b <> [] -> blank_text b ->
    (forall a c s', s = a ++ c :: s' -> ~ gap (c :: s' ++ quote :: b ++ quote :: t)) ->
    parted t l -> parted (s ++ quote :: b ++ quote :: t) (s :: l).

Definition trimmed_end (s u : text) : Prop := exists w, s = u ++ w /\ white_text w /\ not_last white_char u.

(** What stands between the brackets or braces. *)
Inductive values : ascii -> text -> list (value F) -> Prop :=
| vl_list : forall inner core items vs, within separator inner core -> separated core items ->
    Forall2 item_value items vs -> values "["%char inner vs
| vl_strings : forall inner core core' parts us, within separator inner core -> within (eq quote) core core' ->
    parted core' parts -> Forall2 trimmed_end parts us -> values "{"%char inner (map (@Vstr F) us).

Definition closes (o c : ascii) : Prop := (o = "["%char /\ c = "]"%char) \/ (o = "{"%char /\ c = "}"%char).

(** ** Entries *)

(** Key and beginning of the value, of a line without comments. *)
Definition head_line (l key val : text) : Prop :=
  exists b1 b2 b3 b4 e, l = b1 ++ key ++ b2 ++ "="%char :: b3 ++ val ++ b4 ++ e /\
    blank_text b1 /\ blank_text b2 /\ blank_text b3 /\ blank_text b4 /\ (e = [] \/ e = [newline]) /\
    Forall word_char key /\ no_line_end val /\ not_first (eq " "%char) val /\ not_last (eq " "%char) val.

(** Further lines are added, without their comments and the white space at their end, until
    there is a closing delimiter.  [joined c t ls w ls']: t becomes w, ls' are the lines left. *)
Inductive joined (c : ascii) : text -> list text -> text -> list text -> Prop :=
| jn_done : forall t ls, In c t -> joined c t ls t ls
| jn_more : forall t l u v ls w ls', ~ In c t -> strips l u -> trimmed_end u v ->
    joined c (t ++ " "%char :: v) ls w ls' -> joined c t (l :: ls) w ls'.

Inductive entries : list text -> list (text * list (value F)) -> Prop :=
| en_end : entries [] []
| en_blank : forall l u ls es, strips l u -> white_text u -> entries ls es -> entries (l :: ls) es
| en_entry : forall l u ls key o c val inner ls' vs es,
    strips l u -> head_line u key (o :: val) -> closes o c ->
    joined c (o :: val) ls (o :: inner ++ [c; ";"%char]) ls' -> values o inner vs ->
    entries ls' es -> entries (l :: ls) ((key, vs) :: es).

(** The lines of a text, with their ends. *)
Definition text_lines (t : text) (ls : list text) : Prop :=
  t = concat ls /\
  exists whole rest, ls = whole ++ rest /\ Forall (fun l => exists b, l = b ++ [newline] /\ no_line_end b) whole /\
    (rest = [] \/ exists b, rest = [b] /\ b <> [] /\ no_line_end b).

Definition meta_file (t : text) (es : list (text * list (value F))) : Prop :=
  exists ls, text_lines t ls /\ entries ls es.

End Values.

(** The value of a key given several times is the last one. *)
Definition last_value {A} (es : list (text * A)) (k : text) : option A := dget (rev es) k.
