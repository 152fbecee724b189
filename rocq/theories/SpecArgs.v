(** What a command line means, apart from how it is parsed. *)
From Coq Require Import Ascii String List Bool ZArith.
Import ListNotations.
From Flocq Require Import IEEE754.Binary IEEE754.Bits.
From Verif Require Import MdsMeta ArgParse Main.
Local Open Scope list_scope.

(** ** The options as documented (help texts, README.rst:96-252) *)

Inductive vtype := A_text | An_integer | A_double.

(** name, type and whether it must be given *)
Definition options_of (g : program) : list (string * vtype * bool) :=
  let corners req := [("lon1", A_double, req); ("lat1", A_double, req); ("lon2", A_double, req); ("lat2", A_double, req);
                      ("lon_subscale", An_integer, req); ("lat_subscale", An_integer, req);
                      ("outfile", A_text, req)]%string in
  match g with
  | Sgmkgrid => corners false
  | Sgregrid =>
      [("mitgridfile", A_text, false); ("xg_file", A_text, false); ("yg_file", A_text, false);
       ("ni", An_integer, true); ("nj", An_integer, true)]%string ++ corners true
  | Sgaddfringe | Sgstitch =>
      [("tilea", A_text, true); ("nia", An_integer, true); ("nja", An_integer, true);
       ("tileb", A_text, true); ("nib", An_integer, true); ("njb", An_integer, true);
       ("outfile", A_text, true)]%string
  | Sggetobcs =>
      [("parent_mitgridfile", A_text, true); ("ni_parent", An_integer, true); ("nj_parent", An_integer, true);
       ("regional_mitgridfile", A_text, true); ("ni_regional", An_integer, true); ("nj_regional", An_integer, true);
       ("parent_resultsdir", A_text, true);
       ("OB_Jnorth", An_integer, false); ("OB_Jsouth", An_integer, false);
       ("OB_Ieast", An_integer, false); ("OB_Iwest", An_integer, false);
       ("resultsdir", A_text, true)]%string
  end.

(** letter and name *)
Definition switches_of (g : program) : list (ascii * string) :=
  match g with
  | Sgmkgrid => [("v"%char, "verbose"%string)]
  | _ => [("s"%char, "strict"%string); ("v"%char, "verbose"%string)]
  end.

Definition dashed (n : text) : text := "-"%char :: "-"%char :: n.

(** Every word that is an option. *)
Definition words (g : program) : list text :=
  [lit "-h"; lit "--help"] ++ map (fun o => dashed (lit (fst (fst o)))) (options_of g) ++
  flat_map (fun s => [["-"%char; fst s]; dashed (lit (snd s))]) (switches_of g).

(** ** Words that stand for an option with two dashes: itself, or a beginning of it that is a
    beginning of no other. *)

Definition begins (w t : text) : Prop := exists r, t = w ++ r.

Definition stands_for (g : program) (w : text) (n : text) : Prop :=
  In (dashed n) (words g) /\
  (w = dashed n \/
   (exists r, w = dashed r /\ r <> [] /\ ~ In "="%char r) /\ begins w (dashed n) /\ ~ In w (words g) /\
   forall t, In t (words g) -> begins w t -> t = dashed n).

(** ** Words that are taken as values *)

Definition all_digits (l : text) : Prop := Forall (fun c => is_digit c = true) l.

(** -5, -.5, -5.25; a line feed may follow. *)
Definition negative (v : text) : Prop :=
  exists a b, v = "-"%char :: a ++ b /\ all_digits a /\
    exists f e, b = f ++ e /\ (e = [] \/ e = [newline]) /\
      ((f = [] /\ a <> []) \/ exists d, f = "."%char :: d /\ all_digits d /\ d <> []).

Definition letter (g : program) (c : ascii) : Prop := c = "h"%char \/ In c (map fst (switches_of g)).

(** The word would be taken for an option or several letters. *)
Definition like_option (g : program) (v : text) : Prop :=
  (exists w r t, v = dashed w ++ r /\ (r = [] \/ exists e, r = "="%char :: e) /\ ~ In "="%char w /\
     In t (words g) /\ begins (dashed w) t) \/
  (exists c r, v = "-"%char :: c :: r /\ letter g c).

Definition plain (g : program) (v : text) : Prop :=
  (forall r, v <> "-"%char :: r) \/ v = ["-"%char] \/ negative v \/ (In " "%char v /\ ~ like_option g v).

(** ** Command lines *)

(** The value a text is given for. *)
Inductive has_type : vtype -> text -> argval -> Prop :=
| text_value : forall v, has_type A_text v (AText v)
| integer_value : forall v z, int_of_text v = Some z -> has_type An_integer v (AInt z)
| double_value : forall v x, float_arg v = Some x -> has_type A_double v (AFloat x).

(** The pieces of a line: an option and its value, apart or joined by an equals sign; a
    switch; several switches as letters. *)
Inductive piece := Apart (w v : text) | Joined (w v : text) | Switch (w : text) | Letters (l : list ascii).

Definition written (i : piece) : list text :=
  match i with
  | Apart w v => [w; v]
  | Joined w v => [w ++ "="%char :: v]
  | Switch w => [w]
  | Letters l => ["-"%char :: l]
  end.

(** What a piece sets. *)
Inductive sets (g : program) : piece -> list (text * argval) -> Prop :=
| sets_apart : forall n ty req w v a,
    In (n, ty, req) (options_of g) -> stands_for g w (lit n) -> plain g v -> has_type ty v a ->
    sets g (Apart w v) [(lit n, a)]
| sets_joined : forall n ty req w v a,
    In (n, ty, req) (options_of g) -> stands_for g w (lit n) -> has_type ty v a ->
    sets g (Joined w v) [(lit n, a)]
| sets_switch : forall c n w,
    In (c, n) (switches_of g) -> stands_for g w (lit n) -> sets g (Switch w) [(lit n, ATrue)]
| sets_letters : forall l ns,
    l <> [] -> Forall2 (fun c n => In (c, n) (switches_of g)) l ns ->
    sets g (Letters l) (map (fun n => (lit n, ATrue)) ns).

(** A line with what it sets, in order; all that must be given is. *)
Definition line (g : program) (argv : list text) (given : list (text * argval)) : Prop :=
  exists ps gs, argv = flat_map written ps /\ Forall2 (sets g) ps gs /\ given = concat gs /\
    forall n ty, In (n, ty, true) (options_of g) -> In (lit n) (map fst given).

(** The value of an option: the one given last, if any. *)
Definition last_given (given : list (text * argval)) (n : string) : option argval := dget (rev given) (lit n).

(** ** Numbers as they are usually written *)

(** A sign if negative, digits, and a point with or without digits after it. *)
Definition decimal_text (neg : bool) (a : text) (point : bool) (b : text) : text :=
  (if neg then ["-"%char] else []) ++ a ++ (if point then "."%char :: b else []).
Definition decimal_parts (a : text) (point : bool) (b : text) : Prop :=
  all_digits a /\ all_digits b /\ a ++ b <> [] /\ (point = false -> b = []).
