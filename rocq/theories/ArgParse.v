(** The argument parsers (create_parser) of the five commands, and what parse_args of
    CPython 3.11's argparse does with them: mkgrid.py:12-42, regrid.py:13-64,
    addfringe.py:13-42, stitch.py:12-41, getobcs.py:19-64. *)
From Coq Require Import Ascii String List Bool PeanoNat ZArith.
Import ListNotations.
From Flocq Require Import IEEE754.Binary IEEE754.Bits.
From Verif Require Import MdsMeta PyFloat.
Set Implicit Arguments.
Local Open Scope nat_scope.
Local Open Scope list_scope.

(** ** Conversions: type=int, type=float *)

(** Underscores are dropped where a digit stands on either side; elsewhere they are an
    error.  [before] says whether the last character was a digit. *)
Fixpoint drop_underscores (before : bool) (l : text) : option text :=
  match l with
  | [] => Some []
  | c :: r =>
      if Ascii.eqb c "_"
      then match r with
           | d :: _ => if before && is_digit d then drop_underscores false r else None
           | [] => None
           end
      else option_map (cons c) (drop_underscores (is_digit c) r)
  end.

(** float(s) of an argument. *)
Definition float_arg (t : text) : option binary64 :=
  match drop_underscores false t with Some u => py_float u | None => None end.

(** ** Parsers *)

Inductive optkind := OText | OInt | OFloat | OFlag | OHelp.

(** One call of add_argument: the option strings, the attribute of the result, the type (or
    action='store_true') and required. *)
Record opt := mk_opt { o_names : list text; o_dest : text; o_kind : optkind; o_required : bool }.

Definition value_opt (name : string) (k : optkind) (required : bool) : opt :=
  mk_opt [lit "--" ++ lit name] (lit name) k required.
Definition flag_opt (short name : string) : opt :=
  mk_opt [lit "-" ++ lit short; lit "--" ++ lit name] (lit name) OFlag false.
Definition help_opt : opt := mk_opt [lit "-h"; lit "--help"] (lit "help") OHelp false.

Definition parser := list opt.

(** mkgrid.py:24-41 *)
Definition mkgrid_parser : parser :=
  [ help_opt;
    value_opt "lon1" OFloat false; value_opt "lat1" OFloat false;
    value_opt "lon2" OFloat false; value_opt "lat2" OFloat false;
    value_opt "lon_subscale" OInt false; value_opt "lat_subscale" OInt false;
    value_opt "outfile" OText false;
    flag_opt "v" "verbose" ].

(** regrid.py:26-63 *)
Definition regrid_parser : parser :=
  [ help_opt;
    value_opt "mitgridfile" OText false; value_opt "xg_file" OText false; value_opt "yg_file" OText false;
    value_opt "ni" OInt true; value_opt "nj" OInt true;
    value_opt "lon1" OFloat true; value_opt "lat1" OFloat true;
    value_opt "lon2" OFloat true; value_opt "lat2" OFloat true;
    value_opt "lon_subscale" OInt true; value_opt "lat_subscale" OInt true;
    value_opt "outfile" OText true;
    flag_opt "s" "strict"; flag_opt "v" "verbose" ].

(** addfringe.py:21-41 and stitch.py:18-40, which differ in the help texts only. *)
Definition tiles_parser : parser :=
  [ help_opt;
    value_opt "tilea" OText true; value_opt "nia" OInt true; value_opt "nja" OInt true;
    value_opt "tileb" OText true; value_opt "nib" OInt true; value_opt "njb" OInt true;
    value_opt "outfile" OText true;
    flag_opt "s" "strict"; flag_opt "v" "verbose" ].

(** getobcs.py:26-63 *)
Definition getobcs_parser : parser :=
  [ help_opt;
    value_opt "parent_mitgridfile" OText true;
    value_opt "ni_parent" OInt true; value_opt "nj_parent" OInt true;
    value_opt "regional_mitgridfile" OText true;
    value_opt "ni_regional" OInt true; value_opt "nj_regional" OInt true;
    value_opt "parent_resultsdir" OText true;
    value_opt "OB_Jnorth" OInt false; value_opt "OB_Jsouth" OInt false;
    value_opt "OB_Ieast" OInt false; value_opt "OB_Iwest" OInt false;
    value_opt "resultsdir" OText true;
    flag_opt "s" "strict"; flag_opt "v" "verbose" ].

(** _option_string_actions, in the order of its keys. *)
Definition option_strings (p : parser) : list (text * opt) :=
  flat_map (fun o => map (fun n => (n, o)) (o_names o)) p.

Definition takes_value (o : opt) : bool :=
  match o_kind o with OFlag | OHelp => false | _ => true end.

(** ** Sorting the arguments into options and values *)

Fixpoint starts_with (pre l : text) : bool :=
  match pre, l with
  | [], _ => true
  | c :: pre', d :: l' => Ascii.eqb c d && starts_with pre' l'
  | _, [] => false
  end.

(** partition at the first equals sign *)
Fixpoint split_eq (l : text) : text * option text :=
  match l with
  | [] => ([], None)
  | c :: r => if Ascii.eqb c "=" then ([], Some r)
              else let (a, b) := split_eq r in (c :: a, b)
  end.

Definition newline : ascii := ascii_of_nat 10.

(** What $ matches. *)
Definition at_end (l : text) : bool :=
  match l with [] => true | [c] => Ascii.eqb c newline | _ => false end.

(** _negative_number_matcher, ^-\d+$|^-\d*\.\d+$, for texts of ASCII characters *)
Definition negative_number (l : text) : bool :=
  match l with
  | m :: l1 =>
      Ascii.eqb m "-" &&
      (let '(_, n, l2) := take_digits 0 0 l1 in
       (negb (n =? 0) && at_end l2) ||
       match l2 with
       | d :: l3 => Ascii.eqb d "." &&
           (let '(_, k, l4) := take_digits 0 0 l3 in negb (k =? 0) && at_end l4)
       | [] => false
       end)
  | [] => false
  end.

Definition is_dash (c : ascii) : bool := Ascii.eqb c "-".

(** An option string with two dashes. *)
Definition long (n : text) : bool := match n with _ :: d :: _ => is_dash d | _ => false end.

(** An argument string is an option; or an option with a value in the same string (the third
    component of [TWith]: after an equals sign); or looks like an option but is none; or is a
    value; or is the two dashes after which all are values. *)
Inductive token :=
| TOption (o : opt)
| TWith (o : opt) (two_dashes sep : bool) (e : text)
| TUnknown
| TValue
| TDashes.

(** _get_option_tuples *)
Definition candidates (p : parser) (l : text) : list token :=
  match l with
  | c :: d :: r =>
      if is_dash d
      then let (pre, e) := split_eq l in
           map (fun no => match e with
                          | Some e => TWith (snd no) (long (fst no)) true e
                          | None => TOption (snd no)
                          end)
               (filter (fun no => starts_with pre (fst no)) (option_strings p))
      else flat_map (fun no =>
             if text_eqb (fst no) [c; d] then [TWith (snd no) (long (fst no)) false r]
             else if starts_with l (fst no) then [TOption (snd no)]
             else []) (option_strings p)
  | _ => []
  end.

Definition with_equals (p : parser) (l : text) : option token :=
  match split_eq l with
  | (n, Some e) => option_map (fun o => TWith o (long n) true e) (dget (option_strings p) n)
  | (_, None) => None
  end.

(** _parse_optional; None: the option is ambiguous, which is an error. *)
Definition classify (p : parser) (l : text) : option token :=
  match l with
  | [] => Some TValue
  | c :: r =>
      if negb (is_dash c) then Some TValue
      else match dget (option_strings p) l with
      | Some o => Some (TOption o)
      | None =>
          if length r =? 0 then Some TValue
          else match with_equals p l with
          | Some t => Some t
          | None =>
              match candidates p l with
              | [t] => Some t
              | [] => Some (if negative_number l || existsb (Ascii.eqb " ") l then TValue else TUnknown)
              | _ => None
              end
          end
      end
  end.

(** The first loop of _parse_known_args. *)
Fixpoint tokens (p : parser) (l : list text) : option (list (text * token)) :=
  match l with
  | [] => Some []
  | a :: r =>
      if text_eqb a (lit "--")
      then Some ((a, TDashes) :: map (fun b => (b, TValue)) r)
      else match classify p a, tokens p r with
           | Some t, Some ts => Some ((a, t) :: ts)
           | _, _ => None
           end
  end.

(** ** Taking the actions *)

(** A value of an attribute of the result.  Attributes that were not given are None, or False
    for a flag. *)
Inductive argval := AText (t : text) | AInt (z : Z) | AFloat (x : binary64) | ATrue.

(** The attributes given, the latest first. *)
Definition namespace := list (text * argval).

(** sys.exit(code), or the result. *)
Inductive parsed (A : Type) := Exit (code : Z) | Parsed (a : A).
Arguments Exit {A}. Arguments Parsed {A}.

Definition usage {A} : parsed A := Exit 2.

(** _get_value *)
Definition convert (k : optkind) (t : text) : option argval :=
  match k with
  | OText => Some (AText t)
  | OInt => option_map AInt (int_of_text t)
  | OFloat => option_map AFloat (float_arg t)
  | OFlag | OHelp => None
  end.

(** take_action; an action with its argument string, if it takes one. *)
Definition take (ns : namespace) (o : opt) (arg : option text) : parsed namespace :=
  match o_kind o, arg with
  | OHelp, _ => Exit 0
  | OFlag, _ => Parsed ((o_dest o, ATrue) :: ns)
  | k, Some t =>
      match convert k t with
      | Some v => Parsed ((o_dest o, v) :: ns)
      | None => usage
      end
  | _, None => usage
  end.

Fixpoint take_all (ns : namespace) (l : list (opt * option text)) : parsed namespace :=
  match l with
  | [] => Parsed ns
  | (o, a) :: r =>
      match take ns o a with
      | Exit c => Exit c
      | Parsed ns' => take_all ns' r
      end
  end.

(** The loop of consume_optional for an option string with a value in it: the actions to be
    taken; with a rest of the string that is no option; with one more action whose argument,
    if it takes one, is the next argument string; or an error. *)
Inductive use :=
| UAll (l : list (opt * option text))
| URest (l : list (opt * option text))
| UNext (l : list (opt * option text)) (o : opt)
| UError.

Definition use_cons (a : opt * option text) (u : use) : use :=
  match u with
  | UAll l => UAll (a :: l)
  | URest l => URest (a :: l)
  | UNext l o => UNext (a :: l) o
  | UError => UError
  end.

Fixpoint explicit (p : parser) (o : opt) (two_dashes sep : bool) (e : text) : use :=
  if takes_value o then UAll [(o, Some e)]
  else match e with
  | [] => UError
  | c :: r =>
      if two_dashes || sep || is_dash c then UError
      else match dget (option_strings p) ["-"%char; c] with
      | None => URest [(o, None)]
      | Some o' =>
          use_cons (o, None)
            match r with
            | [] => UNext [] o'
            | d :: r' => if Ascii.eqb d "=" then explicit p o' false true r' else explicit p o' false false r
            end
      end
  end.

(** The loop of _parse_known_args over the options; no positional arguments are defined, so a
    value or option not used by an option is an extra.  The result says whether there are
    extras. *)
Fixpoint consume (p : parser) (l : list (text * token)) (extra : bool) (ns : namespace)
    : parsed (namespace * bool) :=
  match l with
  | [] => Parsed (ns, extra)
  | (a, t) :: r =>
      match t with
      | TUnknown | TValue | TDashes => consume p r true ns
      | TOption o =>
          if takes_value o
          then match r with
               | (v, TValue) :: r' =>
                   match take ns o (Some v) with
                   | Exit c => Exit c
                   | Parsed ns' => consume p r' extra ns'
                   end
               | _ => usage
               end
          else match take ns o None with
               | Exit c => Exit c
               | Parsed ns' => consume p r extra ns'
               end
      | TWith o two_dashes sep e =>
          match explicit p o two_dashes sep e with
          | UError => usage
          | UAll us =>
              match take_all ns us with
              | Exit c => Exit c
              | Parsed ns' => consume p r extra ns'
              end
          | URest us =>
              match take_all ns us with
              | Exit c => Exit c
              | Parsed ns' => consume p r true ns'
              end
          | UNext us o' =>
              if takes_value o'
              then match r with
                   | (v, TValue) :: r' =>
                       match take_all ns (us ++ [(o', Some v)]) with
                       | Exit c => Exit c
                       | Parsed ns' => consume p r' extra ns'
                       end
                   | _ => usage
                   end
              else match take_all ns (us ++ [(o', None)]) with
                   | Exit c => Exit c
                   | Parsed ns' => consume p r extra ns'
                   end
          end
      end
  end.

Definition given (ns : namespace) (o : opt) : bool :=
  match dget ns (o_dest o) with Some _ => true | None => false end.

(** parse_args *)
Definition parse_args (p : parser) (argv : list text) : parsed namespace :=
  match tokens p argv with
  | None => usage
  | Some ts =>
      match consume p ts false [] with
      | Exit c => Exit c
      | Parsed (ns, extra) =>
          if forallb (fun o => negb (o_required o) || given ns o) p && negb extra
          then Parsed ns else usage
      end
  end.

(** ** Attributes of the result *)

Definition get_text (ns : namespace) (n : string) : option text :=
  match dget ns (lit n) with Some (AText t) => Some t | _ => None end.
Definition get_int (ns : namespace) (n : string) : option Z :=
  match dget ns (lit n) with Some (AInt z) => Some z | _ => None end.
Definition get_float (ns : namespace) (n : string) : option binary64 :=
  match dget ns (lit n) with Some (AFloat x) => Some x | _ => None end.
Definition get_flag (ns : namespace) (n : string) : bool :=
  match dget ns (lit n) with Some ATrue => true | _ => false end.
