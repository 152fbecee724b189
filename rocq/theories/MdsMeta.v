(** mds.py, the text side: comment stripping, the meta file parser and writer, and the scan
    for iteration numbers.  Texts are lists of ASCII characters; characters outside ASCII
    (which Python would decode and classify by Unicode rules) are not modelled. *)
From Coq Require Import Ascii String List Bool PeanoNat ZArith Init.Byte.
Import ListNotations.
From Verif Require Import Prelude.
Set Implicit Arguments.
Local Open Scope nat_scope.
Local Open Scope list_scope.

Definition text := list ascii.
Definition lit (s : string) : text := list_ascii_of_string s.
Definition newline : ascii := "010"%char.
Definition quote : ascii := "'"%char.
Definition dquote : ascii := """"%char.
Definition text_eqb (a b : text) : bool := if list_eq_dec ascii_dec a b then true else false.
Definition has (c : ascii) (l : text) : bool := existsb (Ascii.eqb c) l.

(** str.isspace and the regular expression \s on ASCII. *)
Definition is_space (c : ascii) : bool :=
  let n := nat_of_ascii c in
  ((9 <=? n) && (n <=? 13)) || ((28 <=? n) && (n <=? 32)).
Definition is_digit (c : ascii) : bool :=
  let n := nat_of_ascii c in (48 <=? n) && (n <=? 57).
(** The regular expression \w on ASCII. *)
Definition is_word (c : ascii) : bool :=
  let n := nat_of_ascii c in
  is_digit c || ((65 <=? n) && (n <=? 90)) || ((97 <=? n) && (n <=? 122)) || (n =? 95).

(** s.lstrip, s.rstrip, s.strip for a set of characters. *)
Fixpoint lstrip (p : ascii -> bool) (l : text) : text :=
  match l with
  | c :: r => if p c then lstrip p r else l
  | [] => []
  end.
Definition rstrip (p : ascii -> bool) (l : text) : text := rev (lstrip p (rev l)).
Definition strip (p : ascii -> bool) (l : text) : text := rstrip p (lstrip p l).

(** ** Comments (mds.py:35-49)

    The pattern of mds.py:35-38 is tried at each position in turn; its alternatives are a
    // comment, a block comment, and a string in single or double quotes, in which a
    backslash takes the next character with it.  Each alternative can match in only one way:
    the lazy ones stop at the first line end or the first end of a block comment, and inside
    a string every character is read in only one way. *)

(** What follows a // comment: from the next line end (or the end of the text) on. *)
Fixpoint after_line (l : text) : text :=
  match l with
  | c :: r => if Ascii.eqb c newline then l else after_line r
  | [] => []
  end.

(** What follows the first star-slash. *)
Fixpoint after_block (l : text) : option text :=
  match l with
  | c :: r =>
      if Ascii.eqb c "*" then
        match r with
        | d :: r' => if Ascii.eqb d "/" then Some r' else after_block r
        | [] => None
        end
      else after_block r
  | [] => None
  end.

(** The rest of a string quoted by [q], up to and including the closing quote, and what
    follows. *)
Fixpoint string_body (q : ascii) (l : text) : option (text * text) :=
  match l with
  | c :: r =>
      if Ascii.eqb c q then Some ([c], r)
      else if Ascii.eqb c "\" then
        match r with
        | d :: r' =>
            match string_body q r' with
            | Some (b, t) => Some (c :: d :: b, t)
            | None => None
            end
        | [] => None
        end
      else
        match string_body q r with
        | Some (b, t) => Some (c :: b, t)
        | None => None
        end
  | [] => None
  end.

(** One step of re.sub at a non-empty text: what is put out and where to go on. *)
Definition comment_step (c : ascii) (r : text) : text * text :=
  if Ascii.eqb c "/" then
    match r with
    | d :: r' =>
        if Ascii.eqb d "/" then ([], after_line r')
        else if Ascii.eqb d "*" then
          match after_block r' with
          | Some t => ([], t)
          | None => ([c], r)
          end
        else ([c], r)
    | [] => ([c], r)
    end
  else if Ascii.eqb c quote || Ascii.eqb c dquote then
    match string_body c r with
    | Some (b, t) => (c :: b, t)
    | None => ([c], r)
    end
  else ([c], r).

Fixpoint strip_loop (fuel : nat) (l : text) : text :=
  match fuel, l with
  | S k, c :: r => let (out, t) := comment_step c r in out ++ strip_loop k t
  | _, _ => []
  end.

(** mds.py:47-49 strip_comments; each step consumes a character, so the length is fuel
    enough. *)
Definition strip_comments (l : text) : text := strip_loop (length l) l.

(** ** Integers *)

Definition digit_char (d : N) : ascii := ascii_of_N (48 + d).
Definition digit_val (c : ascii) : N := (N_of_ascii c - 48)%N.

Fixpoint dec_loop (fuel : nat) (n : N) : text :=
  match fuel with
  | O => []
  | S k => (if (n <? 10)%N then [] else dec_loop k (n / 10)%N) ++ [digit_char (n mod 10)%N]
  end.

(** The decimal digits of n; the size in bits is fuel enough. *)
Definition dec_text (n : N) : text := dec_loop (S (N.size_nat n)) n.

(** '{:d}'.format *)
Definition int_text (z : Z) : text :=
  match z with
  | Z0 => dec_text 0
  | Zpos p => dec_text (Npos p)
  | Zneg p => "-"%char :: dec_text (Npos p)
  end.

Definition padl (c : ascii) (w : nat) (l : text) : text := repeat c (w - length l) ++ l.
Definition padr (c : ascii) (w : nat) (l : text) : text := l ++ repeat c (w - length l).

(** '{:wd}'.format: right-aligned in at least w characters. *)
Definition fmt_d (w : nat) (z : Z) : text := padl " " w (int_text z).

(** '{:0wd}'.format: zeros between the sign and the digits. *)
Definition fmt_0d (w : nat) (z : Z) : text :=
  match z with
  | Zneg p => "-"%char :: padl "0" (w - 1) (dec_text (Npos p))
  | _ => padl "0" w (int_text z)
  end.

(** Digits with single underscores between them, as int() accepts. *)
Fixpoint digits_loop (acc : N) (after_digit : bool) (l : text) : option N :=
  match l with
  | [] => if after_digit then Some acc else None
  | c :: r =>
      if is_digit c then digits_loop (10 * acc + digit_val c)%N true r
      else if Ascii.eqb c "_" && after_digit then digits_loop acc false r
      else None
  end.

(** int(s) of a string: surrounding white space, a sign, digits. *)
Definition int_of_text (s : text) : option Z :=
  match strip is_space s with
  | c :: r =>
      if Ascii.eqb c "-" then option_map (fun n => (- Z.of_N n)%Z) (digits_loop 0 false r)
      else if Ascii.eqb c "+" then option_map Z.of_N (digits_loop 0 false r)
      else option_map Z.of_N (digits_loop 0 false (c :: r))
  | [] => None
  end.

(** ** Parsing (mds.py:52-133) *)

Inductive value (F : Type) : Type :=
| Vint (z : Z)
| Vfloat (x : F)
| Vstr (s : text).
Arguments Vint {F}. Arguments Vfloat {F}. Arguments Vstr {F}.

(** The dictionary parsemeta returns, in insertion order. *)
Definition metadict (F : Type) := list (text * list (value F)).

Fixpoint dget {A} (d : list (text * A)) (k : text) : option A :=
  match d with
  | [] => None
  | (k', v) :: r => if text_eqb k k' then Some v else dget r k
  end.

Fixpoint dset {A} (d : list (text * A)) (k : text) (v : A) : list (text * A) :=
  match d with
  | [] => [(k, v)]
  | (k', v') :: r => if text_eqb k k' then (k', v) :: r else (k', v') :: dset r k v
  end.

Definition dpop {A} (d : list (text * A)) (k : text) : list (text * A) :=
  filter (fun kv => negb (text_eqb k (fst kv))) d.

Section Parse.
Context {F : Type}.
(** float(s) of a string; None is ValueError. *)
Variable float_of : text -> option F.

(** Two quotes become one (mds.py:60). *)
Fixpoint unquote (l : text) : text :=
  match l with
  | c :: r =>
      if Ascii.eqb c quote then
        match r with
        | d :: r' => if Ascii.eqb d quote then quote :: unquote r' else c :: unquote r
        | [] => [c]
        end
      else c :: unquote r
  | [] => []
  end.

(** The match of the string pattern (mds.py:52-57): a first and a distinct last quote; the texts
    parse1 is applied to contain no line end. *)
Definition quoted (s : text) : option text :=
  match s with
  | c :: r =>
      if Ascii.eqb c quote then
        match rev r with
        | d :: b => if Ascii.eqb d quote then Some (rev b) else None
        | [] => None
        end
      else None
  | [] => None
  end.

(** mds.py:54-69 parse1 *)
Definition parse1 (s : text) : res (value F) :=
  match quoted s with
  | Some b => Ok (Vstr (unquote b))
  | None =>
      if has "." s || has "e" s || has "E" s
      then match float_of s with
           | Some x => Ok (Vfloat x)
           | None => Err (ValueError "could not convert string to float")
           end
      else match int_of_text s with
           | Some z => Ok (Vint z)
           | None => Err ParseError
           end
  end.

(** The split at a comma or blank and the blanks after it (mds.py:125); [cur] holds the
    current piece, reversed. *)
Fixpoint split_items (cur : text) (skip : bool) (l : text) : list text :=
  match l with
  | [] => [rev cur]
  | c :: r =>
      if Ascii.eqb c " " && skip then split_items cur true r
      else if Ascii.eqb c " " || Ascii.eqb c "," then rev cur :: split_items [] true r
      else split_items (c :: cur) false r
  end.

(** One or more blanks and then a quote: what follows. *)
Fixpoint blanks_quote (some : bool) (l : text) : option text :=
  match l with
  | c :: r =>
      if Ascii.eqb c " " then blanks_quote true r
      else if Ascii.eqb c quote && some then Some r else None
  | [] => None
  end.

(** The split at quote, blanks, quote (mds.py:128). *)
Fixpoint split_strings (fuel : nat) (cur : text) (l : text) : list text :=
  match fuel, l with
  | S k, c :: r =>
      match (if Ascii.eqb c quote then blanks_quote false r else None) with
      | Some t => rev cur :: split_strings k [] t
      | None => split_strings k (c :: cur) r
      end
  | _, _ => [rev cur]
  end.

(** The match of mds.py:94-98: blanks, a word, blanks, an equals sign, blanks, a text, blanks;
    gives key and value.  A line read from a file has no line end but its last character. *)
Definition match_line (line : text) : option (text * text) :=
  let l := match rev line with
           | c :: b => if Ascii.eqb c newline then rev b else line
           | [] => line
           end in
  if has newline l then None else
  let l1 := lstrip (Ascii.eqb " ") l in
  let key := firstn (length l1 - length (lstrip is_word l1)) l1 in
  match lstrip (Ascii.eqb " ") (lstrip is_word l1) with
  | c :: r =>
      if Ascii.eqb c "="
      then Some (key, rstrip (Ascii.eqb " ") (lstrip (Ascii.eqb " ") r))
      else None
  | [] => None
  end.

(** mds.py:107-114: lines are appended until the closing delimiter is found. *)
Fixpoint gather (closing : ascii) (line : text) (rest : list text) : res (text * list text) :=
  if has closing line then Ok (line, rest)
  else match rest with
       | [] => Err ParseError
       | n :: r => gather closing (line ++ " "%char :: rstrip is_space (strip_comments n)) r
       end.

(** mds.py:74,100-105 *)
Definition closing_of (line : text) : res ascii :=
  match line with
  | [] => Err IndexError
  | c :: _ => if Ascii.eqb c "[" then Ok "]"%char
              else if Ascii.eqb c "{" then Ok "}"%char
              else Err ParseError
  end.

(** [parse1(s) for s in l] *)
Fixpoint mapM {A B} (f : A -> res B) (l : list A) : res (list B) :=
  match l with
  | [] => Ok []
  | x :: r => y <- f x ;; ys <- mapM f r ;; Ok (y :: ys)
  end.

(** mds.py:116-128: the value of a complete entry. *)
Definition entry_value (opening closing : ascii) (line : text) : res (list (value F)) :=
  if negb (text_eqb (skipn (length line - 2) line) [closing; ";"%char]) then Err ParseError
  else
    let inner := strip (fun c => Ascii.eqb c " " || Ascii.eqb c ",")
                   (firstn (length line - 2 - 1) (skipn 1 line)) in
    if Ascii.eqb opening "["
    then mapM parse1 (split_items [] false inner)
    else let b := strip (Ascii.eqb quote) inner in
         Ok (map (fun s => Vstr (rstrip is_space s)) (split_strings (length b) [] b)).

(** The loop mds.py:86-131; every round consumes a line. *)
Fixpoint parse_loop (fuel : nat) (lines : list text) (d : metadict F) : res (metadict F) :=
  match fuel, lines with
  | S k, l :: rest =>
      let line := strip_comments l in
      if forallb is_space line then parse_loop k rest d
      else
        match match_line line with
        | None => Err ParseError
        | Some (key, val) =>
            closing <- closing_of val ;;
            ' (whole, rest') <- gather closing val rest ;;
            v <- entry_value (hd " "%char whole) closing whole ;;
            parse_loop k rest' (dset d key v)
        end
  | _, _ => Ok d
  end.

(** Iterating over a text file: lines with their line ends.  Other line ends than LF, which
    open() would translate, are not modelled. *)
Fixpoint lines_from (cur : text) (l : text) : list text :=
  match l with
  | [] => match cur with [] => [] | _ => [rev cur] end
  | c :: r => if Ascii.eqb c newline then rev (c :: cur) :: lines_from [] r
              else lines_from (c :: cur) r
  end.
Definition lines_of (l : text) : list text := lines_from [] l.

(** mds.py:76-133 parsemeta, of the text of the file. *)
Definition parsemeta (content : text) : res (metadict F) :=
  let lines := lines_of content in parse_loop (length lines) lines [].

End Parse.

(** ** The meta file written by wrmds (mds.py:563-602)

    times and deltat are left at None ([WrMds] has them), so no timeInterval entry is written. *)

Fixpoint join (sep : text) (l : list text) : text :=
  match l with
  | [] => []
  | [x] => x
  | x :: r => x ++ sep ++ join sep r
  end.

(** One line of dimList, mds.py:570-578. *)
Definition dim_line (w : nat) (d : nat) : text :=
  fmt_d w (Z.of_nat d) ++ [","%char] ++ fmt_d w 1 ++ [","%char] ++ fmt_d w (Z.of_nat d).

(** mds.py:570-573; max of an empty tuple raises.  10000 is compared in Z. *)
Definition dim_width (dims : list nat) : res nat :=
  match dims with
  | [] => Err (ValueError "max() arg is an empty sequence")
  | _ => Ok (if (Z.of_nat (list_max dims) <? 10000)%Z then 5 else 10)
  end.

(** The rows of at most twenty names, mds.py:597-601. *)
Fixpoint field_rows (fuel : nat) (fs : list text) : text :=
  match fuel, fs with
  | S k, _ :: _ =>
      flat_map (fun f => lit " '" ++ padr " " 8 f ++ [quote]) (firstn 20 fs)
      ++ [newline] ++ field_rows k (skipn 20 fs)
  | _, _ => []
  end.

Definition meta_text (ndims : nat) (dims : list nat) (dataprec : text) (nrec : nat)
    (itr : option Z) (fields : option (list text)) (simulation : option text) : res text :=
  w <- dim_width dims ;;
  Ok (match simulation with
      | Some s => lit " simulation = { '" ++ s ++ lit "' };" ++ [newline]
      | None => []
      end
      ++ lit " nDims = [ " ++ fmt_d 3 (Z.of_nat ndims) ++ lit " ];" ++ [newline]
      ++ lit " dimList = [" ++ [newline] ++ [" "%char]
      ++ join ([","%char] ++ [newline] ++ [" "%char]) (map (dim_line w) dims)
      ++ [newline] ++ lit " ];" ++ [newline]
      ++ lit " dataprec = [ '" ++ dataprec ++ lit "' ];" ++ [newline]
      ++ lit " nrecords = [ " ++ fmt_d 5 (Z.of_nat nrec) ++ lit " ];" ++ [newline]
      ++ match itr with
         | Some i => lit " timeStepNumber = [ " ++ fmt_d 10 i ++ lit " ];" ++ [newline]
         | None => []
         end
      ++ match fields with
         | Some fs =>
             lit " nFlds = [ " ++ fmt_d 4 (Z.of_nat (length fs)) ++ lit " ];" ++ [newline]
             ++ lit " fldList = {" ++ [newline]
             ++ field_rows (length fs) fs
             ++ lit " };" ++ [newline]
         | None => []
         end).

(** ** scanforfiles (mds.py:158-170) *)

(** A directory: names and contents, in the order glob.glob happens to list them. *)
Definition directory := list (text * list byte).
Definition names (fs : directory) : list text := map fst fs.

(** glob.glob and fnmatch.translate (Lib/glob.py, Lib/fnmatch.py of CPython).  A pattern is
    matched part by part between the slashes; a directory is listed by the path names of its
    files, without doubled slashes. *)

(** One element of a pattern: a character, ?, *, and a set of characters, given by ranges,
    with or without ! in front. *)
Inductive tok := TLit (c : ascii) | TAny | TStar | TSet (neg : bool) (l : list (ascii * ascii)).

(** The length of the text up to the first closing bracket. *)
Fixpoint to_bracket (p : text) : option nat :=
  match p with
  | [] => None
  | c :: r => if Ascii.eqb c "]" then Some 0 else option_map S (to_bracket r)
  end.
(** The length of the text of a set, given what follows the opening bracket: a closing
    bracket at the start, or after ! at the start, belongs to the set. *)
Definition set_length (p : text) : option nat :=
  match p with
  | [] => None
  | c :: r =>
      if Ascii.eqb c "!"
      then match r with [] => None | _ :: r' => option_map (Nat.add 2) (to_bracket r') end
      else option_map S (to_bracket r)
  end.
Fixpoint set_ranges (b : text) : list (ascii * ascii) :=
  match b with
  | [] => []
  | c :: t =>
      match t with
      | d :: e :: r => if Ascii.eqb d "-" then (c, e) :: set_ranges r else (c, c) :: set_ranges t
      | _ => (c, c) :: set_ranges t
      end
  end.
Definition set_tok (b : text) : tok :=
  match b with
  | c :: r => if Ascii.eqb c "!" then TSet true (set_ranges r) else TSet false (set_ranges b)
  | [] => TSet false []
  end.
(** The elements of a pattern after its first [skip] characters; a bracket that is not
    closed stands for itself. *)
Fixpoint tokens (p : text) (skip : nat) : list tok :=
  match p with
  | [] => []
  | c :: r =>
      match skip with
      | S k => tokens r k
      | O =>
          if Ascii.eqb c "*" then TStar :: tokens r 0
          else if Ascii.eqb c "?" then TAny :: tokens r 0
          else if Ascii.eqb c "["
               then match set_length r with
                    | Some n => set_tok (firstn n r) :: tokens r (n + 1)
                    | None => TLit c :: tokens r 0
                    end
               else TLit c :: tokens r 0
      end
  end.

Definition in_range (c : ascii) (r : ascii * ascii) : bool :=
  (nat_of_ascii (fst r) <=? nat_of_ascii c) && (nat_of_ascii c <=? nat_of_ascii (snd r)).
Fixpoint tok_match (ts : list tok) (s : text) : bool :=
  match ts with
  | [] => match s with [] => true | _ => false end
  | TLit c :: ts' => match s with d :: s' => Ascii.eqb c d && tok_match ts' s' | [] => false end
  | TAny :: ts' => match s with _ :: s' => tok_match ts' s' | [] => false end
  | TSet neg l :: ts' =>
      match s with d :: s' => xorb neg (existsb (in_range d) l) && tok_match ts' s' | [] => false end
  | TStar :: ts' =>
      (fix rest s := tok_match ts' s || match s with _ :: s' => rest s' | [] => false end) s
  end.

(** glob.has_magic, glob._ishidden *)
Definition magic (p : text) : bool := existsb (fun c => has c (lit "*?[")) p.
Definition hidden (s : text) : bool := match s with c :: _ => Ascii.eqb c "." | [] => false end.
(** One part of a path: taken literally if it has no wildcard (glob0), else matched (glob1),
    where names that start with a dot are left out unless the pattern does. *)
Definition part_match (p s : text) : bool :=
  if magic p then (hidden p || negb (hidden s)) && tok_match (tokens p 0) s else text_eqb p s.

Fixpoint parts (s : text) : list text :=
  match s with
  | [] => [[]]
  | c :: r =>
      if Ascii.eqb c "/" then [] :: parts r
      else match parts r with h :: t => (c :: h) :: t | [] => [[c]] end
  end.
Fixpoint all2 {A B} (f : A -> B -> bool) (l : list A) (m : list B) : bool :=
  match l, m with
  | [], [] => true
  | x :: l', y :: m' => f x y && all2 f l' m'
  | _, _ => false
  end.
Definition glob_match (pattern s : text) : bool := all2 part_match (parts pattern) (parts s).
Definition glob (fs : directory) (pattern : text) : list text := filter (glob_match pattern) (names fs).

(** n*'[0-9]' *)
Definition digits_pat (n : nat) : text := concat (repeat (lit "[0-9]") n).

(** list.sort of integers. *)
Fixpoint insertZ (x : Z) (l : list Z) : list Z :=
  match l with
  | [] => [x]
  | y :: r => if (x <=? y)%Z then x :: l else y :: insertZ x r
  end.
Definition sortZ (l : list Z) : list Z := fold_right insertZ [] l.

(** s[off-10:off] for a negative off. *)
Definition digits_before (off : nat) (s : text) : text :=
  let e := length s - off in firstn (e - (e - 10)) (skipn (e - 10) s).

Definition scanforfiles (fs : directory) (fname : text) : res (list Z) :=
  let stem := fname ++ ["."%char] ++ digits_pat 10 in
  let tiled := glob fs (stem ++ lit ".001.001.meta") in
  let '(files, off) :=
    match tiled with
    | [] => (glob fs (stem ++ lit ".meta"), 5)
    | _ => (tiled, 13)
    end in
  itrs <- mapM (fun s => match int_of_text (digits_before off s) with
                         | Some z => Ok z
                         | None => Err (ValueError "invalid literal for int()")
                         end) files ;;
  Ok (sortZ itrs).
