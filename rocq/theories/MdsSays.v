(** mds.py: what rdmds returns with and without returnmeta, what it reports on stderr with
    verbose, and the warnings of wrmds.  (The flag debug, mds.py:7, is off.) *)
From Coq Require Import Ascii String List Bool PeanoNat ZArith Init.Byte.
Import ListNotations.
From Verif Require Import Prelude Num MdsMeta Mds RdMds WrMds.
Set Implicit Arguments.
Local Open Scope nat_scope.
Local Open Scope list_scope.

(** warning (mds.py:141-142): the words with spaces between them; a line is given without
    its end *)
Fixpoint words (l : list text) : text :=
  match l with
  | [] => []
  | [w] => w
  | w :: r => w ++ [" "%char] ++ words r
  end.

Definition count_text (n : nat) : text := int_text (Z.of_nat n).

(** mds.py:275-288 *)
Definition scan_says (fs : directory) (fnamearg : text) (it : itarg) : list text :=
  match it with
  | ItNaN =>
      match scanforfiles fs fnamearg with
      | Ok l => [words ((lit "Reading " ++ count_text (length l) ++ lit " time levels: ") :: map int_text l)]
      | Err _ => []
      end
  | ItInf =>
      match scanforfiles fs fnamearg with
      | Ok l =>
          match rev l with
          | x :: _ => [words [lit "Found " ++ count_text (length l) ++ lit " time levels, reading"; int_text x]]
          | [] => [lit "Found 0 time levels for " ++ fnamearg]
          end
      | Err _ => []
      end
  | _ => []
  end.

Section Says.
Context {F : Type} (N : numops F) (T : timeops F).
Variables (C8 C4 : codec F).
Variable float_of : text -> option F.

(** What a call of rdmds evaluates to; the second form is described and not returned. *)
Inductive answer : Type :=
| Array (a : nd F)
| ArrayIts (a : nd F) (itrs : list Z)
| ArrayItsMeta (a : nd F) (itrs : list Z) (meta : list (text * mentry (F:=F))).

(** mds.py:326-333: the first meta file of an iteration *)
Definition iter_says (fs : directory) (fnamearg : text) (additrs : bool) (z : Z) : list text :=
  let fname := if additrs then fnamearg ++ ["."%char] ++ fmt_0d 10 z else fnamearg in
  match metafiles_of fs fname with
  | Ok (m :: _) => [m]
  | _ => []
  end.

(** mds.py:320-456 *)
Fixpoint itersV (verbose : bool) (fnamearg : text) (additrs : bool) (o : rdopts F) (od : order) (nits : nat)
    (l : list (nat * Z)) (s : directory * rdacc (F:=F)) : list text * (directory * res (directory * rdacc (F:=F))) :=
  match l with
  | [] => ([], (fst s, Ok s))
  | ii :: r =>
      let m := if verbose then iter_says (fst s) fnamearg additrs (snd ii) else [] in
      match iter_body N C8 C4 float_of fnamearg additrs o od nits s ii with
      | (fs, Err e) => (m, (fs, Err e))
      | (_, Ok s') =>
          let '(ms, x) := itersV verbose fnamearg additrs o od nits r s' in
          (m ++ ms, x)
      end
  end.

(** mds.py:201-486 *)
Definition rdmdsV (returnmeta verbose : bool) (fs : directory) (fnamearg : text) (it : itarg)
    (machineformat : text) (o : rdopts F) : list text * (directory * res answer) :=
  let says := if verbose then scan_says fs fnamearg it else [] in
  match itr_list fs fnamearg it with
  | Err e => (says, (fs, Err e))
  | Ok itrs =>
  match typeprefix machineformat with
  | None => (says, (fs, Err (ValueError "Allowed machineformats")))
  | Some od =>
      let '(ms, x) := itersV verbose fnamearg (adds it) o od (length itrs)
                        (combine (seq 0 (length itrs)) itrs) (fs, mk_rdacc None [] []) in
      (says ++ ms,
       match x with
       | (fs', Err e) => (fs', Err e)
       | (_, Ok (fs', acc)) =>
           (fs', arr <- match a_state acc with
                        | None => Ok (mk_nd [0] (fun _ => nzero N))
                        | Some s => drop_dims N o (it_is_list it) (s_arr s)
                        end ;;
                 Ok (if returnmeta then ArrayItsMeta arr itrs (meta_result acc) else Array arr))
       end)
  end end.

(** ** wrmds *)
Definition folding_line : text := lit "Warning: folding several dimensions into record dimension.".
Definition deltat_line : text := lit "Warning: discarding deltat.".

(** mds.py:541-542, 553-559: reached when the checks before have passed *)
Definition wrmds_says (arr : nd F) (itr : option Z) (dataprec : text) (ndims nrecords : option nat)
    (times : timesarg F) (machineformat : text) (deltat : option F) (dimlist : option (list Z)) : list text :=
  match typeprefix machineformat, typesuffix dataprec, ndims_of (shape arr) ndims nrecords with
  | Some _, Some _, Ok n =>
      let dims := rev (skipn (length (shape arr) - n) (shape arr)) in
      let nrec := size (lead_dims (shape arr) n) in
      if match nrecords with Some r => negb (r =? nrec) | None => false end then []
      else if match dimlist with
              | Some l => if list_eq_dec Z.eq_dec l (map Z.of_nat dims) then false else true
              | None => false
              end then []
      else
        (if n + 1 <? length (shape arr) then [folding_line] else []) ++
        match deltat, itr, times_list times with
        | Some _, Some _, Some _ => [deltat_line]
        | _, _, _ => []
        end
  | _, _, _ => []
  end.

Definition wrmdsV (fs : directory) (fbase : text) (arr : nd F) (itr : option Z)
    (dataprec : text) (ndims nrecords : option nat) (times : timesarg F) (fields : option (list text))
    (simulation : option text) (machineformat : text) (deltat : option F) (dimlist : option (list Z))
    : list text * (directory * res unit) :=
  (wrmds_says arr itr dataprec ndims nrecords times machineformat deltat dimlist,
   wrmds_full T C8 C4 fs fbase arr itr dataprec ndims nrecords times fields simulation machineformat deltat dimlist).
End Says.
