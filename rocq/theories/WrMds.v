(** mds.py: wrmds with all its options, and the call wrmds(fbase, arr, **meta) its description
    mentions (mds.py:482-604).  ([Mds.wrmds] is the same function without times, deltat and
    dimlist; [WrMdsFacts.wrmds_full_plain] proves that.) *)
From Coq Require Import Ascii String List Bool PeanoNat ZArith Init.Byte.
Import ListNotations.
From Flocq Require Import IEEE754.BinarySingleNaN IEEE754.Binary IEEE754.Bits.
From Verif Require Import Prelude Num MdsMeta Mds RdMds Float64 FmtE PyFloat.
Set Implicit Arguments.
Local Open Scope nat_scope.
Local Open Scope list_scope.

(** The argument times: a number or a list of numbers (here floats). *)
Inductive timesarg (F : Type) := TimesNone | TimesOne (t : F) | TimesList (l : list F).
Arguments TimesNone {F}. Arguments TimesOne {F}. Arguments TimesList {F}.

(** What is done with times: '{:20.12E}'.format(t), int(t//deltat), deltat*itr. *)
Record timeops (F : Type) : Type := mk_timeops {
  t_format : F -> text; t_steps : F -> F -> quotient; t_time : F -> Z -> F }.

Definition b64times : timeops binary64 :=
  mk_timeops fmt_e12 b64_floordiv (fun dt i => b64_mult mode_NE dt (b64_of_Z i)).

Section WrMds.
Context {F : Type} (T : timeops F).
Variables (C8 C4 : codec F).

(** The meta file, mds.py:563-602. *)
Definition meta_text_full (ndims : nat) (dims : list nat) (dataprec : text) (nrec : nat)
    (itr : option Z) (times : option (list F)) (fields : option (list text)) (simulation : option text) : res text :=
  w <- dim_width dims ;;
  Ok (match simulation with
      | Some s => lit " simulation = { '" ++ s ++ lit "' };" ++ [newline]
      | None => []
      end
      ++ lit " nDims = [ " ++ fmt_d 3 (Z.of_nat ndims) ++ lit " ];" ++ [newline]
      ++ lit " dimList = [" ++ [newline] ++ [" "%char]
      ++ join ([","%char] ++ [newline] ++ [" "%char]) (map (dim_line w) dims)
      ++ [newline] ++ lit " ];" ++ [newline]
      ++ lit " dataprec = [ '" ++ dataprec ++ lit "' ];" ++ [newline]
      ++ lit " nrecords = [ " ++ fmt_d 5 (Z.of_nat nrec) ++ lit " ];" ++ [newline]
      ++ match itr with
         | Some i => lit " timeStepNumber = [ " ++ fmt_d 10 i ++ lit " ];" ++ [newline]
         | None => []
         end
      ++ match times with
         | Some l => lit " timeInterval = [" ++ flat_map (t_format T) l ++ lit " ];" ++ [newline]
         | None => []
         end
      ++ match fields with
         | Some fs =>
             lit " nFlds = [ " ++ fmt_d 4 (Z.of_nat (length fs)) ++ lit " ];" ++ [newline]
             ++ lit " fldList = {" ++ [newline]
             ++ field_rows (length fs) fs
             ++ lit " };" ++ [newline]
         | None => []
         end).

(** mds.py:547-551 *)
Definition times_list (t : timesarg F) : option (list F) :=
  match t with TimesNone => None | TimesOne x => Some [x] | TimesList l => Some l end.

(** int(times[-1]//deltat), mds.py:555; int of an infinite number raises OverflowError in
    Python. *)
Definition steps_of (times : option (list F)) (dt : F) : res Z :=
  match times with
  | None => Err TypeError
  | Some l =>
      match rev l with
      | [] => Err IndexError
      | t :: _ =>
          match t_steps T t dt with
          | Whole_number z => Ok z
          | Not_finite => Err (ValueError "cannot convert float to integer")
          | By_zero => Err (RuntimeError "float floor division by zero")
          end
      end
  end.

(** mds.py:553-559 *)
Definition step_and_times (itr : option Z) (times : option (list F)) (deltat : option F)
    : res (option Z * option (list F)) :=
  match deltat with
  | None => Ok (itr, times)
  | Some dt =>
      match itr, times with
      | None, _ => i <- steps_of times dt ;; Ok (Some i, times)
      | Some i, None => Ok (itr, Some [t_time T dt i])
      | Some _, Some _ => Ok (itr, times)
      end
  end.

(** mds.py:482-604 *)
Definition wrmds_full (fs : directory) (fbase : text) (arr : nd F) (itr : option Z)
    (dataprec : text) (ndims nrecords : option nat) (times : timesarg F) (fields : option (list text))
    (simulation : option text) (machineformat : text) (deltat : option F) (dimlist : option (list Z))
    : directory * res unit :=
  match typeprefix machineformat with
  | None => (fs, Err KeyError)
  | Some o =>
  match typesuffix dataprec with
  | None => (fs, Err (ValueError "dataprec must be 'float32' or 'float64'."))
  | Some p =>
  match ndims_of (shape arr) ndims nrecords with
  | Err e => (fs, Err e)
  | Ok n =>
      let dims := rev (skipn (length (shape arr) - n) (shape arr)) in
      let nrec := size (lead_dims (shape arr) n) in
      if match nrecords with Some r => negb (r =? nrec) | None => false end
      then (fs, Err (ValueError "Shape/nrecords mismatch"))
      else if match dimlist with
              | Some l => if list_eq_dec Z.eq_dec l (map Z.of_nat dims) then false else true
              | None => false
              end
      then (fs, Err (ValueError "Shape/dimlist mismatch"))
      else
        match step_and_times itr (times_list times) deltat with
        | Err e => (fs, Err e)
        | Ok (itr', times') =>
            let base := match itr' with
                        | Some i => fbase ++ ["."%char] ++ fmt_0d 10 i
                        | None => fbase
                        end in
            match meta_text_full n dims dataprec nrec itr' times' fields simulation with
            | Err e =>
                (* raised after the file was opened; the part written first is left out *)
                (write_file fs (base ++ lit ".meta") [], Err e)
            | Ok t =>
                let fs1 := write_file fs (base ++ lit ".meta") (text_bytes t) in
                (write_file fs1 (base ++ lit ".data") (flat_map (enc_item C8 C4 p o) (ravel arr)), Ok tt)
            end
        end
  end end end.

(** ** wrmds(fbase, arr, itr, machineformat=mf, **meta)

    with a dictionary as rdmds returns it.  itr and machineformat are given explicitly or left
    at their default values.  The dictionary's keys have to be parameters: keys itr, times,
    fields, machineformat and deltat, which are no entries of meta files, are not modelled
    (TypeError here).  A negative nDims is not modelled (ValueError here). *)
Definition kw_names : list text :=
  map lit ["dataprec"; "ndims"; "nrecords"; "simulation"; "dimlist"]%string.

(** x, = [x]  (mds.py:510-515) *)
Definition unpack1 (m : list (text * mentry (F:=F))) (key : text) : res (option (value F)) :=
  match dget m key with
  | None => Ok None
  | Some (Vals [v]) => Ok (Some v)
  | Some _ => Err (ValueError "too many values to unpack")
  end.
Definition kw_nat (v : option (value F)) : res (option nat) :=
  match v with
  | None => Ok None
  | Some v => z <- as_int v ;; if (z <? 0)%Z then Err (ValueError "negative") else Ok (Some (Z.to_nat z))
  end.
Definition kw_text (v : option (value F)) : res (option text) :=
  match v with
  | None => Ok None
  | Some (Vstr s) => Ok (Some s)
  | Some _ => Err TypeError
  end.

Definition wrmds_kw (fs : directory) (fbase : text) (arr : nd F) (itr : option Z) (machineformat : text)
    (meta : list (text * mentry (F:=F))) : directory * res unit :=
  if negb (forallb (fun kv => existsb (text_eqb (fst kv)) kw_names) meta) then (fs, Err TypeError)
  else
    let args :=
      dp <- unpack1 meta (lit "dataprec") ;;
      nd_ <- unpack1 meta (lit "ndims") ;;
      nr <- unpack1 meta (lit "nrecords") ;;
      sim <- unpack1 meta (lit "simulation") ;;
      dp' <- kw_text dp ;;
      nd' <- kw_nat nd_ ;;
      nr' <- kw_nat nr ;;
      sim' <- kw_text sim ;;
      dl <- match dget meta (lit "dimlist") with
            | None => Ok None
            | Some (Vals l) =>
                match mapM (as_int (F:=F)) l with
                | Ok zs => Ok (Some zs)
                | Err _ => Err (ValueError "Shape/dimlist mismatch")
                end
            | Some (Lists _) => Err (ValueError "Shape/dimlist mismatch")
            end ;;
      Ok (match dp' with Some s => s | None => lit "float32" end, nd', nr', sim', dl) in
    match args with
    | Err e => (fs, Err e)
    | Ok (dp, nd', nr, sim, dl) =>
        wrmds_full fs fbase arr itr dp nd' nr TimesNone None sim machineformat None dl
    end.

End WrMds.

Definition wrmds_full64 := wrmds_full b64times.
