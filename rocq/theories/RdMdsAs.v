(** mds.py: rdmds with the option astype.  The array has elements of the type asked for; numpy
    converts the fill value and every number put in it.  ([RdMds.rdmds_full] is the same
    function with astype=float, the default.) *)
From Coq Require Import Ascii String List Bool PeanoNat ZArith Init.Byte.
Import ListNotations.
From Verif Require Import Prelude Num MdsMeta Mds RdMds.
Set Implicit Arguments.
Local Open Scope nat_scope.
Local Open Scope list_scope.

(** astype=float, None (the type of the files, mds.py:347), 'float32'; other types are not
    modelled. *)
Inductive astype := AsFloat | AsStored | AsSingle.

Section RdMdsAs.
Context {F : Type} (N : numops F).
Variables (C8 C4 : codec F).
Variable float_of : text -> option F.
Variable ty : astype.

(** A number put in the array of a file of precision p.  float32 rounds to nearest even. *)
Definition cast (p : prec) (x : F) : F :=
  match ty, p with
  | AsFloat, _ | AsStored, Double => x
  | _, _ => dec C4 (enc C4 x)
  end.
Definition ndmap (f : F -> F) (a : nd F) : nd F := mk_nd (shape a) (fun idx => f (at_ a idx)).

(** mds.py:371-373: arr = np.empty(...,astype); arr[...] = fill_value *)
Definition init_as (o : rdopts F) (nits : nat) (tm : tilemeta (F:=F)) : res (rdstate (F:=F)) :=
  st <- init_full o nits tm ;;
  Ok (mk_rdstate (ndmap (cast (s_prec st)) (s_arr st)) (s_prec st) (s_recshape st) (s_nrec st) (s_recs st)
        (s_region st) (s_meta st)).

(** mds.py:437-449 *)
Fixpoint read_records_as (o : rdopts F) (st : rdstate (F:=F)) (od : order) (bs : list byte) (w : view) (ov : overlap)
    (irec : nat) (recs : list Z) (arr : nd F) : res (nd F) :=
  match recs with
  | [] => Ok arr
  | z :: r =>
      if ov_any ov
      then
        rec <- read_record N C8 C4 bs (s_prec st) od (s_recshape st) (s_nrec st) z ;;
        v <- select rec (tile_sel o (length (s_recshape st)) ov) ;;
        sub <- subview w irec ;;
        arr' <- assign arr sub (ndmap (cast (s_prec st)) v) ;;
        read_records_as o st od bs w ov (irec + 1) r arr'
      else
        if (((if z <? 0 then z + Z.of_nat (s_nrec st) else z)
             * Z.of_nat (size (s_recshape st) * itemsize (s_prec st))) <? 0)%Z
        then Err (ValueError "negative seek position")
        else read_records_as o st od bs w ov (irec + 1) r arr
  end.

(** mds.py:428-449 *)
Definition read_data_as (fs : directory) (o : rdopts F) (od : order) (st : rdstate (F:=F)) (datafile : text)
    (w : view) (ov : overlap) : directory * res (nd F) :=
  if o_memmap o || match o_rec o with RecAll => true | _ => false end
  then
    if ov_any ov
    then
      let sh := s_nrec st :: s_recshape st in
      let '(fs', r) :=
        if o_memmap o then memmap N C8 C4 fs datafile (s_prec st) od sh
        else (fs, match dget fs datafile with
                  | None => Err OSError
                  | Some bs => reshape N (fromfile_as C8 C4 (s_prec st) od bs) sh
                  end) in
      (fs', tile <- r ;;
            v <- select tile (rec_sel o :: tile_sel o (length (s_recshape st)) ov) ;;
            assign (s_arr st) w (ndmap (cast (s_prec st)) v))
    else (fs, Ok (s_arr st))
  else
    (fs, match dget fs datafile with
         | None => Err OSError
         | Some bs => read_records_as o st od bs w ov 0 (s_recs st) (s_arr st)
         end).

(** mds.py:333-449 *)
Definition read_tile_as (o : rdopts F) (od : order) (nits iit : nat)
    (s : directory * option (rdstate (F:=F)) * option (filemeta (F:=F))) (metafile : text)
    : directory * res (directory * option (rdstate (F:=F)) * option (filemeta (F:=F))) :=
  let '(fs, st, _) := s in
  match dget fs metafile with
  | None => (fs, Err OSError)
  | Some bs =>
      let pre :=
        fm <- readmeta_full float_of (byte_text bs) ;;
        let tm := fm_tile fm in
        st1 <- match st with
               | None => init_as o nits tm
               | Some s => if meta_eqb N (tm_meta tm) (s_meta s) then Ok s
                           else Err (ValueError "Meta files not compatible")
               end ;;
        let bounds := combine (tm_i0s tm) (tm_ies tm) in
        ov <- match o_region o, fm_map fm with
              | None, _ => Ok (mk_overlap bounds None true)
              | Some _, Some _ => Err (RuntimeError "Region selection is not implemented for map2glob")
              | Some _, None => region_overlap (s_region st1) bounds
              end ;;
        w <- match fm_map fm with
             | None => slice_view (shape (s_arr st1)) iit (ov_bounds ov)
             | Some m => mapped_view (shape (s_arr st1)) iit (ov_bounds ov) m
             end ;;
        Ok (fm, st1, ov, w) in
      match pre with
      | Err e => (fs, Err e)
      | Ok (fm, st1, ov, w) =>
          let '(fs', r) := read_data_as fs o od st1 (firstn (length metafile - 4) metafile ++ lit "data") w ov in
          (fs', arr <- r ;;
                Ok (fs', Some (mk_rdstate arr (s_prec st1) (s_recshape st1) (s_nrec st1) (s_recs st1)
                                 (s_region st1) (s_meta st1)), Some fm))
      end
  end.

Definition tiles_body_as (o : rdopts F) (od : order) (nits iit : nat)
    (s : directory * (option (rdstate (F:=F)) * option (filemeta (F:=F)))) (metafile : text)
    : directory * res (directory * (option (rdstate (F:=F)) * option (filemeta (F:=F)))) :=
  let '(fs, (st, fm)) := s in
  match read_tile_as o od nits iit (fs, st, fm) metafile with
  | (fs', Err e) => (fs', Err e)
  | (fs', Ok (_, st', fm')) => (fs', Ok (fs', (st', fm')))
  end.

(** mds.py:318-456 *)
Definition iter_body_as (fnamearg : text) (additrs : bool) (o : rdopts F) (od : order) (nits : nat)
    (s : directory * rdacc (F:=F)) (ii : nat * Z) : directory * res (directory * rdacc (F:=F)) :=
  let '(fs, acc) := s in
  let fname := if additrs then fnamearg ++ ["."%char] ++ fmt_0d 10 (snd ii) else fnamearg in
  match metafiles_of fs fname with
  | Err e => (fs, Err e)
  | Ok mfs =>
      match foldD (tiles_body_as o od nits (fst ii)) mfs (fs, (a_state acc, None)) with
      | (fs', Err e) => (fs', Err e)
      | (_, Ok (fs', (st, fm))) =>
          (fs', Ok (fs', mk_rdacc st
             (a_steps acc ++ match fm with Some f => match fm_step f with Some l => l | None => [] end | None => [] end)
             (a_intervals acc ++ match fm with
                                 | Some f => match fm_interval f with Some l => [l] | None => [] end
                                 | None => [] end)))
      end
  end.

(** mds.py:201-486 with returnmeta=True *)
Definition rdmds_as (fs : directory) (fnamearg : text) (it : itarg) (machineformat : text) (o : rdopts F)
    : directory * res (nd F * list Z * list (text * mentry (F:=F))) :=
  match itr_list fs fnamearg it with
  | Err e => (fs, Err e)
  | Ok itrs =>
  match typeprefix machineformat with
  | None => (fs, Err (ValueError "Allowed machineformats"))
  | Some od =>
      match foldD (iter_body_as fnamearg (adds it) o od (length itrs)) (combine (seq 0 (length itrs)) itrs)
              (fs, mk_rdacc None [] []) with
      | (fs', Err e) => (fs', Err e)
      | (_, Ok (fs', acc)) =>
          (fs', arr <- match a_state acc with
                       | None => Ok (mk_nd [0] (fun _ => nzero N))
                       | Some s => drop_dims N o (it_is_list it) (s_arr s)
                       end ;;
                Ok (arr, itrs, meta_result acc))
      end
  end end.

End RdMdsAs.
