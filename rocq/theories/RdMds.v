(** mds.py: rdmds with all its options.  ([Mds.rdmds] is the same function with the default
    options, as mds2mitgrid and getobcs call it.) *)
From Coq Require Import Ascii String List Bool PeanoNat ZArith Init.Byte.
Import ListNotations.
From Verif Require Import Prelude Num MdsMeta Mds.
Set Implicit Arguments.
Local Open Scope nat_scope.
Local Open Scope list_scope.

(** The argument itrs: left at -1, an integer, a list of integers, NaN, Inf. *)
Inductive itarg := ItNone | ItOne (z : Z) | ItList (l : list Z) | ItNaN | ItInf.
(** The argument rec: None, an integer, a list of integers. *)
Inductive recarg := RecAll | RecOne (z : Z) | RecList (l : list Z).
(** One entry of the tuple lev (a value that is not a tuple is made one, mds.py:304). *)
Inductive levarg := LevOne (z : Z) | LevList (l : list Z).

(** aslist (mds.py:145-151) *)
Definition lev_list (l : levarg) : list Z := match l with LevOne z => [z] | LevList zs => zs end.

Record region := mk_region { ri0 : Z; rie : Z; rj0 : Z; rje : Z }.

(** astype is left at float: every storage format is converted exactly, so the element type
    does not show. *)
Record rdopts (F : Type) : Type := mk_rdopts {
  o_rec : recarg; o_lev : list levarg; o_region : option region; o_fill : F;
  o_memmap : bool; o_squeeze : bool }.
Arguments mk_rdopts {F}.

(** ** numpy *)

(** One entry of an index expression. *)
Inductive selector := Whole | Pick (l : list Z) | Range (lo hi : nat).

(** An index or IndexError. *)
Definition norm_index (n : nat) (z : Z) : res nat :=
  let k := (if z <? 0 then z + Z.of_nat n else z)%Z in
  if (k <? 0)%Z || (Z.of_nat n <=? k)%Z then Err IndexError else Ok (Z.to_nat k).

(** The source indices selected along an axis of extent n. *)
Definition axis (n : nat) (s : selector) : res (list nat) :=
  match s with
  | Whole => Ok (seq 0 n)
  | Pick l => mapM (norm_index n) l
  | Range lo hi => Ok (seq lo (Nat.min n hi - lo))
  end.

Fixpoint axes (sh : list nat) (sel : list selector) : res (list (list nat)) :=
  match sh, sel with
  | _, [] => Ok (map (seq 0) sh)
  | [], _ :: _ => Err IndexError
  | n :: sh', s :: sel' => a <- axis n s ;; r <- axes sh' sel' ;; Ok (a :: r)
  end.

(** a[sel].  The index arrays come from np.ix_ and are next to each other, so the axes keep
    their order.  Indices are checked even if the result is empty. *)
Definition select {F} (a : nd F) (sel : list selector) : res (nd F) :=
  ax <- axes (shape a) sel ;;
  Ok (mk_nd (map (@length nat) ax)
        (fun idx => at_ a (map (fun p => nth (snd p) (fst p) 0) (combine ax idx)))).

(** The value side of  target[...] = v : extents have to agree or be 1, counted from the
    last axis; surplus leading axes of extent 1 are dropped. *)
Fixpoint fits (ts vs : list nat) : bool :=
  match ts, vs with
  | t :: ts', v :: vs' => ((v =? t) || (v =? 1)) && fits ts' vs'
  | [], vs => forallb (Nat.eqb 1) vs
  | _ :: _, [] => true
  end.
Definition broadcast {F} (ts : list nat) (v : nd F) : res (nd F) :=
  let vs := shape v in
  if fits (rev ts) (rev vs)
  then Ok (mk_nd ts (fun idx =>
         at_ v (map (fun p => if fst p =? 1 then 0 else snd p)
                  (combine vs (repeat 0 (length vs - length ts)
                               ++ skipn (length ts - length vs) idx)))))
  else Err (ValueError "could not broadcast input array").

(** A view of an array: its shape, and where an element of the array lies in it, if it does.
    Distinct elements of a view are distinct elements of the array. *)
Record view := mk_view { v_shape : list nat; v_place : list nat -> option (list nat) }.

Definition assign {F} (arr : nd F) (w : view) (v : nd F) : res (nd F) :=
  b <- broadcast (v_shape w) v ;;
  Ok (mk_nd (shape arr) (fun idx =>
        match v_place w idx with Some t => at_ b t | None => at_ arr idx end)).

(** w[i] *)
Definition subview (w : view) (i : nat) : res view :=
  match v_shape w with
  | n :: sh =>
      if i <? n
      then Ok (mk_view sh (fun idx =>
             match v_place w idx with
             | Some (j :: t) => if j =? i then Some t else None
             | _ => None
             end))
      else Err IndexError
  | [] => Err IndexError
  end.

Section RdMds.
Context {F : Type} (N : numops F).
Variables (C8 C4 : codec F).
Variable float_of : text -> option F.

(** ** readmeta (mds.py:173-187), with the entries that belong to the file *)
Record filemeta := mk_filemeta {
  fm_tile : tilemeta (F:=F);
  fm_step : option (list (value F)); fm_interval : option (list (value F));
  fm_map : option (list (value F)) }.

Definition readmeta_full (content : text) : res filemeta :=
  meta <- parsemeta float_of content ;;
  tm <- readmeta float_of content ;;
  Ok (mk_filemeta tm (dget meta (lit "timeStepNumber")) (dget meta (lit "timeInterval"))
        (dget meta (lit "map2glob"))).

(** ** The array (mds.py:335-374) *)
Record rdstate := mk_rdstate {
  s_arr : nd F; s_prec : prec; s_recshape : list nat; s_nrec : nat; s_recs : list Z;
  s_region : region; s_meta : metadict F }.

(** mds.py:356-364 *)
Definition from_end (g : option Z) (z : Z) : res Z :=
  if (z <? 0)%Z then match g with Some n => Ok (z + n)%Z | None => Err IndexError end else Ok z.
Definition full_region (reg : option region) (gdims : list Z) : res region :=
  let nx := nth_error (rev gdims) 0 in
  let ny := nth_error (rev gdims) 1 in
  match reg with
  | None => match nx, ny with Some x, Some y => Ok (mk_region 0 x 0 y) | _, _ => Err IndexError end
  | Some r =>
      a <- from_end nx (ri0 r) ;; b <- from_end nx (rie r) ;;
      c <- from_end ny (rj0 r) ;; d <- from_end ny (rje r) ;;
      Ok (mk_region a b c d)
  end.

(** Negative tile extents and record counts raise here; numpy would read -1 in reshape as
    "whatever fits". *)
Definition init_full (o : rdopts F) (nits : nat) (tm : tilemeta (F:=F)) : res rdstate :=
  pv <- match dget (tm_meta tm) (lit "dataprec") with
        | Some _ => single (tm_meta tm) (lit "dataprec")
        | None => single (tm_meta tm) (lit "format")
        end ;;
  p <- match pv with
       | Vstr s => match typesuffix s with Some p => Ok p | None => Err KeyError end
       | _ => Err KeyError
       end ;;
  recshape <- mapM extent (map (fun b => (snd b - fst b)%Z) (combine (tm_i0s tm) (tm_ies tm))) ;;
  if match recshape with [] => true | _ => false end then Err TypeError else
  nv <- single (tm_meta tm) (lit "nrecords") ;;
  nz <- as_int nv ;;
  nrec <- extent nz ;;
  let recs := match o_rec o with
              | RecAll => map Z.of_nat (seq 0 nrec)
              | RecOne z => [z]
              | RecList l => l
              end in
  reg <- full_region (o_region o) (tm_gdims tm) ;;
  let nlev := length (o_lev o) in
  if length (tm_gdims tm) <? nlev + 2 then Err AssertionError else
  mid <- mapM extent (skipn nlev (firstn (length (tm_gdims tm) - 2) (tm_gdims tm))) ;;
  ny <- extent (rje reg - rj0 reg)%Z ;;
  nx <- extent (rie reg - ri0 reg)%Z ;;
  let levdims := map (fun l => length (lev_list l)) (o_lev o) in
  Ok (mk_rdstate (mk_nd (nits :: length recs :: levdims ++ mid ++ [ny; nx]) (fun _ => o_fill o))
        p recshape nrec recs reg (tm_meta tm)).

(** ** Where a tile goes (mds.py:381-426) *)

(** The last two entries of a list replaced. *)
Definition set_last2 {A} (l : list A) (y x : A) : list A := firstn (length l - 2) l ++ [y; x].

(** What a tile contributes: its bounds in the array, the rows and columns of the tile that
    are used, and whether any are. *)
Record overlap := mk_overlap {
  ov_bounds : list (Z * Z); ov_sel : option (nat * nat * nat * nat); ov_any : bool }.

(** mds.py:383-400: [lo] and [hi] clamped to the region, relative to the tile and to the region. *)
Definition clamp (a b z : Z) : Z := Z.min b (Z.max a z).
Definition region_overlap (r : region) (bounds : list (Z * Z)) : res overlap :=
  match rev bounds with
  | bx :: by_ :: _ =>
      let i0 := clamp (ri0 r) (rie r) (fst bx) in
      let ie := clamp (ri0 r) (rie r) (snd bx) in
      let j0 := clamp (rj0 r) (rje r) (fst by_) in
      let je := clamp (rj0 r) (rje r) (snd by_) in
      let I0 := (i0 - fst bx)%Z in
      let Ie := (ie - fst bx)%Z in
      let J0 := (j0 - fst by_)%Z in
      let Je := (je - fst by_)%Z in
      (* the tile indices are only used where Ie > I0 and Je > J0, and then not negative *)
      Ok (mk_overlap
            (set_last2 bounds (j0 - rj0 r, je - rj0 r)%Z (i0 - ri0 r, ie - ri0 r)%Z)
            (Some (Z.to_nat J0, Z.to_nat Je, Z.to_nat I0, Z.to_nat Ie))
            ((I0 <? Ie) && (J0 <? Je))%Z)
  | _ => Err IndexError
  end.

(** arr[(iit,slice(None))+sl] (mds.py:406) *)
Definition slice_view (sh : list nat) (iit : nat) (bounds : list (Z * Z)) : res view :=
  match sh with
  | nits :: nrec :: gd =>
      if length gd <? length bounds then Err IndexError else
      let sl := map (fun nb => slice_of (fst nb) (snd nb)) (combine gd bounds) in
      Ok (mk_view (nrec :: map snd sl ++ skipn (length bounds) gd)
            (fun idx => match idx with
                        | i :: r :: t => if i =? iit then option_map (cons r) (in_slices sl t) else None
                        | _ => None
                        end))
  | _ => Err IndexError
  end.

(** map2gl[k] as a number *)
Definition map_entry (m : list (value F)) (k : nat) : res Z :=
  match nth_error m k with Some v => as_int v | None => Err IndexError end.

(** mds.py:408-426: the rows of the tile lie jstride apart in the array with x and y run
    together.  A negative start or stride is not modelled (IndexError here). *)
Definition mapped_view (sh : list nat) (iit : nat) (bounds : list (Z * Z)) (m : list (value F)) : res view :=
  match rev sh, rev bounds with
  | nx :: ny :: _, bx :: by_ :: rest =>
      m1 <- map_entry m 1 ;;
      m0 <- map_entry m 0 ;;
      let jstride := (m1 * Z.of_nat nx + m0)%Z in
      let rows := (snd by_ - fst by_)%Z in
      let n := (rows * jstride)%Z in
      let ii0 := Z.min (fst bx + Z.of_nat nx * fst by_) (Z.of_nat nx * Z.of_nat ny - n) in
      let ioff := (Z.of_nat nx * fst by_ - ii0)%Z in
      if (ii0 <? 0)%Z || (n <? 0)%Z || (jstride <? 0)%Z || (ioff + fst bx <? 0)%Z || (ioff + snd bx <? 0)%Z
      then Err IndexError
      else
        let js := Z.to_nat jstride in
        let i0 := Z.to_nat ii0 in
        let c0 := Z.to_nat (ioff + fst bx) in
        let c1 := Nat.min js (Z.to_nat (ioff + snd bx)) in
        w <- slice_view (firstn (length sh - 2) sh) iit (rev rest) ;;
        Ok (mk_view (v_shape w ++ [Z.to_nat rows; c1 - Nat.min js c0])
              (fun idx => match rev idx with
                          | x :: y :: lead =>
                              match v_place w (rev lead) with
                              | Some t =>
                                  let f := y * nx + x in
                                  let r := (f - i0) / js in
                                  let c := (f - i0) mod js in
                                  if (i0 <=? f) && (f <? i0 + Z.to_nat n) && (c0 <=? c) && (c <? c1)
                                  then Some (t ++ [r; c - c0]) else None
                              | None => None
                              end
                          | _ => None
                          end))
  | _, _ => Err IndexError
  end.

(** ** Reading a data file (mds.py:428-449) *)

(** The tile's index expression after the record entry. *)
Definition tile_sel (o : rdopts F) (nd_ : nat) (ov : overlap) : list selector :=
  let lv := map (fun l => Pick (lev_list l)) (o_lev o) in
  match ov_sel ov with
  | None => lv
  | Some (J0, Je, I0, Ie) => lv ++ repeat Whole (nd_ - length lv - 2) ++ [Range J0 Je; Range I0 Ie]
  end.

(** np.memmap opens the file for update and lengthens it with zero bytes if it is too short
    for the shape.  Nothing can be mapped for an empty shape. *)
Definition pad_to (n : nat) (bs : list byte) : list byte := bs ++ repeat x00 (n - length bs).
Definition memmap (fs : directory) (name : text) (p : prec) (od : order) (sh : list nat) : directory * res (nd F) :=
  match dget fs name with
  | None => (fs, Err OSError)
  | Some bs =>
      let need := size sh * itemsize p in
      if need =? 0 then (fs, Err (ValueError "cannot mmap an empty file")) else
      let bs' := pad_to need bs in
      (if length bs <? need then dset fs name bs' else fs,
       reshape N (items C8 C4 (size sh) p od bs') sh)
  end.

(** One record (mds.py:440-448): seek, read count items, reshape. *)
Definition read_record (bs : list byte) (p : prec) (od : order) (recshape : list nat) (nrec : nat) (z : Z)
    : res (nd F) :=
  let k := (if z <? 0 then z + Z.of_nat nrec else z)%Z in
  let count := size recshape in
  let pos := (k * Z.of_nat (count * itemsize p))%Z in
  if (pos <? 0)%Z then Err (ValueError "negative seek position") else
  let rest := skipn (Z.to_nat pos) bs in
  reshape N (items C8 C4 (Nat.min count (length rest / itemsize p)) p od rest) recshape.

(** for irec,recnum in enumerate(reclist) (mds.py:437-449) *)
Fixpoint read_records (o : rdopts F) (st : rdstate) (od : order) (bs : list byte) (w : view) (ov : overlap)
    (irec : nat) (recs : list Z) (arr : nd F) : res (nd F) :=
  match recs with
  | [] => Ok arr
  | z :: r =>
      if ov_any ov
      then
        rec <- read_record bs (s_prec st) od (s_recshape st) (s_nrec st) z ;;
        v <- select rec (tile_sel o (length (s_recshape st)) ov) ;;
        sub <- subview w irec ;;
        arr' <- assign arr sub v ;;
        read_records o st od bs w ov (irec + 1) r arr'
      else
        if (((if z <? 0 then z + Z.of_nat (s_nrec st) else z)
             * Z.of_nat (size (s_recshape st) * itemsize (s_prec st))) <? 0)%Z
        then Err (ValueError "negative seek position")
        else read_records o st od bs w ov (irec + 1) r arr
  end.

(** All records at once if rec is None or a memory map is used. *)
Definition rec_sel (o : rdopts F) : selector :=
  match o_rec o with RecAll => Whole | RecOne z => Pick [z] | RecList l => Pick l end.

Definition read_data (fs : directory) (o : rdopts F) (od : order) (st : rdstate) (datafile : text)
    (w : view) (ov : overlap) : directory * res (nd F) :=
  if o_memmap o || match o_rec o with RecAll => true | _ => false end
  then
    if ov_any ov
    then
      let sh := s_nrec st :: s_recshape st in
      let '(fs', r) :=
        if o_memmap o then memmap fs datafile (s_prec st) od sh
        else (fs, match dget fs datafile with
                  | None => Err OSError
                  | Some bs => reshape N (fromfile_as C8 C4 (s_prec st) od bs) sh
                  end) in
      (fs', tile <- r ;;
            v <- select tile (rec_sel o :: tile_sel o (length (s_recshape st)) ov) ;;
            assign (s_arr st) w v)
    else (fs, Ok (s_arr st))
  else
    (fs, match dget fs datafile with
         | None => Err OSError
         | Some bs => read_records o st od bs w ov 0 (s_recs st) (s_arr st)
         end).

(** ** One meta file (mds.py:333-449) *)
Definition read_tile_full (o : rdopts F) (od : order) (nits iit : nat)
    (s : directory * option rdstate * option filemeta) (metafile : text)
    : directory * res (directory * option rdstate * option filemeta) :=
  let '(fs, st, _) := s in
  match dget fs metafile with
  | None => (fs, Err OSError)
  | Some bs =>
      let pre :=
        fm <- readmeta_full (byte_text bs) ;;
        let tm := fm_tile fm in
        st1 <- match st with
               | None => init_full o nits tm
               | Some s => if meta_eqb N (tm_meta tm) (s_meta s) then Ok s
                           else Err (ValueError "Meta files not compatible")
               end ;;
        let bounds := combine (tm_i0s tm) (tm_ies tm) in
        ov <- match o_region o, fm_map fm with
              | None, _ => Ok (mk_overlap bounds None true)
              | Some _, Some _ => Err (RuntimeError "Region selection is not implemented for map2glob")
              | Some _, None => region_overlap (s_region st1) bounds
              end ;;
        w <- match fm_map fm with
             | None => slice_view (shape (s_arr st1)) iit (ov_bounds ov)
             | Some m => mapped_view (shape (s_arr st1)) iit (ov_bounds ov) m
             end ;;
        Ok (fm, st1, ov, w) in
      match pre with
      | Err e => (fs, Err e)
      | Ok (fm, st1, ov, w) =>
          let '(fs', r) := read_data fs o od st1 (firstn (length metafile - 4) metafile ++ lit "data") w ov in
          (fs', arr <- r ;;
                Ok (fs', Some (mk_rdstate arr (s_prec st1) (s_recshape st1) (s_nrec st1) (s_recs st1)
                                 (s_region st1) (s_meta st1)), Some fm))
      end
  end.

(** A loop whose body changes files: they stay changed when it raises. *)
Fixpoint foldD {S X} (body : directory * S -> X -> directory * res (directory * S)) (l : list X)
    (s : directory * S) : directory * res (directory * S) :=
  match l with
  | [] => (fst s, Ok s)
  | x :: r => match body s x with
              | (fs, Err e) => (fs, Err e)
              | (_, Ok s') => foldD body r s'
              end
  end.

(** The state of the loop over iterations: the array, and the timeStepNumber and
    timeInterval entries collected so far. *)
Record rdacc := mk_rdacc {
  a_state : option rdstate; a_steps : list (value F); a_intervals : list (list (value F)) }.

Definition tiles_body (o : rdopts F) (od : order) (nits iit : nat)
    (s : directory * (option rdstate * option filemeta)) (metafile : text)
    : directory * res (directory * (option rdstate * option filemeta)) :=
  let '(fs, (st, fm)) := s in
  match read_tile_full o od nits iit (fs, st, fm) metafile with
  | (fs', Err e) => (fs', Err e)
  | (fs', Ok (_, st', fm')) => (fs', Ok (fs', (st', fm')))
  end.

(** One iteration, mds.py:318-456; the step and interval are those of the last tile. *)
Definition iter_body (fnamearg : text) (additrs : bool) (o : rdopts F) (od : order) (nits : nat)
    (s : directory * rdacc) (ii : nat * Z) : directory * res (directory * rdacc) :=
  let '(fs, acc) := s in
  let fname := if additrs then fnamearg ++ ["."%char] ++ fmt_0d 10 (snd ii) else fnamearg in
  match metafiles_of fs fname with
  | Err e => (fs, Err e)
  | Ok mfs =>
      match foldD (tiles_body o od nits (fst ii)) mfs (fs, (a_state acc, None)) with
      | (fs', Err e) => (fs', Err e)
      | (_, Ok (fs', (st, fm))) =>
          (fs', Ok (fs', mk_rdacc st
             (a_steps acc ++ match fm with Some f => match fm_step f with Some l => l | None => [] end | None => [] end)
             (a_intervals acc ++ match fm with
                                 | Some f => match fm_interval f with Some l => [l] | None => [] end
                                 | None => [] end)))
      end
  end.

(** mds.py:465-478.  Without squeeze, the extents that came from scalars are dropped, and so
    is that of the records if rec is None. *)
Definition drop_dims (o : rdopts F) (itlist : bool) (arr : nd F) : res (nd F) :=
  let nlev := length (o_lev o) in
  let dims := firstn (2 + nlev) (shape arr) in
  let keepers := itlist :: (match o_rec o with RecList _ => true | _ => false end)
                   :: map (fun l => match l with LevList _ => true | LevOne _ => false end) (o_lev o) in
  let kept := if o_squeeze o then filter (fun d => 1 <? d) dims
              else map fst (filter snd (combine dims keepers)) in
  reshape N (ravel arr) (kept ++ skipn (2 + nlev) (shape arr)).

(** mds.py:275-299 *)
Definition itr_list (fs : directory) (fnamearg : text) (it : itarg) : res (list Z) :=
  match it with
  | ItNone => Ok [(-1)%Z]
  | ItOne z => Ok [z]
  | ItList l => Ok l
  | ItNaN => scanforfiles fs fnamearg
  | ItInf => l <- scanforfiles fs fnamearg ;; Ok (match rev l with x :: _ => [x] | [] => [] end)
  end.
Definition adds (it : itarg) : bool :=
  match it with ItNone => false | ItOne z => negb (z =? -1)%Z | _ => true end.
Definition it_is_list (it : itarg) : bool :=
  match it with ItList _ | ItNaN => true | _ => false end.

(** The entries of the returned dictionary. *)
Inductive mentry := Vals (l : list (value F)) | Lists (l : list (list (value F))).

(** str.lower of ASCII text *)
Definition lower_char (c : ascii) : ascii :=
  let n := nat_of_ascii c in if (65 <=? n) && (n <=? 90) then ascii_of_nat (n + 32) else c.
Definition lower (t : text) : text := map lower_char t.

(** mds.py:458-463, 481 *)
Definition meta_result (acc : rdacc) : list (text * mentry) :=
  let base := match a_state acc with
              | Some s => map (fun kv => (fst kv, Vals (snd kv))) (s_meta s)
              | None => []
              end in
  let m1 := match a_steps acc with [] => base | l => dset base (lit "timeStepNumber") (Vals l) end in
  let m2 := match a_intervals acc with [] => m1 | l => dset m1 (lit "timeInterval") (Lists l) end in
  fold_left (fun d kv => dset d (lower (fst kv)) (snd kv)) m2 [].

(** mds.py:201-486 with returnmeta=True: the array, the iteration numbers and the meta data. *)
Definition rdmds_full (fs : directory) (fnamearg : text) (it : itarg) (machineformat : text) (o : rdopts F)
    : directory * res (nd F * list Z * list (text * mentry)) :=
  match itr_list fs fnamearg it with
  | Err e => (fs, Err e)
  | Ok itrs =>
  match typeprefix machineformat with
  | None => (fs, Err (ValueError "Allowed machineformats"))
  | Some od =>
      match foldD (iter_body fnamearg (adds it) o od (length itrs)) (combine (seq 0 (length itrs)) itrs)
              (fs, mk_rdacc None [] []) with
      | (fs', Err e) => (fs', Err e)
      | (_, Ok (fs', acc)) =>
          (fs', arr <- match a_state acc with
                       | None => Ok (mk_nd [0] (fun _ => nzero N))
                       | Some s => drop_dims o (it_is_list it) (s_arr s)
                       end ;;
                Ok (arr, itrs, meta_result acc))
      end
  end end.

End RdMds.

(** The default options. *)
Definition rd_default {F} (N : numops F) : rdopts F := mk_rdopts RecAll [] None (nzero N) false true.
