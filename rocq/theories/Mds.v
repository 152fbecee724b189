(** mds.py, the data side: wrmds and rdmds; and mds2mitgrid.py. *)
From Coq Require Import Ascii String List Bool PeanoNat ZArith Init.Byte.
Import ListNotations.
From Verif Require Import Prelude Num Mat Fields GridIO MdsMeta.
Set Implicit Arguments.
Local Open Scope nat_scope.
Local Open Scope list_scope.

(** ** Arrays of any number of dimensions *)

Record nd (F : Type) : Type := mk_nd { shape : list nat; at_ : list nat -> F }.
Arguments mk_nd {F}.

Definition size (sh : list nat) : nat := fold_right Nat.mul 1 sh.

(** All index tuples in C order (last index fastest). *)
Fixpoint all_idx (sh : list nat) : list (list nat) :=
  match sh with
  | [] => [[]]
  | n :: r => flat_map (fun i => map (cons i) (all_idx r)) (seq 0 n)
  end.

(** The position of an index tuple in C order. *)
Fixpoint offset (sh idx : list nat) : nat :=
  match sh, idx with
  | _ :: r, i :: t => i * size r + offset r t
  | _, _ => 0
  end.

(** The elements in C order. *)
Definition ravel {F} (a : nd F) : list F := map (at_ a) (all_idx (shape a)).

Definition byte_text (bs : list byte) : text := map ascii_of_byte bs.
Definition text_bytes (t : text) : list byte := map byte_of_ascii t.

(** open(...,'w') and tofile: the file is replaced, or created (at some place of the
    listing; the end here). *)
Definition write_file (fs : directory) (name : text) (bs : list byte) : directory :=
  dset fs name bs.

Inductive prec := Single | Double.
Inductive order := Big | Little.

Section Mds.
Context {F : Type} (N : numops F).
(** The storage formats '>f8', '>f4' (an item of 8 or 4 bytes, big-endian; little-endian
    items are the same bytes reversed). *)
Variables (C8 C4 : codec F).
Variable float_of : text -> option F.

Definition itemsize (p : prec) : nat := match p with Single => 4 | Double => 8 end.
Definition codec_of (p : prec) : codec F := match p with Single => C4 | Double => C8 end.
Definition enc_item (p : prec) (o : order) (x : F) : list byte :=
  match o with Big => enc (codec_of p) x | Little => rev (enc (codec_of p) x) end.
Definition dec_item (p : prec) (o : order) (l : list byte) : F :=
  match o with Big => dec (codec_of p) l | Little => dec (codec_of p) (rev l) end.

(** _typeprefixes and _typesuffixes (mds.py:190-199). *)
Definition typeprefix (mf : text) : option order :=
  if existsb (text_eqb mf) [lit "ieee-be"; lit "b"; lit ">"] then Some Big
  else if existsb (text_eqb mf) [lit "ieee-le"; lit "l"; lit "<"] then Some Little
  else None.
Definition typesuffix (s : text) : option prec :=
  if text_eqb s (lit "float32") then Some Single
  else if text_eqb s (lit "float64") then Some Double
  else None.

(** np.reshape of a list of items in C order. *)
Definition reshape (l : list F) (sh : list nat) : res (nd F) :=
  if length l =? size sh
  then Ok (mk_nd sh (fun idx => nth (offset sh idx) l (nzero N)))
  else Err (ValueError "cannot reshape array").

(** np.fromfile: whole items; an incomplete trailing item is dropped. *)
Fixpoint items (k : nat) (p : prec) (o : order) (bs : list byte) : list F :=
  match k with
  | O => []
  | S k' => dec_item p o (firstn (itemsize p) bs) :: items k' p o (skipn (itemsize p) bs)
  end.
Definition fromfile_as (p : prec) (o : order) (bs : list byte) : list F :=
  items (length bs / itemsize p) p o bs.

(** ** wrmds (mds.py:482-604)

    times, deltat and dimlist are left at None ([WrMds] has them); ndims and nrecords are not
    negative. *)

(** mds.py:529-537: leading dimensions are multiplied up until n >= nrecords. *)
Fixpoint fold_dims (lead : list nat) (n nrecords : nat) : res nat :=
  if n <? nrecords
  then match lead with
       | [] => Err IndexError
       | d :: r => fold_dims r (n * d) nrecords
       end
  else if n =? nrecords then Ok (length lead) else Err AssertionError.

(** mds.py:525-537 *)
Definition ndims_of (sh : list nat) (ndims nrecords : option nat) : res nat :=
  match ndims with
  | Some n => Ok n
  | None =>
      match nrecords with
      | None => Ok (Nat.min 3 (length sh))
      | Some r => fold_dims sh 1 r
      end
  end.

(** sh[:-n]; for n = 0 this is empty. *)
Definition lead_dims (sh : list nat) (n : nat) : list nat :=
  match n with O => [] | _ => firstn (length sh - n) sh end.

Definition wrmds (fs : directory) (fbase : text) (arr : nd F) (itr : option Z)
    (dataprec : text) (ndims nrecords : option nat) (fields : option (list text))
    (simulation : option text) (machineformat : text) : directory * res unit :=
  match typeprefix machineformat with
  | None => (fs, Err KeyError)
  | Some o =>
  match typesuffix dataprec with
  | None => (fs, Err (ValueError "dataprec must be 'float32' or 'float64'."))
  | Some p =>
  match ndims_of (shape arr) ndims nrecords with
  | Err e => (fs, Err e)
  | Ok n =>
      let dims := rev (skipn (length (shape arr) - n) (shape arr)) in
      let nrec := size (lead_dims (shape arr) n) in
      if match nrecords with Some r => negb (r =? nrec) | None => false end
      then (fs, Err (ValueError "Shape/nrecords mismatch"))
      else
        let base := match itr with
                    | Some i => fbase ++ ["."%char] ++ fmt_0d 10 i
                    | None => fbase
                    end in
        match meta_text n dims dataprec nrec itr fields simulation with
        | Err e =>
            (* raised after the file was opened; the part written first is left out *)
            (write_file fs (base ++ lit ".meta") [], Err e)
        | Ok t =>
            let fs1 := write_file fs (base ++ lit ".meta") (text_bytes t) in
            (write_file fs1 (base ++ lit ".data") (flat_map (enc_item p o) (ravel arr)), Ok tt)
        end
  end end end.

(** ** readmeta (mds.py:173-187) *)

(** l[-1::-3] of a list given reversed. *)
Fixpoint every3 {A} (l : list A) : list A :=
  match l with
  | a :: _ :: _ :: r => a :: every3 r
  | a :: _ => [a]
  | [] => []
  end.

(** Sizes and bounds take part in arithmetic and index arrays: anything but an integer
    raises TypeError (at the latest when the array is made). *)
Definition as_int (v : value F) : res Z :=
  match v with Vint z => Ok z | _ => Err TypeError end.

Record tilemeta := mk_tilemeta {
  tm_gdims : list Z; tm_i0s : list Z; tm_ies : list Z;
  tm_meta : metadict F; tm_mapped : bool }.

Definition readmeta (content : text) : res tilemeta :=
  meta <- parsemeta float_of content ;;
  match dget meta (lit "dimList") with
  | None => Err KeyError
  | Some vs =>
      dl <- mapM as_int vs ;;
      let r := rev dl in
      let gdims := every3 (skipn 2 r) in
      let rest := dpop (dpop (dpop (dpop meta (lit "dimList")) (lit "timeInterval"))
                          (lit "timeStepNumber")) (lit "map2glob") in
      Ok (mk_tilemeta gdims (map (fun i => (i - 1)%Z) (every3 (skipn 1 r))) (every3 r)
            (rest ++ [(lit "dimList", map Vint (rev gdims))])
            (match dget meta (lit "map2glob") with Some _ => true | None => false end))
  end.

(** ** rdmds (mds.py:201-479)

    Modelled with rec=None, lev=(), region=None, usememmap=False, squeeze=True and
    fill_value=0.  Tiles with map2glob raise here; the code would place them. *)

Inductive iterations := NoIter | Iters (l : list Z) | AllIters | LastIter.

Definition value_eqb (a b : value F) : bool :=
  match a, b with
  | Vint x, Vint y => (x =? y)%Z
  | Vfloat x, Vfloat y => neqb N x y
  | Vfloat x, Vint y => neqz N x y
  | Vint x, Vfloat y => neqz N y x
  | Vstr x, Vstr y => text_eqb x y
  | _, _ => false
  end.
Fixpoint values_eqb (a b : list (value F)) : bool :=
  match a, b with
  | [], [] => true
  | x :: r, y :: s => value_eqb x y && values_eqb r s
  | _, _ => false
  end.
(** meta != metaref (mds.py:376) *)
Definition meta_eqb (a b : metadict F) : bool :=
  (length a =? length b)
  && forallb (fun kv => match dget b (fst kv) with
                        | Some v => values_eqb (snd kv) v
                        | None => false
                        end) a.

(** x, = meta[key] *)
Definition single (m : metadict F) (key : text) : res (value F) :=
  match dget m key with
  | Some [v] => Ok v
  | Some _ => Err (ValueError "too many values to unpack")
  | None => Err KeyError
  end.

(** dimension extents; a negative one raises *)
Definition extent (z : Z) : res nat :=
  if (z <? 0)%Z then Err (ValueError "negative dimensions are not allowed") else Ok (Z.to_nat z).

(** slice(i0,ie) of an axis of extent n: first index and count. *)
Definition clip (n : nat) (k : Z) : nat :=
  if (k <? 0)%Z then Z.to_nat (Z.of_nat n + k) else Nat.min n (Z.to_nat k).
Definition slice_of (n : nat) (b : Z * Z) : nat * nat :=
  let s := clip n (fst b) in (s, clip n (snd b) - s).

Record rstate := mk_rstate {
  rs_arr : nd F; rs_prec : prec; rs_tileshape : list nat; rs_meta : metadict F }.

(** mds.py:335-374: the array is made when the first meta file is read. *)
Definition init_arr (nits : nat) (tm : tilemeta) : res rstate :=
  pv <- match dget (tm_meta tm) (lit "dataprec") with
        | Some _ => single (tm_meta tm) (lit "dataprec")
        | None => single (tm_meta tm) (lit "format")
        end ;;
  p <- match pv with
       | Vstr s => match typesuffix s with Some p => Ok p | None => Err KeyError end
       | _ => Err KeyError
       end ;;
  recshape <- mapM extent (map (fun b => (snd b - fst b)%Z) (combine (tm_i0s tm) (tm_ies tm))) ;;
  if match recshape with [] => true | _ => false end then Err TypeError else
  nv <- single (tm_meta tm) (lit "nrecords") ;;
  nz <- as_int nv ;;
  nrec <- extent nz ;;
  if length (tm_gdims tm) <? 2 then Err IndexError else
  gd <- mapM extent (tm_gdims tm) ;;
  Ok (mk_rstate (mk_nd (nits :: nrec :: gd) (fun _ => nzero N)) p (nrec :: recshape) (tm_meta tm)).

(** Whether an index tuple lies in the slices, and its place in the tile; axes without a
    slice are taken whole. *)
Fixpoint in_slices (sl : list (nat * nat)) (idx : list nat) : option (list nat) :=
  match sl, idx with
  | (s, c) :: sl', i :: t =>
      if (s <=? i) && (i <? s + c)
      then option_map (cons (i - s)) (in_slices sl' t)
      else None
  | _, _ => Some idx
  end.

(** arr[(iit,:)+sl][...] = tile (mds.py:409-433).  Extents have to agree: broadcasting of
    extents 1 is not modelled. *)
Definition place (arr : nd F) (iit : nat) (bounds : list (Z * Z)) (tile : nd F) : res (nd F) :=
  match shape arr with
  | nits :: nrec :: gd =>
      if length gd <? length bounds then Err IndexError else
      let sl := map (fun nb => slice_of (fst nb) (snd nb)) (combine gd bounds) in
      let target := nrec :: map snd sl ++ skipn (length bounds) gd in
      if list_eq_dec Nat.eq_dec target (shape tile)
      then Ok (mk_nd (shape arr) (fun idx =>
             match idx with
             | i :: r :: t =>
                 if i =? iit
                 then match in_slices sl t with
                      | Some t' => at_ tile (r :: t')
                      | None => at_ arr idx
                      end
                 else at_ arr idx
             | _ => at_ arr idx
             end))
      else Err (ValueError "could not broadcast input array")
  | _ => Err IndexError
  end.

(** One meta file, mds.py:333-449. *)
Definition read_tile (fs : directory) (o : order) (nits iit : nat)
    (st : option rstate) (metafile : text) : res (option rstate) :=
  match dget fs metafile with
  | None => Err OSError
  | Some bs =>
      tm <- readmeta (byte_text bs) ;;
      st1 <- match st with
             | None => init_arr nits tm
             | Some s => if meta_eqb (tm_meta tm) (rs_meta s) then Ok s
                         else Err (ValueError "Meta files not compatible")
             end ;;
      if tm_mapped tm then Err (RuntimeError "map2glob is not modelled") else
      match dget fs (firstn (length metafile - 4) metafile ++ lit "data") with
      | None => Err OSError
      | Some dbs =>
          tile <- reshape (fromfile_as (rs_prec st1) o dbs) (rs_tileshape st1) ;;
          arr <- place (rs_arr st1) iit (combine (tm_i0s tm) (tm_ies tm)) tile ;;
          Ok (Some (mk_rstate arr (rs_prec st1) (rs_tileshape st1) (rs_meta st1)))
      end
  end.

(** mds.py:329-331: fname + 2*('.'+3*'[0-9]') + '.meta', or fname.meta *)
Definition tile_pat (fname : text) : text :=
  fname ++ concat (repeat (["."%char] ++ digits_pat 3) 2) ++ lit ".meta".
Definition metafiles_of (fs : directory) (fname : text) : res (list text) :=
  match glob fs (tile_pat fname) with
  | [] =>
      match glob fs (fname ++ lit ".meta") with
      | [] => Err OSError
      | l => Ok l
      end
  | l => Ok l
  end.

(** One iteration number, mds.py:318-449. *)
Definition read_iter (fs : directory) (fnamearg : text) (additrs : bool) (o : order) (nits : nat)
    (st : option rstate) (ii : nat * Z) : res (option rstate) :=
  let fname := if additrs then fnamearg ++ ["."%char] ++ fmt_0d 10 (snd ii) else fnamearg in
  mfs <- metafiles_of fs fname ;;
  foldM (read_tile fs o nits (fst ii)) mfs st.

(** mds.py:275-296; the last iteration number, if any, for LastIter. *)
Definition iteration_list (fs : directory) (fnamearg : text) (it : iterations) : res (list Z) :=
  match it with
  | NoIter => Ok [(-1)%Z]
  | Iters l => Ok l
  | AllIters => scanforfiles fs fnamearg
  | LastIter =>
      l <- scanforfiles fs fnamearg ;;
      Ok (match rev l with x :: _ => [x] | [] => [] end)
  end.

(** mds.py:465-478, squeeze=True, no levels: iteration and record extents of 1 are dropped. *)
Definition squeeze (arr : nd F) : res (nd F) :=
  match shape arr with
  | a :: b :: r => reshape (ravel arr) (filter (fun d => 1 <? d) [a; b] ++ r)
  | _ => Ok arr
  end.

(** A list of iterations holding just -1 compares unequal to -1, a bare -1 does not. *)
Definition rdmds (fs : directory) (fnamearg : text) (it : iterations) (machineformat : text)
    : res (nd F) :=
  itrs <- iteration_list fs fnamearg it ;;
  match typeprefix machineformat with
  | None => Err (ValueError "Allowed machineformats")
  | Some o =>
      st <- foldM (read_iter fs fnamearg (match it with NoIter => false | _ => true end) o
                     (length itrs))
              (combine (seq 0 (length itrs)) itrs) None ;;
      match st with
      | None => Ok (mk_nd [0] (fun _ => nzero N))
      | Some s => squeeze (rs_arr s)
      end
  end.

(** ** mds2mitgrid.py:11-51

    The result maps a field to None or an array. *)

(** mitgridfilefields.py:27-28 *)
Definition field_text (f : field) : text :=
  lit match f with
      | XC => "XC" | YC => "YC" | DXF => "DXF" | DYF => "DYF" | RAC => "RAC"
      | XG => "XG" | YG => "YG" | DXV => "DXV" | DYU => "DYU" | RAZ => "RAZ"
      | DXC => "DXC" | DYC => "DYC" | RAW => "RAW" | RAS => "RAS"
      | DXG => "DXG" | DYG => "DYG"
      end.

(** mds2mitgrid.py:44-47, of the array before it is transposed.  A one-dimensional array
    raises IndexError on shape[1].  An array of more than two dimensions cannot be assigned
    to the two-dimensional target, leading extents 1 apart, which are not modelled. *)
Definition recast (f : field) (a : nd F) : res (mat F * (nat * nat)) :=
  match shape a with
  | [nj; ni] =>
      Ok (mkmat (ni + ni_delta f) (nj + nj_delta f)
            (fun i j => if (i <? ni) && (j <? nj) then at_ a [j; i] else nzero N), (ni, nj))
  | [] | [_] => Err IndexError
  | _ => Err (ValueError "could not broadcast input array")
  end.

Definition mds_step (fs : directory) (rundir : text) (st : (field -> option (mat F)) * nat * nat)
    (f : field) : res ((field -> option (mat F)) * nat * nat) :=
  match rdmds fs (rundir ++ ["/"%char] ++ field_text f) NoIter (lit "b") with
  | Err _ => Ok st
  | Ok a =>
      let '(g, ni, nj) := st in
      ' (m, (r, c)) <- recast f a ;;
      let g' := fun f' => if field_beq f' f then Some m else g f' in
      if (ni =? 0) && (nj =? 0) then Ok (g', r, c) else Ok (g', ni, nj)
  end.

Definition mds2mitgrid (fs : directory) (rundir : text)
    : res ((field -> option (mat F)) * nat * nat) :=
  foldM (mds_step fs rundir) fields (fun _ => None, 0, 0).

(** The dictionary as write_mitgridfile takes it. *)
Definition mds_entry (g : field -> option (mat F)) (f : field) : entry F :=
  match g f with Some m => Arr m | None => NoneVal end.

End Mds.
