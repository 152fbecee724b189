(** Specification of a set of tile files, and of what reading parts of it has to give. *)
From Coq Require Import Ascii String List Bool PeanoNat ZArith Init.Byte Sorting.Sorted.
Import ListNotations.
From Verif Require Import Num MdsMeta Mds SpecMds RdMds.
Set Implicit Arguments.
Local Open Scope nat_scope.
Local Open Scope list_scope.

(** ** The text of a tile's meta file, as MITgcm writes it *)

(** global size, first and last index (counted from 1), in columns of five *)
Definition tile_line (t : Z * Z * Z) : text :=
  let '(d, lo, hi) := t in
  fmt_d 5 d ++ [","%char] ++ fmt_d 5 lo ++ [","%char] ++ fmt_d 5 hi.

Record tile_head := mk_tile_head {
  th_dims : list (Z * Z * Z);       (** x first *)
  th_prec : prec; th_nrec : nat;
  th_map : option (Z * Z); th_step : option Z }.

Definition prec_text (p : prec) : text := match p with Single => lit "float32" | Double => lit "float64" end.

Definition tile_text (h : tile_head) : text :=
  lit " nDims = [ " ++ fmt_d 3 (Z.of_nat (length (th_dims h))) ++ lit " ];" ++ [newline]
  ++ lit " dimList = [" ++ [newline] ++ [" "%char]
  ++ join ([","%char] ++ [newline] ++ [" "%char]) (map tile_line (th_dims h))
  ++ [newline] ++ lit " ];" ++ [newline]
  ++ match th_map h with
     | Some (a, b) => lit " map2glob = [ " ++ fmt_d 5 a ++ [","%char] ++ fmt_d 5 b ++ lit " ];" ++ [newline]
     | None => []
     end
  ++ lit " dataprec = [ '" ++ prec_text (th_prec h) ++ lit "' ];" ++ [newline]
  ++ lit " nrecords = [ " ++ fmt_d 5 (Z.of_nat (th_nrec h)) ++ lit " ];" ++ [newline]
  ++ match th_step h with
     | Some i => lit " timeStepNumber = [ " ++ fmt_d 10 i ++ lit " ];" ++ [newline]
     | None => []
     end.

(** ** A field stored in tiles *)

(** An array of extents [td_lead ++ [td_ny; td_nx]] for each of [td_nrec] records, cut into
    tiles of extents [td_ext]; a tile is the part of its file name between the base name and
    the ending, and its first index in the array. *)
Record tiled := mk_tiled {
  td_lead : list nat; td_ny : nat; td_nx : nat; td_nrec : nat; td_prec : prec;
  td_ext : list nat; td_tiles : list (text * list nat) }.

Definition td_dims (td : tiled) : list nat := td_lead td ++ [td_ny td; td_nx td].

Definition add_idx (lo idx : list nat) : list nat := map (fun p => fst p + snd p) (combine lo idx).

(** Every tile lies in the array; with levels being picked, it has all of them. *)
Definition tile_inside (td : tiled) (lo : list nat) : Prop :=
  length lo = length (td_dims td) /\ length (td_ext td) = length (td_dims td) /\
  Forall2 le (add_idx lo (td_ext td)) (td_dims td).
Definition whole_levels (td : tiled) (nlev : nat) (lo : list nat) : Prop :=
  firstn nlev lo = repeat 0 nlev /\ firstn nlev (td_ext td) = firstn nlev (td_dims td).

Definition tile_bounds (td : tiled) (lo : list nat) : list (Z * Z * Z) :=
  map (fun q => let '(d, l, n) := q in (Z.of_nat d, Z.of_nat l + 1, Z.of_nat l + Z.of_nat n)%Z)
    (combine (combine (td_dims td) lo) (td_ext td)).

Definition tile_heading (td : tiled) (step : option Z) (lo : list nat) : tile_head :=
  mk_tile_head (rev (tile_bounds td lo)) (td_prec td) (td_nrec td) None step.

(** The records of a tile, one after the other. *)
Definition tile_content {F} (td : tiled) (A : list nat -> F) (lo : list nat) : list F :=
  flat_map (fun r => map (fun idx => A (r :: add_idx lo idx)) (all_idx (td_ext td))) (seq 0 (td_nrec td)).

(** The tile files are those numbered .ddd.ddd, all of them; or there is one file for the
    whole array. *)
Definition tile_name (name : text) : Prop :=
  exists d e, length d = 3 /\ length e = 3 /\ is_decimal d /\ is_decimal e
    /\ name = ["."%char] ++ d ++ ["."%char] ++ e.
Definition listed (l : list text) (base : text) (td : tiled) : Prop :=
  (td_tiles td <> [] /\ NoDup (map fst (td_tiles td)) /\ Forall tile_name (map fst (td_tiles td))
   /\ forall name, tile_name name -> In (base ++ name ++ lit ".meta") l -> In name (map fst (td_tiles td)))
  \/ (map fst (td_tiles td) = [[]] /\ ~ has_tile l base).

(** ** What is asked for *)

(** Python's negative indices count from the end. *)
Definition wrap (n : nat) (z : Z) : Z := if (z <? 0)%Z then (z + Z.of_nat n)%Z else z.
Definition index_ok (n : nat) (z : Z) : Prop := (- Z.of_nat n <= z < Z.of_nat n)%Z.
Definition index_of (n : nat) (z : Z) : nat := Z.to_nat (wrap n z).

Definition wanted_recs {F} (o : rdopts F) (nrec : nat) : list nat :=
  match o_rec o with
  | RecAll => seq 0 nrec
  | RecOne z => [index_of nrec z]
  | RecList l => map (index_of nrec) l
  end.
Definition recs_ok {F} (o : rdopts F) (nrec : nat) : Prop :=
  match o_rec o with
  | RecAll => True
  | RecOne z => index_ok nrec z
  | RecList l => Forall (index_ok nrec) l
  end.

Definition levels_of (l : levarg) : list Z := match l with LevOne z => [z] | LevList zs => zs end.
Definition lev_ok (l : levarg) (n : nat) : Prop := Forall (index_ok n) (levels_of l) /\ length (levels_of l) <= n.

Definition wanted_range (n : nat) (lo hi : Z) : list nat :=
  seq (Z.to_nat (wrap n lo)) (Z.to_nat (wrap n hi - wrap n lo)).
Definition range_ok (n : nat) (lo hi : Z) : Prop := (0 <= wrap n lo <= wrap n hi)%Z.

(** The indices asked for along each axis. *)
Definition wanted {F} (o : rdopts F) (td : tiled) : list (list nat) :=
  map (fun ln => map (index_of (snd ln)) (levels_of (fst ln))) (combine (o_lev o) (td_lead td))
  ++ map (seq 0) (skipn (length (o_lev o)) (td_lead td))
  ++ match o_region o with
     | None => [seq 0 (td_ny td); seq 0 (td_nx td)]
     | Some r => [wanted_range (td_ny td) (rj0 r) (rje r); wanted_range (td_nx td) (ri0 r) (rie r)]
     end.

Definition options_ok {F} (o : rdopts F) (td : tiled) : Prop :=
  recs_ok o (td_nrec td) /\
  length (o_lev o) <= length (td_lead td) /\
  Forall (fun ln => lev_ok (fst ln) (snd ln)) (combine (o_lev o) (td_lead td)) /\
  match o_region o with
  | None => True
  | Some r => range_ok (td_ny td) (rj0 r) (rje r) /\ range_ok (td_nx td) (ri0 r) (rie r)
  end /\
  (o_memmap o = true -> td_nrec td <> 0 /\ Forall (fun n => n <> 0) (td_ext td)).

(** The bytes hold the items [l] one after the other, and maybe more. *)
Definition decodes {F} (C8 C4 : codec F) (p : prec) (od : order) (bs : list byte) (l : list F) : Prop :=
  forall j x, nth_error l j = Some x ->
    j * itemsize p + itemsize p <= length bs /\
    dec_item C8 C4 p od (firstn (itemsize p) (skipn (j * itemsize p) bs)) = x.

(** The data file of a tile has what is asked for.  Reading everything at once takes a file
    of the right size, unless it is mapped; reading some records takes just these. *)
Definition readable {F} (C8 C4 : codec F) (od : order) (td : tiled) (o : rdopts F)
    (A : list nat -> F) (lo : list nat) (bs : list byte) : Prop :=
  let p := td_prec td in
  let count := size (td_ext td) in
  match o_memmap o, o_rec o with
  | true, _ => decodes C8 C4 p od bs (tile_content td A lo)
  | false, RecAll => decodes C8 C4 p od bs (tile_content td A lo) /\
                     length bs < (td_nrec td * count + 1) * itemsize p
  | false, _ => forall k, In k (wanted_recs o (td_nrec td)) ->
      decodes C8 C4 p od (skipn (k * count * itemsize p) bs)
        (map (fun idx => A (k :: add_idx lo idx)) (all_idx (td_ext td)))
  end.

(** The files of one iteration. *)
Definition tile_files {F} (C8 C4 : codec F) (fs : directory) (base : text) (od : order) (td : tiled)
    (o : rdopts F) (step : option Z) (A : list nat -> F) : Prop :=
  forall name lo, In (name, lo) (td_tiles td) ->
    dget fs (base ++ name ++ lit ".meta") = Some (text_bytes (tile_text (tile_heading td step lo))) /\
    exists bs, dget fs (base ++ name ++ lit ".data") = Some bs /\ readable C8 C4 od td o A lo bs.

(** All ways to take one element of each list; the last list runs fastest. *)
Fixpoint product (l : list (list nat)) : list (list nat) :=
  match l with
  | [] => [[]]
  | a :: r => flat_map (fun x => map (cons x) (product r)) a
  end.

(** An element lies in a tile. *)
Fixpoint in_tile (lo ext idx : list nat) : bool :=
  match lo, ext, idx with
  | l :: lo', n :: ext', i :: idx' => (l <=? i) && (i <? l + n) && in_tile lo' ext' idx'
  | _, _, _ => true
  end.

(** The element with record and index [g]: that of the field if a tile has it, else the fill
    value. *)
Definition element {F} (o : rdopts F) (td : tiled) (A : list nat -> F) (g : list nat) : F :=
  match g with
  | r :: idx => if existsb (fun t => in_tile (snd t) (td_ext td) idx) (td_tiles td) then A g else o_fill o
  | [] => o_fill o
  end.

(** ** The extents of the result *)
Definition result_shape {F} (o : rdopts F) (td : tiled) (itlist : bool) (nits : nat) : list nat :=
  (if o_squeeze o
   then filter (fun d => 1 <? d)
          (nits :: length (wanted_recs o (td_nrec td)) :: map (@length nat) (firstn (length (o_lev o)) (wanted o td)))
   else (if itlist then [nits] else [])
        ++ (match o_rec o with RecList l => [length l] | _ => [] end)
        ++ flat_map (fun l => match l with LevList zs => [length zs] | LevOne _ => [] end) (o_lev o))
  ++ map (@length nat) (skipn (length (o_lev o)) (wanted o td)).

(** Nothing empty is squeezed out; no extent but 1 is dropped. *)
Definition shape_ok {F} (o : rdopts F) (td : tiled) (itlist : bool) (nits : nat) : Prop :=
  if o_squeeze o
  then 0 < nits /\ wanted_recs o (td_nrec td) <> [] /\ Forall (fun l => levels_of l <> []) (o_lev o)
  else (itlist = false -> nits = 1) /\ (o_rec o = RecAll -> td_nrec td = 1).

(** ** The iterations asked for *)

(** Those on disk: by the first tiles if there are any, else by the files without tiles. *)
Definition on_disk (l : list text) (fname : text) (z : Z) : Prop :=
  has_iteration l fname (lit ".001.001.meta") z
  \/ (~ exists n, has_iteration l fname (lit ".001.001.meta") n) /\ has_iteration l fname (lit ".meta") z.

Definition asked_for (l : list text) (fname : text) (it : itarg) (itrs : list Z) : Prop :=
  match it with
  | ItNone => itrs = [(-1)%Z]
  | ItOne z => itrs = [z]
  | ItList zs => itrs = zs
  | ItNaN => Sorting.Sorted.StronglySorted Z.lt itrs /\ forall z, In z itrs <-> on_disk l fname z
  | ItInf => exists z, itrs = [z] /\ on_disk l fname z /\ forall y, on_disk l fname y -> (y <= z)%Z
  end.

(** The name of the files of iteration z, without endings.  -1 stands for no iteration. *)
Definition file_base (fname : text) (it : itarg) (z : Z) : text :=
  match it with
  | ItNone | ItOne (-1)%Z => fname
  | _ => fname ++ ["."%char] ++ fmt_0d 10 z
  end.

(** The data files are the encoded tiles. *)
Definition encoded_files {F} (C8 C4 : codec F) (fs : directory) (base : text) (od : order) (td : tiled)
    (step : option Z) (A : list nat -> F) : Prop :=
  forall name lo, In (name, lo) (td_tiles td) ->
    dget fs (base ++ name ++ lit ".meta") = Some (text_bytes (tile_text (tile_heading td step lo))) /\
    dget fs (base ++ name ++ lit ".data") = Some (flat_map (enc_item C8 C4 (td_prec td) od) (tile_content td A lo)).

(** The dictionary returned. *)
Definition returned_meta {F} (td : tiled) (steps : list Z) : list (text * mentry (F:=F)) :=
  [(lit "ndims", Vals [Vint (Z.of_nat (length (td_dims td)))]);
   (lit "dataprec", Vals [Vstr (prec_text (td_prec td))]);
   (lit "nrecords", Vals [Vint (Z.of_nat (td_nrec td))]);
   (lit "dimlist", Vals (map (fun n => Vint (Z.of_nat n)) (rev (td_dims td))))]
  ++ match steps with [] => [] | _ => [(lit "timestepnumber", Vals (map Vint steps))] end.
