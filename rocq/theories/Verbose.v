(** What the functions and commands print when verbose.  Each function is given again with
    its print statements; without them it is the function of the same name (see
    VerboseFacts).  Arrays are printed by numpy, and their text is not modelled: the item is
    the array itself.  For getobcs and mds2mitgrid see [VerboseObcs]; rdmds prints too, and
    that is not modelled. *)
From Coq Require Import Ascii String List Bool PeanoNat ZArith Init.Byte.
Import ListNotations.
From Verif Require Import Prelude Num Mat Fields GridIO ComputeGrid Refine MkGrid Regrid MatchEdges AddFringe Stitch Cli MdsMeta Counts.
Set Implicit Arguments.
Local Open Scope nat_scope.
Local Open Scope list_scope.

(** What reaches standard output, in order: text, or an array and a newline. *)
Inductive item (F : Type) : Type := Text (t : text) | Array (m : mat F).
Arguments Text {F} t. Arguments Array {F} m.

Definition newline : text := ["010"%char].

(** The output of a computation, and its result. *)
Definition out (F A : Type) : Type := (list (item F) * res A)%type.

Definition obind {F A B} (o : out F A) (k : A -> out F B) : out F B :=
  match snd o with
  | Ok a => let r := k a in (fst o ++ fst r, snd r)
  | Err e => (fst o, Err e)
  end.
Notation "x <~ e ;; k" := (obind e (fun x => k)) (at level 61, e at next level, right associativity).
Notation "' p <~ e ;; k" := (obind e (fun p => k)) (at level 61, p pattern, e at next level, right associativity).

(** A computation that prints nothing. *)
Definition still {F A} (r : res A) : out F A := ([], r).
(** if verbose: print... *)
Definition say {F} (v : bool) (l : list (item F)) : out F unit := (if v then l else [], Ok tt).
(** print(text) *)
Definition line {F} (t : text) : item F := Text (t ++ newline).

Fixpoint ofold {F S X} (body : S -> X -> out F S) (l : list X) (s : S) : out F S :=
  match l with
  | [] => still (Ok s)
  | x :: l' => s' <~ body s x ;; ofold body l' s'
  end.

(** mitgridfilefields.py:27-28 *)
Definition field_name (f : field) : text :=
  lit match f with
  | XC => "XC" | YC => "YC" | DXF => "DXF" | DYF => "DYF" | RAC => "RAC" | XG => "XG" | YG => "YG"
  | DXV => "DXV" | DYU => "DYU" | RAZ => "RAZ" | DXC => "DXC" | DYC => "DYC" | RAW => "RAW"
  | RAS => "RAS" | DXG => "DXG" | DYG => "DYG"
  end.

Definition path_text (p : string) : text := list_ascii_of_string p.

Section Verbose.
Context {F : Type} (N : numops F) (C : codec F) (G : geod F).
(** '{:9.4f}'.format *)
Variable fmt : F -> text.
Variable v : bool.
Notation out := (out F).
Notation pt := (F * F)%type.

(** gridio.py:97-118 *)
Definition read_fieldV (raw : list F) (ni nj : Z) (strict : bool) (g : grid F) (f : field) : out (grid F) :=
  g' <~ still (read_fieldZ N raw ni nj strict g f) ;;
  _ <~ say v [Text (lit "formatting " ++ padr " " 3 (field_name f) ++ lit " (" ++ int_text (ni + Z.of_nat (ni_delta f))
                ++ lit "x" ++ int_text (nj + Z.of_nat (nj_delta f)) ++ lit ")... ");
              Text (lit " done." ++ newline)] ;;
  still (Ok g').

(** gridio.py:88-121 *)
Definition read_tileV (fs : filesystem) (p : string) (ni nj : Z) (strict : bool) : out (grid F) :=
  _ <~ say v [Text (lit "reading " ++ int_text (16 * ((ni + 1) * (nj + 1))) ++ lit " doubles from " ++ path_text p ++ lit "... ")] ;;
  bs <~ still (read_bytes fs p) ;;
  _ <~ say v [Text (lit " done." ++ newline)] ;;
  ofold (read_fieldV (fromfile C bs) ni nj strict) fields (fun _ => mconst 0 0 (nzero N)).

(** computegrid.py:8-50 *)
Definition areasV (cg : mat pt) (ex ey : mat F) : out (mat F) :=
  a <~ still (areas N G cg ex ey) ;;
  _ <~ say v [line (lit "compute_areas nonzero subset:"); Array a] ;;
  still (Ok a).

(** computegrid.py:53-114 *)
Definition edgesV (cg : mat pt) (ilb iub jlb jub : nat) : out (mat F * mat F) :=
  e <~ still (edges N G cg ilb iub jlb jub) ;;
  _ <~ say v [line (lit "compute_edges_x:"); Array (fst e); line (lit "compute_edges_y:"); Array (snd e)] ;;
  still (Ok e).

(** The two arrays of a compute grid, with their names. *)
Definition both (cg : mat pt) : list (item F) :=
  [line (lit "compute_grid_xg:"); Array (mmap fst cg); line (lit "compute_grid_yg:"); Array (mmap snd cg)].

(** computegrid.py:117-277 *)
Definition fillV (cg : mat pt) (ilb iub jlb jub ls lt : nat) : out (mat pt) :=
  let w := lon0to360 N cg in
  let si := 2 * ls in
  let sj := 2 * lt in
  g1 <~ still (nditer (negb (si =? 0) && negb (sj =? 0))
          (slice_len ilb iub si (mrows cg)) (slice_len jlb (jub + 1) sj (mcols cg)) indices
          (fill_x_step N G w ilb jlb ls lt) cg) ;;
  _ <~ say v (line (lit "compute_grid after x-edge subdivision:") :: both g1) ;;
  g2 <~ still (nditer (negb (sj =? 0))
          (slice_len ilb (iub + 1) 1 (mrows cg)) (slice_len jlb jub sj (mcols cg)) indices
          (fill_y_step N G w ilb jlb lt) g1) ;;
  _ <~ say v (line (lit "compute_grid after y_direction subdivision fill-in:") :: both g2) ;;
  still (Ok g2).

(** computegrid.py:355-359 and its siblings *)
Definition shown (f : field) (m : mat F) : list (item F) :=
  [line (lit "outgrid['" ++ field_name f ++ lit "']:"); Array m].

(** One of the fields that are summed, and the print statement after it. *)
Definition fieldV (f : field) (r : res (mat F)) : out (mat F) :=
  m <~ still r ;; _ <~ say v (shown f m) ;; still (Ok m).

(** computegrid.py:280-598 *)
Definition tomitgridV (cg : mat pt) (iLB ilb iub iUB jLB jlb jub jUB : nat) : out (grid F) :=
  let nlon := (iub - ilb) / 2 in
  let nlat := (jub - jlb) / 2 in
  e <~ edgesV cg ilb iub jlb jub ;;
  let ex := fst e in
  let ey := snd e in
  ar <~ areasV (mslice ilb (iub + 1) 1 jlb (jub + 1) 1 cg) ex ey ;;
  ca <~ still (mset_block (mconst (iUB - iLB) (jUB - jLB) (nzero N)) ilb iub jlb jub ar) ;;
  let c := mslice (ilb + 1) (iub - 1 + 1) 2 (jlb + 1) (jub - 1 + 1) 2 cg in
  let g := mslice ilb (iub + 1) 2 jlb (jub + 1) 2 cg in
  _ <~ say v (shown XC (mmap fst c) ++ shown YC (mmap snd c)) ;;
  _ <~ say v (shown XG (mmap fst g) ++ shown YG (mmap snd g)) ;;
  dxg <~ fieldV DXG (sum2_field N nlon (nlat + 1) ex
           (fun i j => (ilb + 2 * i, jlb + 2 * j)) (fun i j => (ilb + 2 * i + 1, jlb + 2 * j))) ;;
  dyg <~ fieldV DYG (sum2_field N (nlon + 1) nlat ey
           (fun i j => (ilb + 2 * i, jlb + 2 * j)) (fun i j => (ilb + 2 * i, jlb + 2 * j + 1))) ;;
  rac <~ fieldV RAC (sum4_field N nlon nlat ca (fun i j => (ilb + 2 * i, jlb + 2 * j))) ;;
  dxc <~ fieldV DXC (sum2_field N (nlon + 1) nlat ex
           (fun i j => (2 * i, jlb + 2 * j + 1)) (fun i j => (2 * i + 1, jlb + 2 * j + 1))) ;;
  dyc <~ fieldV DYC (sum2_field N nlon (nlat + 1) ey
           (fun i j => (ilb + 2 * i + 1, 2 * j)) (fun i j => (ilb + 2 * i + 1, 2 * j + 1))) ;;
  raz <~ fieldV RAZ (sum4_field N (nlon + 1) (nlat + 1) ca (fun i j => (2 * i, 2 * j))) ;;
  dxv <~ fieldV DXV (sum2_field N (nlon + 1) (nlat + 1) ex
           (fun i j => (2 * i, jlb + 2 * j)) (fun i j => (2 * i + 1, jlb + 2 * j))) ;;
  dyf <~ fieldV DYF (sum2_field N nlon nlat ey
           (fun i j => (ilb + 2 * i + 1, jlb + 2 * j)) (fun i j => (ilb + 2 * i + 1, jlb + 2 * j + 1))) ;;
  raw <~ fieldV RAW (sum4_field N (nlon + 1) nlat ca (fun i j => (2 * i, jlb + 2 * j))) ;;
  dxf <~ fieldV DXF (sum2_field N nlon nlat ex
           (fun i j => (ilb + 2 * i, jlb + 2 * j + 1)) (fun i j => (ilb + 2 * i + 1, jlb + 2 * j + 1))) ;;
  dyu <~ fieldV DYU (sum2_field N (nlon + 1) (nlat + 1) ey
           (fun i j => (ilb + 2 * i, 2 * j)) (fun i j => (ilb + 2 * i, 2 * j + 1))) ;;
  ras <~ fieldV RAS (sum4_field N nlon (nlat + 1) ca (fun i j => (ilb + 2 * i, 2 * j))) ;;
  still (A := grid F) (Ok (fun f => match f with
    | XC => mmap fst c | YC => mmap snd c | XG => mmap fst g | YG => mmap snd g
    | DXG => dxg | DYG => dyg | RAC => rac | DXC => dxc | DYC => dyc | RAZ => raz
    | DXV => dxv | DYF => dyf | RAW => raw | DXF => dxf | DYU => dyu | RAS => ras
    end)).

(** mkgrid.py:150-161, regrid.py:305-314 *)
Definition finishV (cg : mat pt) (p q ls lt : nat) : out (grid F) :=
  g <~ fillV cg 1 (1 + 2 * p) 1 (1 + 2 * q) ls lt ;;
  tomitgridV g 0 1 (1 + 2 * p) (1 + 2 * p + 1) 0 1 (1 + 2 * q) (1 + 2 * q + 1).

(** Allocating the compute grid and storing its corners, see [cg_check]; a subscale of zero
    fails only in fill. *)
Definition alloc_check (rows cols : Z) : res unit :=
  if ((rows <? 0) || (cols <? 0))%Z then Err (ValueError "negative dimensions are not allowed")
  else if ((rows <? 2) || (cols <? 2))%Z then Err IndexError
  else Ok tt.

(** '({0:9.4f},{1:9.4f}) and ({2:9.4f},{3:9.4f})' *)
Definition corners_text (lon1 lat1 lon2 lat2 : F) : text :=
  lit "(" ++ fmt lon1 ++ lit "," ++ fmt lat1 ++ lit ") and (" ++ fmt lon2 ++ lit "," ++ fmt lat2 ++ lit ")".

(** str of an int or None *)
Definition count_text (n : option Z) : text := match n with Some z => int_text z | None => lit "None" end.

(** mkgrid.py:45-163 *)
Definition mkgridV (lon1 lat1 lon2 lat2 : option F) (lon_subscale lat_subscale : option Z) : out (grid F * nat * nat) :=
  _ <~ say v [line (lit "creating simple " ++ count_text lon_subscale ++ lit " x " ++ count_text lat_subscale
                    ++ lit " rectangular grid between the extents")] ;;
  _ <~ (match lon1, lat1, lon2, lat2 with
        | Some a, Some b, Some c, Some d => say v [line (corners_text a b c d)]
        | _, _, _, _ => if v then still (Err TypeError) (* None in a format *) else still (Ok tt)
        end) ;;
  match lon_subscale, lat_subscale with
  | Some lss, Some lts =>
      _ <~ still (alloc_check (2 * lss + 3) (2 * lts + 3)) ;;
      let ls := Z.to_nat lss in
      let lt := Z.to_nat lts in
      cg <~ still (mk_corners N (as_double N lon1) (as_double N lat1) (as_double N lon2) (as_double N lat2)
                     (1 + 2 * ls) (1 + 2 * lt)) ;;
      g <~ finishV cg ls lt ls lt ;;
      still (Ok (g, ls, lt))
  | _, _ => still (Err TypeError)
  end.

(** '(i,j)_nw = ({0},{1}), (i,j)_se = ({2},{3})' *)
Definition located_text (l : located F) : text :=
  let pair p := lit "(" ++ int_text (fst p) ++ lit "," ++ int_text (snd p) ++ lit ")" in
  lit "(i,j)_nw = " ++ pair (lc_nw l) ++ lit ", (i,j)_se = " ++ pair (lc_se l).

(** regrid.py:184-193 *)
Fixpoint rot_loopV (fuel : nat) (a : regrid_args F) (l : located F) : out (located F) :=
  if aligned l then still (Ok l)
  else match fuel with
  | 0 => still (Err OutOfFuel)
  | S fuel' =>
      _ <~ say v [line (lit "performing 90 degree XG, YG rotation...");
                  line (lit "...start: " ++ located_text l)] ;;
      l' <~ still (locate N G a (rot90 (lc_xg l)) (rot90 (lc_yg l))
              (map (rot_index (mcols (lc_xg l))) (lc_order l))) ;;
      _ <~ say v [line (lit "...end:   " ++ located_text l')] ;;
      rot_loopV fuel' a l'
  end.

(** regrid.py:195-201 *)
Definition remesh_text (a : regrid_args F) (l : located F) : list (item F) :=
  let n := Z.abs (fst (lc_nw l) - fst (lc_se l)) in
  let m := Z.abs (snd (lc_nw l) - snd (lc_se l)) in
  [line (lit "remeshing " ++ int_text n ++ lit " x " ++ int_text m ++ lit " cell grid based on");
   line (lit "located corner points " ++ corners_text (ra_lon1 a) (ra_lat1 a) (ra_lon2 a) (ra_lat2 a));
   line (lit "resulting grid will be " ++ int_text (n * ra_lon_subscale a) ++ lit " x " ++ int_text (m * ra_lat_subscale a)
         ++ lit " cells (lon/lat subscale = " ++ int_text (ra_lon_subscale a) ++ lit "/" ++ int_text (ra_lat_subscale a) ++ lit ")")].

Variables lay o3 : nat -> nat -> list (nat * nat).

(** regrid.py:170-319 *)
Definition regrid_fromV (fuel : nat) (a : regrid_args F) (d : griddict F) : out (regrid_result F) :=
  x <~ still (xg_yg d) ;;
  let xg := fst x in
  let yg := snd x in
  l0 <~ still (locate N G a xg yg (lay (mrows xg) (mcols xg))) ;;
  if ((fst (lc_nw l0) =? fst (lc_se l0)) || (snd (lc_nw l0) =? snd (lc_se l0)))%Z
  then still (Err (ValueError "lon/lat input pairs must be diagonally-opposed."))
  else
  l <~ rot_loopV fuel a l0 ;;
  _ <~ say v (remesh_text a l) ;;
  let ilb := Z.to_nat (Z.min (fst (lc_nw l)) (fst (lc_se l))) in
  let iub := Z.to_nat (Z.max (fst (lc_nw l)) (fst (lc_se l))) in
  let jlb := Z.to_nat (Z.min (snd (lc_nw l)) (snd (lc_se l))) in
  let jub := Z.to_nat (Z.max (snd (lc_nw l)) (snd (lc_se l))) in
  let n := iub - ilb in
  let m := jub - jlb in
  _ <~ still (alloc_check (2 * ra_lon_subscale a * Z.of_nat n + 3) (2 * ra_lat_subscale a * Z.of_nat m + 3)) ;;
  let ls := Z.to_nat (ra_lon_subscale a) in
  let lt := Z.to_nat (ra_lat_subscale a) in
  let cg := mconst (2 * (ls * n) + 3) (2 * (lt * m) + 3) (nzero N, nzero N) in
  cg <~ still (scatter o3 (n + 1) (m + 1) ls lt
          (fun i j => (mat_at (lc_xg l) (ilb + i) (jlb + j), mat_at (lc_yg l) (ilb + i) (jlb + j))) cg) ;;
  _ <~ say v ([line (lit "user-selected range:");
               line (lit "mitgrid['XG']:"); Array (mslice ilb (iub + 1) 1 jlb (jub + 1) 1 (lc_xg l));
               line (lit "mitgrid['YG']:"); Array (mslice ilb (iub + 1) 1 jlb (jub + 1) 1 (lc_yg l));
               line (lit "user-selected range, mapped to compute_grid:")] ++ both cg) ;;
  g <~ finishV cg (ls * n) (lt * m) ls lt ;;
  still (Ok (mk_regrid_result g (ls * n) (lt * m) (setd (setd d XG (lc_xg l)) YG (lc_yg l)))).

(** matchedges.py:106-147 *)
Definition edge_name (e : nat) : text :=
  lit (if e =? eW then "western" else if e =? eE then "eastern" else if e =? eS then "southern" else "northern").
Definition match_text (ea eb : nat) : text :=
  edge_name ea ++ lit " edge of tile 'a' matches " ++ edge_name eb ++ lit " edge of tile 'b'".

(** matchedges.py:204-206 *)
Definition fill_stripV (a : mat pt) (ea : nat) (g : mat pt) : out (mat pt) :=
  if (ea =? eE) || (ea =? eW)
  then fillV g 0 2 0 (2 * (mcols a - 1)) 1 1
  else fillV g 0 (2 * (mrows a - 1)) 0 2 1 1.

(** matchedges.py:9-231 *)
Definition matchedgesV (a b : mat pt) : out (matched (F := F)) :=
  ca <~ still (corner4 a) ;; cb <~ still (corner4 b) ;;
  e <~ still (decide4 N G ca cb) ;;
  let ea := fst e in
  let eb := snd e in
  _ <~ say v [line (match_text ea eb)] ;;
  g <~ still (MatchEdges.strip N a b ea eb) ;;
  g <~ fill_stripV a ea g ;;
  still (Ok (mk_matched ea (edge_slice ea) eb (edge_slice eb) (middle ea g) (join_slice ea))).

(** addfringe.py:94-166 *)
Definition fringeV (a b : grid F) : out (nat * nat * grid F) :=
  m <~ matchedgesV (tile_points a) (tile_points b) ;;
  let p := mrows (a XG) - 1 in
  let q := mcols (a XG) - 1 in
  cg <~ still (fringe_cg N (tile_points a) m) ;;
  new <~ finishV cg p q 1 1 ;;
  g <~ still (foldM (fun g f => x <- merge N (a f) (g f) ;; Ok (gset g f x)) fields new) ;;
  still (Ok (me_a m, me_b m, g)).

(** addfringe.py:46-166 *)
Definition addfringeV (fs : filesystem) (t : two_tilesZ) : out (nat * nat * grid F) :=
  a <~ read_tileV fs (tz_a t) (tz_nia t) (tz_nja t) (tz_strict t) ;;
  b <~ read_tileV fs (tz_b t) (tz_nib t) (tz_njb t) (tz_strict t) ;;
  fringeV a b.

(** stitch.py:45-199 *)
Definition stitchV (fs : filesystem) (t : two_tilesZ) : out (grid F * nat * nat) :=
  ' (ea, eb, a) <~ addfringeV fs t ;;
  b <~ read_tileV fs (tz_b t) (tz_nib t) (tz_njb t) (tz_strict t) ;;
  still (Stitch.join (ea, eb) a b).

Variable loadtxt : list byte -> res (option (mat F)).

(** regrid.py:137-168; only read_mitgridfile prints *)
Definition sourceV (fs : filesystem) (mitgridfile xg_file yg_file : option string) (ni nj : Z) (strict : bool)
    : out (griddict F) :=
  match str_arg mitgridfile with
  | Some p =>
      if nonzero ni && nonzero nj
      then g <~ read_tileV fs p ni nj strict ;; still (Ok (dict_of_grid g))
      else still (Err (ValueError "ni, nj required if mitgridfile specified"))
  | None => still (sourceZ N C loadtxt fs mitgridfile xg_file yg_file ni nj strict)
  end.

Variable fuel : nat.

(** regrid.py:327-340, addfringe.py:174-188, stitch.py:207-220 *)
Definition computeV (fs : filesystem) (c : commandZ F) : out (grid F * Z * Z) :=
  match c with
  | zregrid mg xg yg ni nj lon1 lat1 lon2 lat2 ls lt strict _ =>
      d <~ sourceV fs mg xg yg ni nj strict ;;
      r <~ regrid_fromV fuel (mk_regrid_args mg xg yg None None None lon1 lat1 lon2 lat2 ls lt strict) d ;;
      still (Ok (rr_grid r, Z.of_nat (rr_ni r), Z.of_nat (rr_nj r)))
  | zaddfringe t _ =>
      _ <~ say v [line (lit "computing boundary grid information for " ++ path_text (tz_a t) ++ lit ",");
                  line (lit "using data from " ++ path_text (tz_b t) ++ lit "...")] ;;
      ' (_, _, g) <~ addfringeV fs t ;; still (Ok (g, tz_nia t, tz_nja t))
  | zstitch t _ =>
      _ <~ say v [line (lit "joining " ++ path_text (tz_a t) ++ lit " and " ++ path_text (tz_b t)
                        ++ lit " along a common edge...")] ;;
      ' (g, ni, nj) <~ stitchV fs t ;; still (Ok (g, Z.of_nat ni, Z.of_nat nj))
  end.

(** mkgrid.py:179-181, regrid.py:341-343, addfringe.py:190-192, stitch.py:221-224 *)
Definition writing_text (stitched : bool) (p : string) (ni nj : Z) : text :=
  lit (if stitched then "writing combined tile to " else "writing ") ++ path_text p
  ++ lit " with ni=" ++ int_text ni ++ lit ", nj=" ++ int_text nj ++ lit "...".

(** The rest of main(): the two messages and what is written between them. *)
Definition write_outV (stitched : bool) (can_write : string -> bool) (fs : filesystem) (p : string)
    (g : grid F) (ni nj : Z) : list (item F) * (filesystem * res unit) :=
  let r := if can_write p
           then let '(bs, o) := write_mitgridZ N C (dict_of_grid g) ni nj in (fs_set fs p bs, o)
           else (fs, Err OSError) in
  ((if v then [line (writing_text stitched p ni nj)] else [])
   ++ (match snd r with Ok _ => if v then [line (lit "...done.")] else [] | Err _ => [] end), r).

Definition is_stitch (c : commandZ F) : bool := match c with zstitch _ _ => true | _ => false end.

(** main() of regrid.py:322-346, addfringe.py:169-197 and stitch.py:202-229 *)
Definition runV (can_write : string -> bool) (fs : filesystem) (c : commandZ F) : list (item F) * (filesystem * res unit) :=
  let o := computeV fs c in
  match snd o with
  | Err e => (fst o, (fs, Err e))
  | Ok (g, ni, nj) =>
      let w := write_outV (is_stitch c) can_write fs (outfileZ c) g ni nj in (fst o ++ fst w, snd w)
  end.

(** main() of mkgrid.py:166-184; without an outfile the message, or else open, raises
    TypeError *)
Definition run_mkgridV (can_write : string -> bool) (fs : filesystem) (lon1 lat1 lon2 lat2 : option F)
    (ls lt : option Z) (outfile : option string) : list (item F) * (filesystem * res unit) :=
  let o := mkgridV lon1 lat1 lon2 lat2 ls lt in
  match snd o, outfile with
  | Err e, _ => (fst o, (fs, Err e))
  | Ok _, None => (fst o, (fs, Err TypeError))
  | Ok (g, ni, nj), Some p =>
      let w := write_outV false can_write fs p g (Z.of_nat ni) (Z.of_nat nj) in (fst o ++ fst w, snd w)
  end.
End Verbose.
