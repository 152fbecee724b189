(** simplegrid/getobcs.py *)
From Coq Require Import Ascii String List Bool PeanoNat ZArith Init.Byte.
Import ListNotations.
From Verif Require Import Prelude Num Mat Fields GridIO Regrid MdsMeta Mds.
Set Implicit Arguments.
Local Open Scope nat_scope.
Local Open Scope list_scope.

(** os.path.join(a,b), b not starting with a slash. *)
Definition path_join (a b : text) : text :=
  match rev a with
  | [] => b
  | c :: _ => if Ascii.eqb c "/" then a ++ b else a ++ ["/"%char] ++ b
  end.

(** getobcs.py:66-92 weightfilename.  The extension is accepted and ignored: the format
    string has no place for it. *)
Definition weightfilename {F} (interp_meth : text) (lon_in lon_out : mat F)
    (response_type netcdf_ext : text) : text :=
  interp_meth ++ ["_"%char]
  ++ int_text (Z.of_nat (mrows lon_in)) ++ ["x"%char] ++ int_text (Z.of_nat (mcols lon_in)) ++ ["_"%char]
  ++ int_text (Z.of_nat (mrows lon_out)) ++ ["x"%char] ++ int_text (Z.of_nat (mcols lon_out)) ++ ["_"%char]
  ++ response_type ++ lit ".nc".

(** A value for OB_Jnorth, OB_Jsouth, OB_Ieast or OB_Iwest: None (or left out), an integer,
    or a list or array of integers. *)
Inductive obarg := ONone | OScalar (z : Z) | OVector (l : list Z).

(** bool(np.array(v)) (getobcs.py:239).  np.array(None) is false; an empty array counts as
    false (numpy before 2.2); an array of two or more entries has no truth value. *)
Definition ob_truth (a : obarg) : res bool :=
  match a with
  | ONone => Ok false
  | OScalar z => Ok (negb (z =? 0)%Z)
  | OVector [] => Ok false
  | OVector [z] => Ok (negb (z =? 0)%Z)
  | OVector _ => Err (ValueError "The truth value of an array with more than one element is ambiguous.")
  end.

(** any(ob != 0) (getobcs.py:241): a scalar comparison cannot be iterated over. *)
Definition ob_any (a : obarg) : res bool :=
  match a with
  | OVector l => Ok (existsb (fun z => negb (z =? 0)%Z) l)
  | _ => Err TypeError
  end.

Definition ob_entries (a : obarg) : list Z := match a with OVector l => l | _ => [] end.

(** getobcs.py:239-242: whether the boundary is used, and its ones-based indices. *)
Definition ob_select (default : list Z) (a : obarg) : res (bool * list Z) :=
  t <- ob_truth a ;;
  if t
  then (n <- ob_any a ;; Ok (n, ob_entries a))
  else Ok (true, default).

Inductive side := North | South | East | West.
Definition sides : list side := [North; South; East; West].

(** getobcs.py:240,244,248,252 *)
Definition ob_default (ni nj : nat) (s : side) : list Z :=
  match s with
  | North => repeat (Z.of_nat nj) ni
  | South => repeat 1%Z ni
  | East => repeat (Z.of_nat ni) nj
  | West => repeat 1%Z nj
  end.

(** getobcs.py:258-265: negative indices (north and east only) and zeros-based indices. *)
Definition ob_zero_based (ni nj : nat) (s : side) (l : list Z) : list Z :=
  match s with
  | North => map (fun j => ((if (j <? 0)%Z then Z.of_nat nj + 1 + j else j) - 1)%Z) l
  | East => map (fun i => ((if (i <? 0)%Z then Z.of_nat ni + 1 + i else i) - 1)%Z) l
  | South | West => map (fun i => (i - 1)%Z) l
  end.

(** A boundary: used or not, zeros-based indices (ones-based if not used). *)
Record boundary := mk_boundary { bd_do : bool; bd_idx : list Z }.

Definition ob_resolve (ni nj : nat) (s : side) (a : obarg) : res boundary :=
  ' (use, l) <- ob_select (ob_default ni nj s) a ;;
  Ok (mk_boundary use (if use then ob_zero_based ni nj s l else l)).

(** getobcs.py:236-265, in this order *)
Definition ob_all (ni nj : nat) (arg : side -> obarg) : res (side -> boundary) :=
  bn <- ob_resolve ni nj North (arg North) ;;
  bs <- ob_resolve ni nj South (arg South) ;;
  be <- ob_resolve ni nj East (arg East) ;;
  bw <- ob_resolve ni nj West (arg West) ;;
  Ok (fun s => match s with North => bn | South => bs | East => be | West => bw end).

Inductive kind := Tracer | Upoint | Vpoint.

(** np.arange(n) *)
Definition arange (n : nat) : list Z := map Z.of_nat (seq 0 n).

(** The index pairs of tracer_partition, u_partition, v_partition (getobcs.py:356-383). *)
Definition partition (s : side) (k : kind) (l : list Z) : list (Z * Z) :=
  let a := arange (length l) in
  let up := map (fun z => (z + 1)%Z) l in
  match s, k with
  | North, _ => combine a l
  | South, Vpoint => combine a up
  | South, _ => combine a l
  | East, _ => combine l a
  | West, Upoint => combine up a
  | West, _ => combine l a
  end.

(** The number of cells along a side: 'shape' (getobcs.py:361-382). *)
Definition side_len (ni nj : nat) (s : side) : nat :=
  match s with North | South => ni | East | West => nj end.

Definition side_name (s : side) : text :=
  lit match s with North => "N" | South => "S" | East => "E" | West => "W" end.

(** getobcs.py:390-392 with the kind of each response *)
Definition responses : list (string * kind) :=
  [("T", Tracer); ("S", Tracer); ("Eta", Tracer); ("W", Tracer);
   ("U", Upoint); ("UICE", Upoint); ("V", Vpoint); ("VICE", Vpoint)]%string.

(** str.lower on ASCII *)
Definition lower_char (c : ascii) : ascii :=
  let n := nat_of_ascii c in
  if (65 <=? n) && (n <=? 90) then ascii_of_nat (n + 32) else c.
Definition lower (t : text) : text := map lower_char t.

(** Index z of an axis of extent n; negative ones count from the end. *)
Definition axis_index (n : nat) (z : Z) : option nat :=
  if (0 <=? z)%Z then (if (z <? Z.of_nat n)%Z then Some (Z.to_nat z) else None)
  else if (0 <=? Z.of_nat n + z)%Z then Some (Z.to_nat (Z.of_nat n + z)) else None.

(** m[(rows,cols)] with two integer vectors *)
Definition fancy {F} (m : mat F) (idx : list (Z * Z)) : res (list F) :=
  mapM (fun ij => match axis_index (mrows m) (fst ij), axis_index (mcols m) (snd ij) with
                  | Some i, Some j => Ok (mat_at m i j)
                  | _, _ => Err IndexError
                  end) idx.

(** What is assigned to a slice of n entries: a vector of length 1 is repeated. *)
Definition fit {F} (n : nat) (l : list F) : res (list F) :=
  if length l =? n then Ok l
  else match l with
       | [x] => Ok (repeat x n)
       | _ => Err (ValueError "could not broadcast input array")
       end.

(** The first run of digits (the pattern \d+). *)
Fixpoint first_digits (l : text) : text :=
  match l with
  | [] => []
  | c :: r => if is_digit c
              then c :: (fix run l := match l with d :: r' => if is_digit d then d :: run r' else [] | [] => [] end) r
              else first_digits r
  end.

(** stem.*.data (getobcs.py:341, 395) *)
Definition data_pat (stem : text) : text := stem ++ lit ".*.data".

(** os.path.basename *)
Definition basename (s : text) : text :=
  rev ((fix run l := match l with c :: r => if Ascii.eqb c "/" then [] else c :: run r | [] => [] end) (rev s)).

(** getobcs.py:338-342: one time step for every file found, sorted *)
Definition times_of (fs : directory) (resultsdir : text) : res (list Z) :=
  l <- mapM (fun s => match first_digits (basename s) with
                      | [] => Err IndexError
                      | ds => match int_of_text ds with Some z => Ok z | None => Err (ValueError "int") end
                      end)
         (glob fs (data_pat (path_join resultsdir (lit "T")))) ;;
  Ok (sortZ l).

(** The order in which ndarray.tofile writes an array x[i,d,t], whatever its memory layout:
    C order, last index fastest (getobcs.py:479-482; asfortranarray changes the layout in
    memory, not the order of tofile). *)
Definition tofile3 {F} (enc1 : F -> list byte) (n nd nt : nat) (a : nat -> nat -> nat -> F) : list byte :=
  flat_map (fun x => flat_map (fun d => flat_map (fun t => enc1 (a x d t)) (seq 0 nt)) (seq 0 nd)) (seq 0 n).

(** m[i0::2,j0::2] *)
Definition every2 {F} (m : mat F) (i0 j0 : nat) : mat F :=
  mkmat ((mrows m - i0 + 1) / 2) ((mcols m - j0 + 1) / 2) (fun i j => mat_at m (i0 + 2 * i) (j0 + 2 * j)).

Section GetObcs.
Context {F : Type} (N : numops F) (C8 C4 : codec F) (G : geod F) (float_of : text -> option F).
Variables lay o3 : nat -> nat -> list (nat * nat).
Variable fuel : nat.

(** xESMF, as far as it is used: interpolation weights of a pair of grids (or an
    exception), and the interpolated value at (i,j) of a field. *)
Variable W : Type.
Variable xe_weights : mat F -> mat F -> mat F -> mat F -> res W.
Variable xe_value : W -> mat F -> nat -> nat -> F.

Record regridder := mk_regridder { rg_in : nat * nat; rg_out : nat * nat; rg_weights : W }.

(** xe.Regridder(grid_in, grid_out, method, filename=..., reuse_weights=True): weights are
    read from the file if it exists; otherwise computed and written to it.  Only XC/YC or
    XG/YG pairs of equal shape are accepted. *)
Definition new_regridder (ws : list (text * W)) (file : text) (lon_in lat_in lon_out lat_out : mat F)
    : list (text * W) * res regridder :=
  let mk w := mk_regridder (mrows lon_in, mcols lon_in) (mrows lon_out, mcols lon_out) w in
  if negb ((mrows lon_in =? mrows lat_in) && (mcols lon_in =? mcols lat_in)
           && (mrows lon_out =? mrows lat_out) && (mcols lon_out =? mcols lat_out))
  then (ws, Err (ValueError "lon and lat should have same shape"))
  else match dget ws file with
  | Some w => (ws, Ok (mk w))
  | None =>
      match xe_weights lon_in lat_in lon_out lat_out with
      | Err e => (ws, Err e)
      | Ok w => (dset ws file w, Ok (mk w))
      end
  end.

(** Calling a regridder on a field. *)
Definition apply_regridder (r : regridder) (m : mat F) : res (mat F) :=
  if (mrows m =? fst (rg_in r)) && (mcols m =? snd (rg_in r))
  then Ok (mkmat (fst (rg_out r)) (snd (rg_out r)) (xe_value (rg_weights r) m))
  else Err (ValueError "input array shape does not match the grid").

(** getobcs.py:430-436, 443-449 ("MITgcm solution idiosyncrasies") *)
Definition pad_to (rc : nat * nat) (m : mat F) : res (mat F) :=
  if (mrows m =? fst rc) && (mcols m =? snd rc) then Ok m
  else if (mrows m <=? fst rc) && (mcols m <=? snd rc)
  then Ok (mkmat (fst rc) (snd rc) (fun i j =>
             if (i <? mrows m) && (j <? mcols m) then mat_at m i j else nzero N))
  else Err (ValueError "could not broadcast input array").

(** parent_results[:,:,depth_idx], or parent_results[:,:] for two-dimensional results, of
    the transposed array (getobcs.py:420-423).  Arrays of more than three dimensions, and a
    depth missing from a three-dimensional one, end in the regridder and are not modelled. *)
Definition at_depth (a : nd F) (d : nat) : res (mat F) :=
  match shape a with
  | [ny; nx] => Ok (mkmat nx ny (fun i j => at_ a [j; i]))
  | [nz; ny; nx] =>
      if d <? nz then Ok (mkmat nx ny (fun i j => at_ a [d; j; i]))
      else Err (ValueError "input array shape does not match the grid")
  | [] | [_] => Err IndexError
  | _ => Err (ValueError "input array shape does not match the grid")
  end.

(** The three regridders. *)
Definition interpolate (rg : kind -> regridder) (k : kind) (a : nd F) (d : nat) : res (mat F) :=
  m <- at_depth a d ;;
  m <- match k with Tracer => Ok m | _ => pad_to (rg_in (rg k)) m end ;;
  apply_regridder (rg k) m.

(** getobcs.py:405-409: .T.shape[2] of what rdmds returns; IndexError means 1. *)
Definition depths_of (r : res (nd F)) : res nat :=
  match r with
  | Ok a => match rev (shape a) with _ :: _ :: n :: _ => Ok n | _ => Ok 1 end
  | Err IndexError => Ok 1
  | Err e => Err e
  end.

Definition read_response (fs : directory) (dir : text) (resp : string) (time : Z) : res (nd F) :=
  rdmds N C8 C4 float_of fs (path_join dir (lit resp)) (Iters [time]) (lit "b").

(** The boundary arrays: [x,depth,time] for each side. *)
Definition arrays := side -> nat -> nat -> nat -> F.

(** getobcs.py:453-463, one side *)
Definition put_side (ni nj : nat) (bd : side -> boundary) (k : kind) (regional : mat F) (d t : nat)
    (ar : arrays) (s : side) : res arrays :=
  if bd_do (bd s)
  then
    l <- fancy regional (partition s k (bd_idx (bd s))) ;;
    l <- fit (side_len ni nj s) l ;;
    Ok (fun s' x d' t' =>
          if (match s, s' with North, North | South, South | East, East | West, West => true | _, _ => false end)
             && (d' =? d) && (t' =? t)
          then nth x l (nzero N) else ar s' x d' t')
  else Ok ar.

(** getobcs.py:417-463, one depth *)
Definition depth_step (ni nj : nat) (bd : side -> boundary) (rg : kind -> regridder) (k : kind)
    (a : nd F) (t : nat) (ar : arrays) (d : nat) : res arrays :=
  regional <- interpolate rg k a d ;;
  foldM (put_side ni nj bd k regional d t) sides ar.

(** getobcs.py:414-463, one time *)
Definition time_step (fs : directory) (dir : text) (resp : string) (ni nj : nat) (bd : side -> boundary)
    (rg : kind -> regridder) (k : kind) (ndepths : nat) (ar : arrays) (tt : nat * Z) : res arrays :=
  a <- read_response fs dir resp (snd tt) ;;
  foldM (depth_step ni nj bd rg k a (fst tt)) (seq 0 ndepths) ar.

(** getobcs.py:401-463: all times; number of depths and the boundary arrays *)
Definition assemble (fs : directory) (dir : text) (resp : string) (ni nj : nat) (bd : side -> boundary)
    (rg : kind -> regridder) (k : kind) (times : list Z) : res (nat * arrays) :=
  match times with
  | [] => Err IndexError
  | t0 :: _ =>
      ndepths <- depths_of (read_response fs dir resp t0) ;;
      ar <- foldM (time_step fs dir resp ni nj bd rg k ndepths) (combine (seq 0 (length times)) times)
              (fun _ _ _ _ => nzero N) ;;
      Ok (ndepths, ar)
  end.

(** getobcs.py:477-483: the files of one response.  They can always be opened. *)
Definition ob_file (resultsdir : text) (s : side) (resp : string) : text :=
  path_join resultsdir (lit "OB" ++ side_name s ++ lower (lit resp)).

Definition write_sides (fs : directory) (resultsdir : text) (resp : string) (ni nj : nat)
    (bd : side -> boundary) (ntimes ndepths : nat) (ar : arrays) : directory :=
  fold_left (fun fs s =>
    if bd_do (bd s)
    then write_file fs (ob_file resultsdir s resp)
           (tofile3 (enc C8) (side_len ni nj s) ndepths ntimes (ar s))
    else fs) sides fs.

(** getobcs.py:394-483, one response; skipped when it has no data files *)
Definition response_step (dir resultsdir : text) (ni nj : nat) (bd : side -> boundary)
    (rg : kind -> regridder) (times : list Z) (fs : directory) (rk : string * kind) : res directory :=
  if existsb (glob_match (data_pat (path_join dir (lit (fst rk))))) (names fs)
  then
    ' (ndepths, ar) <- assemble fs dir (fst rk) ni nj bd rg (snd rk) times ;;
    Ok (write_sides fs resultsdir (fst rk) ni nj bd (length times) ndepths ar)
  else Ok fs.

(** The loop over responses; files written before an exception stay. *)
Fixpoint response_loop (dir resultsdir : text) (ni nj : nat) (bd : side -> boundary)
    (rg : kind -> regridder) (times : list Z) (l : list (string * kind)) (fs : directory)
    : directory * res unit :=
  match l with
  | [] => (fs, Ok tt)
  | rk :: r =>
      match response_step dir resultsdir ni nj bd rg times fs rk with
      | Ok fs' => response_loop dir resultsdir ni nj bd rg times r fs'
      | Err e => (fs, Err e)
      end
  end.

(** Keyword arguments (getobcs.py:150-163); parent_resultsdir and resultsdir as texts. *)
Record obcs_args := mk_obcs_args {
  oa_parent_file : option text;
  oa_parent_matrices : option (griddict F);
  oa_ni_parent : option nat; oa_nj_parent : option nat;
  oa_regional_file : option text;
  oa_regional_matrices : option (griddict F);
  oa_ni_regional : option nat; oa_nj_regional : option nat;
  oa_parent_resultsdir : option text;
  oa_ob : side -> obarg;
  oa_resultsdir : option text;
  oa_strict : bool }.

Definition txt_arg (t : option text) : option text := match t with Some [] => None | _ => t end.

(** A grid file, getobcs.py:175-183, 204-212 *)
Definition grid_from_file (fs : directory) (p : text) (ni nj : option nat) (strict : bool)
    : res (griddict F * nat * nat) :=
  match num_arg ni, num_arg nj with
  | Some ni, Some nj =>
      match dget fs p with
      | None => Err OSError
      | Some bs => g <- read_mitgrid N C8 bs ni nj strict ;; Ok (dict_of_grid g, ni, nj)
      end
  | _, _ => Err (ValueError "ni and nj required if mitgridfile specified.")
  end.

(** Matrices, getobcs.py:184-189, 213-218 *)
Definition grid_from_matrices (d : griddict F) : res (griddict F * nat * nat) :=
  match d XC with
  | Missing => Err KeyError
  | NoneVal => Err AttributeError
  | Arr m => Ok (d, mrows m, mcols m)
  end.

(** getobcs.py:174-194 *)
Definition parent_grid (fs : directory) (a : obcs_args) (dir : text) : res (griddict F * nat * nat) :=
  match txt_arg (oa_parent_file a) with
  | Some p => grid_from_file fs p (oa_ni_parent a) (oa_nj_parent a) (oa_strict a)
  | None =>
      match oa_parent_matrices a with
      | Some d => if dict_empty d
                  then ' (g, ni, nj) <- mds2mitgrid N C8 C4 float_of fs dir ;; Ok (mds_entry g, ni, nj)
                  else grid_from_matrices d
      | None => ' (g, ni, nj) <- mds2mitgrid N C8 C4 float_of fs dir ;; Ok (mds_entry g, ni, nj)
      end
  end.

(** getobcs.py:202-221 *)
Definition regional_grid (fs : directory) (a : obcs_args) : res (griddict F * nat * nat) :=
  let missing := Err (ValueError "Either regional_mitgridfile or regional_mitgrid_matrices must be provided.") in
  match txt_arg (oa_regional_file a) with
  | Some p => grid_from_file fs p (oa_ni_regional a) (oa_nj_regional a) (oa_strict a)
  | None =>
      match oa_regional_matrices a with
      | Some d => if dict_empty d then missing else grid_from_matrices d
      | None => missing
      end
  end.

(** d[f].  An entry None fails where it is first used. *)
Definition matrix (d : griddict F) (f : field) (none : exn) : res (mat F) :=
  match d f with Missing => Err KeyError | NoneVal => Err none | Arr m => Ok m end.

(** d[f][0,-1] and d[f][-1,0] *)
Definition corner_nw (d : griddict F) (f : field) : res F :=
  m <- matrix d f TypeError ;;
  if (mrows m =? 0) || (mcols m =? 0) then Err IndexError else Ok (mat_at m 0 (mcols m - 1)).
Definition corner_se (d : griddict F) (f : field) : res F :=
  m <- matrix d f TypeError ;;
  if (mrows m =? 0) || (mcols m =? 0) then Err IndexError else Ok (mat_at m (mrows m - 1) 0).

(** getobcs.py:293-310: the grid at twice the resolution *)
Definition doubled (d : griddict F) (ni nj : nat) : res (grid F) :=
  x1 <- corner_nw d XG ;;
  y1 <- corner_nw d YG ;;
  x2 <- corner_se d XG ;;
  y2 <- corner_se d YG ;;
  r <- regrid N C8 G (fun _ => Err OSError) (fun _ => None) lay o3 fuel
         (mk_regrid_args None None None (Some d) (Some ni) (Some nj) x1 y1 x2 y2 2 2 false) ;;
  Ok (rr_grid r).

Definition method : text := lit "bilinear".
Definition netcdf : text := lit ".nc".

(** getobcs.py:280-291 *)
Definition tracer_regridder (ws : list (text * W)) (resultsdir : text) (p r : griddict F)
    : list (text * W) * res regridder :=
  match (plon <- matrix p XC AttributeError ;; plat <- matrix p YC TypeError ;;
         rlon <- matrix r XC AttributeError ;; rlat <- matrix r YC TypeError ;;
         Ok (plon, plat, rlon, rlat)) with
  | Err e => (ws, Err e)
  | Ok (plon, plat, rlon, rlat) =>
      new_regridder ws (path_join resultsdir (weightfilename method plon rlon (lit "tracer") netcdf))
        plon plat rlon rlat
  end.

(** getobcs.py:311-332, for U (i0,j0 = 0,1) and V (1,0) *)
Definition velocity_regridder (ws : list (text * W)) (resultsdir : text) (p r : grid F)
    (i0 j0 : nat) (name : text) : list (text * W) * res regridder :=
  let plon := every2 (p XG) i0 j0 in
  let plat := every2 (p YG) i0 j0 in
  let rlon := every2 (r XG) i0 j0 in
  let rlat := every2 (r YG) i0 j0 in
  new_regridder ws (path_join resultsdir (weightfilename method plon rlon name netcdf)) plon plat rlon rlat.

(** getobcs.py:276-332 *)
Definition make_regridders (ws : list (text * W)) (resultsdir : text)
    (p : griddict F) (pi pj : nat) (r : griddict F) (ri rj : nat)
    : list (text * W) * res (kind -> regridder) :=
  match tracer_regridder ws resultsdir p r with
  | (ws1, Err e) => (ws1, Err e)
  | (ws1, Ok rt) =>
  match (p2 <- doubled p pi pj ;; r2 <- doubled r ri rj ;; Ok (p2, r2)) with
  | Err e => (ws1, Err e)
  | Ok (p2, r2) =>
  match velocity_regridder ws1 resultsdir p2 r2 0 1 (lit "U") with
  | (ws2, Err e) => (ws2, Err e)
  | (ws2, Ok ru) =>
  match velocity_regridder ws2 resultsdir p2 r2 1 0 (lit "V") with
  | (ws3, Err e) => (ws3, Err e)
  | (ws3, Ok rv) => (ws3, Ok (fun k => match k with Tracer => rt | Upoint => ru | Vpoint => rv end))
  end end end end.

(** getobcs.py:271-274: the default results directory; making it always succeeds. *)
Definition results_dir (a : obcs_args) (dir : text) : text :=
  match txt_arg (oa_resultsdir a) with
  | Some d => d
  | None => rstrip (fun c => Ascii.eqb c "/") dir ++ lit "_obcs"
  end.

(** getobcs.py:267-483, once the two grids are read and the boundaries settled. *)
Definition getobcs_from (ws : list (text * W)) (fs : directory) (a : obcs_args) (dir : text)
    (p : griddict F) (pi pj : nat) (r : griddict F) (ri rj : nat) (bd : side -> boundary)
    : list (text * W) * directory * res unit :=
  let out := results_dir a dir in
  match make_regridders ws out p pi pj r ri rj with
  | (ws1, Err e) => (ws1, fs, Err e)
  | (ws1, Ok rg) =>
  match (times <- times_of fs dir ;;
         match times with
         | [] => Err IndexError
         | t0 :: _ => _ <- read_response fs dir "T" t0 ;; Ok times
         end) with
  | Err e => (ws1, fs, Err e)
  | Ok times =>
      let '(fs', o) := response_loop dir out ri rj bd rg times responses fs in (ws1, fs', o)
  end end.

(** getobcs.py:95-483.  State: the weight files and all other files. *)
Definition getobcs (ws : list (text * W)) (fs : directory) (a : obcs_args)
    : list (text * W) * directory * res unit :=
  match txt_arg (oa_parent_resultsdir a) with
  | None => (ws, fs, Err (ValueError "Global solution results directory (parent_resultsdir) must be specified."))
  | Some dir =>
  match (p <- parent_grid fs a dir ;; r <- regional_grid fs a ;;
         b <- ob_all (snd (fst r)) (snd r) (oa_ob a) ;; Ok (p, r, b)) with
  | Err e => (ws, fs, Err e)
  | Ok ((p, pi, pj), (r, ri, rj), bd) => getobcs_from ws fs a dir p pi pj r ri rj bd
  end end.

End GetObcs.
