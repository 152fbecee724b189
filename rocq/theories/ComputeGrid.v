(** computegrid.py.  The two coordinate arrays compute_grid_xg, compute_grid_yg, always
    created, copied, sliced and stored to together, are one matrix of (lon,lat) pairs. *)
From Coq Require Import String List ZArith Bool PeanoNat.
Import ListNotations.
From Verif Require Import Prelude Mat Num Fields Util.
Set Implicit Arguments.
Local Open Scope nat_scope.

Section ComputeGrid.
Context {F : Type} (N : numops F) (G : geod F).

(** All entries in row-major order. *)
Definition entries {A} (m : mat A) : list A :=
  map (fun ij => mat_at m (fst ij) (snd ij)) (indices (mrows m) (mcols m)).

(** ndarray.nonzero() keeps what differs from zero (NaN does); the mean of no elements
    is NaN. *)
Definition nonzero_mean (m : mat F) : F :=
  match filter (fun x => negb (neqb N x (nzero N))) (entries m) with
  | [] => nnan N
  | l => nmean N l
  end.

(** computegrid.py:31-35: is the flat approximation used? *)
Definition use_planar (ex ey : mat F) : bool :=
  nltb N (nonzero_mean ex) (n10e3 N) && nltb N (nonzero_mean ey) (n10e3 N).

(** computegrid.py:8-50 areas *)
Definition areas (cg : mat (F * F)) (ex ey : mat F) : res (mat F) :=
  let scale m := mmap (fun x => nmul N x (nmul N (g_a G) (g_a G))) m in
  cart <- lonlat2cart N (mmap fst cg) (mmap snd cg) (nzero N) ;;
  if use_planar ex ey
  then Ok (scale (pquad_uarea N cart))
  else Ok (scale (squad_uarea N cart)).

(** computegrid.py:91-97 *)
Definition edges_x_step (cg : mat (F * F)) (e : mat F) (ij : nat * nat) : res (mat F) :=
  let '(i, j) := ij in
  p <- mget cg i j ;;
  q <- mget cg (i + 1) j ;;
  mset e i j (g_inv G p q).

(** computegrid.py:100-106 *)
Definition edges_y_step (cg : mat (F * F)) (e : mat F) (ij : nat * nat) : res (mat F) :=
  let '(i, j) := ij in
  p <- mget cg i j ;;
  q <- mget cg i (j + 1) ;;
  mset e i j (g_inv G p q).

(** range(a,b) *)
Definition range (a b : nat) : list nat := seq a (b - a).

(** computegrid.py:53-114 edges *)
Definition edges (cg : mat (F * F)) (ilb iub jlb jub : nat) : res (mat F * mat F) :=
  ex <- foldM (edges_x_step cg) (list_prod (range ilb iub) (range jlb (jub + 1)))
          (mconst (mrows cg - 1) (mcols cg) (nzero N)) ;;
  ey <- foldM (edges_y_step cg) (list_prod (range ilb (iub + 1)) (range jlb jub))
          (mconst (mrows cg) (mcols cg - 1) (nzero N)) ;;
  Ok (ex, ey).

(** computegrid.py:157-160 *)
Definition lon0to360 (cg : mat (F * F)) : bool :=
  negb (existsb (fun p => nltb N (fst p) (nzero N)) (entries cg)).

(** computegrid.py:196-200, 253-257 *)
Definition fix_lon (w : bool) (p : F * F) : F * F :=
  if w && nltb N (fst p) (nzero N) then (nadd N (fst p) (n360 N), snd p) else p.

(** computegrid.py:184-210: subdivide one x edge.  [ab] is it.multi_index. *)
Definition fill_x_step (w : bool) (ilb jlb ls lt : nat) (cg : mat (F * F)) (ab : nat * nat)
    : res (mat (F * F)) :=
  let '(a, b) := ab in
  let i0 := ilb + a * 2 * ls in
  let j0 := jlb + b * 2 * lt in
  p <- mget cg i0 j0 ;;
  q <- mget cg (ilb + (a + 1) * 2 * ls) j0 ;;
  let n := ls * 2 - 1 in
  foldM (fun g k => mset g (i0 + 1 + k) j0 (fix_lon w (g_npt G p q n k))) (seq 0 n) cg.

(** computegrid.py:241-267: subdivide one y edge. *)
Definition fill_y_step (w : bool) (ilb jlb lt : nat) (cg : mat (F * F)) (ab : nat * nat)
    : res (mat (F * F)) :=
  let '(a, b) := ab in
  let i0 := ilb + a in
  let j0 := jlb + b * 2 * lt in
  p <- mget cg i0 j0 ;;
  q <- mget cg i0 (jlb + (b + 1) * 2 * lt) ;;
  let n := lt * 2 - 1 in
  foldM (fun g k => mset g i0 (j0 + 1 + k) (fix_lon w (g_npt G p q n k))) (seq 0 n) cg.

(** np.nditer over a strided view of extents [r] x [c]: zero steps and zero-sized
    operands are errors; [order] enumerates the view's indices in visiting order. *)
Definition nditer {S} (step_ok : bool) (r c : nat) (order : nat -> nat -> list (nat * nat))
    (body : S -> nat * nat -> res S) (s : S) : res S :=
  if negb step_ok then Err (ValueError "slice step cannot be zero")
  else if (r =? 0) || (c =? 0)
  then Err (ValueError "Iteration of zero-sized operands is not enabled")
  else foldM body (order r c) s.

(** computegrid.py:117-277 fill, with the visiting orders of its two nditer loops as
    parameters: numpy derives them from the arrays' memory layout. *)
Definition fill_ord (o1 o2 : nat -> nat -> list (nat * nat)) (cg : mat (F * F))
    (ilb iub jlb jub ls lt : nat) : res (mat (F * F)) :=
  let w := lon0to360 cg in
  let si := 2 * ls in
  let sj := 2 * lt in
  g1 <- nditer (negb (si =? 0) && negb (sj =? 0))
          (slice_len ilb iub si (mrows cg)) (slice_len jlb (jub + 1) sj (mcols cg)) o1
          (fill_x_step w ilb jlb ls lt) cg ;;
  nditer (negb (sj =? 0))
    (slice_len ilb (iub + 1) 1 (mrows cg)) (slice_len jlb jub sj (mcols cg)) o2
    (fill_y_step w ilb jlb lt) g1.

(** fill on C-ordered arrays, the layout of every array the package creates. *)
Definition fill := fill_ord indices indices.

(** computegrid.py:389-397 and its seven siblings: store the sum of two entries unless
    one of them is zero. *)
Definition sum2_field (r c : nat) (e : mat F) (p q : nat -> nat -> nat * nat) : res (mat F) :=
  foldM (fun m ij =>
    let '(i, j) := ij in
    x <- mget e (fst (p i j)) (snd (p i j)) ;;
    y <- mget e (fst (q i j)) (snd (q i j)) ;;
    if existsb (neqb N (nzero N)) [x; y] then Ok m
    else mset m i j (nadd N x y)) (indices r c) (mconst r c (nzero N)).

(** computegrid.py:419-431 and its three siblings: the same with four entries, in the
    order (u,v), (u+1,v), (u+1,v+1), (u,v+1) from the base index. *)
Definition sum4_field (r c : nat) (e : mat F) (p : nat -> nat -> nat * nat) : res (mat F) :=
  foldM (fun m ij =>
    let '(i, j) := ij in
    let '(u, v) := p i j in
    x1 <- mget e u v ;;
    x2 <- mget e (u + 1) v ;;
    x3 <- mget e (u + 1) (v + 1) ;;
    x4 <- mget e u (v + 1) ;;
    if existsb (neqb N (nzero N)) [x1; x2; x3; x4] then Ok m
    else mset m i j (nadd N (nadd N (nadd N x1 x2) x3) x4)) (indices r c) (mconst r c (nzero N)).

(** [dst[i0:i1,j0:j1] = src].  Simplified: the region must lie inside [dst] and have
    [src]'s extents (no broadcasting, no clipping); tomitgrid's callers satisfy this. *)
Definition mset_block {A} (dst : mat A) (i0 i1 j0 j1 : nat) (src : mat A) : res (mat A) :=
  if (i1 <=? mrows dst) && (j1 <=? mcols dst)
     && (mrows src =? i1 - i0) && (mcols src =? j1 - j0)
  then Ok (mkmat (mrows dst) (mcols dst)
        (fun i j => if (i0 <=? i) && (i <? i1) && (j0 <=? j) && (j <? j1)
                    then mat_at src (i - i0) (j - j0) else mat_at dst i j))
  else Err (ValueError "could not broadcast input array").

(** computegrid.py:280-598 tomitgrid *)
Definition tomitgrid (cg : mat (F * F)) (iLB ilb iub iUB jLB jlb jub jUB : nat)
    : res (grid F) :=
  let nlon := (iub - ilb) / 2 in
  let nlat := (jub - jlb) / 2 in
  ' (ex, ey) <- edges cg ilb iub jlb jub ;;
  ar <- areas (mslice ilb (iub + 1) 1 jlb (jub + 1) 1 cg) ex ey ;;
  (* 329-334 *)
  ca <- mset_block (mconst (iUB - iLB) (jUB - jLB) (nzero N)) ilb iub jlb jub ar ;;
  (* 349-354, 370-375 *)
  let c := mslice (ilb + 1) (iub - 1 + 1) 2 (jlb + 1) (jub - 1 + 1) 2 cg in
  let g := mslice ilb (iub + 1) 2 jlb (jub + 1) 2 cg in
  (* 389-397 *)
  dxg <- sum2_field nlon (nlat + 1) ex
           (fun i j => (ilb + 2 * i, jlb + 2 * j)) (fun i j => (ilb + 2 * i + 1, jlb + 2 * j)) ;;
  (* 404-412 *)
  dyg <- sum2_field (nlon + 1) nlat ey
           (fun i j => (ilb + 2 * i, jlb + 2 * j)) (fun i j => (ilb + 2 * i, jlb + 2 * j + 1)) ;;
  (* 419-431 *)
  rac <- sum4_field nlon nlat ca (fun i j => (ilb + 2 * i, jlb + 2 * j)) ;;
  (* 443-451 *)
  dxc <- sum2_field (nlon + 1) nlat ex
           (fun i j => (2 * i, jlb + 2 * j + 1)) (fun i j => (2 * i + 1, jlb + 2 * j + 1)) ;;
  (* 458-466 *)
  dyc <- sum2_field nlon (nlat + 1) ey
           (fun i j => (ilb + 2 * i + 1, 2 * j)) (fun i j => (ilb + 2 * i + 1, 2 * j + 1)) ;;
  (* 473-485 *)
  raz <- sum4_field (nlon + 1) (nlat + 1) ca (fun i j => (2 * i, 2 * j)) ;;
  (* 497-505 *)
  dxv <- sum2_field (nlon + 1) (nlat + 1) ex
           (fun i j => (2 * i, jlb + 2 * j)) (fun i j => (2 * i + 1, jlb + 2 * j)) ;;
  (* 512-520 *)
  dyf <- sum2_field nlon nlat ey
           (fun i j => (ilb + 2 * i + 1, jlb + 2 * j)) (fun i j => (ilb + 2 * i + 1, jlb + 2 * j + 1)) ;;
  (* 527-539 *)
  raw <- sum4_field (nlon + 1) nlat ca (fun i j => (2 * i, jlb + 2 * j)) ;;
  (* 551-559 *)
  dxf <- sum2_field nlon nlat ex
           (fun i j => (ilb + 2 * i, jlb + 2 * j + 1)) (fun i j => (ilb + 2 * i + 1, jlb + 2 * j + 1)) ;;
  (* 566-574 *)
  dyu <- sum2_field (nlon + 1) (nlat + 1) ey
           (fun i j => (ilb + 2 * i, 2 * j)) (fun i j => (ilb + 2 * i, 2 * j + 1)) ;;
  (* 581-593 *)
  ras <- sum4_field nlon (nlat + 1) ca (fun i j => (ilb + 2 * i, 2 * j)) ;;
  Ok (fun f => match f with
    | XC => mmap fst c | YC => mmap snd c | XG => mmap fst g | YG => mmap snd g
    | DXG => dxg | DYG => dyg | RAC => rac | DXC => dxc | DYC => dyc | RAZ => raz
    | DXV => dxv | DYF => dyf | RAW => raw | DXF => dxf | DYU => dyu | RAS => ras
    end).

End ComputeGrid.
