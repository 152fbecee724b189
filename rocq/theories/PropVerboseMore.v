(** Property C92, continued: the arrays printed on the way, and the corners printed at each
    quarter turn. *)
From Coq Require Import Ascii String List Bool PeanoNat ZArith Lia Init.Byte.
Import ListNotations.
From Flocq Require Import IEEE754.Binary IEEE754.Bits.
From Verif Require Import Prelude PreludeFacts Mat MatFacts Num Fields GridIO Float64 Float64Facts SpecGrid SpecHalf Util UtilFacts ComputeGrid
  ComputeGridFacts TomitFacts TomitSpec Refine MkGrid RefineFacts Regrid RegridFacts MatchEdges AddFringe MdsMeta SpecRegrid Samples
  PropUtil PropFill PropMkGrid PropRegrid FmtF Verbose VerboseFacts VerboseSays.
Local Open Scope nat_scope.
Local Open Scope list_scope.
Local Arguments Nat.mul : simpl never.

Definition said_line (s : string) : item binary64 := Text (lit s ++ ["010"%char]).

(** ** The arrays printed on the way *)

(** The output contains, under their names, the points of the grid after each of the two
    subdivisions, the lengths of all half-cell edges and the areas of all quarter cells; the
    grid [g] of p x q cells is made of these. *)
Definition shows_work (L : libm) (G : geod binary64) (lt p q : nat) (g : grid binary64) (o : list (item binary64)) : Prop :=
  exists before x1 y1 x y ex ey ar after,
    o = before ++
      [said_line "compute_grid after x-edge subdivision:"; said_line "compute_grid_xg:"; Array x1; said_line "compute_grid_yg:"; Array y1;
       said_line "compute_grid after y_direction subdivision fill-in:"; said_line "compute_grid_xg:"; Array x; said_line "compute_grid_yg:"; Array y;
       said_line "compute_edges_x:"; Array ex; said_line "compute_edges_y:"; Array ey;
       said_line "compute_areas nonzero subset:"; Array ar] ++ after /\
    let H := fun u v => (mat_at x (1 + u) (1 + v), mat_at y (1 + u) (1 + v)) in
    let flat := flat_enough (b64ops L) G H p q in
    positions_documented H p q g /\ edges_documented (b64ops L) G H p q g /\ areas_documented (b64ops L) G H p q g flat /\
    (* the first subdivision gives every (2 lt)-th column *)
    (forall u b, u <= 2 * p -> 2 * lt * b <= 2 * q ->
       (mat_at x1 (1 + u) (1 + 2 * lt * b), mat_at y1 (1 + u) (1 + 2 * lt * b)) = H u (2 * lt * b)) /\
    (forall u v, u < 2 * p -> v <= 2 * q -> mat_at ex (1 + u) (1 + v) = g_inv G (H u v) (H (u + 1) v)) /\
    (forall u v, u <= 2 * p -> v < 2 * q -> mat_at ey (1 + u) (1 + v) = g_inv G (H u v) (H u (v + 1))) /\
    mrows ar = 2 * p /\ mcols ar = 2 * q /\
    (forall u v, u < 2 * p -> v < 2 * q -> mat_at ar u v = quarter (b64ops L) G H flat u v).

Lemma shows_work_left L G lt p q g a b : shows_work L G lt p q g a -> shows_work L G lt p q g (a ++ b).
Proof.
  intros (be & x1 & y1 & x & y & ex & ey & ar & af & -> & D). exists be, x1, y1, x, y, ex, ey, ar, (af ++ b).
  split; [now rewrite <- !app_assoc|exact D].
Qed.
Lemma shows_work_right L G lt p q g a b : shows_work L G lt p q g b -> shows_work L G lt p q g (a ++ b).
Proof.
  intros (be & x1 & y1 & x & y & ex & ey & ar & af & -> & D). exists (a ++ be), x1, y1, x, y, ex, ey, ar, af.
  split; [now rewrite <- !app_assoc|exact D].
Qed.

Lemma finishV_shows_work L G (cg : mat (binary64 * binary64)) ls lt m n g :
  1 <= ls -> 1 <= lt -> 1 <= m -> 1 <= n -> mrows cg = 2 * (ls * m) + 3 -> mcols cg = 2 * (lt * n) + 3 ->
  snd (finishV (b64ops L) G true cg (ls * m) (lt * n) ls lt) = Ok g ->
  shows_work L G lt (ls * m) (lt * n) g (fst (finishV (b64ops L) G true cg (ls * m) (lt * n) ls lt)).
Proof.
  intros Hls Hlt Hm Hn Hr Hc. unfold finishV. intros H. ook H.
  assert (ET : tomitgrid (b64ops L) G x 0 1 (1 + 2 * (ls * m)) (1 + 2 * (ls * m) + 1) 0 1 (1 + 2 * (lt * n)) (1 + 2 * (lt * n) + 1) = Ok g)
    by (rewrite <- (tomitgridV_snd (b64ops L) G true); exact H).
  revert Hx. unfold fillV. cbv zeta. intros Hx. do 4 ook Hx. cbn [snd still] in Hx0, Hx2. cbn [snd still] in Hx. injection Hx as ->.
  clear Hx1 Hx3 x1 x3. rename x0 into g1.
  assert (M : 2 * (ls * m) = 2 * ls * m) by lia. assert (M' : 2 * (lt * n) = 2 * lt * n) by lia.
  (* the first subdivision *)
  destruct (fill_x_loop (b64ops L) G (lon0to360 (b64ops L) cg) cg 1 1 ls lt m n indices indices_order_ok Hls Hlt) as (g1' & E1 & R1 & C1 & _ & _); [lia|lia|].
  assert (g1' = g1) as ->.
  { revert Hx0. unfold nditer. destruct (negb (negb _ && _)); [discriminate|]. destruct (_ || _); [discriminate|].
    rewrite M, M'. rewrite slice_len_full, slice_len_incl by lia. rewrite E1. intros K. now injection K. }
  destruct (fill_y_loop (b64ops L) G (lon0to360 (b64ops L) cg) g1 1 1 lt (2 * ls * m + 1) n indices indices_order_ok Hlt) as (g2' & E2 & R2 & C2 & V2 & _); [lia|lia|].
  assert (g2' = x) as ->.
  { revert Hx2. unfold nditer. destruct (negb (negb _)); [discriminate|]. destruct (_ || _); [discriminate|].
    rewrite M, M'.
    replace (slice_len 1 (1 + 2 * ls * m + 1) 1 (mrows cg)) with (2 * ls * m + 1)
      by (replace (1 + 2 * ls * m + 1) with (1 + 1 * (2 * ls * m) + 1) by lia; rewrite slice_len_incl by lia; reflexivity).
    rewrite slice_len_full by lia. rewrite E2. intros K. now injection K. }
  (* the rest *)
  revert H. unfold tomitgridV, edgesV, areasV. cbv zeta. intros H. ook H. rename x0 into e, Hx into He. ook H. rename x0 into ar, Hx into Har.
  clear H. revert He Har. intros He Har.
  ook He. ook He. cbn [snd still] in He. injection He as ->. cbn [snd still] in Hx. clear Hx1 x1.
  ook Har. ook Har. cbn [snd still] in Har. injection Har as ->. cbn [snd still] in Hx1. clear Hx3 x1.
  destruct e as (ex, ey). cbn [fst snd] in *.
  destruct (edges_ok (b64ops L) G x 1 (1 + 2 * (ls * m)) 1 (1 + 2 * (lt * n))) as (ex' & ey' & Ee & (X1 & X2 & X3) & (Y1 & Y2 & Y3)); [lia|lia|].
  rewrite Hx in Ee. injection Ee as <- <-.
  destruct (tomitgrid_spec (b64ops L) (b64_laws L) G x (ls * m) (lt * n)) as (g' & Eg & Hg); [lia|lia|].
  rewrite ET in Eg. injection Eg as <-. unfold P in Hg.
  match type of Hx1 with areas _ _ ?sl _ _ = _ => destruct (areas_ok (b64ops L) G sl ex ey) as (ar' & Ea & (A1 & A2 & A3)) end.
  rewrite Hx1 in Ea. injection Ea as <-.
  cbn [mrows mcols mslice] in A1, A2, A3.
  assert (S1 : slice_len 1 (1 + 2 * (ls * m) + 1) 1 (mrows x) = 2 * (ls * m) + 1)
    by (replace (1 + 2 * (ls * m) + 1) with (1 + 1 * (2 * (ls * m)) + 1) by lia; rewrite slice_len_incl by lia; lia).
  assert (S2 : slice_len 1 (1 + 2 * (lt * n) + 1) 1 (mcols x) = 2 * (lt * n) + 1)
    by (replace (1 + 2 * (lt * n) + 1) with (1 + 1 * (2 * (lt * n)) + 1) by lia; rewrite slice_len_incl by lia; lia).
  rewrite S1, S2 in *.
  set (H := fun u v => mat_at x (1 + u) (1 + v)) in Hg.
  assert (Pl : use_planar (b64ops L) ex ey = flat_enough (b64ops L) G H (ls * m) (lt * n)).
  { etransitivity; [|exact (planar_choice_spec (b64ops L) (b64_laws L) G x (ls * m) (lt * n))]. unfold planar_choice.
    apply use_planar_ext; repeat split; cbn [mrows mcols mat_at]; try lia; intros i j Hi Hj; [apply X3|apply Y3]; lia. }
  set (H' := fun u v => (mat_at (mmap fst x) (1 + u) (1 + v), mat_at (mmap snd x) (1 + u) (1 + v))).
  assert (EH : forall u v, H' u v = H u v) by (intros u v; unfold H', H; cbn [mmap mat_at]; now destruct (mat_at x _ _)).
  assert (EF : flat_enough (b64ops L) G H (ls * m) (lt * n) = flat_enough (b64ops L) G H' (ls * m) (lt * n))
    by (apply flat_enough_ext; intros; symmetry; apply EH).
  assert (Hg' : grid_of (b64ops L) G H' (ls * m) (lt * n) g) by (eapply grid_of_ext; [|exact Hg]; intros; symmetry; apply EH).
  exists [], (mmap fst g1), (mmap snd g1), (mmap fst x), (mmap snd x), ex, ey, ar. eexists. split.
  { cbn [fst say still app both]. unfold Verbose.line, said_line, Verbose.newline. rewrite <- ?app_assoc. cbn [app]. reflexivity. }
  cbv zeta. fold H'. split; [eapply grid_of_positions; eauto|]. split; [eapply grid_of_edges; eauto|]. split; [eapply grid_of_areas; eauto|].
  split; [|split; [|split; [|split; [|split]]]].
  - intros u b Hu Hb. rewrite EH. unfold H. rewrite V2 by lia.
    replace (2 * lt * b / (2 * lt)) with b by (rewrite Nat.mul_comm, Nat.div_mul; lia).
    replace ((2 * lt * b) mod (2 * lt)) with 0 by (rewrite Nat.mul_comm, Nat.mod_mul; lia). cbn [subdiv mmap mat_at].
    replace (b * (2 * lt)) with (2 * lt * b) by lia. now destruct (mat_at g1 _ _).
  - intros u v Hu Hv. rewrite !EH, X3 by lia. unfold EX, H.
    replace (btw 1 (1 + u) (1 + 2 * (ls * m))) with true by (symmetry; apply btw_true; lia).
    replace (btw 1 (1 + v) (1 + 2 * (lt * n) + 1)) with true by (symmetry; apply btw_true; lia).
    cbn [andb]. now replace (1 + u + 1) with (1 + (u + 1)) by lia.
  - intros u v Hu Hv. rewrite !EH, Y3 by lia. unfold EY, H.
    replace (btw 1 (1 + u) (1 + 2 * (ls * m) + 1)) with true by (symmetry; apply btw_true; lia).
    replace (btw 1 (1 + v) (1 + 2 * (lt * n))) with true by (symmetry; apply btw_true; lia).
    cbn [andb]. now replace (1 + v + 1) with (1 + (v + 1)) by lia.
  - lia.
  - lia.
  - intros u v Hu Hv. rewrite A3 by lia. rewrite Pl, EF. unfold qarea, quarter. rewrite !EH. unfold H. cbn [mslice mat_at].
    rewrite !Nat.mul_1_r. reflexivity.
Qed.

Lemma finishV_no_zero L G v cg p q ls lt g : snd (finishV (b64ops L) G v cg p q ls lt) = Ok g -> 1 <= ls /\ 1 <= lt.
Proof.
  unfold finishV. rewrite snd_obind, fillV_snd. unfold fill, fill_ord. cbv zeta.
  destruct (Nat.eq_dec ls 0) as [->|]; [discriminate|]. destruct (Nat.eq_dec lt 0) as [->|]; [|lia].
  rewrite Nat.mul_0_r, andb_false_r. discriminate.
Qed.

(** mkgrid and regrid show the points, lengths and areas the grid they return is made of. *)
Theorem C92_work_shown : forall L G,
  (forall lon1 lat1 lon2 lat2 ls lt g ni nj,
    snd (mkgridV (b64ops L) G fmt_9_4f true lon1 lat1 lon2 lat2 ls lt) = Ok (g, ni, nj) ->
    shows_work L G nj ni nj g (fst (mkgridV (b64ops L) G fmt_9_4f true lon1 lat1 lon2 lat2 ls lt))) /\
  (forall lay o3 fuel a d r, layouts o3 ->
    snd (regrid_fromV (b64ops L) G fmt_9_4f true lay o3 fuel a d) = Ok r ->
    shows_work L G (Z.to_nat (ra_lat_subscale a)) (rr_ni r) (rr_nj r) (rr_grid r)
      (fst (regrid_fromV (b64ops L) G fmt_9_4f true lay o3 fuel a d))).
Proof.
  intros L G. split.
  - intros lon1 lat1 lon2 lat2 ls lt g ni nj. unfold mkgridV. cbv zeta. intros H. do 2 ook H. do 2 apply shows_work_right.
    destruct ls as [ls|], lt as [lt|]; try discriminate H. do 3 ook H. do 2 apply shows_work_right. apply shows_work_left.
    injection H as -> <- <-. cbn [snd still] in Hx2.
    set (l := Z.to_nat ls) in *. set (t := Z.to_nat lt) in *.
    destruct (finishV_no_zero _ _ _ _ _ _ _ _ _ Hx3) as (Hl & Ht).
    match type of Hx2 with mk_corners _ ?a ?b ?c ?d _ _ = _ =>
      destruct (mk_corners_ok (b64ops L) a b c d (1 + 2 * l) (1 + 2 * t)) as (cg & E & R & C & _); [lia|lia|] end.
    rewrite Hx2 in E. injection E as <-.
    pose proof (finishV_shows_work L G x2 l t 1 1 g) as W. rewrite !Nat.mul_1_r in W. apply W; auto; lia.
  - intros lay o3 fuel a d r Ho. unfold regrid_fromV. cbv zeta. intros H. do 2 ook H. cbn [snd still] in Hx0. do 2 apply shows_work_right.
    destruct (_ || _); [discriminate H|]. do 6 ook H. do 5 apply shows_work_right. apply shows_work_left. injection H as <-. cbn [rr_ni rr_nj rr_grid].
    pose proof (rot_loopV_aligned _ _ _ _ _ _ _ Hx1) as A. pose proof (locate_known _ _ _ _ _ _ _ Hx0) as (K3 & K4).
    destruct (rot_loopV_says _ _ _ _ _ _ K3 K4 Hx1) as (K5 & K6 & _). pose proof (aligned_known _ A K5 K6) as (I & J).
    cbn [snd still] in Hx4.
    set (n := Z.to_nat (Z.max (fst (lc_nw x1)) (fst (lc_se x1))) - Z.to_nat (Z.min (fst (lc_nw x1)) (fst (lc_se x1)))) in *.
    set (m := Z.to_nat (Z.max (snd (lc_nw x1)) (snd (lc_se x1))) - Z.to_nat (Z.min (snd (lc_nw x1)) (snd (lc_se x1)))) in *.
    destruct (finishV_no_zero _ _ _ _ _ _ _ _ _ Hx6) as (Hl & Ht).
    apply layouts_order_ok in Ho.
    match type of Hx4 with scatter _ _ _ ?ls ?lt ?v ?c = _ =>
      destruct (scatter_ok (b64ops L) o3 (n + 1) (m + 1) ls lt v c Ho Hl Ht) as (cg & E & R & C & _) end.
    { intros x' y' Hx' Hy'. cbn [mconst mrows mcols]. nia. }
    rewrite Hx4 in E. injection E as <-. cbn [mconst mrows mcols] in R, C.
    apply finishV_shows_work; auto; lia.
Qed.

(** ** The corners printed at each quarter turn *)

(** where [k] quarter turns take entry [ij] of a matrix with r rows and c columns *)
Fixpoint taken_to (k r c : nat) (ij : nat * nat) : nat * nat :=
  match k with 0 => ij | S k => taken_to k c r (c - 1 - snd ij, fst ij) end.

Definition places (p q : nat * nat) : text :=
  lit "(i,j)_nw = (" ++ int_text (Z.of_nat (fst p)) ++ lit "," ++ int_text (Z.of_nat (snd p)) ++
  lit "), (i,j)_se = (" ++ int_text (Z.of_nat (fst q)) ++ lit "," ++ int_text (Z.of_nat (snd q)) ++ lit ")".

Section Turns.
Variables (L : libm) (G : geod binary64).
Notation N := (b64ops L).
Notation linv := (linv N G).

Lemma rot_loopV_turned fuel a : forall l l', linv a l -> snd (rot_loopV N G true fuel a l) = Ok l' ->
  exists n, l' = Nat.iter n rotL l /\ aligned l' = true /\ (forall s, s < n -> aligned (Nat.iter s rotL l) = false) /\
    fst (rot_loopV N G true fuel a l) = flat_map (fun s => turn_lines (Nat.iter s rotL l, Nat.iter (S s) rotL l)) (seq 0 n).
Proof.
  induction fuel as [|f IH]; intros l l' I H; cbn [rot_loopV] in *; destruct (aligned l) eqn:A; try discriminate H.
  1, 2: (injection H as <-; exists 0; split; [reflexivity|]; split; [exact A|]; split; [lia|reflexivity]).
  destruct (linv_rot N G a l I) as (E & I'). rewrite E in *. ook H. ook H. injection Hx0 as <-. ook H.
  destruct (IH _ _ I' H) as (n & -> & A' & F & O). exists (S n). split; [apply iter_swap|]. split; [exact A'|]. split.
  - intros [|s] Hs; [exact A|]. cbn [Nat.iter nat_rect]. change (aligned (rotL (Nat.iter s rotL l)) = false).
    rewrite <- (F s) by lia. f_equal. symmetry. apply iter_swap.
  - rewrite O. cbn [fst say still app seq flat_map turn_lines snd]. do 3 f_equal.
    rewrite <- seq_shift, flat_map_concat_map, flat_map_concat_map, map_map. f_equal. apply map_ext. intros s.
    apply (f_equal turn_lines). apply f_equal2; [exact (iter_swap rotL s l)|exact (iter_swap rotL (S s) l)].
Qed.

Lemma rot_loop_at a n : forall l, linv a l -> aligned (Nat.iter n rotL l) = true -> exists l', rot_loop N G n a l = Ok l'.
Proof.
  induction n as [|n IH]; intros l I A; rewrite (rot_loop_unfold N G _ a l I); destruct (aligned l) eqn:A0; eauto.
  - cbn in A. congruence.
  - apply IH; [exact (proj2 (linv_rot N G a l I))|]. now rewrite iter_swap.
Qed.

Lemma iter_real k : forall (l : located binary64) p q, real_pair l (fst p) (snd p) (fst q) (snd q) ->
  let r := mrows (lc_xg l) in let c := mcols (lc_xg l) in
  real_pair (Nat.iter k rotL l) (fst (taken_to k r c p)) (snd (taken_to k r c p)) (fst (taken_to k r c q)) (snd (taken_to k r c q)).
Proof.
  induction k as [|k IH]; intros l p q R r c; [exact R|]. change (Nat.iter (S k) rotL l) with (rotL (Nat.iter k rotL l)). rewrite <- iter_swap. cbn [taken_to].
  apply (IH (rotL l) (c - 1 - snd p, fst p) (c - 1 - snd q, fst q)). cbn [fst snd]. now apply real_pair_rot.
Qed.

Lemma real_text (l : located binary64) p q : real_pair l (fst p) (snd p) (fst q) (snd q) -> located_text l = places p q.
Proof.
  intros (E1 & E2 & _). unfold located_text, places. rewrite E1, E2. cbn [fst snd]. rewrite <- !app_assoc. reflexivity.
Qed.
End Turns.

(** regrid prints for every quarter turn where the two corners are before and after it: at
    first the points nearest to the requested ones, then where the turns take these. *)
Theorem C92_turns_shown : forall L G lay o3 fuel a d r xg yg, layouts lay ->
  snd (regrid_fromV (b64ops L) G fmt_9_4f true lay o3 fuel a d) = Ok r -> d XG = Arr xg -> d YG = Arr yg ->
  exists i1 j1 i2 j2 rest, corners_at G lay a xg yg i1 j1 i2 j2 /\
    let k := quarter_turns i1 j1 i2 j2 in
    let nw s := taken_to s (mrows xg) (mcols xg) (i1, j1) in
    let se s := taken_to s (mrows xg) (mcols xg) (i2, j2) in
    fst (regrid_fromV (b64ops L) G fmt_9_4f true lay o3 fuel a d) =
      flat_map (fun s =>
        [said_line "performing 90 degree XG, YG rotation...";
         Text (lit "...start: " ++ places (nw s) (se s) ++ ["010"%char]);
         Text (lit "...end:   " ++ places (nw (s + 1)) (se (s + 1)) ++ ["010"%char])]) (seq 0 k) ++
      Text (lit "remeshing " ++ int_text (Z.of_nat (fst (se k)) - Z.of_nat (fst (nw k))) ++ lit " x "
            ++ int_text (Z.of_nat (snd (nw k)) - Z.of_nat (snd (se k))) ++ lit " cell grid based on" ++ ["010"%char]) :: rest.
Proof.
  intros L G lay o3 fuel a d r xg yg Hlay H Dx Dy. revert H. unfold regrid_fromV. cbv zeta. intros H.
  ook H. cbn [snd still] in Hx. unfold xg_yg in Hx. rewrite Dx, Dy in Hx. injection Hx as <-. cbn [fst snd] in *.
  ook H. cbn [snd still] in Hx. rename x into l0. destruct (_ || _) eqn:Dg; [discriminate H|].
  ook H. rename Hx0 into HR. do 1 ook H. clear H Hx0 x0. rename x into l.
  assert (I : linv (b64ops L) G a l0).
  { destruct (locate_inv _ _ _ _ _ _ _ Hx) as (E1 & E2 & E3 & _). split; rewrite ?E1, ?E2, ?E3; [exact Hx|].
    apply layouts_order_ok in Hlay. intros i j K. now apply (order_in lay) in K. }
  destruct (locate_inv _ _ _ _ _ _ _ Hx) as (E1 & E2 & E3 & d1 & d2 & N1 & N2).
  assert (Hsh : same_shape xg yg) by (destruct (nearest_ok_iff _ _ _ _ _ _ _ _ N1) as (A & B & C & D & _); repeat split; congruence).
  destruct (rot_loopV_turned L G fuel a l0 l I HR) as (n & El & Al & Fl & Ol).
  (* both corners are found *)
  pose proof (locate_known _ _ _ _ _ _ _ Hx) as (K1 & K2).
  assert (Hneg : forall p m, (fst p < 0)%Z -> rotZ m p = p) by (intros p m Hp; unfold rotZ; apply Z.ltb_lt in Hp; rewrite Hp; auto).
  assert (Stay : forall k (l : located binary64), (fst (lc_nw l) < 0 -> lc_nw (Nat.iter k rotL l) = lc_nw l)%Z /\ (fst (lc_se l) < 0 -> lc_se (Nat.iter k rotL l) = lc_se l)%Z).
  { induction k as [|k IH]; intros l1; [split; reflexivity|]. cbn [Nat.iter nat_rect]. change (nat_rect _ l1 (fun _ => rotL) k) with (Nat.iter k rotL l1).
    destruct (IH l1) as (I1 & I2). cbn [rotL lc_nw lc_se]. split; intros Hz; [rewrite I1 by exact Hz|rewrite I2 by exact Hz]; now apply Hneg. }
  destruct (rot_loopV_says _ _ _ _ _ _ K1 K2 HR) as (K5 & K6 & _). pose proof (aligned_known _ Al K5 K6) as (J1 & J2).
  assert (P1 : (0 <= fst (lc_nw l0))%Z).
  { destruct (Z.ltb_spec (fst (lc_nw l0)) 0) as [Hz|]; [|lia]. destruct (Stay n l0) as (S1 & _). rewrite El, (S1 Hz) in J1. lia. }
  assert (P2 : (0 <= fst (lc_se l0))%Z).
  { destruct (Z.ltb_spec (fst (lc_se l0)) 0) as [Hz|]; [|lia]. destruct (Stay n l0) as (_ & S1). rewrite El, (S1 Hz) in J1. lia. }
  assert (Q : forall lon lat p dd, nearest_ord (b64ops L) G (lay (mrows xg) (mcols xg)) lon lat xg yg = Ok (p, dd) -> (0 <= fst p)%Z ->
    exists i j, p = (Z.of_nat i, Z.of_nat j) /\ is_nearest G (lay (mrows xg) (mcols xg)) lon lat xg yg i j).
  { intros lon lat p dd E Hp. destruct (nearest_cases L G (lay (mrows xg) (mcols xg)) lon lat xg yg (Hlay _ _) Hsh) as [X|(i & j & X)].
    - pose proof (nearest_of_none L G _ _ _ _ _ (Hlay _ _) Hsh X) as E'. 
      unfold nearest64 in E'. rewrite E in E'. injection E' as -> _. cbn in Hp. lia.
    - pose proof (nearest_of_is_nearest L G _ _ _ _ _ _ _ (Hlay _ _) Hsh X) as E'. unfold nearest64 in E'. rewrite E in E'. injection E' as -> _. eauto. }
  destruct (Q _ _ _ _ N1 P1) as (i1 & j1 & W1 & X1). destruct (Q _ _ _ _ N2 P2) as (i2 & j2 & W2 & X2).
  exists i1, j1, i2, j2.
  assert (RP : real_pair l0 i1 j1 i2 j2).
  { destruct X1 as (A1 & A2 & _), X2 as (B1 & B2 & _). repeat split; rewrite ?E1; assumption. }
  apply orb_false_iff in Dg as (D1 & D2). rewrite W1, W2 in D1, D2. cbn [fst snd] in D1, D2. apply Z.eqb_neq in D1, D2.
  assert (Hi : i1 <> i2) by (intros ->; now apply D1). assert (Hj : j1 <> j2) by (intros ->; now apply D2).
  assert (Hn : n = quarter_turns i1 j1 i2 j2).
  { rewrite <- turns_eq. destruct (Nat.lt_trichotomy n (turns i1 j1 i2 j2)) as [Lt|[Eq|Gt]]; [|exact Eq|].
    - rewrite El in Al. destruct (rot_loop_at L G a n l0 I Al) as (l' & Ok').
      rewrite (rot_loop_short _ _ a l0 i1 j1 i2 j2 n I RP Hi Hj Lt) in Ok'. discriminate Ok'.
    - pose proof (rot_loop_turns _ _ a l0 i1 j1 i2 j2 _ I RP Hi Hj (le_n _)) as T. rewrite <- (rot_loopV_snd (b64ops L) G true) in T.
      apply rot_loopV_aligned in T. rewrite (Fl _ Gt) in T. discriminate T. }
  assert (PT : forall k, real_pair (Nat.iter k rotL l0) (fst (taken_to k (mrows xg) (mcols xg) (i1, j1))) (snd (taken_to k (mrows xg) (mcols xg) (i1, j1)))
     (fst (taken_to k (mrows xg) (mcols xg) (i2, j2))) (snd (taken_to k (mrows xg) (mcols xg) (i2, j2)))).
  { intros k. rewrite <- E1. now apply (iter_real k l0 (i1, j1) (i2, j2)). }
  eexists. split; [split; assumption|]. cbv zeta. rewrite Ol. rewrite <- Hn.
  cbn [fst still say app]. apply (f_equal2 (@app _)).
  - rewrite !flat_map_concat_map. f_equal. apply map_ext. intros s. unfold turn_lines, said_line, Verbose.line, Verbose.newline. cbn [fst snd].
    rewrite (real_text _ _ _ (PT s)), (real_text _ _ _ (PT (S s))). replace (s + 1) with (S s) by lia. rewrite <- ?app_assoc. reflexivity.
  - pose proof (PT n) as (R1 & R2 & _). rewrite <- El in R1, R2. rewrite R1, R2 in J1, J2. cbn [fst snd] in J1, J2.
    unfold remesh_text at 1. rewrite R1, R2. cbn [fst snd app]. f_equal. unfold Verbose.line, Verbose.newline.
    rewrite <- ?app_assoc.
    match goal with |- context [int_text (Z.abs ?x)] => replace (Z.abs x) with (- x)%Z by lia end.
    match goal with |- context [int_text (Z.abs ?x)] => replace (Z.abs x) with x by lia end.
    match goal with |- context [int_text (- ?x)] => replace (- x)%Z with (Z.of_nat (fst (taken_to n (mrows xg) (mcols xg) (i2, j2))) -
      Z.of_nat (fst (taken_to n (mrows xg) (mcols xg) (i1, j1))))%Z by lia end. reflexivity.
Qed.

(** The turns of the run in C92_case (three turns of a 3 x 3 matrix of corner points from (0,0)
    and (2,2)), and runs as C92_work_shown wants them. *)
Example C92_turns_case :
  quarter_turns 0 0 2 2 = 3 /\
  map (fun k => (taken_to k 3 3 (0, 0), taken_to k 3 3 (2, 2))) [0; 1; 2; 3] =
    [((0, 0), (2, 2)); ((2, 0), (0, 2)); ((2, 2), (0, 0)); ((0, 2), (2, 0))] /\
  string_of_list_ascii (places (taken_to 1 3 3 (0, 0)) (taken_to 1 3 3 (2, 2))) = "(i,j)_nw = (2,0), (i,j)_se = (0,2)"%string /\
  taken_to 1 3 2 (2, 0) = (1, 2) /\ taken_to 2 3 2 (2, 0) = (0, 1).
Proof. repeat split; vm_compute; reflexivity. Qed.

Definition ended {A} (r : res A) : bool := match r with Ok _ => true | Err _ => false end.
Definition arrays_in (o : list (item binary64)) : list (nat * nat) :=
  flat_map (fun x => match x with Array m => [(mrows m, mcols m)] | Text _ => [] end) o.
Example C92_work_case :
  (let r := mkgridV (b64ops ex_libm) ex_geod fmt_9_4f true (Some (ex_int 0)) (Some (ex_int 2)) (Some (ex_int 8)) (Some (ex_int 0)) (Some 2%Z) (Some 1%Z) in
   (ended (snd r), firstn 7 (arrays_in (fst r)))) = (true, [(7, 5); (7, 5); (7, 5); (7, 5); (6, 5); (7, 4); (4, 2)]) /\
  ended (snd (regrid_fromV (b64ops ex_libm) ex_geod fmt_9_4f true indices indices 4 ex_a ex_dict)) = true.
Proof. split; vm_compute; reflexivity. Qed.
