(** Properties C26-C29 and C59: matchedges. *)
From Coq Require Import ZArith String List Bool PeanoNat Lia.
From Flocq Require Import IEEE754.BinarySingleNaN IEEE754.Binary IEEE754.Bits.
Import ListNotations.
From Verif Require Import Prelude PreludeFacts Mat MatFacts Num Float64 Float64Facts SpecHalf
  MatchEdges SpecTiles MatchEdgesFacts Samples.
Local Open Scope nat_scope.
Local Arguments Nat.mul : simpl never.

Notation point64 := (binary64 * binary64)%type.
Definition matchedges64 (L : libm) (G : geod binary64) := matchedges (b64ops L) G.
Definition near64 (L : libm) (G : geod binary64) := near (b64ops L) G.
Definition limit64 (L : libm) (G : geod binary64) := near_limit (b64ops L) G.
Definition a_meets64 (L : libm) (G : geod binary64) := a_meets (b64ops L) G.
Definition b_meets64 (L : libm) (G : geod binary64) := b_meets (b64ops L) G.

(** the ring row or column next to side [s] in the compute grid of a tile of r x c points *)
Definition ring_pos (s : side) (r c k : nat) : nat * nat :=
  match s with
  | East => (2 * (r - 1) + 2, 1 + k) | West => (0, 1 + k)
  | North => (1 + k, 2 * (c - 1) + 2) | South => (1 + k, 0)
  end.

(** ** C26 *)
Definition returns_side (a b : mat point64) (m : matched (F := binary64)) (s : side) : Prop :=
  me_a m = side_code s /\ me_b m = side_code (opposite s) /\
  selected (me_a_slice m) (mrows a) (mcols a) =
    map (side_pos s (mrows a) (mcols a)) (seq 0 (side_len s (mrows a) (mcols a))) /\
  selected (me_b_slice m) (mrows b) (mcols b) =
    map (side_pos (opposite s) (mrows b) (mcols b)) (seq 0 (side_len s (mrows b) (mcols b))) /\
  selected (me_join m) (2 * (mrows a - 1) + 3) (2 * (mcols a - 1) + 3) =
    map (ring_pos s (mrows a) (mcols a)) (seq 0 (length (me_edge m))).

Lemma list_prod_l {A B} (x : A) (l : list B) : list_prod [x] l = map (pair x) l.
Proof. simpl. apply app_nil_r. Qed.
Lemma list_prod_r {A B} (l : list A) (x : B) : list_prod l [x] = map (fun y => (y, x)) l.
Proof. induction l; simpl; [reflexivity|]. f_equal. exact IHl. Qed.
Lemma map_seq1 {A} (f : nat -> A) n : map f (seq 1 n) = map (fun k => f (1 + k)) (seq 0 n).
Proof. rewrite <- seq_shift, map_map. reflexivity. Qed.

Lemma edge_slice_selected s r c : 1 <= r -> 1 <= c ->
  selected (edge_slice (side_code s)) r c = map (side_pos s r c) (seq 0 (side_len s r c)).
Proof.
  intros Hr Hc. unfold selected, side_len.
  destruct s; cbn [edge_slice side_code Nat.eqb eN eS eE eW fst snd index_set zonal Z.ltb Z.compare];
  rewrite ?list_prod_l, ?list_prod_r; apply map_ext; intros k; unfold side_pos; f_equal; lia.
Qed.

Lemma matched_facts L G a b m : matchedges64 L G a b = Ok m ->
  exists s, nonempty a b /\ big_enough a b s /\ returns_side a b m s /\
    edge_midpoints (b64ops L) G a b s (me_edge m) /\
    first_side (a_close (b64ops L) G a b) = Some s /\
    first_side (b_close (b64ops L) G a b) = Some (opposite s).
Proof.
  intros E. destruct (matchedges_inv _ (b64_laws L) G a b m E) as (s & Hne & Hbig & K1 & K2).
  exists s. split; auto. split; auto.
  destruct (matchedges_ok _ (b64_laws L) G a b s Hne Hbig K1 K2) as (m' & E' & E1 & E2 & E3 & E4 & E5 & Hm).
  unfold matchedges64 in E. rewrite E in E'. inversion E'. subst m'. clear E'.
  split; [|auto]. destruct Hne as (R1 & C1 & R2 & C2). unfold big_enough in Hbig.
  split; [auto|]. split; [auto|].
  split; [rewrite E2; apply edge_slice_selected; auto|].
  split.
  { rewrite E4, edge_slice_selected by auto. unfold side_len. destruct s; reflexivity. }
  rewrite E5. destruct Hm as (H & _ & ->). rewrite map_length, seq_length. unfold selected, side_len.
  destruct s; cbn [join_slice side_code Nat.eqb eN eS eE eW fst snd index_set zonal Z.ltb Z.compare] in *;
  rewrite ?list_prod_l, ?list_prod_r.
  1,2: replace (2 * (mrows a - 1) + 3 - 2) with (2 * mrows a - 1) by lia.
  3,4: replace (2 * (mcols a - 1) + 3 - 2) with (2 * mcols a - 1) by lia.
  all: rewrite map_seq1; apply map_ext; intros k; unfold ring_pos; f_equal; lia.
Qed.

Theorem C26_opposite_edges_and_slices : forall (L : libm) (G : geod binary64) (a b : mat point64) m,
  matchedges64 L G a b = Ok m -> exists s, returns_side a b m s.
Proof.
  intros L G a b m E. destruct (matched_facts L G a b m E) as (s & _ & _ & H & _). eauto.
Qed.

(** C59: the returned vector runs through the middles of B's cells next to the edge. *)
Theorem C59_edge_vector_is_cell_middles : forall (L : libm) (G : geod binary64) (a b : mat point64) m,
  matchedges64 L G a b = Ok m ->
  exists s, returns_side a b m s /\ edge_midpoints (b64ops L) G a b s (me_edge m).
Proof.
  intros L G a b m E. destruct (matched_facts L G a b m E) as (s & _ & _ & H & K & _). eauto.
Qed.

(** ** C27 *)
(** the corner of B that lies on A's corner (e,n) when B continues A beyond side [s] *)
Definition mirrored (s : side) (b : mat point64) (e n : bool) : point64 :=
  if zonal s then corner_of b (negb e) n else corner_of b e (negb n).

Definition adjacent (L : libm) (G : geod binary64) (a b : mat point64) (s : side) : Prop :=
  (forall e n, on_side s e n -> corner_of a e n = mirrored s b e n) /\
  (forall e n e' n', near64 L G a b (corner_of a e n) (corner_of b e' n') ->
     on_side s e n /\ on_side (opposite s) e' n').

Theorem C27_adjacent_tiles_accepted : forall (L : libm) (G : geod binary64) (a b : mat point64) s,
  (forall e n, on_side s e n -> g_inv G (corner_of a e n) (corner_of a e n) = b64_zero) ->
  b64_leb b64_zero (limit64 L G a b) = true -> b64_leb b64_inf (limit64 L G a b) = false ->
  nonempty a b -> big_enough a b s -> adjacent L G a b s ->
  exists m, matchedges64 L G a b = Ok m /\ returns_side a b m s.
Proof.
  intros L G a b s Hd H0 Hi Hne Hbig (Hc & Ho).
  assert (Ka : forall e n, a_close (b64ops L) G a b e n = true <-> on_side s e n).
  { intros e n. rewrite (a_close_iff _ (b64_laws L)). split.
    - intros [(e' & n' & K)|K].
      + apply (Ho e n e' n' K).
      + change (b64_leb b64_inf (limit64 L G a b) = true) in K. rewrite Hi in K. discriminate.
    - intros Hs. left. pose proof (Hc e n Hs) as E. unfold mirrored in E.
      destruct (zonal s); [exists (negb e), n|exists e, (negb n)]; unfold near; rewrite <- E, Hd by exact Hs; exact H0. }
  assert (Kb : forall e n, b_close (b64ops L) G a b e n = true <-> on_side (opposite s) e n).
  { intros e n. rewrite (b_close_iff _ (b64_laws L)). split.
    - intros [(e' & n' & K)|K].
      + apply (Ho e' n' e n K).
      + change (b64_leb b64_inf (limit64 L G a b) = true) in K. rewrite Hi in K. discriminate.
    - intros Hs. left.
      assert (Hs' : if zonal s then on_side s (negb e) n else on_side s e (negb n)).
      { destruct s; simpl in *; subst; reflexivity. }
      destruct (zonal s) eqn:Ez; [exists (negb e), n|exists e, (negb n)]; unfold near;
        pose proof (Hc _ _ Hs') as E; unfold mirrored in E; rewrite Ez in E; rewrite ?negb_involutive in E; rewrite <- E, Hd by exact Hs';
        exact H0. }
  destruct (matchedges_ok _ (b64_laws L) G a b s Hne Hbig) as (m & E & E1 & _);
    [apply first_side_exact; exact Ka|apply first_side_exact; exact Kb|].
  exists m. split; [exact E|].
  destruct (matched_facts L G a b m E) as (s' & _ & _ & H & _).
  destruct H as (Hs & H). assert (s' = s) as ->; [|split; auto].
  apply side_code_inj. congruence.
Qed.

(** ** C28 *)
Theorem C28_rejects_unless_edges_meet : forall (L : libm) (G : geod binary64) (a b : mat point64),
  nonempty a b -> b64_leb b64_inf (limit64 L G a b) = false ->
  ~ (exists s, side_meets (a_meets64 L G a b) s /\ side_meets (b_meets64 L G a b) (opposite s)) ->
  raises_value (matchedges64 L G a b).
Proof.
  intros L G a b Hne Hi Hno. apply matchedges_err; [apply b64_laws|auto|].
  intros (s & K1 & K2). apply Hno. exists s.
  assert (Hif : nleb (b64ops L) (ninf (b64ops L)) (near_limit (b64ops L) G a b) = true -> False).
  { intros K. change (b64_leb b64_inf (limit64 L G a b) = true) in K. rewrite Hi in K. discriminate. }
  split; intros e n Hs.
  - pose proof (first_side_some _ _ K1 e n Hs) as K. apply (a_close_iff _ (b64_laws L)) in K.
    destruct K as [K|K]; [exact K|contradiction].
  - pose proof (first_side_some _ _ K2 e n Hs) as K. apply (b_close_iff _ (b64_laws L)) in K.
    destruct K as [K|K]; [exact K|contradiction].
Qed.

Theorem C28_rejects_distant_tiles : forall (L : libm) (G : geod binary64) (a b : mat point64),
  nonempty a b -> b64_leb b64_inf (limit64 L G a b) = false ->
  (forall e n e' n', ~ near64 L G a b (corner_of a e n) (corner_of b e' n')) ->
  raises_value (matchedges64 L G a b).
Proof.
  intros L G a b Hne Hi Hfar. apply C28_rejects_unless_edges_meet; auto.
  intros (s & K1 & _). unfold side_meets in K1.
  assert (Hx : exists e n, on_side s e n).
  { destruct s; [exists true, true|exists true, false|exists true, true|exists false, true]; reflexivity. }
  destruct Hx as (e & n & Hx). destruct (K1 e n Hx) as (e' & n' & K). apply (Hfar e n e' n' K).
Qed.

(** at most one corner of A, or only diagonally opposite ones *)
Theorem C28_rejects_single_or_diagonal_corners : forall (L : libm) (G : geod binary64) (a b : mat point64),
  nonempty a b -> b64_leb b64_inf (limit64 L G a b) = false ->
  (forall e n e' n', a_meets64 L G a b e n -> a_meets64 L G a b e' n' ->
     (e, n) = (e', n') \/ (e <> e' /\ n <> n')) ->
  raises_value (matchedges64 L G a b).
Proof.
  intros L G a b Hne Hi Hd. apply C28_rejects_unless_edges_meet; auto.
  intros (s & K1 & _). unfold side_meets in K1.
  destruct s;
  [pose proof (Hd true true false true) as K|pose proof (Hd true false false false) as K
  |pose proof (Hd true true true false) as K|pose proof (Hd false true false false) as K];
  destruct K as [K|[K K']]; try (apply K1; reflexivity); congruence.
Qed.

Theorem C28_rejects_all_corners : forall (L : libm) (G : geod binary64) (a b : mat point64),
  nonempty a b -> (forall e n, a_meets64 L G a b e n) -> (forall e n, b_meets64 L G a b e n) ->
  raises_value (matchedges64 L G a b).
Proof.
  intros L G a b Hne Ha Hb. apply matchedges_err; [apply b64_laws|auto|].
  intros (s & K1 & K2).
  assert (Ka : forall e n, a_close (b64ops L) G a b e n = true)
    by (intros e n; apply a_close_iff; [apply b64_laws|left; apply Ha]).
  assert (Kb : forall e n, b_close (b64ops L) G a b e n = true)
    by (intros e n; apply b_close_iff; [apply b64_laws|left; apply Hb]).
  unfold first_side in K1, K2. rewrite !Ka in K1. rewrite !Kb in K2. simpl in K1, K2.
  inversion K1. subst s. discriminate.
Qed.

(** ** C29 *)
Theorem C29_corners_decide : forall (L : libm) (G : geod binary64) (a b a' b' : mat point64) m s,
  (forall e n, corner_of a' e n = corner_of a e n) ->
  (forall e n, corner_of b' e n = corner_of b e n) ->
  matchedges64 L G a b = Ok m -> me_a m = side_code s ->
  nonempty a' b' -> big_enough a' b' s ->
  exists m', matchedges64 L G a' b' = Ok m' /\ me_a m' = me_a m /\ me_b m' = me_b m.
Proof.
  intros L G a b a' b' m s Ha Hb E Es Hne Hbig.
  destruct (matched_facts L G a b m E) as (s' & _ & _ & (Ea & Eb & _) & _ & K1 & K2).
  assert (s' = s) as -> by (apply side_code_inj; congruence).
  assert (El : near_limit (b64ops L) G a' b' = near_limit (b64ops L) G a b).
  { unfold near_limit, diagonal, diagonal'. rewrite !Ha, !Hb. reflexivity. }
  assert (Ca : corners_of a' = corners_of a) by (unfold corners_of; rewrite !Ha; reflexivity).
  assert (Cb : corners_of b' = corners_of b) by (unfold corners_of; rewrite !Hb; reflexivity).
  destruct (matchedges_ok _ (b64_laws L) G a' b' s Hne Hbig) as (m' & E' & E1 & _ & E3 & _).
  - rewrite <- K1. unfold first_side, a_close. rewrite El, Cb, !Ha. reflexivity.
  - rewrite <- K2. unfold first_side, b_close. rewrite El, Ca, !Hb. reflexivity.
  - exists m'. split; [exact E'|]. rewrite E1, E3, Ea, Eb. auto.
Qed.

(** ** concrete cases *)
(** tiles of unit cells with r x c points, south-west corner at (x,y) *)
Definition ex_tile (x y : Z) (r c : nat) : mat point64 :=
  mkmat r c (fun i j => (ex_int (x + Z.of_nat i), ex_int (y + Z.of_nat j))).
Definition ex_match (a b : mat point64) :=
  match matchedges64 ex_libm ex_geod a b with
  | Ok m => Ok (me_a m, me_b m, map (fun p => (bits_of_b64 (fst p), bits_of_b64 (snd p))) (me_edge m))
  | Err e => Err e
  end.
Definition ex_bits (z : Z) := bits_of_b64 (ex_int z).
(** 2.5 *)
Definition ex_b25 := bits_of_b64 (b64_div mode_NE (ex_int 5) (ex_int 2)).
Definition ex_half (z : Z) := bits_of_b64 (b64_div mode_NE (ex_int z) (ex_int 2)).

(** B east of A: the middle line of B's first cells, from south to north *)
Example C26_case : ex_match (ex_tile 0 0 3 3) (ex_tile 2 0 3 3) =
  Ok (2, 3, map (fun k => (ex_b25, ex_half (Z.of_nat k))) (seq 0 5)).
Proof. vm_compute. reflexivity. Qed.

(** B south of A *)
Example C26_south_case : ex_match (ex_tile 0 3 4 2) (ex_tile 0 0 4 4) =
  Ok (1, 0, map (fun k => (ex_half (Z.of_nat k), ex_b25)) (seq 0 7)).
Proof. vm_compute. reflexivity. Qed.

Lemma near_dec L G a b (P : bool -> bool -> bool -> bool -> bool) :
  (forall e n e' n', P e n e' n' = false ->
    b64_leb (g_inv G (corner_of a e n) (corner_of b e' n')) (limit64 L G a b) = false) ->
  forall e n e' n', near64 L G a b (corner_of a e n) (corner_of b e' n') -> P e n e' n' = true.
Proof.
  intros H e n e' n' K. destruct (P e n e' n') eqn:E; auto.
  pose proof (H e n e' n' E) as K'. unfold near64, near in K. unfold limit64 in K'.
  cbn [nleb b64ops] in K. rewrite K' in K. discriminate.
Qed.

Example C27_case : let a := ex_tile 0 0 3 3 in let b := ex_tile 2 0 2 3 in
  b64_leb b64_zero (limit64 ex_libm ex_geod a b) = true /\
  b64_leb b64_inf (limit64 ex_libm ex_geod a b) = false /\
  (forall e n, on_side East e n -> g_inv ex_geod (corner_of a e n) (corner_of a e n) = b64_zero) /\
  nonempty a b /\ big_enough a b East /\ adjacent ex_libm ex_geod a b East.
Proof.
  intros a b. split; [vm_compute; reflexivity|]. split; [vm_compute; reflexivity|].
  split; [intros e n He; simpl in He; subst e; destruct n; vm_compute; reflexivity|].
  split; [repeat split; cbn; lia|]. split; [cbn; lia|]. split.
  - intros e n He. simpl in He. subst e. destruct n; reflexivity.
  - intros e n e' n' K.
    apply (near_dec _ _ a b (fun e n e' n' => e && negb e')) in K.
    + apply andb_true_iff in K. destruct K as [K1 K2]. apply negb_true_iff in K2. split; assumption.
    + clear. intros [] [] [] []; simpl; intros K; try discriminate K; vm_compute; reflexivity.
Qed.

Example C28_cases :
  ex_match (ex_tile 0 0 3 3) (ex_tile 5 0 3 3) = Err (ValueError far_msg) /\
  ex_match (ex_tile 0 0 3 3) (ex_tile 2 2 3 3) = Err (ValueError first_msg) /\
  ex_match (ex_tile 0 0 3 3) (ex_tile 0 0 3 3) = Err (ValueError inconsistent_msg) /\
  ex_match (ex_tile 0 0 3 3) (ex_tile 2 0 3 2) = Err (ValueError first_msg).
Proof. vm_compute. repeat split. Qed.

(** the hypotheses of the four C28 theorems *)
Example C28_hypotheses :
  b64_leb b64_inf (limit64 ex_libm ex_geod (ex_tile 0 0 3 3) (ex_tile 5 0 3 3)) = false /\
  (forall e n e' n', ~ near64 ex_libm ex_geod (ex_tile 0 0 3 3) (ex_tile 5 0 3 3)
     (corner_of (ex_tile 0 0 3 3) e n) (corner_of (ex_tile 5 0 3 3) e' n')) /\
  b64_leb b64_inf (limit64 ex_libm ex_geod (ex_tile 0 0 3 3) (ex_tile 2 2 3 3)) = false /\
  (forall e n, a_meets64 ex_libm ex_geod (ex_tile 0 0 3 3) (ex_tile 2 2 3 3) e n <-> e = true /\ n = true) /\
  (forall e n, a_meets64 ex_libm ex_geod (ex_tile 0 0 3 3) (ex_tile 0 0 3 3) e n) /\
  (forall e n, b_meets64 ex_libm ex_geod (ex_tile 0 0 3 3) (ex_tile 0 0 3 3) e n).
Proof.
  split; [vm_compute; reflexivity|]. split.
  { intros e n e' n' K. apply (near_dec _ _ _ _ (fun _ _ _ _ => false)) in K; [discriminate|].
    clear. intros [] [] [] [] _; vm_compute; reflexivity. }
  split; [vm_compute; reflexivity|]. split.
  { intros e n. split.
    - intros (e' & n' & K).
      apply (near_dec _ _ _ _ (fun e n e' n' => e && n)) in K; [apply andb_true_iff; exact K|].
      clear. intros [] [] [] []; simpl; intros K; try discriminate K; vm_compute; reflexivity.
    - intros [-> ->]. exists false, false. vm_compute. reflexivity. }
  split; intros e n; exists e, n; destruct e, n; vm_compute; reflexivity.
Qed.

(** B's interior edge point is moved off A's edge, and B has one more point along it *)
Definition ex_bent (k : nat) : mat point64 :=
  mkmat 2 k (fun i j => if (j =? 0) || (j =? k - 1) then (ex_int (2 + Z.of_nat i), ex_int (if j =? 0 then 0 else 2))
                        else (ex_int 7, ex_int 5)).
Example C29_case :
  (forall e n, corner_of (ex_bent 4) e n = corner_of (ex_tile 2 0 2 3) e n) /\
  nonempty (ex_tile 0 0 3 3) (ex_bent 4) /\ big_enough (ex_tile 0 0 3 3) (ex_bent 4) East /\
  match ex_match (ex_tile 0 0 3 3) (ex_bent 4) with Ok (ea, eb, _) => ea = 2 /\ eb = 3 | Err _ => False end.
Proof.
  split; [intros [] []; reflexivity|]. split; [repeat split; cbn; lia|]. split; [cbn; lia|].
  vm_compute. split; reflexivity.
Qed.
