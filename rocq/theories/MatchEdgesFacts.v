From Coq Require Import String List ZArith Lia Bool PeanoNat.
Import ListNotations.
From Verif Require Import Prelude PreludeFacts Num Mat MatFacts Util ComputeGrid ComputeGridFacts
  SpecHalf RefineFacts MatchEdges SpecTiles.
Local Open Scope nat_scope.
Local Arguments Nat.mul : simpl never.
Local Arguments Nat.sub : simpl never.

Section Facts.
Context {F : Type} (N : numops F) (NL : numlaws N) (G : geod F).
Notation pt := (F * F)%type.

Lemma norm_index_nat n i : norm_index n (Z.of_nat i) = if i <? n then Ok i else Err IndexError.
Proof.
  unfold norm_index. destruct (Z.ltb_spec (Z.of_nat i) 0); [lia|].
  destruct (Z.ltb_spec (Z.of_nat i) (Z.of_nat n)), (Nat.ltb_spec i n); try lia; auto.
  rewrite Nat2Z.id. reflexivity.
Qed.

Lemma norm_index_neg n k : 1 <= k ->
  norm_index n (- Z.of_nat k) = if k <=? n then Ok (n - k) else Err IndexError.
Proof.
  intros Hk. unfold norm_index. destruct (Z.ltb_spec (- Z.of_nat k) 0); [|lia].
  destruct (Z.ltb_spec (Z.of_nat n + - Z.of_nat k) 0), (Nat.leb_spec k n); try lia; auto.
  f_equal. lia.
Qed.

Lemma zget_ok {A} (m : mat A) i j r c : norm_index (mrows m) i = Ok r -> norm_index (mcols m) j = Ok c ->
  zget m i j = Ok (mat_at m r c).
Proof. intros H1 H2. unfold zget. rewrite H1, H2. reflexivity. Qed.

Definition corners_of (m : mat pt) : tile_corners :=
  mk_corners4 (corner_of m false false) (corner_of m true false) (corner_of m true true)
    (corner_of m false true).

Lemma corner4_ok (m : mat pt) : 1 <= mrows m -> 1 <= mcols m -> corner4 m = Ok (corners_of m).
Proof.
  intros Hr Hc.
  assert (E0 : forall n, 1 <= n -> norm_index n 0 = Ok 0).
  { intros n Hn. change 0%Z with (Z.of_nat 0). rewrite norm_index_nat.
    destruct (Nat.ltb_spec 0 n); [auto|lia]. }
  assert (E1 : forall n, 1 <= n -> norm_index n (-1) = Ok (n - 1)).
  { intros n Hn. change (-1)%Z with (- Z.of_nat 1)%Z. rewrite norm_index_neg by lia.
    destruct (Nat.leb_spec 1 n); [auto|lia]. }
  unfold corner4, corner, SW, SE, NE, NW. cbn [fst snd].
  rewrite !(zget_ok m _ _ _ _ (E0 _ Hr) (E0 _ Hc)), !(zget_ok m _ _ _ _ (E1 _ Hr) (E0 _ Hc)),
    !(zget_ok m _ _ _ _ (E0 _ Hr) (E1 _ Hc)), !(zget_ok m _ _ _ _ (E1 _ Hr) (E1 _ Hc)).
  reflexivity.
Qed.

Lemma corner4_inv (m : mat pt) t : corner4 m = Ok t -> 1 <= mrows m /\ 1 <= mcols m /\ t = corners_of m.
Proof.
  intros H.
  assert (Hs : 1 <= mrows m /\ 1 <= mcols m).
  { unfold corner4 in H. mok H. clear H. unfold corner, SW, zget in Ha. cbn [fst snd] in Ha.
    change 0%Z with (Z.of_nat 0) in Ha. rewrite !norm_index_nat in Ha.
    destruct (Nat.ltb_spec 0 (mrows m)); [|discriminate].
    cbn [rbind] in Ha. destruct (Nat.ltb_spec 0 (mcols m)); [lia|discriminate]. }
  destruct Hs as [Hr Hc]. rewrite corner4_ok in H by auto. inversion H. auto.
Qed.

(** ** minima *)
Lemma min_fold l : forall m0, neqb N m0 m0 = true ->
  let m := fold_left (fun m d => if nltb N d m then d else m) l m0 in
  neqb N m m = true /\ (m = m0 \/ In m l) /\
  (forall d, d = m0 \/ In d l -> forall t, nleb N d t = true -> nleb N m t = true).
Proof.
  induction l as [|x l IH]; intros m0 H0 m.
  - subst m. simpl. repeat split; auto. intros d [->|[]]; auto.
  - subst m. cbn [fold_left].
    destruct (nltb N x m0) eqn:E.
    + destruct (IH x (nltb_num NL _ _ E)) as (H1 & H2 & H3). split; [auto|]. split.
      * destruct H2 as [->|H2]; [right; left; auto|right; right; auto].
      * intros d [->|[->|Hd]] t Ht; [|apply (H3 d); auto..].
        apply (H3 x); auto. destruct (nleb N x t) eqn:Ex; auto.
        assert (nltb N m0 x = false).
        { destruct (nltb N m0 x) eqn:E'; auto. pose proof (nltb_trans NL _ _ _ E E') as Hc.
          rewrite (nltb_irrefl NL) in Hc. discriminate. }
        rewrite (nleb_min NL m0 t x Ht H (nltb_num NL _ _ E)) in Ex. discriminate.
    + destruct (IH m0 H0) as (H1 & H2 & H3). split; [auto|]. split.
      * destruct H2 as [->|H2]; [left; auto|right; right; auto].
      * intros d [->|[<-|Hd]] t Ht; [apply (H3 m0); auto| |apply (H3 d); auto].
        apply (H3 m0); auto. apply (nleb_min NL x t m0 Ht E H0).
Qed.

Lemma min_dist_le ds t : nleb N (min_dist N ds) t = true <->
  (exists d, In d ds /\ nleb N d t = true) \/ nleb N (ninf N) t = true.
Proof.
  unfold min_dist. destruct (min_fold ds (ninf N) (ninf_num NL)) as (_ & H2 & H3).
  cbv zeta in *. split.
  - intros H. destruct H2 as [H2|H2]; [rewrite H2 in H|]; eauto.
  - intros [(d & Hd & Hle)|Hi]; [apply (H3 d); auto|apply (H3 (ninf N)); auto].
Qed.

Lemma not_far l t : (exists d, In d l /\ nleb N d t = true) -> nltb N t (amin N l) = false.
Proof.
  intros H. assert (E : nleb N (amin N l) t = true).
  { apply min_dist_le. auto. }
  destruct (nltb N t (amin N l)) eqn:E'; auto.
  rewrite (nleb_ltb NL _ _ _ E' (nltb_irrefl NL _)) in E. discriminate.
Qed.

(** ** the decision *)
Section Decide.
Variables a b : mat pt.
Let ca := corners_of a.
Let cb := corners_of b.
Let lim := near_limit N G a b.

Lemma tolerance_limit : tolerance N G ca cb = lim.
Proof. reflexivity. Qed.

Definition a_close (e n : bool) : bool := nleb N (a_to_b N G cb (corner_of a e n)) lim.
Definition b_close (e n : bool) : bool := nleb N (b_to_a N G ca (corner_of b e n)) lim.

Lemma a_close_iff e n : a_close e n = true <-> a_meets N G a b e n \/ nleb N (ninf N) lim = true.
Proof.
  unfold a_close, a_to_b. rewrite min_dist_le. unfold a_meets, near. fold lim. split.
  - intros [(d & Hd & Hle)|H]; [left|right; auto].
    simpl in Hd. destruct Hd as [<-|[<-|[<-|[<-|[]]]]]; eauto.
  - intros [(e' & n' & H)|H]; [left|right; auto].
    eexists. split; [|exact H]. simpl. destruct e', n'; auto.
Qed.

Lemma b_close_iff e n : b_close e n = true <-> b_meets N G a b e n \/ nleb N (ninf N) lim = true.
Proof.
  unfold b_close, b_to_a. rewrite min_dist_le. unfold b_meets, near. fold lim. split.
  - intros [(d & Hd & Hle)|H]; [left|right; auto].
    simpl in Hd. destruct Hd as [<-|[<-|[<-|[<-|[]]]]]; eauto.
  - intros [(e' & n' & H)|H]; [left|right; auto].
    eexists. split; [|exact H]. simpl. destruct e', n'; auto.
Qed.

(** the order of the tests: west, east, south, north *)
Definition first_side (close : bool -> bool -> bool) : option side :=
  if close false false && close false true then Some West
  else if close true false && close true true then Some East
  else if close false false && close true false then Some South
  else if close false true && close true true then Some North
  else None.

Lemma first_side_some close s : first_side close = Some s ->
  forall e n, on_side s e n -> close e n = true.
Proof.
  unfold first_side. intros H e n.
  destruct (close false false) eqn:E1, (close false true) eqn:E2, (close true false) eqn:E3,
    (close true true) eqn:E4; simpl in H; try discriminate; inversion H; subst s;
    simpl; intros Ho; destruct e, n; congruence.
Qed.

Lemma first_side_none close : first_side close = None ->
  forall s, exists e n, on_side s e n /\ close e n = false.
Proof.
  unfold first_side. intros H s.
  destruct (close false false) eqn:E1, (close false true) eqn:E2, (close true false) eqn:E3,
    (close true true) eqn:E4; simpl in H; try discriminate;
  destruct s; simpl;
  solve [exists true, true; auto | exists true, false; auto | exists false, true; auto
        | exists false, false; auto].
Qed.

Lemma first_side_exact close s :
  (forall e n, close e n = true <-> on_side s e n) -> first_side close = Some s.
Proof.
  intros H. unfold first_side.
  pose proof (H false false) as H1. pose proof (H false true) as H2.
  pose proof (H true false) as H3. pose proof (H true true) as H4.
  destruct (close false false), (close false true), (close true false), (close true true), s;
    simpl in *; try reflexivity; exfalso;
    repeat match goal with K : _ <-> _ |- _ => destruct K end; intuition congruence.
Qed.

Lemma find_edge_first (t : mat pt) close :
  find_edge (corners_of t) (fun p => close p) =
  option_map side_code (first_side (fun e n => close (corner_of t e n))).
Proof.
  unfold find_edge, first_side, corners_of. cbn [c_sw c_se c_ne c_nw].
  destruct (close (corner_of t false false)), (close (corner_of t false true)),
    (close (corner_of t true false)), (close (corner_of t true true)); reflexivity.
Qed.

Lemma side_code_inj s s' : side_code s = side_code s' -> s = s'.
Proof. destruct s, s'; simpl; congruence. Qed.

Lemma decide4_sides : exists r, decide4 N G ca cb = r /\
  match r with
  | Ok (ea, eb) => exists s, ea = side_code s /\ eb = side_code (opposite s) /\
      first_side a_close = Some s /\ first_side b_close = Some (opposite s)
  | Err e => (exists m, e = ValueError m) /\
      ~ exists s, first_side a_close = Some s /\ first_side b_close = Some (opposite s)
  end.
Proof.
  eexists. split; [reflexivity|]. unfold decide4. rewrite tolerance_limit.
  assert (Ea0 : find_edge ca (fun p => nleb N (a_to_b N G cb p) lim) =
    option_map side_code (first_side a_close)) by apply find_edge_first.
  assert (Eb0 : find_edge cb (fun p => nleb N (b_to_a N G ca p) lim) =
    option_map side_code (first_side b_close)) by apply find_edge_first.
  rewrite Ea0, Eb0. clear Ea0 Eb0.
  destruct (nltb N lim _) eqn:Efar.
  - split; [eauto|]. intros (s & Ha & _).
    rewrite not_far in Efar; [discriminate|].
    exists (amin N (map (a_to_b N G cb) (points4 ca))). split; [left; reflexivity|].
    assert (Hs : forall e n, on_side s e n -> a_close e n = true) by (apply first_side_some; auto).
    assert (Hx : exists e n, a_close e n = true).
    { destruct s; [exists true, true|exists true, false|exists true, true|exists false, true];
      apply Hs; reflexivity. }
    destruct Hx as (e & n & Hx). apply min_dist_le. left.
    exists (a_to_b N G cb (corner_of a e n)). split; [|exact Hx].
    apply in_map. unfold ca, corners_of. simpl. destruct e, n; auto.
  - destruct (first_side a_close) as [s|] eqn:Ea; cbn [option_map].
    2:{ split; [eauto|]. intros (s & Hs & _). discriminate. }
    destruct (first_side b_close) as [s'|] eqn:Eb; cbn [option_map].
    2:{ split; [eauto|]. intros (s' & _ & Hs). discriminate. }
    destruct s, s'; cbn; try (split; [eauto|]; intros (s0 & K1 & K2); inversion K1; subst; discriminate);
    eexists; repeat split; reflexivity.
Qed.

Lemma decide4_ok s : first_side a_close = Some s -> first_side b_close = Some (opposite s) ->
  decide4 N G ca cb = Ok (side_code s, side_code (opposite s)).
Proof.
  intros H1 H2. destruct decide4_sides as (r & E & Hr). rewrite E. destruct r as [[ea eb]|e].
  - destruct Hr as (s' & -> & -> & K1 & K2). rewrite K1 in H1. inversion H1. reflexivity.
  - destruct Hr as [_ []]. eauto.
Qed.
End Decide.

(** ** the strip *)
Lemma two_lines (fa fb : nat -> res pt) (P Q : nat -> nat * nat) (A B : nat -> pt) n (g0 : mat pt) :
  (forall i, i < n -> fa i = Ok (A i)) -> (forall i, i < n -> fb i = Ok (B i)) ->
  (forall i, i < n -> fst (P i) < mrows g0 /\ snd (P i) < mcols g0) ->
  (forall i, i < n -> fst (Q i) < mrows g0 /\ snd (Q i) < mcols g0) ->
  (forall i j, P i = P j -> i = j) -> (forall i j, Q i = Q j -> i = j) ->
  (forall i j, P i <> Q j) ->
  exists g, foldM (fun g i => pa <- fa i ;; g <- mset g (fst (P i)) (snd (P i)) pa ;;
                     pb <- fb i ;; mset g (fst (Q i)) (snd (Q i)) pb) (seq 0 n) g0 = Ok g /\
    mrows g = mrows g0 /\ mcols g = mcols g0 /\
    (forall i, i < n -> point g (P i) = A i /\ point g (Q i) = B i) /\
    (forall ij, (forall i, i < n -> ij <> P i /\ ij <> Q i) -> point g ij = point g0 ij).
Proof.
  intros Ha Hb HP HQ IP IQ D.
  destruct (foldM_inv (fun g i => pa <- fa i ;; g <- mset g (fst (P i)) (snd (P i)) pa ;;
                     pb <- fb i ;; mset g (fst (Q i)) (snd (Q i)) pb)
    (fun done g => mrows g = mrows g0 /\ mcols g = mcols g0 /\
       (forall i, In i done -> point g (P i) = A i /\ point g (Q i) = B i) /\
       (forall ij, (forall i, In i done -> ij <> P i /\ ij <> Q i) -> point g ij = point g0 ij))
     (seq 0 n) g0) as (g & Hf & Hr & Hc & Hv & Hz).
  - repeat split; contradiction.
  - intros done x rest g Hl (Hr & Hc & Hv & Hz).
    assert (Hx : x < n). { assert (In x (seq 0 n)) by (rewrite Hl; apply in_or_app; simpl; auto). apply in_seq in H. lia. }
    rewrite (Ha x Hx), (Hb x Hx). cbn [rbind].
    destruct (HP x Hx) as [P1 P2]. destruct (HQ x Hx) as [Q1 Q2].
    destruct (mset_ok g (fst (P x)) (snd (P x)) (A x)) as (g1 & E1 & R1 & C1 & V1); [lia..|].
    rewrite E1. cbn [rbind].
    destruct (mset_ok g1 (fst (Q x)) (snd (Q x)) (B x)) as (g2 & E2 & R2 & C2 & V2); [lia..|].
    exists g2. split; [exact E2|]. split; [lia|]. split; [lia|].
    assert (HV : forall ij, point g2 ij = if (fst ij =? fst (Q x)) && (snd ij =? snd (Q x)) then B x
                 else if (fst ij =? fst (P x)) && (snd ij =? snd (P x)) then A x else point g ij).
    { intros ij. unfold point. rewrite V2, V1. reflexivity. }
    assert (Hdec : forall p q : nat * nat, p <> q -> (fst p =? fst q) && (snd p =? snd q) = false).
    { intros [p1 p2] [q1 q2] Hne. apply pair_eqb_false. exact Hne. }
    split.
    2:{ intros ij Hij. rewrite HV. destruct (Hij x) as [K1 K2]; [apply in_or_app; simpl; auto|].
        rewrite (Hdec _ _ K1), (Hdec _ _ K2). apply Hz. intros i Hi. apply Hij. apply in_or_app. auto. }
    intros i Hi. apply in_app_or in Hi. rewrite !HV.
    destruct (Nat.eq_dec i x) as [->|Hne].
    + rewrite (Hdec (P x) (Q x)) by apply D. rewrite !pair_eqb_refl. auto.
    + destruct Hi as [Hi|[Hi|[]]]; [|congruence].
      rewrite (Hdec (P i) (Q x)) by apply D. rewrite (Hdec (P i) (P x)) by (intros K; apply IP in K; auto).
      rewrite (Hdec (Q i) (Q x)) by (intros K; apply IQ in K; auto).
      rewrite (Hdec (Q i) (P x)) by (intros K; apply (D x i); auto). auto.
  - exists g. repeat split; auto; try (apply Hv; apply in_seq; lia).
    intros ij Hij. apply Hz. intros i Hi. apply in_seq in Hi. apply Hij. lia.
Qed.

Lemma two_lines_inv (fa fb : nat -> res pt) (P Q : nat -> nat * nat) n (g0 g : mat pt) :
  foldM (fun g i => pa <- fa i ;; g <- mset g (fst (P i)) (snd (P i)) pa ;;
                     pb <- fb i ;; mset g (fst (Q i)) (snd (Q i)) pb) (seq 0 n) g0 = Ok g ->
  forall i, i < n -> is_ok (fa i) /\ is_ok (fb i).
Proof.
  intros H i Hi.
  enough (K : forall i, In i (seq 0 n) -> is_ok (fa i) /\ is_ok (fb i)) by (apply K; apply in_seq; lia).
  refine (foldM_inv_ok _ (fun done _ => forall i, In i done -> is_ok (fa i) /\ is_ok (fb i)) _ _ _ H _ _).
  - contradiction.
  - intros done x rest s s' _ Hd Hb k Hk. apply in_app_or in Hk. destruct Hk as [Hk|[<-|[]]]; auto.
    mok Hb. mok Hb. mok Hb. split; eexists; eauto.
Qed.

(** lookups along an edge and along the next line *)
Lemma sget_edge (m : mat pt) s i : 1 <= mrows m -> 1 <= mcols m ->
  sget m (edge_slice (side_code s)) i =
  if i <? side_len s (mrows m) (mcols m) then Ok (point m (side_pos s (mrows m) (mcols m) i)) else Err IndexError.
Proof.
  intros Hr Hc.
  destruct s; cbn [edge_slice side_code Nat.eqb eN eS eE eW sget]; unfold zget, point, side_len, side_pos; cbn [zonal fst snd].
  - rewrite norm_index_nat. change (-1)%Z with (- Z.of_nat 1)%Z. rewrite norm_index_neg by lia.
    destruct (i <? mrows m); [|reflexivity]. cbn [rbind]. destruct (Nat.leb_spec 1 (mcols m)); [reflexivity|lia].
  - rewrite norm_index_nat. change 0%Z with (Z.of_nat 0). rewrite norm_index_nat.
    destruct (i <? mrows m); [|reflexivity]. cbn [rbind]. destruct (Nat.ltb_spec 0 (mcols m)); [reflexivity|lia].
  - rewrite norm_index_nat. change (-1)%Z with (- Z.of_nat 1)%Z. rewrite norm_index_neg by lia.
    destruct (Nat.leb_spec 1 (mrows m)); [|lia]. cbn [rbind]. destruct (i <? mcols m); reflexivity.
  - rewrite norm_index_nat. change 0%Z with (Z.of_nat 0). rewrite norm_index_nat.
    destruct (Nat.ltb_spec 0 (mrows m)); [|lia]. cbn [rbind]. destruct (i <? mcols m); reflexivity.
Qed.

Lemma sget_next (m : mat pt) s i :
  (i < side_len s (mrows m) (mcols m) -> (if zonal s then 2 <= mrows m else 2 <= mcols m) ->
     sget m (next_slice (side_code s)) i = Ok (point m (beside_pos s (mrows m) (mcols m) i))) /\
  (is_ok (sget m (next_slice (side_code s)) i) ->
     i < side_len s (mrows m) (mcols m) /\ (if zonal s then 2 <= mrows m else 2 <= mcols m)).
Proof.
  destruct s; cbn [next_slice side_code Nat.eqb eN eS eE eW sget]; unfold zget, point, side_len, beside_pos; cbn [zonal fst snd];
  change 1%Z with (Z.of_nat 1); change (-2)%Z with (- Z.of_nat 2)%Z;
  rewrite ?norm_index_nat, ?norm_index_neg by lia; (split; [intros H1 H2|intros [x H]]).
  - destruct (Nat.ltb_spec i (mrows m)); [|lia]. cbn [rbind]. destruct (Nat.leb_spec 2 (mcols m)); [reflexivity|lia].
  - destruct (Nat.ltb_spec i (mrows m)); [|discriminate]. cbn [rbind] in H. destruct (Nat.leb_spec 2 (mcols m)); [lia|discriminate].
  - destruct (Nat.ltb_spec i (mrows m)); [|lia]. cbn [rbind]. destruct (Nat.ltb_spec 1 (mcols m)); [reflexivity|lia].
  - destruct (Nat.ltb_spec i (mrows m)); [|discriminate]. cbn [rbind] in H. destruct (Nat.ltb_spec 1 (mcols m)); [lia|discriminate].
  - destruct (Nat.leb_spec 2 (mrows m)); [|lia]. cbn [rbind]. destruct (Nat.ltb_spec i (mcols m)); [reflexivity|lia].
  - destruct (Nat.leb_spec 2 (mrows m)); [|discriminate]. cbn [rbind] in H. destruct (Nat.ltb_spec i (mcols m)); [lia|discriminate].
  - destruct (Nat.ltb_spec 1 (mrows m)); [|lia]. cbn [rbind]. destruct (Nat.ltb_spec i (mcols m)); [reflexivity|lia].
  - destruct (Nat.ltb_spec 1 (mrows m)); [|discriminate]. cbn [rbind] in H. destruct (Nat.ltb_spec i (mcols m)); [lia|discriminate].
Qed.

Lemma lon0to360_list (cg : mat pt) (l : list (nat * nat)) :
  (forall ij, In ij l -> fst ij < mrows cg /\ snd ij < mcols cg) ->
  (forall i j, i < mrows cg -> j < mcols cg -> ~ In (i, j) l -> nltb N (fst (mat_at cg i j)) (nzero N) = false) ->
  lon0to360 N cg = forallb (fun ij => negb (nltb N (fst (point cg ij)) (nzero N))) l.
Proof.
  intros Hl Hz. unfold lon0to360, entries.
  apply eq_true_iff_eq. rewrite negb_true_iff, <- not_true_iff_false, existsb_exists, forallb_forall.
  split.
  - intros Hn ij Hin. apply negb_true_iff, not_true_iff_false. intros Hneg. apply Hn.
    exists (point cg ij). split; auto. apply in_map_iff. exists ij. split; auto.
    destruct ij as [i j]. apply in_indices. apply Hl in Hin. exact Hin.
  - intros Ha (x & Hin & Hneg). apply in_map_iff in Hin. destruct Hin as ((i, j) & <- & Hin).
    apply in_indices in Hin. cbn [fst snd] in Hneg.
    destruct (inb (i, j) l) eqn:E.
    + apply inb_In in E. apply Ha in E. unfold point in E. cbn [fst snd] in E. rewrite Hneg in E. discriminate.
    + apply inb_notIn in E. rewrite Hz in Hneg by tauto. discriminate.
Qed.

Section Strip.
Variables a b : mat pt.

Lemma strip_ok s : nonempty a b -> big_enough a b s ->
  exists g, strip N a b (side_code s) (side_code (opposite s)) = Ok g /\
    mrows g = (if zonal s then 3 else 2 * mrows a - 1) /\
    mcols g = (if zonal s then 2 * mcols a - 1 else 3) /\
    (forall u k, u < 2 -> k < side_len s (mrows a) (mcols a) ->
       (if zonal s then mat_at g (2 * u) (2 * k) else mat_at g (2 * k) (2 * u)) = across a b s u k) /\
    (forall i j, (forall u k, u < 2 -> k < side_len s (mrows a) (mcols a) ->
        (i, j) <> (if zonal s then (2 * u, 2 * k) else (2 * k, 2 * u))) ->
       mat_at g i j = (nzero N, nzero N)).
Proof.
  intros (Ha1 & Ha2 & Hb1 & Hb2) Hbig. unfold big_enough in Hbig.
  assert (Hopp : zonal (opposite s) = zonal s) by (destruct s; reflexivity).
  set (n := side_len s (mrows a) (mcols a)).
  set (la := match s with East | North => 0 | _ => 2 end).
  set (P := fun i => if zonal s then (la, 2 * i) else (2 * i, la)).
  set (Q := fun i => if zonal s then (2 - la, 2 * i) else (2 * i, 2 - la)).
  set (g0 := if zonal s then mconst 3 (2 * mcols a - 1) (nzero N, nzero N)
             else mconst (2 * mrows a - 1) 3 (nzero N, nzero N)).
  destruct (two_lines (sget a (edge_slice (side_code s))) (sget b (next_slice (side_code (opposite s)))) P Q
    (fun i => point a (side_pos s (mrows a) (mcols a) i))
    (fun i => point b (beside_pos (opposite s) (mrows b) (mcols b) i)) n g0) as (g & E & Hr & Hc & Hv & Hz).
  - intros i Hi. rewrite sget_edge by auto. fold n. apply Nat.ltb_lt in Hi. rewrite Hi. reflexivity.
  - intros i Hi. apply sget_next; rewrite Hopp || unfold side_len; rewrite ?Hopp;
    unfold n, side_len in Hi; destruct (zonal s); lia.
  - intros i Hi. unfold P, g0, la, n, side_len in *. destruct s; cbn in *; lia.
  - intros i Hi. unfold Q, g0, la, n, side_len in *. destruct s; cbn in *; lia.
  - intros i j. unfold P. destruct (zonal s); intros K; inversion K; lia.
  - intros i j. unfold Q. destruct (zonal s); intros K; inversion K; lia.
  - intros i j. unfold P, Q, la. destruct s; cbn; intros K; inversion K; lia.
  - exists g. split.
    { rewrite <- E. unfold strip, P, Q, g0, n, la, side_len. destruct s; reflexivity. }
    split; [rewrite Hr; unfold g0; destruct s; reflexivity|].
    split; [rewrite Hc; unfold g0; destruct s; reflexivity|].
    assert (Hpos : forall u k, u < 2 -> (if zonal s then (2 * u, 2 * k) else (2 * k, 2 * u)) =
       if Nat.eqb (2 * u) la then P k else Q k).
    { intros u k Hu. unfold P, Q, la. destruct u as [|[|u]]; [| |lia]; destruct s; reflexivity. }
    split.
    + intros u k Hu Hk. destruct (Hv k Hk) as [V1 V2].
      transitivity (point g (if zonal s then (2 * u, 2 * k) else (2 * k, 2 * u))).
      { unfold point. destruct (zonal s); reflexivity. }
      rewrite Hpos by auto.
      unfold across. destruct u as [|[|u]]; [| |lia]; unfold la in *; destruct s; cbn [Nat.mul Nat.eqb Bool.eqb];
        first [exact V1|exact V2].
    + intros i j Hij. transitivity (point g (i, j)); [reflexivity|]. rewrite Hz.
      * unfold g0, point. destruct (zonal s); reflexivity.
      * intros k Hk. split; intros K.
        -- specialize (Hij (if la =? 0 then 0 else 1) k). rewrite Hpos in Hij by (destruct (la =? 0); lia).
           apply Hij; auto; [destruct (la =? 0); lia|]. rewrite K. unfold la. destruct s; reflexivity.
        -- specialize (Hij (if la =? 0 then 1 else 0) k). rewrite Hpos in Hij by (destruct (la =? 0); lia).
           apply Hij; auto; [destruct (la =? 0); lia|]. rewrite K. unfold la. destruct s; reflexivity.
Qed.

Lemma strip_inv s g : nonempty a b ->
  strip N a b (side_code s) (side_code (opposite s)) = Ok g ->
  if zonal s then mcols a <= mcols b /\ 2 <= mrows b else mrows a <= mrows b /\ 2 <= mcols b.
Proof.
  intros (Ha1 & Ha2 & Hb1 & Hb2) E.
  set (n := side_len s (mrows a) (mcols a)).
  assert (K : forall i, i < n -> is_ok (sget b (next_slice (side_code (opposite s))) i)).
  { intros i Hi.
    set (la := match s with East | North => 0 | _ => 2 end).
    refine (proj2 (two_lines_inv (sget a (edge_slice (side_code s))) (sget b (next_slice (side_code (opposite s))))
      (fun i => if zonal s then (la, 2 * i) else (2 * i, la))
      (fun i => if zonal s then (2 - la, 2 * i) else (2 * i, 2 - la)) n
      (if zonal s then mconst 3 (2 * mcols a - 1) (nzero N, nzero N)
       else mconst (2 * mrows a - 1) 3 (nzero N, nzero N)) g _ i Hi)).
    rewrite <- E. unfold strip, n, la, side_len. destruct s; reflexivity. }
  assert (Hn : 1 <= n) by (unfold n, side_len; destruct (zonal s); lia).
  specialize (K (n - 1)). apply sget_next in K; [|lia].
  unfold n, side_len in *. destruct s; cbn [opposite zonal] in *; lia.
Qed.

(** ** the whole function *)
Lemma fill_strip_ok s g : big_enough a b s ->
  mrows g = (if zonal s then 3 else 2 * mrows a - 1) ->
  mcols g = (if zonal s then 2 * mcols a - 1 else 3) ->
  exists g' H, fill_strip N G a (side_code s) g = Ok g' /\
    subdivides N G (lon0to360 N g) (fun x y => mat_at g (2 * x) (2 * y)) 1 1
      (if zonal s then 1 else mrows a - 1) (if zonal s then mcols a - 1 else 1) H /\
    middle (side_code s) g' = map (fun k => if zonal s then H 1 k else H k 1)
       (seq 0 (2 * side_len s (mrows a) (mcols a) - 1)).
Proof.
  intros Hbig Hr Hc. unfold big_enough in Hbig.
  set (m := if zonal s then 1 else mrows a - 1). set (n := if zonal s then mcols a - 1 else 1).
  destruct (fill_ok N G g 0 0 1 1 m n indices indices) as (g' & E & Hr' & Hc' & Hv & _);
    auto using indices_order_ok; try (unfold m, n; destruct (zonal s); lia).
  exists g', (fillXY N G (lon0to360 N g) g 0 0 1 1).
  split.
  { rewrite <- E. unfold fill_strip, fill, m, n. destruct s; cbn [side_code zonal Nat.eqb eE eW orb];
    rewrite !Nat.add_0_l, ?Nat.mul_1_r; reflexivity. }
  split.
  { pose proof (fillXY_subdivides N G (lon0to360 N g) g 0 0 1 1 m n) as Hs.
    rewrite ?Nat.mul_1_r in Hs. apply Hs; lia. }
  unfold middle, side_len. destruct s; cbn [side_code zonal Nat.eqb eE eW orb] in *; rewrite ?Hr', ?Hc', ?Hr, ?Hc;
    apply map_ext_in; intros k Hk; apply in_seq in Hk; unfold m, n in Hv.
  1,2: specialize (Hv k 1); rewrite !Nat.add_0_l in Hv; apply Hv; lia.
  all: specialize (Hv 1 k); rewrite !Nat.add_0_l in Hv; apply Hv; lia.
Qed.

Lemma fill_empty (cg : mat pt) ilb jlb m n ls lt : m = 0 \/ n = 0 ->
  is_err (fill N G cg ilb (ilb + m) jlb (jlb + n) ls lt).
Proof.
  intros H. unfold fill, fill_ord.
  assert (S0 : forall start step dim, step <> 0 -> slice_len start (start + 0) step dim = 0).
  { intros start step dim Hs. unfold slice_len. destruct step; [lia|].
    replace (Nat.min (start + 0) dim - start) with 0 by lia.
    rewrite Nat.add_0_l. apply Nat.div_small. lia. }
  destruct (2 * ls =? 0) eqn:E1; [eexists; reflexivity|].
  destruct (2 * lt =? 0) eqn:E2; [eexists; reflexivity|].
  apply Nat.eqb_neq in E1, E2.
  destruct H as [->| ->].
  - rewrite S0 by auto. eexists; reflexivity.
  - rewrite (S0 jlb) by auto.
    match goal with |- is_err (rbind ?r _) => destruct r as [g|e] end; [|eexists; reflexivity].
    cbn [rbind]. unfold nditer. cbn [negb]. rewrite orb_true_r. eexists; reflexivity.
Qed.

Lemma matchedges_ok s :
  nonempty a b -> big_enough a b s ->
  first_side (a_close a b) = Some s -> first_side (b_close a b) = Some (opposite s) ->
  exists m, matchedges N G a b = Ok m /\
    me_a m = side_code s /\ me_a_slice m = edge_slice (side_code s) /\
    me_b m = side_code (opposite s) /\ me_b_slice m = edge_slice (side_code (opposite s)) /\
    me_join m = join_slice (side_code s) /\ edge_midpoints N G a b s (me_edge m).
Proof.
  intros Hne Hbig Ha Hb. destruct Hne as (Hr1 & Hc1 & Hr2 & Hc2).
  unfold matchedges. rewrite !corner4_ok by auto. cbn [rbind].
  rewrite (decide4_ok a b s) by auto. cbn [rbind].
  destruct (strip_ok s) as (g & E & Hr & Hc & Hv & Hz); [split; auto|auto|].
  rewrite E. cbn [rbind].
  destruct (fill_strip_ok s g) as (g' & H & E' & Hs & Hm); auto.
  rewrite E'. cbn [rbind]. eexists. split; [reflexivity|]. cbn [me_a me_a_slice me_b me_b_slice me_join me_edge].
  repeat split. exists H. rewrite Hm. split; [|reflexivity].
  replace (corners_pos N _ _ _) with (lon0to360 N g).
  - assert (HC : forall x y, x <= (if zonal s then 1 else mrows a - 1) -> y <= (if zonal s then mcols a - 1 else 1) ->
      mat_at g (2 * x) (2 * y) = strip_corner a b s x y).
    { unfold big_enough in Hbig. intros x y Hx Hy. unfold strip_corner, side_len in *. destruct (zonal s).
      - apply Hv; lia.
      - apply Hv; lia. }
    destruct Hs as (S1 & S2 & S3). unfold big_enough in Hbig. repeat split.
    + intros x y Hx Hy. rewrite S1 by auto. apply HC; auto.
    + intros x y k Hx Hy Hk. rewrite S2 by auto. rewrite !HC by lia. reflexivity.
    + exact S3.
  - unfold corners_pos. unfold big_enough in Hbig.
    set (mm := if zonal s then 1 else mrows a - 1) in *. set (nn := if zonal s then mcols a - 1 else 1) in *.
    rewrite (lon0to360_list g (map (fun xy => (2 * fst xy, 2 * snd xy)) (list_prod (seq 0 (mm + 1)) (seq 0 (nn + 1))))).
    + apply eq_true_iff_eq. rewrite !forallb_forall. split; intros K.
      * intros (x, y) Hin. specialize (K (2 * x, 2 * y)).
        rewrite <- K.
        -- unfold point. cbn [fst snd]. apply in_prod_iff in Hin. rewrite !in_seq in Hin.
           f_equal. f_equal. f_equal. unfold strip_corner, side_len, mm, nn in *.
           destruct (zonal s); symmetry; apply Hv; lia.
        -- apply in_map_iff. exists (x, y). auto.
      * intros ij Hin. apply in_map_iff in Hin. destruct Hin as ((x, y) & <- & Hin).
        specialize (K (x, y) Hin). rewrite <- K. unfold point. cbn [fst snd].
        apply in_prod_iff in Hin. rewrite !in_seq in Hin.
        f_equal. f_equal. f_equal. unfold strip_corner, side_len, mm, nn in *.
        destruct (zonal s); apply Hv; lia.
    + intros ij Hin. apply in_map_iff in Hin. destruct Hin as ((x, y) & <- & Hin).
      apply in_prod_iff in Hin. rewrite !in_seq in Hin. cbn [fst snd]. rewrite Hr, Hc. unfold mm, nn in *.
      destruct (zonal s); lia.
    + intros i j Hi Hj Hnin. rewrite Hz; [apply (nltb_irrefl NL)|].
      intros u k Hu Hk K. apply Hnin. apply in_map_iff. unfold side_len, mm, nn in *. destruct (zonal s); inversion K; subst.
      * exists (u, k). split; auto. apply in_prod_iff. rewrite !in_seq. lia.
      * exists (k, u). split; auto. apply in_prod_iff. rewrite !in_seq. lia.
Qed.

Lemma matchedges_inv m : matchedges N G a b = Ok m ->
  exists s, nonempty a b /\ big_enough a b s /\
    first_side (a_close a b) = Some s /\ first_side (b_close a b) = Some (opposite s).
Proof.
  unfold matchedges. intros H. mok H. mok H. apply corner4_inv in Ha, Ha0.
  destruct Ha as (Hr1 & Hc1 & ->). destruct Ha0 as (Hr2 & Hc2 & ->).
  destruct (decide4_sides a b) as (r & E & Hr). rewrite E in H. destruct r as [[ea eb]|e]; [|discriminate].
  destruct Hr as (s & -> & -> & K1 & K2). cbn [rbind] in H. exists s.
  assert (Hne : nonempty a b) by (split; auto).
  mok H. pose proof (strip_inv s _ Hne Ha) as Hi. mok H. repeat split; auto.
  unfold big_enough.
  assert (Hl : 2 <= side_len s (mrows a) (mcols a)).
  { destruct (le_lt_dec 2 (side_len s (mrows a) (mcols a))); auto. exfalso.
    assert (Hx : is_err (fill_strip N G a (side_code s) a0)).
    { unfold fill_strip, side_len in *. destruct s; cbn [side_code zonal Nat.eqb eE eW orb] in *;
      first [replace (mrows a - 1) with 0 by lia; apply (fill_empty a0 0 0 0 2); auto
            |replace (mcols a - 1) with 0 by lia; apply (fill_empty a0 0 0 2 0); auto]. }
    destruct Hx as (e & He). rewrite He in Ha0. discriminate. }
  unfold side_len in Hl. destruct (zonal s); lia.
Qed.

Lemma matchedges_err : nonempty a b ->
  (~ exists s, first_side (a_close a b) = Some s /\ first_side (b_close a b) = Some (opposite s)) ->
  raises_value (matchedges N G a b).
Proof.
  intros (Hr1 & Hc1 & Hr2 & Hc2) Hno. unfold matchedges. rewrite !corner4_ok by auto. cbn [rbind].
  destruct (decide4_sides a b) as (r & E & Hr). rewrite E. destruct r as [[ea eb]|e].
  - destruct Hr as (s & _ & _ & K1 & K2). exfalso. eauto.
  - destruct Hr as [[msg ->] _]. exists msg. reflexivity.
Qed.
End Strip.

(** ** the result depends on the entries only *)
Lemma corner_of_meq (a a' : mat pt) e n : meq a a' -> 1 <= mrows a -> 1 <= mcols a ->
  corner_of a' e n = corner_of a e n.
Proof.
  intros (Hr & Hc & Hv) H1 H2. unfold corner_of. rewrite <- Hr, <- Hc. symmetry.
  apply Hv; [destruct e|destruct n]; lia.
Qed.

Lemma corners_pos_ext (C C' : nat -> nat -> pt) m n :
  (forall x y, x <= m -> y <= n -> C x y = C' x y) -> corners_pos N C m n = corners_pos N C' m n.
Proof.
  intros H. unfold corners_pos. apply eq_true_iff_eq. rewrite !forallb_forall.
  split; intros K (x, y) Hin; specialize (K (x, y) Hin); apply in_prod_iff in Hin; rewrite !in_seq in Hin;
  cbn [fst snd] in *; rewrite H in * by lia; exact K.
Qed.

Lemma matchedges_meq (a b a' b' : mat pt) m : meq a a' -> meq b b' ->
  matchedges N G a b = Ok m -> matchedges N G a' b' = Ok m.
Proof.
  intros Ha Hb E. destruct (matchedges_inv a b m E) as (s & Hne & Hbig & K1 & K2).
  destruct (matchedges_ok a b s Hne Hbig K1 K2) as (m0 & E0 & A1 & A2 & A3 & A4 & A5 & A6).
  rewrite E in E0. inversion E0. subst m0. clear E0.
  destruct Hne as (R1 & C1 & R2 & C2).
  assert (Ca : forall e n, corner_of a' e n = corner_of a e n) by (intros; apply corner_of_meq; auto).
  assert (Cb : forall e n, corner_of b' e n = corner_of b e n) by (intros; apply corner_of_meq; auto).
  assert (El : near_limit N G a' b' = near_limit N G a b).
  { unfold near_limit, diagonal, diagonal'. rewrite !Ca, !Cb. reflexivity. }
  assert (Ka : corners_of a' = corners_of a) by (unfold corners_of; rewrite !Ca; reflexivity).
  assert (Kb : corners_of b' = corners_of b) by (unfold corners_of; rewrite !Cb; reflexivity).
  pose proof Ha as (Hra & Hca & Hva). pose proof Hb as (Hrb & Hcb & Hvb).
  assert (Hbig' : big_enough a' b' s).
  { unfold big_enough in *. rewrite <- Hra, <- Hca, <- Hrb, <- Hcb. exact Hbig. }
  destruct (matchedges_ok a' b' s) as (m' & E' & B1 & B2 & B3 & B4 & B5 & B6); auto.
  { unfold nonempty. rewrite <- Hra, <- Hca, <- Hrb, <- Hcb. auto. }
  { rewrite <- K1. unfold first_side, a_close. rewrite El, Kb, !Ca. reflexivity. }
  { rewrite <- K2. unfold first_side, b_close. rewrite El, Ka, !Cb. reflexivity. }
  rewrite E'. f_equal. destruct m as [x1 x2 x3 x4 x5 x6], m' as [y1 y2 y3 y4 y5 y6]. cbn [me_a me_a_slice me_b me_b_slice me_join me_edge] in *. subst. f_equal.
  unfold edge_midpoints in A6, B6. rewrite <- Hra, <- Hca in B6.
  destruct A6 as (H & Sub & ->). destruct B6 as (H' & Sub' & ->).
  set (mm := if zonal s then 1 else mrows a - 1) in *. set (nn := if zonal s then mcols a - 1 else 1) in *.
  unfold big_enough in Hbig.
  assert (HC : forall x y, x <= mm -> y <= nn -> strip_corner a b s x y = strip_corner a' b' s x y).
  { intros x y Hx Hy. unfold strip_corner, across. rewrite <- Hra, <- Hca, <- Hrb, <- Hcb. unfold point.
    unfold mm, nn in *.
    destruct s; cbn [zonal opposite side_pos beside_pos fst snd] in *;
    match goal with |- (if ?c then _ else _) = _ => destruct c end; (apply Hva || apply Hvb); lia. }
  apply map_ext_in. intros k Hk. apply in_seq in Hk.
  rewrite (corners_pos_ext (strip_corner a' b' s) (strip_corner a b s) mm nn) in Sub'
    by (intros; symmetry; apply HC; auto).
  assert (Hu : forall u v, u <= 2 * 1 * mm -> v <= 2 * 1 * nn -> H u v = H' u v).
  { apply (subdivides_unique N G (corners_pos N (strip_corner a b s) mm nn) (strip_corner a b s) (strip_corner a' b' s) 1 1 mm nn H H'); auto;
    unfold mm, nn; destruct (zonal s); lia. }
  unfold side_len, mm, nn in *. destruct (zonal s); symmetry; apply Hu; lia.
Qed.
End Facts.
