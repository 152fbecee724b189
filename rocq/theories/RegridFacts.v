From Coq Require Import String List ZArith Bool PeanoNat Lia Permutation.
Import ListNotations.
From Verif Require Import Prelude PreludeFacts Mat MatFacts Num Fields GridIO Util UtilFacts ComputeGrid
  ComputeGridFacts TomitFacts SpecGrid SpecHalf GridIOProofs TomitSpec Refine MkGrid RefineFacts Regrid.
Local Open Scope nat_scope.
Local Arguments Nat.mul : simpl never.
Local Arguments Nat.div : simpl never.
Local Arguments Nat.modulo : simpl never.

Section R.
Context {F : Type} (N : numops F) (NL : numlaws N) (G : geod F).
Notation pt := (F * F)%type.

(** ** scatter *)
Lemma scatter_ok (o3 : nat -> nat -> list (nat * nat)) r c ls lt (val : nat -> nat -> pt) (cg : mat pt) :
  order_ok o3 -> 1 <= ls -> 1 <= lt ->
  (forall a b, a < r -> b < c -> 1 + 2 * ls * a < mrows cg /\ 1 + 2 * lt * b < mcols cg) ->
  exists cg', scatter o3 r c ls lt val cg = Ok cg' /\ mrows cg' = mrows cg /\ mcols cg' = mcols cg /\
    (forall a b, a < r -> b < c -> mat_at cg' (1 + 2 * ls * a) (1 + 2 * lt * b) = val a b) /\
    (forall i j, (forall a b, a < r -> b < c -> (i, j) <> (1 + 2 * ls * a, 1 + 2 * lt * b)) ->
       mat_at cg' i j = mat_at cg i j).
Proof.
  intros Ho Hls Hlt Hb. unfold scatter.
  set (owner := fun i j : nat =>
    if (1 <=? i) && (1 <=? j) && ((i - 1) mod (2 * ls) =? 0) && ((j - 1) mod (2 * lt) =? 0)
    then Some ((i - 1) / (2 * ls), (j - 1) / (2 * lt)) else None).
  assert (Hdm : forall s a, 1 <= s -> (2 * s * a) / (2 * s) = a /\ (2 * s * a) mod (2 * s) = 0).
  { intros s a Hs. rewrite (Nat.mul_comm (2 * s) a). split; [apply Nat.div_mul|apply Nat.mod_mul]; lia. }
  assert (Howner : forall a b, owner (1 + 2 * ls * a) (1 + 2 * lt * b) = Some (a, b)).
  { intros a b. unfold owner.
    replace (1 + 2 * ls * a - 1) with (2 * ls * a) by lia. replace (1 + 2 * lt * b - 1) with (2 * lt * b) by lia.
    destruct (Hdm ls a Hls) as [-> ->], (Hdm lt b Hlt) as [-> ->].
    replace (1 <=? 1 + 2 * ls * a) with true by (symmetry; apply Nat.leb_le; lia).
    replace (1 <=? 1 + 2 * lt * b) with true by (symmetry; apply Nat.leb_le; lia). reflexivity. }
  assert (Hinv : forall i j a b, owner i j = Some (a, b) -> i = 1 + 2 * ls * a /\ j = 1 + 2 * lt * b).
  { intros i j a b. unfold owner.
    destruct (1 <=? i) eqn:E1; [|discriminate]. destruct (1 <=? j) eqn:E2; [|discriminate].
    destruct ((i - 1) mod (2 * ls) =? 0) eqn:E3; [|discriminate].
    destruct ((j - 1) mod (2 * lt) =? 0) eqn:E4; [|discriminate].
    cbn [andb]. intros E. inversion E. apply Nat.leb_le in E1, E2. apply Nat.eqb_eq in E3, E4.
    pose proof (Nat.div_mod (i - 1) (2 * ls)). pose proof (Nat.div_mod (j - 1) (2 * lt)). lia. }
  destruct (owner_loop pair_dec
    (fun (g : mat pt) ab => mset g (1 + 2 * ls * fst ab) (1 + 2 * lt * snd ab) (val (fst ab) (snd ab)))
    owner
    (fun i j => match owner i j with Some (a, b) => val a b | None => (nzero N, nzero N) end)
    (o3 r c) cg) as (g' & E & Hr & Hc & Hv).
  - intros g (a, b) Hin Hr Hc Hg. cbn [fst snd]. apply (order_in o3) in Hin; auto.
    destruct (Hb a b) as [Hba Hbb]; try tauto.
    destruct (mset_ok g (1 + 2 * ls * a) (1 + 2 * lt * b) (val a b)) as (g' & E & Hr' & Hc' & Hv'); try lia.
    exists g'. split; auto. split; [congruence|]. split; [congruence|].
    intros i j. rewrite Hv'.
    destruct ((i =? 1 + 2 * ls * a) && (j =? 1 + 2 * lt * b)) eqn:Eij.
    + apply pair_eqb_true in Eij. inversion Eij. subst i j. rewrite Howner.
      destruct (pair_dec (a, b) (a, b)); congruence.
    + destruct (owner i j) as [(a', b')|] eqn:Eo; auto.
      destruct (pair_dec (a', b') (a, b)) as [Ep|]; auto. inversion Ep; subst a' b'.
      apply Hinv in Eo. destruct Eo as [-> ->]. rewrite !Nat.eqb_refl in Eij. discriminate.
  - exists g'. split; auto. split; auto. split; auto. split.
    + intros a b Ha Hb'. rewrite Hv, Howner. destruct (in_dec pair_dec (a, b) (o3 r c)) as [|Hn]; auto.
      exfalso. apply Hn. apply (order_in o3); auto.
    + intros i j Hn. rewrite Hv. destruct (owner i j) as [(a, b)|] eqn:Eo; auto.
      destruct (in_dec pair_dec (a, b) (o3 r c)) as [Hin|]; auto.
      exfalso. apply (order_in o3) in Hin; auto. apply Hinv in Eo. destruct Eo as [-> ->].
      apply (Hn a b); tauto.
Qed.

(** ** nearest under rotation *)
Definition rotZ (c : nat) (ij : Z * Z) : Z * Z :=
  if (fst ij <? 0)%Z then ij else (Z.of_nat c - 1 - snd ij, fst ij)%Z.

Lemma nearest_fold_rot p (xg yg : mat F) order st : mrows xg = mrows yg -> mcols xg = mcols yg ->
  (forall i j, In (i, j) order -> i < mrows xg /\ j < mcols xg) ->
  fold_left (nearest_step N G p (rot90 xg) (rot90 yg)) (map (rot_index (mcols xg)) order)
    (rotZ (mcols xg) (fst st), snd st) =
  (rotZ (mcols xg) (fst (fold_left (nearest_step N G p xg yg) order st)),
   snd (fold_left (nearest_step N G p xg yg) order st)).
Proof.
  intros Hr Hc. revert st. induction order as [|(a, b) order IH]; intros st Hin; [reflexivity|].
  cbn [map fold_left]. rewrite <- IH by (intros; apply Hin; right; auto). f_equal.
  destruct st as ((i, j), d). cbn [fst snd].
  destruct (Hin a b) as [Ha Hb]; [left; auto|].
  unfold nearest_step at 1, rot_index. cbn [fst snd rot90 mat_at].
  replace (mcols xg - 1 - (mcols xg - 1 - b)) with b by lia.
  replace (mcols yg - 1 - (mcols xg - 1 - b)) with b by lia.
  cbn [nearest_step].
  destruct (rotZ (mcols xg) (i, j)) as (i', j') eqn:Er.
  destruct (nltb N (g_inv G p (mat_at xg a b, mat_at yg a b)) d); cbn [fst snd].
  - unfold rotZ. cbn [fst snd]. destruct (Z.ltb_spec (Z.of_nat a) 0); [lia|].
    repeat f_equal. lia.
  - rewrite Er. reflexivity.
Qed.

Lemma nearest_rot order lon lat (xg yg : mat F) i j d :
  (forall i j, In (i, j) order -> i < mrows xg /\ j < mcols xg) ->
  nearest_ord N G order lon lat xg yg = Ok (i, j, d) ->
  nearest_ord N G (map (rot_index (mcols xg)) order) lon lat (rot90 xg) (rot90 yg) =
    Ok (rotZ (mcols xg) (i, j), d).
Proof.
  intros Hin E. pose proof (nearest_ok_iff _ _ _ _ _ _ _ _ E) as (Hr & Hc & Hr1 & Hc1 & Er).
  unfold nearest_ord, shapes_equal. cbn [rot90 mrows mcols]. rewrite <- Hr, <- Hc, !Nat.eqb_refl.
  cbn [andb negb].
  destruct (mcols xg =? 0) eqn:E1; [apply Nat.eqb_eq in E1; lia|].
  destruct (mrows xg =? 0) eqn:E2; [apply Nat.eqb_eq in E2; lia|]. cbn [orb]. f_equal.
  pose proof (nearest_fold_rot (lon, lat) xg yg order ((-1)%Z, (-1)%Z, n1e10 N) Hr Hc Hin) as H.
  rewrite <- Er in H. cbn [fst snd] in H. exact H.
Qed.

(** ** the rotation loop *)
Definition rotL (l : located F) : located F :=
  mk_located (rot90 (lc_xg l)) (rot90 (lc_yg l)) (map (rot_index (mcols (lc_xg l))) (lc_order l))
    (rotZ (mcols (lc_xg l)) (lc_nw l)) (rotZ (mcols (lc_xg l)) (lc_se l)).

Definition linv (a : regrid_args F) (l : located F) : Prop :=
  locate N G a (lc_xg l) (lc_yg l) (lc_order l) = Ok l /\
  (forall i j, In (i, j) (lc_order l) -> i < mrows (lc_xg l) /\ j < mcols (lc_xg l)).

Lemma locate_inv a xg yg o l : locate N G a xg yg o = Ok l ->
  lc_xg l = xg /\ lc_yg l = yg /\ lc_order l = o /\
  exists d1 d2, nearest_ord N G o (ra_lon1 a) (ra_lat1 a) xg yg = Ok (lc_nw l, d1) /\
    nearest_ord N G o (ra_lon2 a) (ra_lat2 a) xg yg = Ok (lc_se l, d2).
Proof.
  unfold locate. intros E.
  destruct (nearest_ord N G o (ra_lon1 a) (ra_lat1 a) xg yg) as [((i1, j1), d1)|] eqn:E1; [|discriminate].
  cbn [rbind] in E.
  destruct (nearest_ord N G o (ra_lon2 a) (ra_lat2 a) xg yg) as [((i2, j2), d2)|] eqn:E2; [|discriminate].
  cbn [rbind] in E. inversion E. cbn. repeat split; auto. exists d1, d2. auto.
Qed.

Lemma linv_rot a l : linv a l ->
  locate N G a (rot90 (lc_xg l)) (rot90 (lc_yg l)) (map (rot_index (mcols (lc_xg l))) (lc_order l)) = Ok (rotL l) /\
  linv a (rotL l).
Proof.
  intros [E Hin].
  assert (El : locate N G a (rot90 (lc_xg l)) (rot90 (lc_yg l)) (map (rot_index (mcols (lc_xg l))) (lc_order l)) = Ok (rotL l)).
  { apply locate_inv in E. destruct E as (_ & _ & _ & d1 & d2 & E1 & E2).
    unfold rotL. destruct (lc_nw l) as (i1, j1), (lc_se l) as (i2, j2).
    apply (nearest_rot _ _ _ _ _ _ _ _ Hin) in E1. apply (nearest_rot _ _ _ _ _ _ _ _ Hin) in E2.
    unfold locate. rewrite E1. cbn [rbind].
    destruct (rotZ (mcols (lc_xg l)) (i1, j1)) as (i1', j1') eqn:R1.
    rewrite E2. cbn [rbind]. destruct (rotZ (mcols (lc_xg l)) (i2, j2)) as (i2', j2') eqn:R2. reflexivity. }
  split; auto. split; auto.
  intros i j Hi. cbn [rotL lc_order lc_xg rot90 mrows mcols] in *. apply in_map_iff in Hi.
  destruct Hi as ((x, y) & Exy & Hxy). unfold rot_index in Exy. inversion Exy; subst i j. cbn [fst snd].
  apply Hin in Hxy. lia.
Qed.

Lemma rot_loop_unfold fuel a l : linv a l ->
  rot_loop N G fuel a l =
  if aligned l then Ok l else match fuel with 0 => Err OutOfFuel | S f => rot_loop N G f a (rotL l) end.
Proof.
  intros Hl. destruct fuel; cbn [rot_loop]; destruct (aligned l); auto.
  destruct (linv_rot a l Hl) as [E _]. rewrite E. reflexivity.
Qed.

(** ** orientation *)
(** A located pair of real, diagonal points *)
Definition real_pair (l : located F) (i1 j1 i2 j2 : nat) : Prop :=
  lc_nw l = (Z.of_nat i1, Z.of_nat j1) /\ lc_se l = (Z.of_nat i2, Z.of_nat j2) /\
  i1 < mrows (lc_xg l) /\ j1 < mcols (lc_xg l) /\ i2 < mrows (lc_xg l) /\ j2 < mcols (lc_xg l).

Lemma real_pair_rot l i1 j1 i2 j2 : real_pair l i1 j1 i2 j2 ->
  real_pair (rotL l) (mcols (lc_xg l) - 1 - j1) i1 (mcols (lc_xg l) - 1 - j2) i2.
Proof.
  intros (E1 & E2 & H). unfold real_pair. cbn [rotL lc_nw lc_se lc_xg rot90 mrows mcols].
  rewrite E1, E2. unfold rotZ. cbn [fst snd].
  destruct (Z.ltb_spec (Z.of_nat i1) 0); [lia|]. destruct (Z.ltb_spec (Z.of_nat i2) 0); [lia|].
  repeat split; try lia; f_equal; lia.
Qed.

Lemma aligned_real l i1 j1 i2 j2 : real_pair l i1 j1 i2 j2 ->
  aligned l = (j2 <? j1) && (i1 <? i2).
Proof.
  intros (E1 & E2 & H). unfold aligned. rewrite E1, E2. cbn [fst snd].
  destruct (Z.ltb_spec (Z.of_nat j2) (Z.of_nat j1)), (Nat.ltb_spec j2 j1); try lia;
  destruct (Z.ltb_spec (Z.of_nat i1) (Z.of_nat i2)), (Nat.ltb_spec i1 i2); try lia; reflexivity.
Qed.

(** number of quarter turns needed *)
Definition turns (i1 j1 i2 j2 : nat) : nat :=
  match i1 <? i2, j2 <? j1 with
  | true, true => 0 | false, true => 1 | false, false => 2 | true, false => 3
  end.

Lemma rot_loop_turns a l i1 j1 i2 j2 fuel : linv a l -> real_pair l i1 j1 i2 j2 ->
  i1 <> i2 -> j1 <> j2 -> turns i1 j1 i2 j2 <= fuel ->
  rot_loop N G fuel a l = Ok (Nat.iter (turns i1 j1 i2 j2) rotL l).
Proof.
  intros Hl Hp Hi Hj. unfold turns.
  destruct (linv_rot a l Hl) as [_ Hl1]. destruct (linv_rot a _ Hl1) as [_ Hl2].
  destruct (linv_rot a _ Hl2) as [_ Hl3].
  pose proof (real_pair_rot _ _ _ _ _ Hp) as Hp1. pose proof (real_pair_rot _ _ _ _ _ Hp1) as Hp2.
  pose proof (real_pair_rot _ _ _ _ _ Hp2) as Hp3.
  pose proof (aligned_real _ _ _ _ _ Hp) as A0. pose proof (aligned_real _ _ _ _ _ Hp1) as A1.
  pose proof (aligned_real _ _ _ _ _ Hp2) as A2. pose proof (aligned_real _ _ _ _ _ Hp3) as A3.
  cbn [rotL lc_xg rot90 mcols mrows] in A1, A2, A3.
  destruct Hp as (_ & _ & B1 & B2 & B3 & B4).
  destruct (Nat.ltb_spec i1 i2), (Nat.ltb_spec j2 j1); intros Hf.
  - rewrite rot_loop_unfold by auto. rewrite A0. reflexivity.
  - destruct fuel as [|[|[|fuel]]]; try lia.
    rewrite rot_loop_unfold by auto. rewrite A0. cbn [andb].
    rewrite rot_loop_unfold by auto. rewrite A1.
    destruct (Nat.ltb_spec (mcols (lc_xg l) - 1 - j1) (mcols (lc_xg l) - 1 - j2)); try lia.
    destruct (Nat.ltb_spec i2 i1); try lia. cbn [andb].
    rewrite rot_loop_unfold by auto. rewrite A2.
    destruct (Nat.ltb_spec (mcols (lc_xg l) - 1 - j2) (mcols (lc_xg l) - 1 - j1)); try lia.
    destruct (Nat.ltb_spec (mrows (lc_xg l) - 1 - i1) (mrows (lc_xg l) - 1 - i2)); try lia. cbn [andb].
    rewrite rot_loop_unfold by auto. rewrite A3.
    destruct (Nat.ltb_spec (mrows (lc_xg l) - 1 - i2) (mrows (lc_xg l) - 1 - i1)); try lia.
    destruct (Nat.ltb_spec (mcols (lc_xg l) - 1 - (mcols (lc_xg l) - 1 - j1)) (mcols (lc_xg l) - 1 - (mcols (lc_xg l) - 1 - j2))); try lia.
    reflexivity.
  - destruct fuel as [|fuel]; try lia.
    rewrite rot_loop_unfold by auto. rewrite A0. cbn [andb].
    rewrite rot_loop_unfold by auto. rewrite A1.
    destruct (Nat.ltb_spec (mcols (lc_xg l) - 1 - j1) (mcols (lc_xg l) - 1 - j2)); try lia.
    destruct (Nat.ltb_spec i2 i1); try lia. reflexivity.
  - destruct fuel as [|[|fuel]]; try lia.
    rewrite rot_loop_unfold by auto. rewrite A0. cbn [andb].
    rewrite rot_loop_unfold by auto. rewrite A1.
    destruct (Nat.ltb_spec (mcols (lc_xg l) - 1 - j1) (mcols (lc_xg l) - 1 - j2)); try lia.
    destruct (Nat.ltb_spec i2 i1); try lia. cbn [andb].
    rewrite rot_loop_unfold by auto. rewrite A2.
    destruct (Nat.ltb_spec (mcols (lc_xg l) - 1 - j2) (mcols (lc_xg l) - 1 - j1)); try lia.
    destruct (Nat.ltb_spec (mrows (lc_xg l) - 1 - i1) (mrows (lc_xg l) - 1 - i2)); try lia. reflexivity.
Qed.

(** fewer iterations are not enough *)
Lemma rot_loop_short a l i1 j1 i2 j2 fuel : linv a l -> real_pair l i1 j1 i2 j2 ->
  i1 <> i2 -> j1 <> j2 -> fuel < turns i1 j1 i2 j2 ->
  rot_loop N G fuel a l = Err OutOfFuel.
Proof.
  intros Hl Hp Hi Hj. unfold turns.
  destruct (linv_rot a l Hl) as [_ Hl1]. destruct (linv_rot a _ Hl1) as [_ Hl2].
  pose proof (real_pair_rot _ _ _ _ _ Hp) as Hp1. pose proof (real_pair_rot _ _ _ _ _ Hp1) as Hp2.
  pose proof (aligned_real _ _ _ _ _ Hp) as A0. pose proof (aligned_real _ _ _ _ _ Hp1) as A1.
  pose proof (aligned_real _ _ _ _ _ Hp2) as A2.
  cbn [rotL lc_xg rot90 mcols mrows] in A1, A2.
  destruct Hp as (_ & _ & B1 & B2 & B3 & B4).
  assert (S0 : (j2 <? j1) && (i1 <? i2) = false -> rot_loop N G 0 a l = Err OutOfFuel).
  { intros E. rewrite rot_loop_unfold by auto. rewrite A0, E. reflexivity. }
  destruct (Nat.ltb_spec i1 i2), (Nat.ltb_spec j2 j1); intros Hf; try lia.
  - destruct fuel as [|[|[|fuel]]]; try lia.
    + apply S0. reflexivity.
    + rewrite rot_loop_unfold by auto. rewrite A0. cbn [andb].
      rewrite rot_loop_unfold by auto. rewrite A1.
      destruct (Nat.ltb_spec i2 i1); try lia. reflexivity.
    + rewrite rot_loop_unfold by auto. rewrite A0. cbn [andb].
      rewrite rot_loop_unfold by auto. rewrite A1.
      destruct (Nat.ltb_spec i2 i1); try lia. cbn [andb].
      rewrite rot_loop_unfold by auto. rewrite A2.
      destruct (Nat.ltb_spec (mrows (lc_xg l) - 1 - i1) (mrows (lc_xg l) - 1 - i2)); try lia.
      rewrite andb_false_r. reflexivity.
  - destruct fuel; try lia. apply S0. reflexivity.
  - destruct fuel as [|[|fuel]]; try lia.
    + apply S0. reflexivity.
    + rewrite rot_loop_unfold by auto. rewrite A0. cbn [andb].
      rewrite rot_loop_unfold by auto. rewrite A1.
      destruct (Nat.ltb_spec (mcols (lc_xg l) - 1 - j1) (mcols (lc_xg l) - 1 - j2)); try lia.
      rewrite andb_false_r. reflexivity.
Qed.

(** a pair with exactly one real point is never aligned *)
Definition in_mat (xg : mat F) (ij : Z * Z) : Prop :=
  (0 <= fst ij < Z.of_nat (mrows xg))%Z /\ (0 <= snd ij < Z.of_nat (mcols xg))%Z.
Definition one_sided (l : located F) : Prop :=
  (lc_nw l = (-1, -1)%Z /\ in_mat (lc_xg l) (lc_se l)) \/
  (lc_se l = (-1, -1)%Z /\ in_mat (lc_xg l) (lc_nw l)).

Lemma in_mat_rot xg ij : in_mat xg ij -> in_mat (rot90 xg) (rotZ (mcols xg) ij).
Proof.
  unfold in_mat, rotZ. intros [H1 H2]. destruct (Z.ltb_spec (fst ij) 0); [lia|].
  cbn [rot90 mrows mcols fst snd]. lia.
Qed.

Lemma one_sided_rot l : one_sided l -> one_sided (rotL l).
Proof.
  intros [[E H]|[E H]]; [left|right]; cbn [rotL lc_nw lc_se lc_xg]; rewrite E; split; auto using in_mat_rot.
Qed.

Lemma rot_loop_forever fuel a l : linv a l -> one_sided l -> rot_loop N G fuel a l = Err OutOfFuel.
Proof.
  intros Hl Ho.
  assert (Ha : forall l, one_sided l -> aligned l = false).
  { clear. intros l Ho. unfold aligned. unfold one_sided, in_mat in Ho.
    apply andb_false_iff. rewrite !Z.ltb_ge.
    destruct Ho as [(E & H)|(E & H)]; rewrite E; cbn [fst snd]; lia. }
  revert l Hl Ho. induction fuel as [|fuel IH]; intros l Hl Ho;
    rewrite rot_loop_unfold by auto; rewrite Ha by auto; auto.
  apply IH; [apply linv_rot; auto|apply one_sided_rot; auto].
Qed.

(** ** where the output points come from *)
(** Index, in the source matrices, of corner (a,b) of the output's coarse grid, when the
    requested corners are at (i1,j1) and (i2,j2). *)
Definition pick (i1 j1 i2 j2 a b : nat) : nat * nat :=
  match i1 <? i2, j2 <? j1 with
  | true, true => (i1 + a, j2 + b)
  | false, true => (i2 + b, j1 - a)
  | false, false => (i1 - a, j2 - b)
  | true, false => (i2 - b, j1 + a)
  end.
Definition gap (a b : nat) : nat := (a - b) + (b - a).
Definition cells_i (i1 j1 i2 j2 : nat) : nat :=
  if Bool.eqb (i1 <? i2) (j2 <? j1) then gap i1 i2 else gap j1 j2.
Definition cells_j (i1 j1 i2 j2 : nat) : nat :=
  if Bool.eqb (i1 <? i2) (j2 <? j1) then gap j1 j2 else gap i1 i2.

Definition pick_at (xg : mat F) i1 j1 i2 j2 a b : F :=
  mat_at xg (fst (pick i1 j1 i2 j2 a b)) (snd (pick i1 j1 i2 j2 a b)).

Lemma final_located l i1 j1 i2 j2 : real_pair l i1 j1 i2 j2 -> i1 <> i2 -> j1 <> j2 ->
  mrows (lc_yg l) = mrows (lc_xg l) -> mcols (lc_yg l) = mcols (lc_xg l) ->
  let l' := Nat.iter (turns i1 j1 i2 j2) rotL l in
  lc_xg l' = Nat.iter (turns i1 j1 i2 j2) rot90 (lc_xg l) /\
  lc_yg l' = Nat.iter (turns i1 j1 i2 j2) rot90 (lc_yg l) /\
  exists i0 j0, let n := cells_i i1 j1 i2 j2 in let m := cells_j i1 j1 i2 j2 in
    lc_nw l' = (Z.of_nat i0, Z.of_nat (j0 + m)) /\ lc_se l' = (Z.of_nat (i0 + n), Z.of_nat j0) /\
    1 <= n /\ 1 <= m /\
    forall a b, a <= n -> b <= m ->
      mat_at (lc_xg l') (i0 + a) (j0 + b) = pick_at (lc_xg l) i1 j1 i2 j2 a b /\
      mat_at (lc_yg l') (i0 + a) (j0 + b) = pick_at (lc_yg l) i1 j1 i2 j2 a b.
Proof.
  intros Hp Hi Hj Hyr Hyc.
  pose proof (real_pair_rot _ _ _ _ _ Hp) as Hp1. pose proof (real_pair_rot _ _ _ _ _ Hp1) as Hp2.
  pose proof (real_pair_rot _ _ _ _ _ Hp2) as Hp3.
  unfold turns, cells_i, cells_j, pick_at, pick, gap.
  assert (B := Hp). destruct B as (_ & _ & B1 & B2 & B3 & B4).
  destruct (Nat.ltb_spec i1 i2), (Nat.ltb_spec j2 j1); cbn [Nat.iter nat_rect eqb fst snd].
  - destruct Hp as (P1 & P2 & _). split; auto. split; auto.
    exists i1, j2. rewrite P1, P2. repeat split; try lia; f_equal; lia.
  - destruct Hp3 as (P1 & P2 & _). split; auto. split; auto.
    cbn [rotL lc_xg rot90 mrows mcols] in P1, P2.
    eexists _, _. rewrite P1, P2. repeat split; try lia.
    + f_equal. instantiate (1 := mrows (lc_xg l) - 1 - i2). lia.
    + f_equal. lia.
    + cbn [rotL lc_xg rot90 mrows mcols mat_at]. f_equal; lia.
    + cbn [rotL lc_yg rot90 mrows mcols mat_at]. rewrite ?Hyr, ?Hyc. f_equal; lia.
  - destruct Hp1 as (P1 & P2 & _). split; auto. split; auto.
    eexists _, _. rewrite P1, P2. repeat split; try lia.
    + f_equal. instantiate (1 := i2). lia.
    + f_equal. lia.
    + cbn [rotL lc_xg rot90 mrows mcols mat_at]. f_equal; lia.
    + cbn [rotL lc_yg rot90 mrows mcols mat_at]. rewrite ?Hyr, ?Hyc. f_equal; lia.
  - destruct Hp2 as (P1 & P2 & _). split; auto. split; auto.
    cbn [rotL lc_xg rot90 mrows mcols] in P1, P2.
    eexists _, _. rewrite P1, P2. repeat split; try lia.
    + f_equal. instantiate (1 := mcols (lc_xg l) - 1 - j2). lia.
    + f_equal. lia.
    + cbn [rotL lc_xg rot90 mrows mcols mat_at]. f_equal; lia.
    + cbn [rotL lc_yg rot90 mrows mcols mat_at]. rewrite ?Hyr, ?Hyc. f_equal; lia.
Qed.

(** ** the two located points *)
Lemma locate_cases a xg yg lay l : order_ok lay ->
  locate N G a xg yg (lay (mrows xg) (mcols xg)) = Ok l ->
  linv a l /\ lc_xg l = xg /\ lc_yg l = yg /\ mrows yg = mrows xg /\ mcols yg = mcols xg /\
  (lc_nw l = (-1, -1)%Z \/ in_mat xg (lc_nw l)) /\ (lc_se l = (-1, -1)%Z \/ in_mat xg (lc_se l)).
Proof.
  intros Ho E. pose proof (locate_inv _ _ _ _ _ E) as (Ex & Ey & Eo & d1 & d2 & E1 & E2).
  assert (Hin : forall i j, In (i, j) (lay (mrows xg) (mcols xg)) -> i < mrows xg /\ j < mcols xg).
  { intros i j. apply (order_in lay); auto. }
  pose proof (nearest_ok_iff _ _ _ _ _ _ _ _ E1) as (Hr & Hc & _).
  repeat split; auto.
  - rewrite Ex, Ey, Eo. auto.
  - rewrite Eo in H. apply Hin in H. rewrite Ex. tauto.
  - rewrite Eo in H. apply Hin in H. rewrite Ex. tauto.
  - apply (nearest_spec N NL G) in E1.
    destruct E1 as [(E1 & _)|(pre & x & y & post & Ep & E1 & _)]; [left; inversion E1; auto|right].
    inversion E1 as [En]. assert (Hxy : In (x, y) (lay (mrows xg) (mcols xg))) by (rewrite Ep; apply in_or_app; right; left; auto).
    apply Hin in Hxy. rewrite En. unfold in_mat. cbn [fst snd]. lia.
  - apply (nearest_spec N NL G) in E2.
    destruct E2 as [(E2 & _)|(pre & x & y & post & Ep & E2 & _)]; [left; inversion E2; auto|right].
    inversion E2 as [En]. assert (Hxy : In (x, y) (lay (mrows xg) (mcols xg))) by (rewrite Ep; apply in_or_app; right; left; auto).
    apply Hin in Hxy. rewrite En. unfold in_mat. cbn [fst snd]. lia.
Qed.

Lemma in_mat_nat xg ij : in_mat xg ij -> exists i j, ij = (Z.of_nat i, Z.of_nat j) /\ i < mrows xg /\ j < mcols xg.
Proof.
  intros [H1 H2]. destruct ij as (i, j). cbn [fst snd] in *. exists (Z.to_nat i), (Z.to_nat j).
  repeat split; try lia. f_equal; lia.
Qed.

(** ** regrid *)
Section Main.
Variables (C : codec F) (loadtxt : list Init.Byte.byte -> res (option (mat F)))
  (fs : string -> option (list Init.Byte.byte)) (lay o3 : nat -> nat -> list (nat * nat)).
Hypotheses (Hlay : order_ok lay) (Ho3 : order_ok o3).
Notation regrid := (regrid N C G loadtxt fs lay o3).
Notation source := (source N C loadtxt fs).

(** the points found for the two requested corners *)
Definition found (a : regrid_args F) (xg yg : mat F) (nw se : Z * Z) : Prop :=
  exists d1 d2,
    nearest_ord N G (lay (mrows xg) (mcols xg)) (ra_lon1 a) (ra_lat1 a) xg yg = Ok (nw, d1) /\
    nearest_ord N G (lay (mrows xg) (mcols xg)) (ra_lon2 a) (ra_lat2 a) xg yg = Ok (se, d2).

Lemma found_locate a xg yg nw se : found a xg yg nw se ->
  locate N G a xg yg (lay (mrows xg) (mcols xg)) = Ok (mk_located xg yg (lay (mrows xg) (mcols xg)) nw se).
Proof.
  intros (d1 & d2 & E1 & E2). unfold locate. rewrite E1, E2. destruct nw, se. reflexivity.
Qed.

Lemma regrid_not_diagonal fuel a d xg yg nw se : source a = Ok d -> xg_yg d = Ok (xg, yg) ->
  found a xg yg nw se -> fst nw = fst se \/ snd nw = snd se -> raises_value (regrid fuel a).
Proof.
  intros Es Ex Hf Hd. unfold Regrid.regrid, Regrid.regrid_from. rewrite Es. cbn [rbind]. rewrite Ex. cbn [rbind].
  rewrite (found_locate _ _ _ _ _ Hf). cbn [rbind lc_nw lc_se].
  destruct (Z.eqb_spec (fst nw) (fst se)); [eexists; reflexivity|].
  destruct (Z.eqb_spec (snd nw) (snd se)); [eexists; reflexivity|]. tauto.
Qed.

Lemma regrid_hangs fuel a d xg yg nw se : source a = Ok d -> xg_yg d = Ok (xg, yg) ->
  found a xg yg nw se -> (nw = (-1, -1)%Z /\ se <> (-1, -1)%Z) \/ (nw <> (-1, -1)%Z /\ se = (-1, -1)%Z) ->
  regrid fuel a = Err OutOfFuel.
Proof.
  intros Es Ex Hf Hd. unfold Regrid.regrid, Regrid.regrid_from. rewrite Es. cbn [rbind]. rewrite Ex. cbn [rbind].
  pose proof (found_locate _ _ _ _ _ Hf) as El. rewrite El. cbn [rbind].
  destruct (locate_cases _ _ _ _ _ Hlay El) as (Hl & _ & _ & _ & _ & Hn & Hs).
  cbn [lc_nw lc_se] in *.
  assert (Hos : one_sided (mk_located xg yg (lay (mrows xg) (mcols xg)) nw se)).
  { unfold one_sided. cbn [lc_nw lc_se lc_xg]. tauto. }
  rewrite (rot_loop_forever fuel a _ Hl Hos).
  destruct (Z.eqb_spec (fst nw) (fst se)).
  { exfalso. unfold one_sided, in_mat in Hos. cbn [lc_nw lc_se lc_xg] in Hos.
    destruct Hos as [(-> & H)|(-> & H)]; cbn [fst snd] in *; lia. }
  destruct (Z.eqb_spec (snd nw) (snd se)).
  { exfalso. unfold one_sided, in_mat in Hos. cbn [lc_nw lc_se lc_xg] in Hos.
    destruct Hos as [(-> & H)|(-> & H)]; cbn [fst snd] in *; lia. }
  reflexivity.
Qed.

Lemma regrid_ok fuel a d xg yg i1 j1 i2 j2 ls lt : source a = Ok d -> xg_yg d = Ok (xg, yg) ->
  found a xg yg (Z.of_nat i1, Z.of_nat j1) (Z.of_nat i2, Z.of_nat j2) -> i1 <> i2 -> j1 <> j2 ->
  ra_lon_subscale a = Z.of_nat ls -> ra_lat_subscale a = Z.of_nat lt -> 1 <= ls -> 1 <= lt ->
  turns i1 j1 i2 j2 <= fuel ->
  let k := turns i1 j1 i2 j2 in
  let n := cells_i i1 j1 i2 j2 in
  let m := cells_j i1 j1 i2 j2 in
  let cell := fun a b => (pick_at xg i1 j1 i2 j2 a b, pick_at yg i1 j1 i2 j2 a b) in
  exists g H,
    regrid fuel a = Ok (mk_regrid_result g (ls * n) (lt * m)
      (setd (setd d XG (Nat.iter k rot90 xg)) YG (Nat.iter k rot90 yg))) /\
    subdivides N G (corners_pos N cell n m) cell ls lt n m H /\
    grid_of N G H (ls * n) (lt * m) g.
Proof.
  intros Es Ex Hf Hi Hj Els Elt Hls Hlt Hfuel k n m cell.
  pose proof (found_locate _ _ _ _ _ Hf) as El.
  destruct (locate_cases _ _ _ _ _ Hlay El) as (Hl & _ & _ & Hyr & Hyc & Hn & Hs).
  cbn [lc_nw lc_se] in *.
  set (l0 := mk_located xg yg (lay (mrows xg) (mcols xg)) (Z.of_nat i1, Z.of_nat j1) (Z.of_nat i2, Z.of_nat j2)) in *.
  assert (Hp : real_pair l0 i1 j1 i2 j2).
  { unfold real_pair. cbn [l0 lc_nw lc_se lc_xg].
    destruct Hn as [Hn|Hn]; [inversion Hn; lia|]. destruct Hs as [Hs|Hs]; [inversion Hs; lia|].
    unfold in_mat in *. cbn [fst snd] in *. repeat split; lia. }
  pose proof (rot_loop_turns a l0 i1 j1 i2 j2 fuel Hl Hp Hi Hj Hfuel) as Erl.
  destruct (final_located l0 i1 j1 i2 j2 Hp Hi Hj Hyr Hyc) as (Exg & Eyg & i0 & j0 & Enw & Ese & Hn1 & Hm1 & Hpick).
  cbn [l0 lc_xg lc_yg] in Exg, Eyg, Hpick. fold k in Exg, Eyg, Enw, Ese, Hpick, Erl.
  fold n in Enw, Ese, Hn1, Hm1, Hpick. fold m in Enw, Ese, Hm1, Hpick. fold l0 in Exg, Eyg, Hpick.
  set (l := Nat.iter k rotL l0) in *.
  unfold Regrid.regrid, Regrid.regrid_from. rewrite Es. cbn [rbind]. rewrite Ex. cbn [rbind]. rewrite El. cbn [rbind].
  cbn [l0 lc_nw lc_se fst snd]. fold l0.
  destruct (Z.eqb_spec (Z.of_nat i1) (Z.of_nat i2)); [lia|].
  destruct (Z.eqb_spec (Z.of_nat j1) (Z.of_nat j2)); [lia|]. cbn [orb].
  rewrite Erl. cbn [rbind]. fold l. rewrite Enw, Ese. cbn [fst snd].
  replace (Z.to_nat (Z.min (Z.of_nat i0) (Z.of_nat (i0 + n)))) with i0 by lia.
  replace (Z.to_nat (Z.max (Z.of_nat i0) (Z.of_nat (i0 + n)))) with (i0 + n) by lia.
  replace (Z.to_nat (Z.min (Z.of_nat (j0 + m)) (Z.of_nat j0))) with j0 by lia.
  replace (Z.to_nat (Z.max (Z.of_nat (j0 + m)) (Z.of_nat j0))) with (j0 + m) by lia.
  replace (i0 + n - i0) with n by lia. replace (j0 + m - j0) with m by lia.
  rewrite Els, Elt. rewrite (proj2 (cg_check_ok _ _ _ _)) by nia. cbn [rbind]. rewrite !Nat2Z.id.
  destruct (scatter_ok o3 (n + 1) (m + 1) ls lt
    (fun i j => (mat_at (lc_xg l) (i0 + i) (j0 + j), mat_at (lc_yg l) (i0 + i) (j0 + j)))
    (mconst (2 * (ls * n) + 3) (2 * (lt * m) + 3) (nzero N, nzero N)))
    as (cg & Ecg & Hr & Hc & Hv & Hz); auto.
  { intros x y Hx Hy. cbn [mconst mrows mcols]. nia. }
  rewrite Ecg. cbn [rbind]. cbn [mconst mrows mcols] in Hr, Hc.
  assert (HC : forall x y, x <= n -> y <= m -> mat_at cg (1 + 2 * ls * x) (1 + 2 * lt * y) = cell x y).
  { intros x y Hx Hy. rewrite Hv by lia. destruct (Hpick x y Hx Hy) as [-> ->]. reflexivity. }
  destruct (finish_ok N NL G cg ls lt n m) as (g & H & Eg & Hsub & Hg); auto.
  exists g, H. rewrite Eg. cbn [rbind]. rewrite Exg, Eyg. split; [reflexivity|]. split; auto.
  rewrite <- (lon0to360_corners N NL cg cell ls lt n m); auto.
  - destruct Hsub as (S1 & S2 & S3). split; [|split]; auto.
    + intros x y Hx Hy. rewrite S1, HC; auto.
    + intros x y z Hx Hy Hz'. rewrite S2, !HC by lia. reflexivity.
  - intros i j Hi' Hj' Hno. rewrite Hz; [reflexivity|]. intros x y Hx Hy. apply Hno; lia.
Qed.

(** too little fuel *)
Lemma regrid_short fuel a d xg yg i1 j1 i2 j2 : source a = Ok d -> xg_yg d = Ok (xg, yg) ->
  found a xg yg (Z.of_nat i1, Z.of_nat j1) (Z.of_nat i2, Z.of_nat j2) -> i1 <> i2 -> j1 <> j2 ->
  fuel < turns i1 j1 i2 j2 -> regrid fuel a = Err OutOfFuel.
Proof.
  intros Es Ex Hf Hi Hj Hfuel.
  pose proof (found_locate _ _ _ _ _ Hf) as El.
  destruct (locate_cases _ _ _ _ _ Hlay El) as (Hl & _ & _ & Hyr & Hyc & Hn & Hs).
  cbn [lc_nw lc_se] in *.
  set (l0 := mk_located xg yg (lay (mrows xg) (mcols xg)) (Z.of_nat i1, Z.of_nat j1) (Z.of_nat i2, Z.of_nat j2)) in *.
  assert (Hp : real_pair l0 i1 j1 i2 j2).
  { unfold real_pair. cbn [l0 lc_nw lc_se lc_xg].
    destruct Hn as [Hn|Hn]; [inversion Hn; lia|]. destruct Hs as [Hs|Hs]; [inversion Hs; lia|].
    unfold in_mat in *. cbn [fst snd] in *. repeat split; lia. }
  pose proof (rot_loop_short a l0 i1 j1 i2 j2 fuel Hl Hp Hi Hj Hfuel) as Erl.
  unfold Regrid.regrid, Regrid.regrid_from. rewrite Es. cbn [rbind]. rewrite Ex. cbn [rbind]. rewrite El. cbn [rbind].
  cbn [l0 lc_nw lc_se fst snd]. fold l0.
  destruct (Z.eqb_spec (Z.of_nat i1) (Z.of_nat i2)); [lia|].
  destruct (Z.eqb_spec (Z.of_nat j1) (Z.of_nat j2)); [lia|]. cbn [orb].
  rewrite Erl. reflexivity.
Qed.

(** everything that must hold for regrid to return *)
Lemma regrid_inv fuel a rr : regrid fuel a = Ok rr ->
  exists d xg yg i1 j1 i2 j2 ls lt,
    source a = Ok d /\ xg_yg d = Ok (xg, yg) /\
    found a xg yg (Z.of_nat i1, Z.of_nat j1) (Z.of_nat i2, Z.of_nat j2) /\ i1 <> i2 /\ j1 <> j2 /\
    ra_lon_subscale a = Z.of_nat ls /\ ra_lat_subscale a = Z.of_nat lt /\ 1 <= ls /\ 1 <= lt /\
    turns i1 j1 i2 j2 <= fuel.
Proof.
  intros E.
  destruct (source a) as [d|] eqn:Es; [|unfold Regrid.regrid, Regrid.regrid_from in E; rewrite Es in E; discriminate].
  destruct (xg_yg d) as [(xg, yg)|] eqn:Ex;
    [|unfold Regrid.regrid, Regrid.regrid_from in E; rewrite Es in E; cbn [rbind] in E; rewrite Ex in E; discriminate].
  destruct (locate N G a xg yg (lay (mrows xg) (mcols xg))) as [l0|] eqn:El;
    [|unfold Regrid.regrid, Regrid.regrid_from in E; rewrite Es in E; cbn [rbind] in E; rewrite Ex in E; cbn [rbind] in E;
      rewrite El in E; discriminate].
  pose proof (locate_inv _ _ _ _ _ El) as (_ & _ & _ & d1 & d2 & E1 & E2).
  destruct (locate_cases _ _ _ _ _ Hlay El) as (Hl & Exg & Eyg & Hyr & Hyc & Hn & Hs).
  set (nw := lc_nw l0) in *. set (se := lc_se l0) in *.
  assert (Hf : found a xg yg nw se) by (exists d1, d2; auto).
  destruct (Z.eq_dec (fst nw) (fst se)) as [Hq|Hq].
  { destruct (regrid_not_diagonal fuel a d xg yg nw se Es Ex Hf) as (msg & Em); auto. rewrite Em in E. discriminate. }
  destruct (Z.eq_dec (snd nw) (snd se)) as [Hq'|Hq'].
  { destruct (regrid_not_diagonal fuel a d xg yg nw se Es Ex Hf) as (msg & Em); auto. rewrite Em in E. discriminate. }
  destruct Hn as [Hn|Hn].
  { destruct Hs as [Hs|Hs]; [rewrite Hn, Hs in Hq; congruence|].
    rewrite (regrid_hangs fuel a d xg yg nw se Es Ex Hf) in E; [discriminate|].
    left. split; auto. intros Hse. rewrite Hse in Hs. unfold in_mat in Hs. cbn [fst snd] in Hs. lia. }
  destruct Hs as [Hs|Hs].
  { rewrite (regrid_hangs fuel a d xg yg nw se Es Ex Hf) in E; [discriminate|].
    right. split; auto. intros Hse. rewrite Hse in Hn. unfold in_mat in Hn. cbn [fst snd] in Hn. lia. }
  apply in_mat_nat in Hn. destruct Hn as (i1 & j1 & En & Hi1 & Hj1).
  apply in_mat_nat in Hs. destruct Hs as (i2 & j2 & Ese & Hi2 & Hj2).
  rewrite En, Ese in Hf, Hq, Hq'. cbn [fst snd] in Hq, Hq'.
  assert (Hi : i1 <> i2) by lia. assert (Hj : j1 <> j2) by lia.
  destruct (le_lt_dec (turns i1 j1 i2 j2) fuel) as [Hfuel|Hfuel].
  2:{ rewrite (regrid_short fuel a d xg yg i1 j1 i2 j2 Es Ex Hf Hi Hj Hfuel) in E. discriminate. }
  assert (Hp : real_pair l0 i1 j1 i2 j2).
  { unfold real_pair. rewrite Exg. repeat split; auto. }
  pose proof (rot_loop_turns a l0 i1 j1 i2 j2 fuel Hl Hp Hi Hj Hfuel) as Erl.
  destruct (final_located l0 i1 j1 i2 j2 Hp Hi Hj) as (_ & _ & i0 & j0 & Enw' & Ese' & Hn1 & Hm1 & _); try congruence.
  unfold Regrid.regrid, Regrid.regrid_from in E. rewrite Es in E. cbn [rbind] in E. rewrite Ex in E. cbn [rbind] in E.
  rewrite El in E. cbn [rbind] in E. fold nw se in E. rewrite En, Ese in E. cbn [fst snd] in E.
  destruct (Z.eqb_spec (Z.of_nat i1) (Z.of_nat i2)) as [|_]; [lia|].
  destruct (Z.eqb_spec (Z.of_nat j1) (Z.of_nat j2)) as [|_]; [lia|]. cbn [orb] in E.
  rewrite Erl in E. cbn [rbind] in E. rewrite Enw', Ese' in E. cbn [fst snd] in E.
  set (n := cells_i i1 j1 i2 j2) in *. set (m := cells_j i1 j1 i2 j2) in *.
  replace (Z.to_nat (Z.max (Z.of_nat i0) (Z.of_nat (i0 + n))) - Z.to_nat (Z.min (Z.of_nat i0) (Z.of_nat (i0 + n)))) with n in E by lia.
  replace (Z.to_nat (Z.max (Z.of_nat (j0 + m)) (Z.of_nat j0)) - Z.to_nat (Z.min (Z.of_nat (j0 + m)) (Z.of_nat j0))) with m in E by lia.
  destruct (cg_check (2 * ra_lon_subscale a * Z.of_nat n + 3) (2 * ra_lat_subscale a * Z.of_nat m + 3)
    (ra_lon_subscale a) (ra_lat_subscale a)) as [[]|] eqn:Ec; [|discriminate].
  apply cg_check_ok in Ec. destruct Ec as (H1 & H2 & H3 & H4).
  exists d, xg, yg, i1, j1, i2, j2, (Z.to_nat (ra_lon_subscale a)), (Z.to_nat (ra_lat_subscale a)).
  assert (0 < ra_lon_subscale a)%Z by nia. assert (0 < ra_lat_subscale a)%Z by nia.
  repeat split; auto; lia.
Qed.
End Main.
End R.
