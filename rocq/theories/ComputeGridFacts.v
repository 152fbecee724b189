From Coq Require Import String List ZArith Bool PeanoNat Lia Permutation.
Import ListNotations.
From Verif Require Import Prelude PreludeFacts Mat MatFacts Num Fields Util UtilFacts ComputeGrid.
Local Open Scope nat_scope.
Local Arguments Nat.mul : simpl never.
Local Arguments Nat.div : simpl never.
Local Arguments Nat.modulo : simpl never.

(** ** arithmetic *)
Lemma seg_owner s lo a i : 0 < s ->
  (exists k, k < s - 1 /\ i = lo + a * s + 1 + k) <->
  lo <= i /\ (i - lo) / s = a /\ (i - lo) mod s <> 0.
Proof.
  intros Hs. split.
  - intros (k & Hk & ->).
    replace (lo + a * s + 1 + k - lo) with ((1 + k) + a * s) by lia.
    rewrite Nat.div_add, Nat.mod_add by lia.
    rewrite Nat.div_small, Nat.mod_small by lia. repeat split; lia.
  - intros (H1 & H2 & H3). exists ((i - lo) mod s - 1).
    pose proof (Nat.div_mod (i - lo) s). pose proof (Nat.mod_upper_bound (i - lo) s). nia.
Qed.

Lemma div_mod_at s a k : k < s -> (a * s + k) / s = a /\ (a * s + k) mod s = k.
Proof.
  intros H. replace (a * s + k) with (k + a * s) by lia.
  rewrite Nat.div_add, Nat.mod_add by lia. rewrite Nat.div_small, Nat.mod_small by lia. lia.
Qed.

Lemma ceil_div_mult m s : 0 < s -> (s * m + (s - 1)) / s = m.
Proof.
  intros H. replace (s * m + (s - 1)) with (m * s + (s - 1)) by lia.
  apply div_mod_at. lia.
Qed.

Lemma slice_len_full lo m s dim : 0 < s -> lo + s * m <= dim ->
  slice_len lo (lo + s * m) s dim = m.
Proof.
  intros Hs H. unfold slice_len. destruct s as [|s']; [lia|].
  rewrite Nat.min_l by lia. replace (lo + S s' * m - lo) with (S s' * m) by lia.
  apply ceil_div_mult. lia.
Qed.

Lemma slice_len_incl lo m s dim : 0 < s -> lo + s * m < dim ->
  slice_len lo (lo + s * m + 1) s dim = m + 1.
Proof.
  intros Hs H. unfold slice_len. destruct s as [|s']; [lia|].
  rewrite Nat.min_l by lia.
  replace (lo + S s' * m + 1 - lo + (S s' - 1)) with ((m + 1) * S s' + 0) by lia.
  apply div_mod_at. lia.
Qed.

(** ** loops whose steps write disjoint sets of positions *)
Lemma owner_loop {A X} (eqX : forall x y : X, {x = y} + {x <> y})
    (body : mat A -> X -> res (mat A)) (owner : nat -> nat -> option X)
    (val : nat -> nat -> A) (xs : list X) (g0 : mat A) :
  (forall g x, In x xs -> mrows g = mrows g0 -> mcols g = mcols g0 ->
     (forall i j, owner i j = None -> mat_at g i j = mat_at g0 i j) ->
     exists g', body g x = Ok g' /\ mrows g' = mrows g0 /\ mcols g' = mcols g0 /\
       forall i j, mat_at g' i j =
         match owner i j with
         | Some y => if eqX y x then val i j else mat_at g i j
         | None => mat_at g i j
         end) ->
  exists g', foldM body xs g0 = Ok g' /\ mrows g' = mrows g0 /\ mcols g' = mcols g0 /\
    forall i j, mat_at g' i j =
      match owner i j with
      | Some y => if in_dec eqX y xs then val i j else mat_at g0 i j
      | None => mat_at g0 i j
      end.
Proof.
  intros Hb.
  destruct (foldM_inv body (fun done g => mrows g = mrows g0 /\ mcols g = mcols g0 /\
    forall i j, mat_at g i j =
      match owner i j with
      | Some y => if in_dec eqX y done then val i j else mat_at g0 i j
      | None => mat_at g0 i j
      end) xs g0) as (g & Hf & HP).
  - repeat split. intros i j. destruct (owner i j); auto.
  - intros done x rest s Hl (Hr & Hc & Hv).
    destruct (Hb s x) as (g' & E & Hr' & Hc' & Hv'); auto.
    { rewrite Hl. apply in_or_app. simpl. auto. }
    { intros i j Ho. rewrite Hv, Ho. reflexivity. }
    exists g'. split; auto. split; auto. split; auto.
    intros i j. rewrite Hv'. specialize (Hv i j). destruct (owner i j) as [y|]; auto.
    destruct (eqX y x) as [->|Hne].
    + destruct (in_dec eqX x (done ++ [x])) as [_|Hn]; auto.
      exfalso. apply Hn. apply in_or_app. simpl. auto.
    + rewrite Hv. destruct (in_dec eqX y done) as [Hi|Hn], (in_dec eqX y (done ++ [x])) as [Hi'|Hn']; auto.
      * exfalso. apply Hn'. apply in_or_app. auto.
      * exfalso. apply in_app_iff in Hi'. destruct Hi' as [?|[?|[]]]; congruence.
  - exists g. tauto.
Qed.

(** stores of a segment along the first or the second axis *)
Lemma seg_i_loop {A} (v : nat -> A) base j n (g : mat A) :
  base + n <= mrows g -> j < mcols g ->
  exists g', foldM (fun g k => mset g (base + k) j (v k)) (seq 0 n) g = Ok g' /\
    mrows g' = mrows g /\ mcols g' = mcols g /\
    forall i' j', mat_at g' i' j' =
      if (j' =? j) && (base <=? i') && (i' <? base + n) then v (i' - base) else mat_at g i' j'.
Proof.
  induction n as [|n IH]; intros H Hj.
  - exists g. split; auto. split; auto. split; auto. intros i' j'.
    destruct (base <=? i') eqn:E1, (i' <? base + 0) eqn:E2;
      rewrite ?andb_false_r, ?andb_true_r; auto.
    apply Nat.leb_le in E1. apply Nat.ltb_lt in E2. lia.
  - destruct IH as (g1 & E & Hr & Hc & Hv); [lia|auto|].
    rewrite seq_S, foldM_app, E. simpl.
    unfold mset. rewrite Hr, Hc.
    destruct (base + n <? mrows g) eqn:E1; [|apply Nat.ltb_ge in E1; lia].
    destruct (j <? mcols g) eqn:E2; [|apply Nat.ltb_ge in E2; lia]. simpl.
    eexists. split; [reflexivity|]. simpl. split; auto. split; auto.
    intros i' j'. rewrite Hv.
    destruct (j' =? j) eqn:Ej; simpl; rewrite ?andb_false_r; auto. rewrite andb_true_r.
    destruct (i' =? base + n) eqn:Ei.
    + apply Nat.eqb_eq in Ei. subst i'.
      replace (base <=? base + n) with true by (symmetry; apply Nat.leb_le; lia).
      replace (base + n <? base + S n) with true by (symmetry; apply Nat.ltb_lt; lia).
      simpl. f_equal. lia.
    + apply Nat.eqb_neq in Ei. destruct (base <=? i') eqn:E3; simpl; auto.
      destruct (i' <? base + n) eqn:E4, (i' <? base + S n) eqn:E5; auto;
      rewrite ?Nat.ltb_lt, ?Nat.ltb_ge in *; lia.
Qed.

Lemma seg_j_loop {A} (v : nat -> A) i base n (g : mat A) :
  base + n <= mcols g -> i < mrows g ->
  exists g', foldM (fun g k => mset g i (base + k) (v k)) (seq 0 n) g = Ok g' /\
    mrows g' = mrows g /\ mcols g' = mcols g /\
    forall i' j', mat_at g' i' j' =
      if (i' =? i) && (base <=? j') && (j' <? base + n) then v (j' - base) else mat_at g i' j'.
Proof.
  induction n as [|n IH]; intros H Hj.
  - exists g. split; auto. split; auto. split; auto. intros i' j'.
    destruct (base <=? j') eqn:E1, (j' <? base + 0) eqn:E2;
      rewrite ?andb_false_r, ?andb_true_r; auto.
    apply Nat.leb_le in E1. apply Nat.ltb_lt in E2. lia.
  - destruct IH as (g1 & E & Hr & Hc & Hv); [lia|auto|].
    rewrite seq_S, foldM_app, E. simpl.
    unfold mset. rewrite Hr, Hc.
    destruct (base + n <? mcols g) eqn:E1; [|apply Nat.ltb_ge in E1; lia].
    destruct (i <? mrows g) eqn:E2; [|apply Nat.ltb_ge in E2; lia]. simpl.
    eexists. split; [reflexivity|]. simpl. split; auto. split; auto.
    intros i' j'. rewrite Hv.
    destruct (i' =? i) eqn:Ej; simpl; auto.
    destruct (j' =? base + n) eqn:Ei.
    + apply Nat.eqb_eq in Ei. subst j'.
      replace (base <=? base + n) with true by (symmetry; apply Nat.leb_le; lia).
      replace (base + n <? base + S n) with true by (symmetry; apply Nat.ltb_lt; lia).
      simpl. f_equal. lia.
    + apply Nat.eqb_neq in Ei. destruct (base <=? j') eqn:E3; simpl; auto.
      destruct (j' <? base + n) eqn:E4, (j' <? base + S n) eqn:E5; auto;
      rewrite ?Nat.ltb_lt, ?Nat.ltb_ge in *; lia.
Qed.

Definition pair_dec (x y : nat * nat) : {x = y} + {x <> y}.
Proof. decide equality; apply Nat.eq_dec. Defined.

(** An order is a visiting order of the index pairs. *)
Definition order_ok (o : nat -> nat -> list (nat * nat)) : Prop :=
  forall r c, Permutation (o r c) (indices r c).
Lemma indices_order_ok : order_ok indices.
Proof. intros r c. reflexivity. Qed.

Lemma order_in o r c i j : order_ok o -> In (i,j) (o r c) <-> i < r /\ j < c.
Proof.
  intros H. rewrite <- in_indices. split; apply Permutation_in; auto using Permutation_sym.
Qed.

Section Fill.
Context {F : Type} (N : numops F) (G : geod F).
Notation pt := (F * F)%type.

(** the k-th of the n equal parts of the arc p q *)
Definition subdiv (w : bool) (p q : pt) (n k : nat) : pt :=
  match k with 0 => p | S k' => fix_lon N w (g_npt G p q (n - 1) k') end.

Section Form.
Variables (w : bool) (g0 : mat pt) (ilb jlb ls lt : nat).
Let s := 2 * ls.
Let t := 2 * lt.

Definition fillX (i b : nat) : pt :=
  subdiv w (mat_at g0 (ilb + i / s * s) (jlb + b * t))
           (mat_at g0 (ilb + (i / s + 1) * s) (jlb + b * t)) s (i mod s).
Definition fillXY (i j : nat) : pt :=
  subdiv w (fillX i (j / t)) (fillX i (j / t + 1)) t (j mod t).
End Form.

Definition own_x (ilb jlb ls lt i j : nat) : option (nat * nat) :=
  if (ilb <=? i) && (jlb <=? j) && negb ((i - ilb) mod (2 * ls) =? 0) && ((j - jlb) mod (2 * lt) =? 0)
  then Some ((i - ilb) / (2 * ls), (j - jlb) / (2 * lt)) else None.

Definition own_y (ilb jlb lt i j : nat) : option (nat * nat) :=
  if (ilb <=? i) && (jlb <=? j) && negb ((j - jlb) mod (2 * lt) =? 0)
  then Some (i - ilb, (j - jlb) / (2 * lt)) else None.

Lemma own_x_spec ilb jlb ls lt i j a b : 1 <= ls -> 1 <= lt ->
  own_x ilb jlb ls lt i j = Some (a, b) <->
  (exists k, k < 2 * ls - 1 /\ i = ilb + a * (2 * ls) + 1 + k) /\ j = jlb + b * (2 * lt).
Proof.
  intros Hs Ht. rewrite seg_owner by lia. unfold own_x. split.
  - destruct (ilb <=? i) eqn:E1; [|discriminate].
    destruct (jlb <=? j) eqn:E2; [|discriminate].
    destruct ((i - ilb) mod (2 * ls) =? 0) eqn:E3; [discriminate|].
    destruct ((j - jlb) mod (2 * lt) =? 0) eqn:E4; [|discriminate]. simpl.
    intros H. inversion H; subst. apply Nat.leb_le in E1, E2. apply Nat.eqb_neq in E3.
    apply Nat.eqb_eq in E4. repeat split; auto.
    pose proof (Nat.div_mod (j - jlb) (2 * lt)). lia.
  - intros ((H1 & H2 & H3) & ->).
    replace (jlb + b * (2 * lt) - jlb) with (b * (2 * lt) + 0) by lia.
    destruct (div_mod_at (2 * lt) b 0) as [E1 E2]; [lia|]. rewrite E1, E2.
    replace (ilb <=? i) with true by (symmetry; apply Nat.leb_le; lia).
    replace (jlb <=? jlb + b * (2 * lt)) with true by (symmetry; apply Nat.leb_le; lia).
    destruct ((i - ilb) mod (2 * ls) =? 0) eqn:E; [apply Nat.eqb_eq in E; lia|].
    rewrite H2. reflexivity.
Qed.

Lemma own_y_spec ilb jlb lt i j a b : 1 <= lt ->
  own_y ilb jlb lt i j = Some (a, b) <->
  i = ilb + a /\ (exists k, k < 2 * lt - 1 /\ j = jlb + b * (2 * lt) + 1 + k).
Proof.
  intros Ht. rewrite seg_owner by lia. unfold own_y. split.
  - destruct (ilb <=? i) eqn:E1; [|discriminate].
    destruct (jlb <=? j) eqn:E2; [|discriminate].
    destruct ((j - jlb) mod (2 * lt) =? 0) eqn:E3; [discriminate|]. simpl.
    intros H. inversion H; subst. apply Nat.leb_le in E1, E2. apply Nat.eqb_neq in E3.
    repeat split; auto; lia.
  - intros (-> & H1 & H2 & H3).
    replace (ilb <=? ilb + a) with true by (symmetry; apply Nat.leb_le; lia).
    replace (jlb <=? j) with true by (symmetry; apply Nat.leb_le; lia).
    destruct ((j - jlb) mod (2 * lt) =? 0) eqn:E; [apply Nat.eqb_eq in E; lia|].
    simpl. rewrite H2. f_equal. f_equal. lia.
Qed.

Lemma own_x_base ilb jlb ls lt a j : 1 <= ls -> own_x ilb jlb ls lt (ilb + a * (2 * ls)) j = None.
Proof.
  intros H. unfold own_x. replace (ilb + a * (2 * ls) - ilb) with (a * (2 * ls) + 0) by lia.
  destruct (div_mod_at (2 * ls) a 0) as [_ ->]; [lia|]. simpl. rewrite andb_false_r. reflexivity.
Qed.

Lemma own_y_base ilb jlb lt i b : 1 <= lt -> own_y ilb jlb lt i (jlb + b * (2 * lt)) = None.
Proof.
  intros H. unfold own_y. replace (jlb + b * (2 * lt) - jlb) with (b * (2 * lt) + 0) by lia.
  destruct (div_mod_at (2 * lt) b 0) as [_ ->]; [lia|]. simpl. rewrite andb_false_r. reflexivity.
Qed.

Lemma div_uniq s a b k k' : k < s -> k' < s -> a * s + k = b * s + k' -> a = b /\ k = k'.
Proof.
  intros H1 H2 E. destruct (div_mod_at s a k H1) as [A B]. destruct (div_mod_at s b k' H2) as [A' B'].
  rewrite <- E in A', B'. lia.
Qed.

(** one x step *)
Lemma fill_x_step_ok w ilb jlb ls lt a b (g : mat pt) : 1 <= ls ->
  ilb + (a + 1) * (2 * ls) < mrows g -> jlb + b * (2 * lt) < mcols g ->
  exists g', fill_x_step N G w ilb jlb ls lt g (a, b) = Ok g' /\
    mrows g' = mrows g /\ mcols g' = mcols g /\
    forall i j, mat_at g' i j =
      if (j =? jlb + b * (2 * lt)) && (ilb + a * (2 * ls) + 1 <=? i)
         && (i <? ilb + (a + 1) * (2 * ls))
      then fix_lon N w (g_npt G (mat_at g (ilb + a * (2 * ls)) j)
             (mat_at g (ilb + (a + 1) * (2 * ls)) j) (2 * ls - 1) (i - (ilb + a * (2 * ls) + 1)))
      else mat_at g i j.
Proof.
  intros Hls Hi Hj. unfold fill_x_step.
  replace (ilb + a * 2 * ls) with (ilb + a * (2 * ls)) by lia.
  replace (ilb + (a + 1) * 2 * ls) with (ilb + (a + 1) * (2 * ls)) by lia.
  replace (jlb + b * 2 * lt) with (jlb + b * (2 * lt)) by lia.
  replace (ls * 2 - 1) with (2 * ls - 1) by lia.
  rewrite !mget_ok by lia. simpl rbind.
  destruct (seg_i_loop (fun k => fix_lon N w (g_npt G (mat_at g (ilb + a * (2 * ls)) (jlb + b * (2 * lt)))
      (mat_at g (ilb + (a + 1) * (2 * ls)) (jlb + b * (2 * lt))) (2 * ls - 1) k))
      (ilb + a * (2 * ls) + 1) (jlb + b * (2 * lt)) (2 * ls - 1) g) as (g' & E & Hr & Hc & Hv); [nia|auto|].
  exists g'. split; [exact E|]. split; auto. split; auto. intros i j. rewrite Hv.
  replace (ilb + a * (2 * ls) + 1 + (2 * ls - 1)) with (ilb + (a + 1) * (2 * ls)) by nia.
  destruct (j =? jlb + b * (2 * lt)) eqn:Ej; simpl; auto.
  apply Nat.eqb_eq in Ej. subst j. reflexivity.
Qed.

Lemma fill_y_step_ok w ilb jlb lt a b (g : mat pt) : 1 <= lt ->
  ilb + a < mrows g -> jlb + (b + 1) * (2 * lt) < mcols g ->
  exists g', fill_y_step N G w ilb jlb lt g (a, b) = Ok g' /\
    mrows g' = mrows g /\ mcols g' = mcols g /\
    forall i j, mat_at g' i j =
      if (i =? ilb + a) && (jlb + b * (2 * lt) + 1 <=? j)
         && (j <? jlb + (b + 1) * (2 * lt))
      then fix_lon N w (g_npt G (mat_at g i (jlb + b * (2 * lt)))
             (mat_at g i (jlb + (b + 1) * (2 * lt))) (2 * lt - 1) (j - (jlb + b * (2 * lt) + 1)))
      else mat_at g i j.
Proof.
  intros Hls Hi Hj. unfold fill_y_step.
  replace (jlb + (b + 1) * 2 * lt) with (jlb + (b + 1) * (2 * lt)) by lia.
  replace (jlb + b * 2 * lt) with (jlb + b * (2 * lt)) by lia.
  replace (lt * 2 - 1) with (2 * lt - 1) by lia.
  rewrite !mget_ok by nia. simpl rbind.
  destruct (seg_j_loop (fun k => fix_lon N w (g_npt G (mat_at g (ilb + a) (jlb + b * (2 * lt)))
      (mat_at g (ilb + a) (jlb + (b + 1) * (2 * lt))) (2 * lt - 1) k))
      (ilb + a) (jlb + b * (2 * lt) + 1) (2 * lt - 1) g) as (g' & E & Hr & Hc & Hv); [nia|auto|].
  exists g'. split; [exact E|]. split; auto. split; auto. intros i j. rewrite Hv.
  replace (jlb + b * (2 * lt) + 1 + (2 * lt - 1)) with (jlb + (b + 1) * (2 * lt)) by nia.
  destruct (i =? ilb + a) eqn:Ej; simpl; auto.
  apply Nat.eqb_eq in Ej. subst i. reflexivity.
Qed.

Lemma seg_test lo s a i : 0 < s ->
  (lo + a * s + 1 <=? i) && (i <? lo + (a + 1) * s) = true <->
  exists k, k < s - 1 /\ i = lo + a * s + 1 + k.
Proof.
  intros Hs. rewrite andb_true_iff, Nat.leb_le, Nat.ltb_lt. split.
  - intros [H1 H2]. exists (i - (lo + a * s + 1)). nia.
  - intros (k & Hk & ->). nia.
Qed.

(** sweep 1 *)
Lemma fill_x_loop w (g : mat pt) ilb jlb ls lt m n o1 : order_ok o1 ->
  1 <= ls -> 1 <= lt -> ilb + 2 * ls * m < mrows g -> jlb + 2 * lt * n < mcols g ->
  exists g', foldM (fill_x_step N G w ilb jlb ls lt) (o1 m (n + 1)) g = Ok g' /\
    mrows g' = mrows g /\ mcols g' = mcols g /\
    (forall i b, i <= 2 * ls * m -> b <= n ->
       mat_at g' (ilb + i) (jlb + b * (2 * lt)) = fillX w g ilb jlb ls lt i b) /\
    (forall i j, (forall i' b, i' <= 2 * ls * m -> b <= n -> (i, j) <> (ilb + i', jlb + b * (2 * lt))) ->
       mat_at g' i j = mat_at g i j).
Proof.
  intros Ho Hls Hlt Hi Hj.
  destruct (owner_loop pair_dec (fill_x_step N G w ilb jlb ls lt)
    (own_x ilb jlb ls lt)
    (fun i j => match own_x ilb jlb ls lt i j with
       | Some (a, b) => fix_lon N w (g_npt G (mat_at g (ilb + a * (2 * ls)) j)
             (mat_at g (ilb + (a + 1) * (2 * ls)) j) (2 * ls - 1) (i - (ilb + a * (2 * ls) + 1)))
       | None => mat_at g i j end)
    (o1 m (n + 1)) g) as (g' & E & Hr & Hc & Hv).
  - intros s (a, b) Hin Hr Hc Hag. apply (order_in _ _ _ _ _ Ho) in Hin. destruct Hin as [Ha Hb].
    destruct (fill_x_step_ok w ilb jlb ls lt a b s) as (s' & E & Hr' & Hc' & Hv); auto.
    { rewrite Hr. nia. } { rewrite Hc. nia. }
    exists s'. split; auto. split; [congruence|]. split; [congruence|].
    assert (R : forall a' b', own_x ilb jlb ls lt (ilb + a' * (2 * ls)) (jlb + b' * (2 * lt)) = None).
    { intros a' b'. apply own_x_base. auto. }
    intros i j. rewrite Hv.
    destruct ((j =? jlb + b * (2 * lt)) && (ilb + a * (2 * ls) + 1 <=? i) && (i <? ilb + (a + 1) * (2 * ls))) eqn:Et.
    + rewrite <- andb_assoc in Et. apply andb_true_iff in Et. destruct Et as [Ej Et].
      apply Nat.eqb_eq in Ej. subst j. apply seg_test in Et; [|lia].
      assert (Eo : own_x ilb jlb ls lt i (jlb + b * (2 * lt)) = Some (a, b)) by (apply own_x_spec; auto).
      rewrite Eo. destruct (pair_dec (a,b) (a,b)); [|congruence].
      rewrite !Hag by apply R. reflexivity.
    + destruct (own_x ilb jlb ls lt i j) as [(a2, b2)|] eqn:Eo; auto.
      destruct (pair_dec (a2, b2) (a, b)) as [Ee|]; auto. inversion Ee; subst.
      exfalso. apply own_x_spec in Eo; auto. destruct Eo as [Et' ->].
      apply seg_test in Et'; [|lia]. rewrite Nat.eqb_refl in Et. simpl in Et. congruence.
  - exists g'. split; auto. split; auto. split; auto. split.
    + intros i b Hi' Hb. rewrite Hv.
      pose proof (Nat.div_mod i (2 * ls)) as Hdm. pose proof (Nat.mod_upper_bound i (2 * ls)) as Hmb.
      unfold fillX. set (a := i / (2 * ls)) in *. set (k := i mod (2 * ls)) in *.
      destruct (own_x ilb jlb ls lt (ilb + i) (jlb + b * (2 * lt))) as [(a2, b2)|] eqn:Eo.
      * apply own_x_spec in Eo; auto. destruct Eo as ((k' & Hk' & Ek) & Eb).
        destruct (div_uniq (2 * ls) a a2 k (1 + k')) as [<- Hkk]; [lia|lia|lia|].
        destruct (div_uniq (2 * lt) b b2 0 0) as [<- _]; [lia|lia|lia|].
        destruct (in_dec pair_dec (a, b) (o1 m (n + 1))) as [_|Hn].
        2:{ exfalso. apply Hn. apply (order_in _ _ _ _ _ Ho). nia. }
        replace (ilb + i - (ilb + a * (2 * ls) + 1)) with (k - 1) by nia.
        destruct k as [|k0] eqn:Ekk; [nia|]. unfold subdiv.
        replace (S k0 - 1) with k0 by lia. reflexivity.
      * destruct k as [|k0] eqn:Ekk.
        -- unfold subdiv. f_equal. nia.
        -- exfalso. assert (Es : own_x ilb jlb ls lt (ilb + i) (jlb + b * (2 * lt)) = Some (a, b)).
           { apply own_x_spec; auto. split; auto. exists k0. nia. }
           congruence.
    + intros i j Hout. rewrite Hv.
      destruct (own_x ilb jlb ls lt i j) as [(a, b)|] eqn:Eo; auto.
      apply own_x_spec in Eo; auto. destruct Eo as ((k & Hk & ->) & ->).
      destruct (in_dec pair_dec (a, b) (o1 m (n + 1))) as [Hin|]; auto.
      exfalso. apply (order_in _ _ _ _ _ Ho) in Hin.
      apply (Hout (a * (2 * ls) + 1 + k) b); [nia|lia|]. f_equal. lia.
Qed.

(** sweep 2 *)
Lemma fill_y_loop w (g : mat pt) ilb jlb lt r n o2 : order_ok o2 ->
  1 <= lt -> ilb + r <= mrows g -> jlb + 2 * lt * n < mcols g ->
  exists g', foldM (fill_y_step N G w ilb jlb lt) (o2 r n) g = Ok g' /\
    mrows g' = mrows g /\ mcols g' = mcols g /\
    (forall i j, i < r -> j <= 2 * lt * n ->
       mat_at g' (ilb + i) (jlb + j) =
       subdiv w (mat_at g (ilb + i) (jlb + j / (2 * lt) * (2 * lt)))
                (mat_at g (ilb + i) (jlb + (j / (2 * lt) + 1) * (2 * lt))) (2 * lt) (j mod (2 * lt))) /\
    (forall i j, (forall i' j', i' < r -> j' <= 2 * lt * n -> (i, j) <> (ilb + i', jlb + j')) ->
       mat_at g' i j = mat_at g i j).
Proof.
  intros Ho Hlt Hi Hj.
  destruct (owner_loop pair_dec (fill_y_step N G w ilb jlb lt)
    (own_y ilb jlb lt)
    (fun i j => match own_y ilb jlb lt i j with
       | Some (a, b) => fix_lon N w (g_npt G (mat_at g i (jlb + b * (2 * lt)))
             (mat_at g i (jlb + (b + 1) * (2 * lt))) (2 * lt - 1) (j - (jlb + b * (2 * lt) + 1)))
       | None => mat_at g i j end)
    (o2 r n) g) as (g' & E & Hr & Hc & Hv).
  - intros s (a, b) Hin Hr Hc Hag. apply (order_in _ _ _ _ _ Ho) in Hin. destruct Hin as [Ha Hb].
    destruct (fill_y_step_ok w ilb jlb lt a b s) as (s' & E & Hr' & Hc' & Hv); auto.
    { rewrite Hr. nia. } { rewrite Hc. nia. }
    exists s'. split; auto. split; [congruence|]. split; [congruence|].
    assert (R : forall i' b', own_y ilb jlb lt i' (jlb + b' * (2 * lt)) = None).
    { intros a' b'. apply own_y_base. auto. }
    intros i j. rewrite Hv.
    destruct ((i =? ilb + a) && (jlb + b * (2 * lt) + 1 <=? j) && (j <? jlb + (b + 1) * (2 * lt))) eqn:Et.
    + rewrite <- andb_assoc in Et. apply andb_true_iff in Et. destruct Et as [Ej Et].
      apply Nat.eqb_eq in Ej. subst i. apply seg_test in Et; [|lia].
      assert (Eo : own_y ilb jlb lt (ilb + a) j = Some (a, b)) by (apply own_y_spec; auto).
      rewrite Eo. destruct (pair_dec (a,b) (a,b)); [|congruence].
      rewrite !Hag by apply R. reflexivity.
    + destruct (own_y ilb jlb lt i j) as [(a2, b2)|] eqn:Eo; auto.
      destruct (pair_dec (a2, b2) (a, b)) as [Ee|]; auto. inversion Ee; subst.
      exfalso. apply own_y_spec in Eo; auto. destruct Eo as [-> Et'].
      apply seg_test in Et'; [|lia]. rewrite Nat.eqb_refl in Et. simpl in Et. congruence.
  - exists g'. split; auto. split; auto. split; auto. split.
    + intros i j Hi' Hj'. rewrite Hv.
      pose proof (Nat.div_mod j (2 * lt)) as Hdm. pose proof (Nat.mod_upper_bound j (2 * lt)) as Hmb.
      set (b := j / (2 * lt)) in *. set (k := j mod (2 * lt)) in *.
      destruct (own_y ilb jlb lt (ilb + i) (jlb + j)) as [(a2, b2)|] eqn:Eo.
      * apply own_y_spec in Eo; auto. destruct Eo as (Ea & k' & Hk' & Ek).
        assert (a2 = i) by lia. subst a2.
        destruct (div_uniq (2 * lt) b b2 k (1 + k')) as [<- Hkk]; [lia|lia|lia|].
        destruct (in_dec pair_dec (i, b) (o2 r n)) as [_|Hn].
        2:{ exfalso. apply Hn. apply (order_in _ _ _ _ _ Ho). nia. }
        replace (jlb + j - (jlb + b * (2 * lt) + 1)) with (k - 1) by nia.
        destruct k as [|k0] eqn:Ekk; [nia|]. unfold subdiv.
        replace (S k0 - 1) with k0 by lia. reflexivity.
      * destruct k as [|k0] eqn:Ekk.
        -- unfold subdiv. f_equal. nia.
        -- exfalso. assert (Es : own_y ilb jlb lt (ilb + i) (jlb + j) = Some (i, b)).
           { apply own_y_spec; auto. split; auto. exists k0. nia. }
           congruence.
    + intros i j Hout. rewrite Hv.
      destruct (own_y ilb jlb lt i j) as [(a, b)|] eqn:Eo; auto.
      apply own_y_spec in Eo; auto. destruct Eo as (-> & k & Hk & ->).
      destruct (in_dec pair_dec (a, b) (o2 r n)) as [Hin|]; auto.
      exfalso. apply (order_in _ _ _ _ _ Ho) in Hin.
      apply (Hout a (b * (2 * lt) + 1 + k)); [lia|nia|]. f_equal. lia.
Qed.

(** ** fill *)
Theorem fill_ok (g : mat pt) ilb jlb ls lt m n o1 o2 : order_ok o1 -> order_ok o2 ->
  1 <= ls -> 1 <= lt -> 1 <= m -> 1 <= n ->
  ilb + 2 * ls * m < mrows g -> jlb + 2 * lt * n < mcols g ->
  exists g', fill_ord N G o1 o2 g ilb (ilb + 2 * ls * m) jlb (jlb + 2 * lt * n) ls lt = Ok g' /\
    mrows g' = mrows g /\ mcols g' = mcols g /\
    (forall i j, i <= 2 * ls * m -> j <= 2 * lt * n ->
       mat_at g' (ilb + i) (jlb + j) = fillXY (lon0to360 N g) g ilb jlb ls lt i j) /\
    (forall i j, (i < ilb \/ ilb + 2 * ls * m < i \/ j < jlb \/ jlb + 2 * lt * n < j) ->
       mat_at g' i j = mat_at g i j).
Proof.
  intros Ho1 Ho2 Hls Hlt Hm Hn Hi Hj. unfold fill_ord.
  rewrite slice_len_full, slice_len_incl by lia.
  unfold nditer at 1.
  destruct (2 * ls =? 0) eqn:E1; [apply Nat.eqb_eq in E1; lia|].
  destruct (2 * lt =? 0) eqn:E2; [apply Nat.eqb_eq in E2; lia|]. cbn [negb andb].
  destruct (m =? 0) eqn:E3; [apply Nat.eqb_eq in E3; lia|].
  destruct (n + 1 =? 0) eqn:E4; [apply Nat.eqb_eq in E4; lia|]. cbn [orb].
  destruct (fill_x_loop (lon0to360 N g) g ilb jlb ls lt m n o1 Ho1 Hls Hlt Hi Hj)
    as (g1 & Ex & Hr1 & Hc1 & Hv1 & Ho1').
  rewrite Ex. cbn [rbind].
  replace (slice_len ilb (ilb + 2 * ls * m + 1) 1 (mrows g)) with (2 * ls * m + 1).
  2:{ replace (ilb + 2 * ls * m + 1) with (ilb + 1 * (2 * ls * m) + 1) by lia.
      rewrite slice_len_incl by lia. reflexivity. }
  replace (slice_len jlb (jlb + 2 * lt * n) (2 * lt) (mcols g)) with n
    by (rewrite slice_len_full by lia; reflexivity).
  unfold nditer. cbn [negb].
  destruct (2 * ls * m + 1 =? 0) eqn:E5; [apply Nat.eqb_eq in E5; lia|].
  destruct (n =? 0) eqn:E6; [apply Nat.eqb_eq in E6; lia|]. cbn [orb].
  destruct (fill_y_loop (lon0to360 N g) g1 ilb jlb lt (2 * ls * m + 1) n o2 Ho2 Hlt)
    as (g2 & Ey & Hr2 & Hc2 & Hv2 & Ho2'); [lia|lia|].
  exists g2. split; auto. split; [congruence|]. split; [congruence|]. split.
  - intros i j Hi' Hj'. rewrite Hv2 by lia. unfold fillXY.
    pose proof (Nat.div_mod j (2 * lt)) as Hdm. pose proof (Nat.mod_upper_bound j (2 * lt)) as Hmb.
    rewrite Hv1 by nia. destruct (j mod (2 * lt)) as [|k] eqn:Ek; [reflexivity|].
    rewrite Hv1 by nia. reflexivity.
  - intros i j H. rewrite Ho2'.
    + apply Ho1'. intros i' b Hi' Hb He. inversion He. nia.
    + intros i' j' Hi' Hj' He. inversion He. lia.
Qed.

End Fill.
