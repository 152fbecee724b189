From Coq Require Import String List ZArith Lia Bool PeanoNat Permutation.
Import ListNotations.
From Verif Require Import Prelude PreludeFacts Mat.
Local Open Scope nat_scope.

Lemma meq_refl {A} (m : mat A) : meq m m.
Proof. repeat split. Qed.
Lemma meq_sym {A} (m m' : mat A) : meq m m' -> meq m' m.
Proof.
  intros (H1 & H2 & H3). repeat split; auto.
  intros i j Hi Hj. symmetry. apply H3; lia.
Qed.
Lemma meq_trans {A} (m1 m2 m3 : mat A) : meq m1 m2 -> meq m2 m3 -> meq m1 m3.
Proof.
  intros (H1 & H2 & H3) (K1 & K2 & K3). repeat split; try lia.
  intros i j Hi Hj. rewrite H3 by auto. apply K3; lia.
Qed.

Lemma mat_is_meq {A} (m m' : mat A) r c f :
  mat_is m r c f -> mat_is m' r c f -> meq m m'.
Proof.
  intros (H1 & H2 & H3) (K1 & K2 & K3). repeat split; try lia.
  intros i j Hi Hj. rewrite H3, K3; auto; lia.
Qed.

Lemma meq_mat_is {A} (m m' : mat A) r c f :
  mat_is m r c f -> meq m m' -> mat_is m' r c f.
Proof.
  intros (H1 & H2 & H3) (K1 & K2 & K3). repeat split; try lia.
  intros i j Hi Hj. rewrite <- K3 by lia. auto.
Qed.

Lemma mat_is_self {A} (m : mat A) : mat_is m (mrows m) (mcols m) (mat_at m).
Proof. repeat split. Qed.

Lemma mat_is_ext {A} (m : mat A) r c f g :
  mat_is m r c f -> (forall i j, i < r -> j < c -> f i j = g i j) -> mat_is m r c g.
Proof.
  intros (H1 & H2 & H3) E. repeat split; auto.
  intros i j Hi Hj. rewrite H3 by auto. auto.
Qed.

Lemma mget_ok {A} (m : mat A) i j :
  i < mrows m -> j < mcols m -> mget m i j = Ok (mat_at m i j).
Proof.
  intros Hi Hj. unfold mget.
  rewrite (proj2 (Nat.ltb_lt _ _) Hi), (proj2 (Nat.ltb_lt _ _) Hj). reflexivity.
Qed.

Lemma mget_inv {A} (m : mat A) i j v :
  mget m i j = Ok v -> i < mrows m /\ j < mcols m /\ mat_at m i j = v.
Proof.
  unfold mget. destruct (i <? mrows m) eqn:E1, (j <? mcols m) eqn:E2; simpl; intros H;
  try discriminate. apply Nat.ltb_lt in E1, E2. inversion H; auto.
Qed.

Lemma mset_ok {A} (m : mat A) i j v :
  i < mrows m -> j < mcols m ->
  exists m', mset m i j v = Ok m' /\ mrows m' = mrows m /\ mcols m' = mcols m /\
    (forall i' j', mat_at m' i' j' = if (i' =? i) && (j' =? j) then v else mat_at m i' j').
Proof.
  intros Hi Hj. unfold mset.
  rewrite (proj2 (Nat.ltb_lt _ _) Hi), (proj2 (Nat.ltb_lt _ _) Hj). simpl.
  eexists; split; [reflexivity|]. simpl. auto.
Qed.

Lemma mset_inv {A} (m m' : mat A) i j v :
  mset m i j v = Ok m' ->
  i < mrows m /\ j < mcols m /\ mrows m' = mrows m /\ mcols m' = mcols m /\
    (forall i' j', mat_at m' i' j' = if (i' =? i) && (j' =? j) then v else mat_at m i' j').
Proof.
  unfold mset. destruct (i <? mrows m) eqn:E1, (j <? mcols m) eqn:E2; simpl; intros H;
  try discriminate. apply Nat.ltb_lt in E1, E2. inversion H; subst; simpl. auto.
Qed.

Lemma pair_eqb_true (i j i' j' : nat) :
  (i' =? i) && (j' =? j) = true <-> (i', j') = (i, j).
Proof.
  rewrite andb_true_iff, !Nat.eqb_eq. split; [intros []|intros E; inversion E]; subst; auto.
Qed.

Lemma pair_eqb_refl (i j : nat) : (i =? i) && (j =? j) = true.
Proof. rewrite !Nat.eqb_refl. reflexivity. Qed.

Lemma pair_eqb_false (i j i' j' : nat) :
  (i', j') <> (i, j) -> (i' =? i) && (j' =? j) = false.
Proof.
  intros H. destruct ((i' =? i) && (j' =? j)) eqn:E; auto.
  apply pair_eqb_true in E. contradiction.
Qed.

(** Boolean membership in an index list. *)
Definition inb (p : nat * nat) (l : list (nat * nat)) : bool :=
  existsb (fun q => (fst p =? fst q) && (snd p =? snd q)) l.

Lemma inb_In p l : inb p l = true <-> In p l.
Proof.
  unfold inb. rewrite existsb_exists. destruct p as [i j]; simpl. split.
  - intros ((i',j') & Hin & E). simpl in E. apply pair_eqb_true in E.
    inversion E; subst; auto.
  - intros Hin. exists (i,j). split; auto. simpl. apply pair_eqb_refl.
Qed.

Lemma inb_notIn p l : inb p l = false <-> ~ In p l.
Proof.
  rewrite <- inb_In. destruct (inb p l); split; congruence.
Qed.

(** A loop that stores [f (i,j)] at (i,j), or skips, where [f] does not look at the
    array being filled. *)
Lemma tabulate_loop {A} (body : mat A -> nat * nat -> res (mat A))
    (f : nat -> nat -> option A) (l : list (nat * nat)) (m0 : mat A) :
  (forall m i j, In (i,j) l -> mrows m = mrows m0 -> mcols m = mcols m0 ->
     exists m', body m (i,j) = Ok m' /\ mrows m' = mrows m0 /\ mcols m' = mcols m0 /\
       forall i' j', mat_at m' i' j' =
         match f i j with
         | Some v => if (i' =? i) && (j' =? j) then v else mat_at m i' j'
         | None => mat_at m i' j'
         end) ->
  NoDup l ->
  exists m, foldM body l m0 = Ok m /\ mrows m = mrows m0 /\ mcols m = mcols m0 /\
    forall i j, mat_at m i j =
      if inb (i,j) l then match f i j with Some v => v | None => mat_at m0 i j end
      else mat_at m0 i j.
Proof.
  intros Hb Hnd.
  destruct (foldM_inv body
    (fun done m => mrows m = mrows m0 /\ mcols m = mcols m0 /\
       forall i j, mat_at m i j =
         if inb (i,j) done then match f i j with Some v => v | None => mat_at m0 i j end
         else mat_at m0 i j) l m0) as (m & Hf & HP).
  - repeat split.
  - intros done (i,j) rest s Hl (Hr & Hc & Hv).
    destruct (Hb s i j) as (m' & E & Hr' & Hc' & Hv'); auto.
    { rewrite Hl. apply in_or_app. simpl; auto. }
    exists m'. split; auto. split; auto. split; auto.
    intros i' j'. rewrite Hv'.
    unfold inb. rewrite existsb_app. fold (inb (i',j') done). simpl. rewrite orb_false_r.
    subst l. destruct (NoDup_app_split _ _ _ Hnd) as [Hni _].
    destruct ((i' =? i) && (j' =? j)) eqn:Eij.
    + rewrite orb_true_r. apply pair_eqb_true in Eij. inversion Eij; subst.
      destruct (f i j) eqn:Ef; auto. rewrite Hv.
      apply inb_notIn in Hni. rewrite Hni. reflexivity.
    + rewrite orb_false_r. rewrite Hv. destruct (f i j); reflexivity.
  - exists m. tauto.
Qed.
