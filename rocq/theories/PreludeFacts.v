From Coq Require Import String List ZArith Lia Bool PeanoNat Permutation.
Import ListNotations.
From Verif Require Import Prelude.
Local Open Scope nat_scope.

Lemma rbind_ok {A B} (r : res A) (k : A -> res B) b :
  rbind r k = Ok b -> exists a, r = Ok a /\ k a = Ok b.
Proof. destruct r; simpl; intros H; [eauto|discriminate]. Qed.

Lemma rbind_err {A B} (r : res A) (k : A -> res B) e :
  rbind r k = Err e -> r = Err e \/ exists a, r = Ok a /\ k a = Err e.
Proof. destruct r; simpl; intros H; [right; eauto|left; congruence]. Qed.

Ltac mok H :=
  let a := fresh "a" in let Ha := fresh "Ha" in
  apply rbind_ok in H; destruct H as (a & Ha & H).

Lemma foldM_app {S X} (body : S -> X -> res S) l1 l2 s :
  foldM body (l1 ++ l2) s = (s' <- foldM body l1 s ;; foldM body l2 s').
Proof.
  revert s; induction l1 as [|x l1 IH]; simpl; intros s; [reflexivity|].
  destruct (body s x) as [s'|e]; simpl; [apply IH|reflexivity].
Qed.

(** Total-loop invariant rule: [P] is indexed by the prefix already visited. *)
Lemma foldM_inv {S X} (body : S -> X -> res S) (P : list X -> S -> Prop) l s0 :
  P [] s0 ->
  (forall done x rest s, l = done ++ x :: rest -> P done s ->
     exists s', body s x = Ok s' /\ P (done ++ [x]) s') ->
  exists s, foldM body l s0 = Ok s /\ P l s.
Proof.
  intros H0 Hstep.
  assert (G : forall rest done s, l = done ++ rest -> P done s ->
    exists s', foldM body rest s = Ok s' /\ P l s').
  { induction rest as [|x rest IH]; intros done s Hl HP.
    - rewrite app_nil_r in Hl. subst done. exists s; auto.
    - destruct (Hstep done x rest s Hl HP) as (s' & Hb & HP').
      simpl. rewrite Hb. simpl. apply (IH (done ++ [x]) s').
      + rewrite <- app_assoc. exact Hl.
      + exact HP'. }
  exact (G l [] s0 eq_refl H0).
Qed.

(** Partial version: whatever an [Ok] loop returns satisfies the invariant. *)
Lemma foldM_inv_ok {S X} (body : S -> X -> res S) (P : list X -> S -> Prop) l s0 s1 :
  foldM body l s0 = Ok s1 ->
  P [] s0 ->
  (forall done x rest s s', l = done ++ x :: rest -> P done s ->
     body s x = Ok s' -> P (done ++ [x]) s') ->
  P l s1.
Proof.
  intros Hf H0 Hstep.
  assert (G : forall rest done s, l = done ++ rest -> P done s ->
    foldM body rest s = Ok s1 -> P l s1).
  { induction rest as [|x rest IH]; intros done s Hl HP Hr.
    - rewrite app_nil_r in Hl. subst done. simpl in Hr. congruence.
    - simpl in Hr. apply rbind_ok in Hr. destruct Hr as (s' & Hb & Hr).
      apply (IH (done ++ [x]) s').
      + rewrite <- app_assoc. exact Hl.
      + eapply Hstep; eauto.
      + exact Hr. }
  exact (G l [] s0 eq_refl H0 Hf).
Qed.

Lemma foldM_ext {S X} (b1 b2 : S -> X -> res S) l s :
  (forall s x, In x l -> b1 s x = b2 s x) -> foldM b1 l s = foldM b2 l s.
Proof.
  revert s; induction l as [|x l IH]; simpl; intros s H; [reflexivity|].
  rewrite H by auto. destruct (b2 s x); simpl; auto.
Qed.

Lemma in_indices r c i j : In (i,j) (indices r c) <-> i < r /\ j < c.
Proof.
  unfold indices. rewrite in_prod_iff, !in_seq. lia.
Qed.

Lemma NoDup_list_prod {A B} (l : list A) (l' : list B) :
  NoDup l -> NoDup l' -> NoDup (list_prod l l').
Proof.
  intros Hl Hl'. induction l as [|a l IH]; simpl; [constructor|].
  inversion Hl as [|? ? Hni Hnd]; subst.
  assert (Hm : NoDup (map (fun y => (a, y)) l')).
  { apply FinFun.Injective_map_NoDup; auto. intros x y E. congruence. }
  specialize (IH Hnd). clear Hl Hnd.
  assert (Hd : forall p, In p (map (fun y => (a,y)) l') -> ~ In p (list_prod l l')).
  { intros p Hp Hq. apply in_map_iff in Hp. destruct Hp as (y & <- & _).
    apply in_prod_iff in Hq. tauto. }
  revert Hm Hd. generalize (map (fun y => (a,y)) l'). intros m Hm Hd.
  induction m as [|p m IHm]; simpl; auto.
  inversion Hm; subst. constructor.
  - intros Hin. apply in_app_or in Hin. destruct Hin; auto.
    apply (Hd p); simpl; auto.
  - apply IHm; auto. intros q Hq. apply Hd. simpl; auto.
Qed.

Lemma NoDup_indices r c : NoDup (indices r c).
Proof. apply NoDup_list_prod; apply seq_NoDup. Qed.

Lemma length_indices r c : length (indices r c) = r * c.
Proof. unfold indices. rewrite prod_length, !seq_length. reflexivity. Qed.

Lemma NoDup_app_split {A} (l1 l2 : list A) x :
  NoDup (l1 ++ x :: l2) -> ~ In x l1 /\ ~ In x l2.
Proof.
  intros H. apply NoDup_remove in H. destruct H as [_ H].
  split; intro; apply H; apply in_or_app; auto.
Qed.
