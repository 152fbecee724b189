From Coq Require Import String List ZArith Bool PeanoNat Lia Permutation.
Import ListNotations.
From Verif Require Import Prelude PreludeFacts Mat MatFacts Num Util.
Local Open Scope nat_scope.

Section Nearest.
Context {F : Type} (N : numops F) (NL : numlaws N) (G : geod F).

Definition ndist (p : F * F) (lons lats : mat F) (ab : nat * nat) : F :=
  g_inv G p (mat_at lons (fst ab) (snd ab), mat_at lats (fst ab) (snd ab)).

(** State after visiting [done]: either the sentinel, everything so far not closer than
    1e10; or the first of the closest points visited. *)
Definition nearest_inv p lons lats (done : list (nat * nat)) (st : Z * Z * F) : Prop :=
  (st = ((-1)%Z, (-1)%Z, n1e10 N) /\
   forall q, In q done -> nltb N (ndist p lons lats q) (n1e10 N) = false) \/
  (exists pre a b post, done = pre ++ (a, b) :: post /\
     st = (Z.of_nat a, Z.of_nat b, ndist p lons lats (a, b)) /\
     nltb N (ndist p lons lats (a, b)) (n1e10 N) = true /\
     (forall q, In q done -> nltb N (ndist p lons lats q) (ndist p lons lats (a, b)) = false) /\
     (forall q, In q pre -> nleb N (ndist p lons lats q) (ndist p lons lats (a, b)) = false)).

Lemma nltb_weaken d d' x : nltb N d d' = true -> nltb N x d' = false -> nltb N x d = false.
Proof.
  intros H1 H2. destruct (nltb N x d) eqn:E; auto.
  rewrite (nltb_trans NL _ _ _ E H1) in H2. discriminate.
Qed.

Lemma nearest_step_inv p lons lats done st x :
  nearest_inv p lons lats done st ->
  nearest_inv p lons lats (done ++ [x]) (nearest_step N G p lons lats st x).
Proof.
  intros H. destruct x as (a, b). destruct st as ((i, j), d). unfold nearest_step.
  change (g_inv G p (mat_at lons a b, mat_at lats a b)) with (ndist p lons lats (a, b)).
  destruct (nltb N (ndist p lons lats (a, b)) d) eqn:E.
  - right. exists done, a, b, []. split; auto. split; auto.
    destruct H as [(Est & H)|(pre & a0 & b0 & post & -> & Est & H1 & H2 & H3)].
    + inversion Est; subst d. split; auto. split.
      * intros q Hq. apply in_app_iff in Hq. destruct Hq as [Hq|[<-|[]]].
        -- eapply nltb_weaken; eauto.
        -- apply (nltb_irrefl NL).
      * intros q Hq. eapply (nleb_ltb NL); eauto.
    + inversion Est; subst d. split; [eapply (nltb_trans NL); eauto|]. split.
      * intros q Hq. apply in_app_iff in Hq. destruct Hq as [Hq|[<-|[]]].
        -- eapply nltb_weaken; eauto.
        -- apply (nltb_irrefl NL).
      * intros q Hq. eapply (nleb_ltb NL); eauto.
  - destruct H as [(Est & H)|(pre & a0 & b0 & post & -> & Est & H1 & H2 & H3)].
    + left. split; auto. inversion Est; subst d. intros q Hq.
      apply in_app_iff in Hq. destruct Hq as [Hq|[<-|[]]]; auto.
    + right. exists pre, a0, b0, (post ++ [(a,b)]). inversion Est; subst d.
      split; [rewrite <- app_assoc; reflexivity|]. split; auto. split; auto. split; auto.
      intros q Hq. apply in_app_iff in Hq. destruct Hq as [Hq|[<-|[]]]; auto.
Qed.

Lemma nearest_fold_inv p lons lats order :
  nearest_inv p lons lats order
    (fold_left (nearest_step N G p lons lats) order ((-1)%Z, (-1)%Z, n1e10 N)).
Proof.
  assert (H : forall rest done st, nearest_inv p lons lats done st ->
    nearest_inv p lons lats (done ++ rest) (fold_left (nearest_step N G p lons lats) rest st)).
  { induction rest as [|x rest IH]; simpl; intros done st Hi.
    - rewrite app_nil_r. auto.
    - replace (done ++ x :: rest) with ((done ++ [x]) ++ rest) by (rewrite <- app_assoc; auto).
      apply IH. apply nearest_step_inv. auto. }
  apply (H order [] _). left. split; auto. intros q [].
Qed.

Lemma nearest_ok_iff order lon lat lons lats r :
  nearest_ord N G order lon lat lons lats = Ok r ->
  mrows lons = mrows lats /\ mcols lons = mcols lats /\ 1 <= mrows lons /\ 1 <= mcols lons /\
  r = fold_left (nearest_step N G (lon, lat) lons lats) order ((-1)%Z, (-1)%Z, n1e10 N).
Proof.
  unfold nearest_ord, shapes_equal.
  destruct (mrows lons =? mrows lats) eqn:E1; [|discriminate].
  destruct (mcols lons =? mcols lats) eqn:E2; [|discriminate]. simpl.
  destruct (mrows lons =? 0) eqn:E3; [discriminate|].
  destruct (mcols lons =? 0) eqn:E4; [discriminate|]. simpl. intros H.
  apply Nat.eqb_eq in E1, E2. apply Nat.eqb_neq in E3, E4.
  inversion H. repeat split; auto; lia.
Qed.

Lemma nearest_total order lon lat lons lats :
  mrows lons = mrows lats -> mcols lons = mcols lats -> 1 <= mrows lons -> 1 <= mcols lons ->
  exists r, nearest_ord N G order lon lat lons lats = Ok r.
Proof.
  intros H1 H2 H3 H4. unfold nearest_ord, shapes_equal. rewrite H1, H2, !Nat.eqb_refl. simpl.
  rewrite <- H1, <- H2.
  destruct (mrows lons =? 0) eqn:E3; [apply Nat.eqb_eq in E3; lia|].
  destruct (mcols lons =? 0) eqn:E4; [apply Nat.eqb_eq in E4; lia|]. simpl. eauto.
Qed.

Lemma nearest_shape_err order lon lat lons lats :
  (mrows lons <> mrows lats \/ mcols lons <> mcols lats \/ mrows lons = 0 \/ mcols lons = 0) ->
  raises_value (nearest_ord N G order lon lat lons lats).
Proof.
  intros H. unfold nearest_ord, shapes_equal.
  destruct (mrows lons =? mrows lats) eqn:E1; [|eexists; reflexivity].
  destruct (mcols lons =? mcols lats) eqn:E2; [|eexists; reflexivity]. simpl.
  apply Nat.eqb_eq in E1, E2.
  destruct (mrows lons =? 0) eqn:E3; [eexists; reflexivity|].
  destruct (mcols lons =? 0) eqn:E4; [eexists; reflexivity|].
  apply Nat.eqb_neq in E3, E4. lia.
Qed.

(** result in terms of the invariant *)
Lemma nearest_spec order lon lat lons lats r :
  nearest_ord N G order lon lat lons lats = Ok r ->
  nearest_inv (lon, lat) lons lats order r.
Proof.
  intros H. apply nearest_ok_iff in H. destruct H as (_ & _ & _ & _ & ->).
  apply nearest_fold_inv.
Qed.

(** a strictly nearest point is found whatever the order *)
Lemma nearest_unique order lon lat lons lats a b :
  mrows lons = mrows lats -> mcols lons = mcols lats ->
  a < mrows lons -> b < mcols lons ->
  Permutation order (indices (mrows lons) (mcols lons)) ->
  nltb N (ndist (lon, lat) lons lats (a, b)) (n1e10 N) = true ->
  (forall i j, i < mrows lons -> j < mcols lons -> (i, j) <> (a, b) ->
     nltb N (ndist (lon, lat) lons lats (a, b)) (ndist (lon, lat) lons lats (i, j)) = true) ->
  nearest_ord N G order lon lat lons lats =
    Ok (Z.of_nat a, Z.of_nat b, ndist (lon, lat) lons lats (a, b)).
Proof.
  intros H1 H2 Ha Hb HP Hlt Hmin.
  destruct (nearest_total order lon lat lons lats H1 H2) as (r & Er); try lia.
  rewrite Er. f_equal. pose proof (nearest_spec _ _ _ _ _ _ Er) as Hs.
  assert (Hin : In (a, b) order).
  { apply (Permutation_in _ (Permutation_sym HP)). apply in_indices. auto. }
  destruct Hs as [(-> & Hs)|(pre & i & j & post & Eo & -> & _ & Hs & _)].
  - rewrite Hs in Hlt by auto. discriminate.
  - assert (Hij : In (i, j) order) by (rewrite Eo; apply in_or_app; simpl; auto).
    pose proof (Permutation_in _ HP Hij) as Hij'. apply in_indices in Hij'.
    destruct (Nat.eq_dec i a) as [->|Hne]; [destruct (Nat.eq_dec j b) as [->|Hne]; auto|].
    + specialize (Hs _ Hin). rewrite Hmin in Hs; try tauto; congruence.
    + specialize (Hs _ Hin). rewrite Hmin in Hs; try tauto; congruence.
Qed.

End Nearest.
