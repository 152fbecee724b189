From Coq Require Import String List ZArith Lia Bool PeanoNat.
Import ListNotations.
From Verif Require Import Prelude PreludeFacts Num Mat MatFacts Fields SpecGrid GridIO MatchEdges SpecTiles
  AddFringe FringeFacts Stitch SpecStitch.
Local Open Scope nat_scope.
Local Arguments Nat.mul : simpl never.
Local Arguments Nat.sub : simpl never.

Section Join.
Context {F : Type}.

Lemma stitch_order_nodup : NoDup stitch_order.
Proof. unfold stitch_order. repeat (constructor; [simpl; intuition discriminate|]). constructor. Qed.
Lemma in_stitch_order f : In f stitch_order.
Proof. destruct f; unfold stitch_order; simpl; tauto. Qed.

Lemma slice_len1 i0 i1 d : slice_len i0 i1 1 d = Nat.min i1 d - i0.
Proof. unfold slice_len. rewrite Nat.div_1_r. lia. Qed.

Ltac sl := unfold mslice, mat_is; cbn [mrows mcols mat_at];
  rewrite !slice_len1; split; [lia|split; [lia|]]; intros; rewrite ?Nat.mul_1_r; try reflexivity.
Lemma but_first_row_is (m : mat F) : mat_is (but_first_row m) (mrows m - 1) (mcols m) (fun i j => mat_at m (1 + i) j).
Proof. unfold but_first_row. sl. Qed.
Lemma but_last_row_is (m : mat F) : mat_is (but_last_row m) (mrows m - 1) (mcols m) (fun i j => mat_at m i j).
Proof. unfold but_last_row. sl. Qed.
Lemma but_first_col_is (m : mat F) : mat_is (but_first_col m) (mrows m) (mcols m - 1) (fun i j => mat_at m i (1 + j)).
Proof. unfold but_first_col. sl. Qed.
Lemma but_last_col_is (m : mat F) : mat_is (but_last_col m) (mrows m) (mcols m - 1) (fun i j => mat_at m i j).
Proof. unfold but_last_col. sl. Qed.

(** one field of the combined tile *)
Definition placed (s : side) (p q p' q' : nat) (f : field) (a b : mat F) (i j : nat) : F :=
  match s with
  | East => if i <? rows_of f p then mat_at a i j else mat_at b (i - p) j
  | North => if j <? cols_of f q then mat_at a i j else mat_at b i (j - q)
  | West => if i <? p' then mat_at b i j else mat_at a (i - p') j
  | South => if j <? q' then mat_at b i j else mat_at a i (j - q')
  end.

Lemma vcat_inv (x y m : mat F) : vcat x y = Ok m -> mcols x = mcols y /\
  mat_is m (mrows x + mrows y) (mcols x) (fun i j => if i <? mrows x then mat_at x i j else mat_at y (i - mrows x) j).
Proof.
  unfold vcat. destruct (mcols x =? mcols y) eqn:E; [|discriminate]. intros H. inversion H.
  apply Nat.eqb_eq in E. repeat split; auto.
Qed.
Lemma hcat_inv (x y m : mat F) : hcat x y = Ok m -> mrows x = mrows y /\
  mat_is m (mrows x) (mcols x + mcols y) (fun i j => if j <? mcols x then mat_at x i j else mat_at y i (j - mcols x)).
Proof.
  unfold hcat. destruct (mrows x =? mrows y) eqn:E; [|discriminate]. intros H. inversion H.
  apply Nat.eqb_eq in E. repeat split; auto.
Qed.
Lemma vcat_ok (x y : mat F) : mcols x = mcols y -> is_ok (vcat x y).
Proof. intros E. unfold vcat. rewrite E, Nat.eqb_refl. eexists. reflexivity. Qed.
Lemma hcat_ok (x y : mat F) : mrows x = mrows y -> is_ok (hcat x y).
Proof. intros E. unfold hcat. rewrite E, Nat.eqb_refl. eexists. reflexivity. Qed.

Definition edges_of (s : side) : nat * nat := (side_code s, side_code (opposite s)).

Lemma join_field_side s f (a b : mat F) : join_field (edges_of s) f a b =
  match s with
  | East => vcat a (if drops_row f then but_first_row b else b)
  | North => hcat a (if drops_col f then but_first_col b else b)
  | West => vcat (if drops_row f then but_last_row b else b) a
  | South => hcat (if drops_col f then but_last_col b else b) a
  end.
Proof. destruct s; reflexivity. Qed.

Lemma drops_row_rows f n : rows_of f n = n + (if drops_row f then 1 else 0).
Proof. destruct f; cbn; lia. Qed.
Lemma drops_col_cols f n : cols_of f n = n + (if drops_col f then 1 else 0).
Proof. destruct f; cbn; lia. Qed.

Variables (p q p' q' : nat).
Definition fits (f : field) (a b : mat F) : Prop :=
  mrows a = rows_of f p /\ mcols a = cols_of f q /\ mrows b = rows_of f p' /\ mcols b = cols_of f q'.

Ltac cases := repeat match goal with
  | |- context [?x <? ?y] => destruct (Nat.ltb_spec x y)
  end.

Lemma join_field_inv s f (a b c : mat F) : fits f a b -> join_field (edges_of s) f a b = Ok c ->
  along_a s p q = along_b s p' q' /\
  mat_is c (rows_of f (total_ni s p p')) (cols_of f (total_nj s q q')) (placed s p q p' q' f a b).
Proof.
  intros (Ra & Ca & Rb & Cb) E. rewrite join_field_side in E.
  destruct s; unfold along_a, along_b, total_ni, total_nj; cbn [zonal];
    [apply hcat_inv in E|apply hcat_inv in E|apply vcat_inv in E|apply vcat_inv in E];
    destruct E as (E & R & C0 & V).
  - (* North *)
    destruct (but_first_col_is b) as (Rb' & Cb' & Vb').
    pose proof (drops_col_cols f) as D.
    destruct (drops_col f); rewrite ?Rb', ?Cb', ?Ra, ?Ca, ?Rb, ?Cb, ?drops_row_rows, ?D in *;
      (split; [lia|split; [lia|split; [lia|]]]); intros i j Hi Hj; rewrite V by lia; unfold placed; rewrite D; cases; try lia;
      try reflexivity.
    + rewrite Vb' by lia. f_equal; lia.
    + f_equal; lia.
  - (* South *)
    destruct (but_last_col_is b) as (Rb' & Cb' & Vb').
    pose proof (drops_col_cols f) as D.
    destruct (drops_col f); rewrite ?Rb', ?Cb', ?Ra, ?Ca, ?Rb, ?Cb, ?drops_row_rows, ?D in *;
      (split; [lia|split; [lia|split; [lia|]]]); intros i j Hi Hj; rewrite V by lia; unfold placed; cases; try lia;
      try reflexivity.
    + rewrite Vb' by lia. reflexivity.
    + f_equal; lia.
    + f_equal; lia.
  - (* East *)
    destruct (but_first_row_is b) as (Rb' & Cb' & Vb').
    pose proof (drops_row_rows f) as D.
    destruct (drops_row f); rewrite ?Rb', ?Cb', ?Ra, ?Ca, ?Rb, ?Cb, ?drops_col_cols, ?D in *;
      (split; [lia|split; [lia|split; [lia|]]]); intros i j Hi Hj; rewrite V by lia; unfold placed; rewrite D; cases; try lia;
      try reflexivity.
    + rewrite Vb' by lia. f_equal; lia.
    + f_equal; lia.
  - (* West *)
    destruct (but_last_row_is b) as (Rb' & Cb' & Vb').
    pose proof (drops_row_rows f) as D.
    destruct (drops_row f); rewrite ?Rb', ?Cb', ?Ra, ?Ca, ?Rb, ?Cb, ?drops_col_cols, ?D in *;
      (split; [lia|split; [lia|split; [lia|]]]); intros i j Hi Hj; rewrite V by lia; unfold placed; cases; try lia;
      try reflexivity.
    + rewrite Vb' by lia. reflexivity.
    + f_equal; lia.
    + f_equal; lia.
Qed.

Lemma join_field_ok s f (a b : mat F) : fits f a b -> along_a s p q = along_b s p' q' ->
  is_ok (join_field (edges_of s) f a b).
Proof.
  intros (Ra & Ca & Rb & Cb) E. rewrite join_field_side.
  pose proof (but_first_row_is b) as (R1 & C1 & _). pose proof (but_last_row_is b) as (R2 & C2 & _).
  pose proof (but_first_col_is b) as (R3 & C3 & _). pose proof (but_last_col_is b) as (R4 & C4 & _).
  destruct s; unfold along_a, along_b in E; cbn [zonal] in E; subst;
    [apply hcat_ok|apply hcat_ok|apply vcat_ok|apply vcat_ok];
    destruct (drops_row f), (drops_col f); congruence.
Qed.

Lemma placed_a s f (a b : mat F) k l i j :
  k < rows_of f p -> l < cols_of f q -> located (origin_a s p' q') (k, l) (i, j) ->
  along_a s p q = along_b s p' q' ->
  placed s p q p' q' f a b i j = mat_at a k l.
Proof.
  unfold located, along_a, along_b. intros Hk Hl (Hi & Hj) Ha.
  destruct s; cbn [origin_a fst snd zonal] in *; unfold placed; subst i j; cases; try lia; f_equal; lia.
Qed.

Lemma placed_b s f (a b : mat F) k l i j :
  k < rows_of f p' -> l < cols_of f q' -> located (origin_b s p q) (k, l) (i, j) ->
  along_a s p q = along_b s p' q' -> ~ in_a s p q p' q' f i j ->
  placed s p q p' q' f a b i j = mat_at b k l.
Proof.
  unfold along_a, along_b. intros Hk Hl (Hi & Hj) Ha Hn.
  pose proof (drops_row_rows f) as Dr. pose proof (drops_col_cols f) as Dc.
  destruct s; cbn [origin_b fst snd zonal] in *; unfold placed; subst i j; cases; try lia.
  - exfalso. apply Hn. exists (0 + k), (q + l). unfold inside, located. cbn [origin_a fst snd]. rewrite Dr in *. lia.
  - f_equal; lia.
  - f_equal; lia.
  - exfalso. apply Hn. exists (0 + k), (0 + l - q'). unfold inside, located. cbn [origin_a fst snd].
    rewrite Dr, Dc in *. destruct (drops_row f), (drops_col f); lia.
  - exfalso. apply Hn. exists (p + k), (0 + l). unfold inside, located. cbn [origin_a fst snd]. rewrite Dc in *. lia.
  - f_equal; lia.
  - f_equal; lia.
  - exfalso. apply Hn. exists (0 + k - p'), (0 + l). unfold inside, located. cbn [origin_a fst snd].
    rewrite Dr, Dc in *. destruct (drops_row f), (drops_col f); lia.
Qed.

Lemma covered s f i j : along_a s p q = along_b s p' q' ->
  inside f (total_ni s p p') (total_nj s q q') i j ->
  in_a s p q p' q' f i j \/ in_b s p q p' q' f i j.
Proof.
  unfold along_a, along_b, total_ni, total_nj, in_a, in_b, inside, located.
  rewrite !drops_row_rows, !drops_col_cols. intros Ha (Hi & Hj).
  destruct s; cbn [origin_a origin_b fst snd zonal] in *.
  - destruct (Nat.ltb_spec j q); [left; exists i, j|right; exists i, (j - q)];
      rewrite ?drops_row_rows, ?drops_col_cols; lia.
  - destruct (Nat.ltb_spec j q'); [right; exists i, j|left; exists i, (j - q')];
      rewrite ?drops_row_rows, ?drops_col_cols; lia.
  - destruct (Nat.ltb_spec i p); [left; exists i, j|right; exists (i - p), j];
      rewrite ?drops_row_rows, ?drops_col_cols; lia.
  - destruct (Nat.ltb_spec i p'); [right; exists i, j|left; exists (i - p'), j];
      rewrite ?drops_row_rows, ?drops_col_cols; lia.
Qed.

Lemma inside_a s f k l i j : along_a s p q = along_b s p' q' -> inside f p q k l ->
  located (origin_a s p' q') (k, l) (i, j) -> inside f (total_ni s p p') (total_nj s q q') i j.
Proof.
  unfold along_a, along_b, total_ni, total_nj, inside, located.
  rewrite !drops_row_rows, !drops_col_cols. destruct s; cbn [origin_a fst snd zonal]; lia.
Qed.
Lemma inside_b s f k l i j : along_a s p q = along_b s p' q' -> inside f p' q' k l ->
  located (origin_b s p q) (k, l) (i, j) -> inside f (total_ni s p p') (total_nj s q q') i j.
Proof.
  unfold along_a, along_b, total_ni, total_nj, inside, located.
  rewrite !drops_row_rows, !drops_col_cols. destruct s; cbn [origin_b fst snd zonal]; lia.
Qed.

Lemma join_inv s (a b c : grid F) ni nj : shaped a p q -> shaped b p' q' ->
  join (edges_of s) a b = Ok (c, ni, nj) ->
  along_a s p q = along_b s p' q' /\ ni = total_ni s p p' /\ nj = total_nj s q q' /\
  shaped c ni nj /\ combines s p q p' q' a b c.
Proof.
  intros Ha Hb E. unfold join in E. mok E. inversion E. subst a0. clear E.
  apply (fold_fields_inv (fun f _ => join_field (edges_of s) f (a f) (b f)) a c) in Ha0.
  - destruct Ha0 as (H & _).
    assert (Hf : forall f, fits f (a f) (b f)) by (intros f; destruct (Ha f), (Hb f); repeat split; auto).
    assert (K : forall f, along_a s p q = along_b s p' q' /\
      mat_is (c f) (rows_of f (total_ni s p p')) (cols_of f (total_nj s q q')) (placed s p q p' q' f (a f) (b f)))
      by (intros f; apply join_field_inv; auto; apply H, in_stitch_order).
    destruct (K XC) as (Hal & R & C0 & _). split; [exact Hal|].
    rewrite R, C0 in *. change (rows_of XC) with (fun n : nat => n) in *. change (cols_of XC) with (fun n : nat => n) in *.
    cbn beta in *. split; [auto|]. split; [auto|].
    split; [intros f; destruct (K f) as (_ & Rf & Cf & _); auto|].
    split; [|split].
    + intros f k l i j Hi Hl. destruct (K f) as (_ & _ & _ & V).
      pose proof (inside_a s f k l i j Hal Hi Hl) as (Hi' & Hj'). rewrite V by auto.
      destruct Hi. eapply placed_a; eauto.
    + intros f k l i j Hi Hl Hn. destruct (K f) as (_ & _ & _ & V).
      pose proof (inside_b s f k l i j Hal Hi Hl) as (Hi' & Hj'). rewrite V by auto.
      destruct Hi. eapply placed_b; eauto.
    + intros f i j Hi. apply covered; auto.
  - apply stitch_order_nodup.
Qed.

Lemma join_ok s (a b : grid F) : shaped a p q -> shaped b p' q' -> along_a s p q = along_b s p' q' ->
  is_ok (join (edges_of s) a b).
Proof.
  intros Ha Hb Hal.
  assert (Hf : forall f, fits f (a f) (b f)) by (intros f; destruct (Ha f), (Hb f); repeat split; auto).
  set (r := fun f => match join_field (edges_of s) f (a f) (b f) with Ok m => m | Err _ => a f end).
  destruct (fold_fields (fun f _ => join_field (edges_of s) f (a f) (b f)) r a stitch_order stitch_order_nodup)
    as (g & E & _).
  - intros f _. unfold r. destruct (join_field_ok s f (a f) (b f) (Hf f) Hal) as (m & ->). reflexivity.
  - unfold join, grid in *. rewrite E. eexists. reflexivity.
Qed.
End Join.
