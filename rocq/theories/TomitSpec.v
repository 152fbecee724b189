From Coq Require Import String List ZArith Bool PeanoNat Lia Permutation.
Import ListNotations.
From Verif Require Import Prelude PreludeFacts Mat MatFacts Num Fields Util UtilFacts ComputeGrid
  ComputeGridFacts TomitFacts SpecGrid SpecHalf GridIOProofs.
Local Open Scope nat_scope.
Local Arguments Nat.mul : simpl never.
Local Arguments Nat.div : simpl never.

Section T.
Context {F : Type} (N : numops F) (NL : numlaws N) (G : geod F).
Notation pt := (F * F)%type.

Lemma S2_sum2 x y : S2 N x y = sum2 N x y.
Proof. unfold S2, sum2, is0. simpl. rewrite orb_false_r. reflexivity. Qed.
Lemma S4_sum4 x y z t : S4 N x y z t = sum4 N x y z t.
Proof. unfold S4, sum4, is0. simpl. rewrite orb_false_r, !orb_assoc. reflexivity. Qed.

Lemma is0_zero : is0 N (nzero N) = true.
Proof. exact (neqb_zero NL). Qed.
Lemma sum2_0l y : sum2 N (nzero N) y = nzero N.
Proof. unfold sum2. rewrite is0_zero. reflexivity. Qed.
Lemma sum2_0r x : sum2 N x (nzero N) = nzero N.
Proof. unfold sum2. rewrite is0_zero, orb_true_r. reflexivity. Qed.
Lemma sum4_01 y z t : sum4 N (nzero N) y z t = nzero N.
Proof. unfold sum4. rewrite is0_zero. reflexivity. Qed.
Lemma sum4_02 x z t : sum4 N x (nzero N) z t = nzero N.
Proof. unfold sum4. rewrite is0_zero, orb_true_r. reflexivity. Qed.
Lemma sum4_03 x y t : sum4 N x y (nzero N) t = nzero N.
Proof. unfold sum4. rewrite is0_zero, !orb_true_r. reflexivity. Qed.
Lemma sum4_04 x y z : sum4 N x y z (nzero N) = nzero N.
Proof. unfold sum4. rewrite is0_zero, !orb_true_r. reflexivity. Qed.

Variables (cg : mat pt) (p q : nat).
Notation H := (P cg).

Lemma EX_in' u v a b : u < 2 * p -> v <= 2 * q -> a = 1 + u -> b = 1 + v ->
  EX N G cg 1 (1 + 2 * p) 1 (1 + 2 * q) a b = half_x G H u v.
Proof. intros ? ? -> ->. apply EX_in; auto. Qed.
Lemma EY_in' u v a b : u <= 2 * p -> v < 2 * q -> a = 1 + u -> b = 1 + v ->
  EY N G cg 1 (1 + 2 * p) 1 (1 + 2 * q) a b = half_y G H u v.
Proof. intros ? ? -> ->. apply EY_in; auto. Qed.
Lemma EX_out a b : (a < 1 \/ 1 + 2 * p <= a \/ b < 1 \/ 2 + 2 * q <= b) ->
  EX N G cg 1 (1 + 2 * p) 1 (1 + 2 * q) a b = nzero N.
Proof.
  intros Ho. unfold EX. destruct (btw 1 a (1 + 2 * p)) eqn:E1, (btw 1 b (1 + 2 * q + 1)) eqn:E2; auto.
  apply btw_true in E1, E2. lia.
Qed.
Lemma EY_out a b : (a < 1 \/ 2 + 2 * p <= a \/ b < 1 \/ 1 + 2 * q <= b) ->
  EY N G cg 1 (1 + 2 * p) 1 (1 + 2 * q) a b = nzero N.
Proof.
  intros Ho. unfold EY. destruct (btw 1 a (1 + 2 * p + 1)) eqn:E1, (btw 1 b (1 + 2 * q)) eqn:E2; auto.
  apply btw_true in E1, E2. lia.
Qed.
Lemma CA_in' pl u v a b : u < 2 * p -> v < 2 * q -> a = 1 + u -> b = 1 + v ->
  CA N G cg p q pl a b = quarter N G H pl u v.
Proof. intros ? ? -> ->. apply CA_in; auto. Qed.
Lemma CA_out pl a b : (a < 1 \/ 1 + 2 * p <= a \/ b < 1 \/ 1 + 2 * q <= b) ->
  CA N G cg p q pl a b = nzero N.
Proof.
  intros Ho. unfold CA. destruct (btw 1 a (1 + 2 * p)) eqn:E1, (btw 1 b (1 + 2 * q)) eqn:E2; auto.
  apply btw_true in E1, E2. lia.
Qed.

Lemma inner_true i n : inner i n = true <-> 0 < i < n.
Proof. unfold inner. rewrite andb_true_iff, !Nat.ltb_lt. tauto. Qed.
Lemma inner_false i n : inner i n = false <-> i = 0 \/ n <= i.
Proof. rewrite <- not_true_iff_false, inner_true. lia. Qed.

Lemma fieldval_spec pl f i j : i < p + ni_delta f -> j < q + nj_delta f ->
  fieldval N G cg p q pl f i j = spec_field N G H p q pl f i j.
Proof.
  intros Hi Hj. destruct f; cbn [ni_delta nj_delta] in Hi, Hj; unfold fieldval, spec_field;
    rewrite ?S2_sum2, ?S4_sum4; try reflexivity.
  - rewrite (EX_in' (2 * i) (2 * j + 1)), (EX_in' (2 * i + 1) (2 * j + 1)) by lia. reflexivity.
  - rewrite (EY_in' (2 * i + 1) (2 * j)), (EY_in' (2 * i + 1) (2 * j + 1)) by lia. reflexivity.
  - rewrite (CA_in' pl (2 * i) (2 * j)), (CA_in' pl (2 * i + 1) (2 * j)),
      (CA_in' pl (2 * i + 1) (2 * j + 1)), (CA_in' pl (2 * i) (2 * j + 1)) by lia. reflexivity.
  - destruct (inner i p) eqn:E.
    + apply inner_true in E.
      rewrite (EX_in' (2 * i - 1) (2 * j)), (EX_in' (2 * i) (2 * j)) by lia. reflexivity.
    + apply inner_false in E. destruct E as [-> |E].
      * rewrite (EX_out (2 * 0)) by lia. apply sum2_0l.
      * rewrite (EX_out (2 * i + 1)) by lia. apply sum2_0r.
  - destruct (inner j q) eqn:E.
    + apply inner_true in E.
      rewrite (EY_in' (2 * i) (2 * j - 1)), (EY_in' (2 * i) (2 * j)) by lia. reflexivity.
    + apply inner_false in E. destruct E as [-> |E].
      * rewrite (EY_out _ (2 * 0)) by lia. apply sum2_0l.
      * rewrite (EY_out _ (2 * j + 1)) by lia. apply sum2_0r.
  - destruct (inner i p) eqn:E; [destruct (inner j q) eqn:E'|]; cbn [andb].
    + apply inner_true in E, E'.
      rewrite (CA_in' pl (2 * i - 1) (2 * j - 1)), (CA_in' pl (2 * i) (2 * j - 1)),
        (CA_in' pl (2 * i) (2 * j)), (CA_in' pl (2 * i - 1) (2 * j)) by lia. reflexivity.
    + apply inner_false in E'. destruct E' as [-> |E'].
      * rewrite (CA_out pl _ (2 * 0)) by lia. apply sum4_01.
      * rewrite (CA_out pl _ (2 * j + 1)) by lia. apply sum4_03.
    + apply inner_false in E. destruct E as [-> |E].
      * rewrite (CA_out pl (2 * 0)) by lia. apply sum4_01.
      * rewrite (CA_out pl (2 * i + 1)) by lia. apply sum4_02.
  - destruct (inner i p) eqn:E.
    + apply inner_true in E.
      rewrite (EX_in' (2 * i - 1) (2 * j + 1)), (EX_in' (2 * i) (2 * j + 1)) by lia. reflexivity.
    + apply inner_false in E. destruct E as [-> |E].
      * rewrite (EX_out (2 * 0)) by lia. apply sum2_0l.
      * rewrite (EX_out (2 * i + 1)) by lia. apply sum2_0r.
  - destruct (inner j q) eqn:E.
    + apply inner_true in E.
      rewrite (EY_in' (2 * i + 1) (2 * j - 1)), (EY_in' (2 * i + 1) (2 * j)) by lia. reflexivity.
    + apply inner_false in E. destruct E as [-> |E].
      * rewrite (EY_out _ (2 * 0)) by lia. apply sum2_0l.
      * rewrite (EY_out _ (2 * j + 1)) by lia. apply sum2_0r.
  - destruct (inner i p) eqn:E.
    + apply inner_true in E.
      rewrite (CA_in' pl (2 * i - 1) (2 * j)), (CA_in' pl (2 * i) (2 * j)),
        (CA_in' pl (2 * i) (2 * j + 1)), (CA_in' pl (2 * i - 1) (2 * j + 1)) by lia. reflexivity.
    + apply inner_false in E. destruct E as [-> |E].
      * rewrite (CA_out pl (2 * 0)) by lia. apply sum4_01.
      * rewrite (CA_out pl (2 * i + 1)) by lia. apply sum4_02.
  - destruct (inner j q) eqn:E.
    + apply inner_true in E.
      rewrite (CA_in' pl (2 * i) (2 * j - 1)), (CA_in' pl (2 * i + 1) (2 * j - 1)),
        (CA_in' pl (2 * i + 1) (2 * j)), (CA_in' pl (2 * i) (2 * j)) by lia. reflexivity.
    + apply inner_false in E. destruct E as [-> |E].
      * rewrite (CA_out pl _ (2 * 0)) by lia. apply sum4_01.
      * rewrite (CA_out pl _ (2 * j + 1)) by lia. apply sum4_03.
  - rewrite (EX_in' (2 * i) (2 * j)), (EX_in' (2 * i + 1) (2 * j)) by lia. reflexivity.
  - rewrite (EY_in' (2 * i) (2 * j)), (EY_in' (2 * i) (2 * j + 1)) by lia. reflexivity.
Qed.

(** ** the formula choice *)
Definition nz (x : F) : bool := negb (neqb N x (nzero N)).

Lemma filter_app' {A} (f : A -> bool) l l' : filter f (l ++ l') = filter f l ++ filter f l'.
Proof. induction l; simpl; auto. destruct (f a); simpl; congruence. Qed.

Lemma map_list_prod {A B C} (f : A * B -> C) l l' :
  map f (list_prod l l') = flat_map (fun a => map (fun b => f (a, b)) l') l.
Proof.
  induction l as [|a l IH]; simpl; auto. rewrite map_app, IH, map_map. reflexivity.
Qed.

Lemma filter_flat_map {A B} (f : B -> bool) (g : A -> list B) l :
  filter f (flat_map g l) = flat_map (fun a => filter f (g a)) l.
Proof. induction l; simpl; auto. rewrite filter_app', IHl. reflexivity. Qed.

Lemma flat_map_ext_in' {A B} (f g : A -> list B) l :
  (forall a, In a l -> f a = g a) -> flat_map f l = flat_map g l.
Proof. induction l; simpl; intros He; auto. rewrite He, IHl by auto. reflexivity. Qed.

Lemma filter_zeros {A} (f : A -> F) l : (forall a, In a l -> nz (f a) = false) ->
  filter nz (map f l) = [].
Proof. induction l; simpl; intros He; auto. rewrite He by auto. auto. Qed.

Lemma flat_map_nil {A B} (f : A -> list B) l : (forall a, In a l -> f a = []) -> flat_map f l = [].
Proof. induction l; simpl; intros He; auto. rewrite He, IHl by auto. auto. Qed.

Lemma map_add_seq a s n : map (fun x => a + x) (seq s n) = seq (a + s) n.
Proof.
  revert s. induction n; intros s; simpl; auto. f_equal. rewrite IHn. f_equal. lia.
Qed.

(** the nonzero entries of a matrix that vanishes outside a block are those of the block *)
Lemma nonzero_block (f : nat -> nat -> F) r c i0 n j0 k :
  i0 + n <= r -> j0 + k <= c ->
  (forall i j, i < r -> j < c -> ~ (i0 <= i < i0 + n /\ j0 <= j < j0 + k) -> nz (f i j) = false) ->
  filter nz (map (fun ij => f (fst ij) (snd ij)) (list_prod (seq 0 r) (seq 0 c))) =
  filter nz (map (fun ij => f (i0 + fst ij) (j0 + snd ij)) (list_prod (seq 0 n) (seq 0 k))).
Proof.
  intros Hr Hc Hz. rewrite !map_list_prod, !filter_flat_map. cbn [fst snd].
  assert (Es : seq 0 r = seq 0 i0 ++ seq i0 n ++ seq (i0 + n) (r - (i0 + n))).
  { rewrite <- (seq_app n), <- seq_app by lia. f_equal. lia. }
  assert (Esc : seq 0 c = seq 0 j0 ++ seq j0 k ++ seq (j0 + k) (c - (j0 + k))).
  { rewrite <- (seq_app k), <- seq_app by lia. f_equal. lia. }
  rewrite Es, !flat_map_app.
  rewrite (flat_map_nil _ (seq 0 i0)).
  2:{ intros a Ha. apply in_seq in Ha. apply filter_zeros. intros b Hb. apply in_seq in Hb.
      apply Hz; lia. }
  rewrite (flat_map_nil _ (seq (i0 + n) _)).
  2:{ intros a Ha. apply in_seq in Ha. apply filter_zeros. intros b Hb. apply in_seq in Hb.
      apply Hz; lia. }
  rewrite app_nil_r. simpl app.
  replace (seq i0 n) with (map (fun a => i0 + a) (seq 0 n)).
  2:{ rewrite map_add_seq, Nat.add_0_r. reflexivity. }
  rewrite !flat_map_concat_map, map_map. f_equal. apply map_ext_in. intros a Ha. apply in_seq in Ha.
  rewrite Esc, !map_app, !filter_app'.
  rewrite (filter_zeros _ (seq 0 j0)).
  2:{ intros b Hb. apply in_seq in Hb. apply Hz; lia. }
  rewrite (filter_zeros _ (seq (j0 + k) _)).
  2:{ intros b Hb. apply in_seq in Hb. apply Hz; lia. }
  rewrite app_nil_r. simpl app. f_equal.
  replace (seq j0 k) with (map (fun a => j0 + a) (seq 0 k)).
  2:{ rewrite map_add_seq, Nat.add_0_r. reflexivity. }
  rewrite map_map. reflexivity.
Qed.

Lemma nz_zero : nz (nzero N) = false.
Proof. unfold nz. rewrite (neqb_zero NL). reflexivity. Qed.

Lemma planar_choice_spec : planar_choice N G cg p q = flat_enough N G H p q.
Proof.
  unfold planar_choice, use_planar, flat_enough, nonzero_mean, mean_of, nonzero_x, nonzero_y, entries, indices.
  cbn [mrows mcols mat_at]. f_equal; f_equal.
  - fold nz. rewrite (nonzero_block _ _ _ 1 (2 * p) 1 (2 * q + 1)); try lia.
    + rewrite (map_ext_in _ (fun uv => half_x G H (fst uv) (snd uv))); [destruct (filter _ _); reflexivity|].
      intros (u, v) Hin. apply in_prod_iff in Hin. rewrite !in_seq in Hin. cbn [fst snd].
      apply EX_in'; lia.
    + intros i j _ _ Hn. rewrite EX_out by lia. apply nz_zero.
  - fold nz. rewrite (nonzero_block _ _ _ 1 (2 * p + 1) 1 (2 * q)); try lia.
    + rewrite (map_ext_in _ (fun uv => half_y G H (fst uv) (snd uv))); [destruct (filter _ _); reflexivity|].
      intros (u, v) Hin. apply in_prod_iff in Hin. rewrite !in_seq in Hin. cbn [fst snd].
      apply EY_in'; lia.
    + intros i j _ _ Hn. rewrite EY_out by lia. apply nz_zero.
Qed.

Theorem tomitgrid_spec : mrows cg = 2 * p + 3 -> mcols cg = 2 * q + 3 ->
  exists g, tomitgrid N G cg 0 1 (1 + 2 * p) (1 + 2 * p + 1) 0 1 (1 + 2 * q) (1 + 2 * q + 1) = Ok g /\
    grid_of N G H p q g.
Proof.
  intros Hr Hc. destruct (tomitgrid_ok N G cg p q Hr Hc) as (g & E & Hg).
  exists g. split; auto. intros f. rewrite rows_of_delta, cols_of_delta, <- planar_choice_spec.
  eapply mat_is_ext; [apply Hg|]. intros i j Hi Hj. apply fieldval_spec; auto.
Qed.
End T.

(** ** the specification only looks at the points of the grid *)
Section Ext.
Context {F : Type} (N : numops F) (G : geod F).
Lemma flat_enough_ext (H H' : nat -> nat -> F * F) p q :
  (forall u v, u <= 2 * p -> v <= 2 * q -> H u v = H' u v) ->
  flat_enough N G H p q = flat_enough N G H' p q.
Proof.
  intros E. unfold flat_enough, nonzero_x, nonzero_y.
  rewrite (map_ext_in _ (fun uv => half_x G H' (fst uv) (snd uv))).
  2:{ intros (u, v) Hin. apply in_prod_iff in Hin. rewrite !in_seq in Hin. cbn [fst snd].
      unfold half_x. rewrite !E by lia. reflexivity. }
  rewrite (map_ext_in (fun uv => half_y G H (fst uv) (snd uv)) (fun uv => half_y G H' (fst uv) (snd uv))).
  2:{ intros (u, v) Hin. apply in_prod_iff in Hin. rewrite !in_seq in Hin. cbn [fst snd].
      unfold half_y. rewrite !E by lia. reflexivity. }
  reflexivity.
Qed.

Lemma spec_field_ext (H H' : nat -> nat -> F * F) p q pl f i j :
  (forall u v, u <= 2 * p -> v <= 2 * q -> H u v = H' u v) ->
  i < rows_of f p -> j < cols_of f q ->
  spec_field N G H p q pl f i j = spec_field N G H' p q pl f i j.
Proof.
  intros E Hi Hj. rewrite rows_of_delta in Hi. rewrite cols_of_delta in Hj.
  destruct f; cbn [ni_delta nj_delta] in Hi, Hj; unfold spec_field, half_x, half_y, quarter.
  all: try (destruct (inner i p) eqn:Ei; [apply inner_true in Ei|]).
  all: try (destruct (inner j q) eqn:Ej; [apply inner_true in Ej|]).
  all: cbn [andb]; try reflexivity.
  all: rewrite !E by lia; reflexivity.
Qed.

Lemma grid_of_ext (H H' : nat -> nat -> F * F) p q g :
  (forall u v, u <= 2 * p -> v <= 2 * q -> H u v = H' u v) ->
  grid_of N G H p q g -> grid_of N G H' p q g.
Proof.
  intros E Hg f. rewrite <- (flat_enough_ext H H' p q E).
  eapply mat_is_ext; [apply Hg|]. intros i j Hi Hj. apply spec_field_ext; auto.
Qed.

Lemma grid_of_geq H p q g g' : grid_of N G H p q g -> grid_of N G H p q g' -> geq g g'.
Proof.
  intros A B f. destruct (A f) as (A1 & A2 & A3), (B f) as (B1 & B2 & B3).
  repeat split; try congruence. intros i j Hi Hj. rewrite A3, B3 by congruence. reflexivity.
Qed.
End Ext.
