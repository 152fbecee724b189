From Coq Require Import ZArith NArith Strings.Byte List Reals Lia Bool Lra.
From Flocq Require Import IEEE754.BinarySingleNaN IEEE754.Binary IEEE754.Bits Core.
Import ListNotations.
From Verif Require Import Num Float64.
Local Open Scope Z_scope.

(** ** bytes *)
Lemma byte_of_Z_of_byte b : byte_of_Z (Z_of_byte b) = b.
Proof. unfold byte_of_Z, Z_of_byte. rewrite N2Z.id, Byte.of_to_N. reflexivity. Qed.

Lemma Z_of_byte_range b : 0 <= Z_of_byte b < 256.
Proof.
  unfold Z_of_byte. pose proof (Byte.to_N_bounded b). lia.
Qed.

Lemma Z_of_byte_of_Z z : 0 <= z < 256 -> Z_of_byte (byte_of_Z z) = z.
Proof.
  intros H. unfold byte_of_Z.
  destruct (Byte.of_N (Z.to_N z)) as [b|] eqn:E.
  - unfold Z_of_byte. apply Byte.to_of_N in E. rewrite E. lia.
  - exfalso. apply Byte.of_N_None_iff in E. lia.
Qed.

Lemma be_bytes_length n z : length (be_bytes n z) = n.
Proof.
  revert z; induction n as [|n IH]; intros z; [reflexivity|].
  simpl. rewrite app_length, IH. simpl. lia.
Qed.

Lemma be_Z_snoc l b : be_Z (l ++ [b]) = be_Z l * 256 + Z_of_byte b.
Proof. unfold be_Z. rewrite fold_left_app. reflexivity. Qed.

Lemma be_Z_bytes n z : 0 <= z < 256 ^ Z.of_nat n -> be_Z (be_bytes n z) = z.
Proof.
  revert z; induction n as [|n IH]; intros z H.
  - simpl in *. unfold be_Z; simpl. lia.
  - simpl be_bytes. rewrite be_Z_snoc.
    rewrite Nat2Z.inj_succ, Z.pow_succ_r in H by lia.
    rewrite IH.
    + rewrite Z_of_byte_of_Z by (apply Z.mod_pos_bound; lia).
      pose proof (Z.div_mod z 256). lia.
    + split; [apply Z.div_pos; lia|]. apply Z.div_lt_upper_bound; lia.
Qed.

Lemma be_Z_range l : 0 <= be_Z l < 256 ^ Z.of_nat (length l).
Proof.
  induction l as [|b l IH] using rev_ind.
  - unfold be_Z; simpl; lia.
  - rewrite be_Z_snoc, app_length. simpl length. rewrite Nat2Z.inj_add.
    rewrite Z.pow_add_r by lia. simpl (256 ^ Z.of_nat 1).
    pose proof (Z_of_byte_range b). lia.
Qed.

Lemma be_bytes_Z l : be_bytes (length l) (be_Z l) = l.
Proof.
  induction l as [|b l IH] using rev_ind; [reflexivity|].
  rewrite app_length, Nat.add_comm. simpl length. simpl plus. simpl be_bytes.
  rewrite be_Z_snoc. pose proof (Z_of_byte_range b).
  rewrite Z.div_add_l, Z.div_small, Z.add_0_r, IH by lia.
  rewrite Z.add_comm, Z.mod_add, Z.mod_small by lia.
  rewrite byte_of_Z_of_byte. reflexivity.
Qed.

Lemma b64_codec_laws : codeclaws b64codec.
Proof.
  split.
  - intros x. apply be_bytes_length.
  - intros x. cbn [enc dec b64codec]. rewrite be_Z_bytes.
    + apply (binary_float_of_bits_of_binary_float 52 11); reflexivity.
    + pose proof (bits_of_binary_float_range 52 11 eq_refl eq_refl x) as H.
      change (256 ^ Z.of_nat 8) with (2 ^ (52 + 11 + 1)). exact H.
  - intros l Hl. cbn [enc dec b64codec].
    rewrite <- Hl at 1.
    replace (bits_of_b64 (b64_of_bits (be_Z l))) with (be_Z l); [apply be_bytes_Z|].
    symmetry. apply (bits_of_binary_float_of_bits 52 11 eq_refl eq_refl eq_refl).
    pose proof (be_Z_range l) as H. rewrite Hl in H.
    change (256 ^ Z.of_nat 8) with (2 ^ (52 + 11 + 1)) in H. exact H.
Qed.

(** ** comparisons *)
Lemma b64_compare_nan_l x y : is_nan 53 1024 x = true -> b64_compare x y = None.
Proof. destruct x; try discriminate. reflexivity. Qed.
Lemma b64_compare_nan_r x y : is_nan 53 1024 y = true -> b64_compare x y = None.
Proof. destruct y; try discriminate. destruct x; reflexivity. Qed.

Lemma b64_ltb_finite (x y : binary64) :
  is_finite 53 1024 x = true -> is_finite 53 1024 y = true ->
  b64_ltb x y = true <-> (B2R 53 1024 x < B2R 53 1024 y)%R.
Proof.
  intros Hx Hy. unfold b64_ltb, b64_compare. rewrite Bcompare_correct by auto.
  split.
  - intros H. destruct (Rcompare_spec (B2R 53 1024 x) (B2R 53 1024 y)); auto; discriminate.
  - intros H. rewrite Rcompare_Lt by auto. reflexivity.
Qed.

Lemma b64_leb_finite (x y : binary64) :
  is_finite 53 1024 x = true -> is_finite 53 1024 y = true ->
  b64_leb x y = true <-> (B2R 53 1024 x <= B2R 53 1024 y)%R.
Proof.
  intros Hx Hy. unfold b64_leb, b64_compare. rewrite Bcompare_correct by auto.
  destruct (Rcompare_spec (B2R 53 1024 x) (B2R 53 1024 y)); split; intros; auto; try lra; try discriminate.
Qed.

Lemma b64_eqb_finite (x y : binary64) :
  is_finite 53 1024 x = true -> is_finite 53 1024 y = true ->
  b64_eqb x y = true <-> B2R 53 1024 x = B2R 53 1024 y.
Proof.
  intros Hx Hy. unfold b64_eqb, b64_compare. rewrite Bcompare_correct by auto.
  destruct (Rcompare_spec (B2R 53 1024 x) (B2R 53 1024 y)); split; intros; auto; try lra; try discriminate.
Qed.

Lemma b64_ltb_trans x y z : b64_ltb x y = true -> b64_ltb y z = true -> b64_ltb x z = true.
Proof.
  intros H1 H2.
  destruct (is_finite 53 1024 x) eqn:Fx, (is_finite 53 1024 y) eqn:Fy,
           (is_finite 53 1024 z) eqn:Fz.
  1: { rewrite b64_ltb_finite in * by auto. lra. }
  all: destruct x as [[]|[]|[]|[]], y as [[]|[]|[]|[]], z as [[]|[]|[]|[]];
    simpl in Fx, Fy, Fz; try discriminate; reflexivity.
Qed.

Lemma b64_ltb_irrefl x : b64_ltb x x = false.
Proof.
  destruct (b64_ltb x x) eqn:H; auto.
  destruct (is_finite 53 1024 x) eqn:Fx.
  - apply b64_ltb_finite in H; auto. lra.
  - destruct x as [[]|[]|[]|[]]; discriminate.
Qed.

Lemma b64_leb_ltb x y z : b64_ltb x y = true -> b64_ltb z y = false -> b64_leb z x = false.
Proof.
  intros H1 H2.
  destruct (is_finite 53 1024 x) eqn:Fx, (is_finite 53 1024 y) eqn:Fy,
           (is_finite 53 1024 z) eqn:Fz.
  1: { apply not_true_iff_false. intros H. apply not_true_iff_false in H2. apply H2.
       rewrite b64_ltb_finite in * by auto. rewrite b64_leb_finite in H by auto. lra. }
  all: destruct x as [[]|[]|[]|[]], y as [[]|[]|[]|[]], z as [[]|[]|[]|[]];
    simpl in Fx, Fy, Fz; try discriminate; reflexivity.
Qed.

Lemma b64_leb_min x y z : b64_leb x y = true -> b64_ltb x z = false -> b64_eqb z z = true ->
  b64_leb z y = true.
Proof.
  intros H1 H2 H3.
  destruct (is_finite 53 1024 x) eqn:Fx, (is_finite 53 1024 y) eqn:Fy,
           (is_finite 53 1024 z) eqn:Fz.
  1: { apply not_true_iff_false in H2. rewrite b64_ltb_finite in H2 by auto.
       rewrite b64_leb_finite in * by auto. lra. }
  all: destruct x as [[]|[]|[]|[]], y as [[]|[]|[]|[]], z as [[]|[]|[]|[]];
    simpl in Fx, Fy, Fz; try discriminate; reflexivity.
Qed.

Lemma b64_eqb_refl x : is_nan 53 1024 x = false -> b64_eqb x x = true.
Proof.
  intros Hn. destruct (is_finite 53 1024 x) eqn:Fx.
  - apply b64_eqb_finite; auto.
  - destruct x as [[]|[]|[]|[]]; try discriminate; reflexivity.
Qed.

Lemma b64_ltb_num x y : b64_ltb x y = true -> b64_eqb x x = true.
Proof.
  intros H. apply b64_eqb_refl. destruct (is_nan 53 1024 x) eqn:E; auto.
  unfold b64_ltb in H. rewrite b64_compare_nan_l in H by auto. discriminate.
Qed.

Lemma b64_laws L : numlaws (b64ops L).
Proof.
  split.
  - reflexivity.
  - exact b64_ltb_irrefl.
  - exact b64_ltb_trans.
  - exact b64_leb_ltb.
  - exact b64_leb_min.
  - exact b64_ltb_num.
  - reflexivity.
Qed.

(** ** zeros *)
Lemma b64_eqb_zero_bits x :
  b64_eqb x b64_zero = true <-> (bits_of_b64 x = 0 \/ bits_of_b64 x = 2 ^ 63).
Proof.
  split.
  - intros H.
    assert (E : x = B754_zero 53 1024 false \/ x = B754_zero 53 1024 true).
    { destruct x as [[]|[]|[]|s m e He]; try discriminate; auto.
      exfalso. apply b64_eqb_finite in H; try reflexivity.
      change (B2R 53 1024 b64_zero) with 0%R in H. simpl in H.
      apply eq_0_F2R in H. destruct s; discriminate H. }
    destruct E as [->| ->]; [left|right]; reflexivity.
  - intros H.
    assert (E : x = b64_of_bits 0 \/ x = b64_of_bits (2 ^ 63)).
    { destruct H as [H|H]; [left|right]; rewrite <- H; symmetry;
      apply (binary_float_of_bits_of_binary_float 52 11); reflexivity. }
    destruct E as [->| ->]; reflexivity.
Qed.

(** below a common bound, comparable *)
Lemma b64_leb_total x y z : b64_ltb x z = true -> b64_ltb y z = true -> b64_leb x y = false ->
  b64_ltb y x = true.
Proof.
  intros H1 H2 H3.
  destruct (is_finite 53 1024 x) eqn:Fx, (is_finite 53 1024 y) eqn:Fy.
  1: { rewrite b64_ltb_finite by auto. apply Rnot_le_lt. intros H.
       apply not_true_iff_false in H3. apply H3. apply b64_leb_finite; auto. }
  all: destruct x as [[]|[]|[]|[]], y as [[]|[]|[]|[]], z as [[]|[]|[]|[]];
    simpl in Fx, Fy; try discriminate; reflexivity.
Qed.
