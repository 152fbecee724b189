(** The format '{:20.12E}' gives the nearest number of thirteen digits. *)
From Coq Require Import Ascii String List Bool PeanoNat NArith ZArith Reals Lia Lra Psatz.
Import ListNotations.
From Flocq Require Import Core IEEE754.Binary IEEE754.Bits.
From Verif Require Import MdsMeta MdsTextFacts FmtE SpecTimes.
Local Open Scope R_scope.

Lemma ten_pos k : 0 < bpow radix10 k. Proof. apply bpow_gt_0. Qed.

Lemma ten_succ k : bpow radix10 (k + 1) = 10 * bpow radix10 k.
Proof. rewrite bpow_plus, (Rmult_comm 10). reflexivity. Qed.

Lemma ten_nat n : (0 <= n)%Z -> bpow radix10 n = IZR (10 ^ n).
Proof. intros H. rewrite <- IZR_Zpower by assumption. reflexivity. Qed.

(** * Scaling *)

Definition scale_inv (a b k a' b' k' : Z) : Prop :=
  (0 < a' /\ 0 < b')%Z /\ IZR a / IZR b * bpow radix10 k = IZR a' / IZR b' * bpow radix10 k'.

Lemma pos_R (z : Z) : (0 < z)%Z -> 0 < IZR z.
Proof. apply IZR_lt. Qed.

Lemma scale_down_spec f : forall a b k a' b' k', (0 < a)%Z -> (0 < b)%Z -> (b <= a)%Z -> (a < 2 ^ Z.of_nat f * b)%Z ->
  scale_down f a b k = (a', b', k') -> scale_inv a b k a' b' k' /\ (b' <= a' < 10 * b')%Z.
Proof.
  induction f as [|f IH]; intros a b k a' b' k' A B AB U H.
  - change (2 ^ Z.of_nat 0)%Z with 1%Z in U. lia.
  - cbn [scale_down] in H. destruct (Z.ltb_spec a (10 * b)).
    + injection H as <- <- <-. unfold scale_inv. auto with zarith.
    + destruct (IH a (10 * b) (k + 1) a' b' k')%Z as (I & R); try lia; try exact H.
      { replace (2 ^ Z.of_nat (S f))%Z with (2 * 2 ^ Z.of_nat f)%Z in U.
        2:{ rewrite Nat2Z.inj_succ, Z.pow_succ_r by lia. reflexivity. }
        assert (0 < 2 ^ Z.of_nat f)%Z by (apply Z.pow_pos_nonneg; lia). nia. }
      split; [|exact R]. destruct I as (P & E). split; [exact P|]. rewrite <- E, ten_succ, mult_IZR.
      apply pos_R in A. apply pos_R in B. field. lra.
Qed.

Lemma scale_up_spec f : forall a b k a' b' k', (0 < a)%Z -> (0 < b)%Z -> (a < 10 * b)%Z -> (b < 2 ^ Z.of_nat f * a)%Z ->
  scale_up f a b k = (a', b', k') -> scale_inv a b k a' b' k' /\ (b' <= a' < 10 * b')%Z.
Proof.
  induction f as [|f IH]; intros a b k a' b' k' A B AB U H.
  - change (2 ^ Z.of_nat 0)%Z with 1%Z in U. injection H as <- <- <-. unfold scale_inv. auto with zarith.
  - cbn [scale_up] in H. destruct (Z.leb_spec b a).
    + injection H as <- <- <-. unfold scale_inv. auto with zarith.
    + destruct (IH (10 * a) b (k - 1) a' b' k')%Z as (I & R); try lia; try exact H.
      { replace (2 ^ Z.of_nat (S f))%Z with (2 * 2 ^ Z.of_nat f)%Z in U.
        2:{ rewrite Nat2Z.inj_succ, Z.pow_succ_r by lia. reflexivity. }
        assert (0 < 2 ^ Z.of_nat f)%Z by (apply Z.pow_pos_nonneg; lia). nia. }
      split; [|exact R]. destruct I as (P & E). split; [exact P|]. rewrite <- E, mult_IZR.
      replace (bpow radix10 k) with (10 * bpow radix10 (k - 1)) by (rewrite <- ten_succ; f_equal; lia).
      apply pos_R in A. apply pos_R in B. field. lra.
Qed.

Lemma log2_fuel a : (0 < a)%Z -> (a < 2 ^ Z.of_nat (S (Z.to_nat (Z.log2 a))))%Z.
Proof.
  intros A. rewrite Nat2Z.inj_succ, Z2Nat.id by apply Z.log2_nonneg. apply Z.log2_spec. exact A.
Qed.

Lemma scaled_spec a b a' b' k : (0 < a)%Z -> (0 < b)%Z -> scaled a b = (a', b', k) ->
  (0 < a' /\ 0 < b')%Z /\ (b' <= a' < 10 * b')%Z /\ IZR a / IZR b = IZR a' / IZR b' * bpow radix10 k.
Proof.
  intros A B H. unfold scaled in H.
  assert (S : scale_inv a b 0 a' b' k /\ (b' <= a' < 10 * b')%Z).
  { destruct (Z.leb_spec b a).
    - eapply scale_down_spec; [exact A | exact B | assumption | | exact H].
      pose proof (log2_fuel a A). assert (0 < 2 ^ Z.of_nat (S (Z.to_nat (Z.log2 a))))%Z by lia. nia.
    - eapply scale_up_spec; [exact A | exact B | lia | | exact H].
      pose proof (log2_fuel b B). assert (0 < 2 ^ Z.of_nat (S (Z.to_nat (Z.log2 b))))%Z by lia. nia. }
  destruct S as ((P & E) & R). split; [exact P|]. split; [exact R|].
  rewrite <- E. change (bpow radix10 0) with 1. ring.
Qed.

(** * Rounding to an integer *)

Lemma half_even_spec a b : (0 < b)%Z -> (2 * Z.abs (a - half_even a b * b) <= b)%Z.
Proof.
  intros B. unfold half_even. pose proof (Z.div_mod a b ltac:(lia)) as D. pose proof (Z.mod_pos_bound a b B) as M.
  set (q := (a / b)%Z) in *. set (r := (a mod b)%Z) in *.
  destruct (Z.ltb_spec b (2 * r)); cbn [orb].
  - replace (a - (q + 1) * b)%Z with (r - b)%Z by lia. lia.
  - destruct (Z.eqb_spec (2 * r) b); cbn [andb].
    + destruct (Z.odd q); [replace (a - (q + 1) * b)%Z with (r - b)%Z by lia | replace (a - q * b)%Z with r by lia]; lia.
    + replace (a - q * b)%Z with r by lia. lia.
Qed.

Lemma half_even_R a b : (0 < b)%Z -> Rabs (IZR a / IZR b - IZR (half_even a b)) <= / 2.
Proof.
  intros B. pose proof (half_even_spec a b B) as H. apply IZR_le in H. rewrite mult_IZR, abs_IZR, minus_IZR, mult_IZR in H.
  pose proof (pos_R b B) as BR.
  replace (IZR a / IZR b - IZR (half_even a b)) with ((IZR a - IZR (half_even a b) * IZR b) / IZR b) by (field; lra).
  unfold Rdiv. rewrite Rabs_mult, (Rabs_pos_eq (/ IZR b)) by (left; now apply Rinv_0_lt_compat).
  apply Rmult_le_reg_r with (IZR b); [exact BR|]. rewrite Rmult_assoc, Rinv_l, Rmult_1_r by lra. lra.
Qed.

(** The nearest integer is at least as near as any other. *)
Lemma nearest_int y q n : Rabs (y - IZR q) <= / 2 -> Rabs (y - IZR q) <= Rabs (y - IZR n).
Proof.
  intros H. destruct (Z.eq_dec q n) as [->|NE]; [lra|].
  assert (D : 1 <= Rabs (IZR q - IZR n)).
  { rewrite <- minus_IZR, <- abs_IZR. apply IZR_le. lia. }
  pose proof (Rabs_triang (IZR q - y) (y - IZR n)) as T.
  replace (IZR q - y + (y - IZR n)) with (IZR q - IZR n) in T by ring.
  rewrite (Rabs_minus_sym (IZR q) y) in T. lra.
Qed.

Lemma digits13_spec a b q k : (0 < a)%Z -> (0 < b)%Z -> digits13 a b = (q, k) ->
  nearest13 (IZR a / IZR b) q k /\
  exists k0, bpow radix10 k0 <= IZR a / IZR b < bpow radix10 (k0 + 1) /\
    Rabs (IZR a / IZR b - decimal q k) <= / 2 * bpow radix10 (k0 - 12).
Proof.
  intros A B H. unfold digits13 in H. destruct (scaled a b) as [[a' b'] k0] eqn:S.
  destruct (scaled_spec _ _ _ _ _ A B S) as ((A' & B') & R & E).
  set (Q := half_even (a' * 10 ^ 12) b') in *.
  pose proof (half_even_R (a' * 10 ^ 12) b' B') as HR. fold Q in HR.
  set (x := IZR a / IZR b) in *. set (u := bpow radix10 (k0 - 12)).
  set (y := IZR (a' * 10 ^ 12) / IZR b') in *.
  assert (U : 0 < u) by apply ten_pos.
  assert (K12 : bpow radix10 k0 = IZR (10 ^ 12) * u).
  { unfold u. rewrite <- ten_nat, <- bpow_plus by lia. f_equal. lia. }
  assert (XY : x = y * u).
  { rewrite E, K12. unfold y. rewrite mult_IZR. pose proof (pos_R b' B'). field. lra. }
  assert (YB : IZR (10 ^ 12) <= y < IZR (10 ^ 13)).
  { pose proof (pos_R b' B') as BR. destruct R as [R1 R2]. apply IZR_le in R1. apply IZR_lt in R2. rewrite mult_IZR in R2.
    unfold y. rewrite mult_IZR. change (10 ^ 13)%Z with (10 * 10 ^ 12)%Z. rewrite (mult_IZR 10).
    set (c := IZR (10 ^ 12)) in *. assert (0 < c) by (apply IZR_lt; reflexivity). split.
    - apply Rmult_le_reg_r with (IZR b'); [exact BR|]. unfold Rdiv. rewrite Rmult_assoc, Rinv_l, Rmult_1_r by lra. nra.
    - apply Rmult_lt_reg_r with (IZR b'); [exact BR|]. unfold Rdiv. rewrite Rmult_assoc, Rinv_l, Rmult_1_r by lra. nra. }
  assert (QB : (10 ^ 12 <= Q <= 10 ^ 13)%Z).
  { apply Rabs_le_inv in HR. split; apply Z.lt_succ_r, lt_IZR; unfold Z.succ; rewrite plus_IZR; lra. }
  assert (QD : decimal q k = IZR Q * u /\ (10 ^ 12 <= q < 10 ^ 13)%Z).
  { destruct (Z.eqb_spec Q (10 ^ 13)) as [EQ|NE]; injection H as <- <-.
    - split; [|split; reflexivity || lia]. unfold decimal. rewrite EQ. unfold u.
      replace (k0 + 1 - 12)%Z with ((k0 - 12) + 1)%Z by lia. rewrite ten_succ.
      change (10 ^ 13)%Z with (10 ^ 12 * 10)%Z. change (Z.pow_pos 10 12) with (10 ^ 12)%Z. rewrite mult_IZR. set (c := IZR (10 ^ 12)). ring.
    - split; [reflexivity | lia]. }
  destruct QD as (QD & QR).
  assert (ERR : forall v, Rabs (x - v * u) = Rabs (y - v) * u).
  { intros v. rewrite XY. replace (y * u - v * u) with ((y - v) * u) by ring.
    rewrite Rabs_mult, (Rabs_pos_eq u) by lra. reflexivity. }
  split.
  - split; [exact QR|]. intros q' k' QR'. rewrite QD.
    assert (V : decimal q' k' = (IZR q' * bpow radix10 (k' - k0)) * u).
    { unfold decimal, u. rewrite Rmult_assoc, <- bpow_plus. do 2 f_equal. lia. }
    rewrite V, !ERR. apply Rmult_le_compat_r; [lra|].
    destruct (Z.le_gt_cases k0 k') as [LE|GT].
    + rewrite ten_nat, <- mult_IZR by lia. now apply nearest_int.
    + pose proof (nearest_int y Q (10 ^ 12) HR) as NI.
      assert (VB : IZR q' * bpow radix10 (k' - k0) <= IZR (10 ^ 12)).
      { assert (T1 : bpow radix10 (k' - k0) <= / 10).
        { change (/ 10) with (bpow radix10 (-1)). apply bpow_le. lia. }
        assert (T2 : IZR q' <= IZR (10 ^ 13)) by (apply IZR_le; lia).
        assert (T3 : 0 <= IZR q') by (apply IZR_le; lia).
        pose proof (ten_pos (k' - k0)). 
        apply Rle_trans with (IZR (10 ^ 13) * / 10).
        - apply Rmult_le_compat; lra.
        - change (10 ^ 13)%Z with (10 ^ 12 * 10)%Z. rewrite mult_IZR. lra. }
      eapply Rle_trans; [exact NI|]. rewrite !Rabs_pos_eq by lra. lra.
  - exists k0. split; [|rewrite QD, ERR; fold u; nra].
    rewrite ten_succ, K12, XY. change (10 ^ 13)%Z with (10 * 10 ^ 12)%Z in YB. rewrite (mult_IZR 10) in YB. nra.
Qed.

Lemma fraction_spec m e a b : (0 < m)%Z -> fraction m e = (a, b) ->
  (0 < a /\ 0 < b)%Z /\ IZR a / IZR b = F2R (Float radix2 m e).
Proof.
  intros M H. unfold fraction in H. unfold F2R. cbn [Fnum Fexp]. destruct (Z.leb_spec 0 e); injection H as <- <-.
  - assert (0 < 2 ^ e)%Z by (apply Z.pow_pos_nonneg; lia). split; [split; [nia | lia]|].
    rewrite mult_IZR. change 2%Z with (radix_val radix2). rewrite IZR_Zpower by assumption. lra.
  - assert (0 < 2 ^ (- e))%Z by (apply Z.pow_pos_nonneg; lia). split; [split; assumption|].
    change (2 ^ (- e))%Z with (radix2 ^ (- e))%Z. rewrite IZR_Zpower by lia. rewrite bpow_opp.
    pose proof (bpow_gt_0 radix2 e). field. lra.
Qed.

(** The digits and the exponent written for a number. *)
Definition e12_parts (x : binary64) : Z * Z :=
  match x with
  | B754_finite _ _ _ m e _ => let '(a, b) := fraction (Zpos m) e in digits13 a b
  | _ => (0, 0)%Z
  end.

Lemma e12_text_parts x : is_finite 53 1024 x = true ->
  e12_text x = (if Bsign 53 1024 x then ["-"%char] else []) ++ e12_digits (fst (e12_parts x)) (snd (e12_parts x)).
Proof.
  destruct x as [s|s|s pl P|s m e P]; try discriminate; intros _; [reflexivity|].
  cbn [e12_text e12_parts Bsign]. destruct (fraction (Z.pos m) e) as [a b]. now destruct (digits13 a b).
Qed.

Theorem e12_parts_nearest x : is_finite 53 1024 x = true -> B2R 53 1024 x <> 0 ->
  nearest13 (Rabs (B2R 53 1024 x)) (fst (e12_parts x)) (snd (e12_parts x)) /\
  Rabs (Rabs (B2R 53 1024 x) - decimal (fst (e12_parts x)) (snd (e12_parts x)))
    <= / 2 * bpow radix10 (-12) * Rabs (B2R 53 1024 x).
Proof.
  destruct x as [s|s|s pl P|s m e P]; try discriminate; intros _ NZ; [now elim NZ|]. clear NZ.
  cbn [e12_parts]. destruct (fraction (Z.pos m) e) as [a b] eqn:F.
  destruct (fraction_spec (Z.pos m) e a b ltac:(reflexivity) F) as ((A & B) & E).
  destruct (digits13 a b) as [q k] eqn:D. cbn [fst snd].
  assert (V : Rabs (B2R 53 1024 (B754_finite 53 1024 s m e P)) = IZR a / IZR b).
  { rewrite E. cbn [B2R]. rewrite <- F2R_Zabs, abs_cond_Zopp. reflexivity. }
  rewrite V. destruct (digits13_spec a b q k A B D) as (N & k0 & (L & _) & ER). split; [exact N|].
  eapply Rle_trans; [exact ER|].
  replace (k0 - 12)%Z with (- 12 + k0)%Z by lia. rewrite bpow_plus, Rmult_assoc.
  apply Rmult_le_compat_l; [lra|]. apply Rmult_le_compat_l; [left; apply ten_pos | exact L].
Qed.
