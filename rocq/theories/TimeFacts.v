(** Facts about written times: the text, its length, and numbers of steps. *)
From Coq Require Import Ascii String List Bool PeanoNat NArith ZArith Reals Lia Lra Psatz.
Import ListNotations.
From Flocq Require Import Core Relative Ulp IEEE754.BinarySingleNaN IEEE754.Binary IEEE754.Bits.
From Verif Require Import MdsMeta SpecMds MdsTextFacts Float64 FmtE FmtEFacts PyFloat PyFloatFacts FloorDivFacts SpecTimes.
Local Open Scope R_scope.
Local Open Scope list_scope.

(** * The text *)

Lemma number_value l n : forallb is_digit l = true ->
  fold_left (fun a c => 10 * a + (Z.of_nat (nat_of_ascii c) - 48))%Z l (Z.of_N n) = Z.of_N (digits_value n l).
Proof.
  revert n. induction l as [|c l IH]; intros n H; [reflexivity|]. cbn [forallb] in H. apply andb_prop in H. destruct H as [C H].
  unfold digits_value. cbn [fold_left]. fold (digits_value (10 * n + digit_val c) l). rewrite <- IH by assumption. f_equal.
  unfold digit_val. unfold is_digit in C. apply andb_prop in C. rewrite !Nat.leb_le in C.
  unfold nat_of_ascii in *. lia.
Qed.

Lemma number_digits l : forallb is_digit l = true -> number l = Z.of_N (digits_value 0 l).
Proof. intros H. exact (number_value l 0%N H). Qed.

Lemma digits_decimal l : forallb is_digit l = true -> is_decimal l.
Proof.
  intros H. unfold is_decimal. rewrite forallb_forall in H. apply Forall_forall. intros c I. apply H in I.
  unfold is_digit in I. apply andb_prop in I. rewrite !Nat.leb_le in I. exact I.
Qed.

Lemma padl_length c w l : (w <= length (padl c w l))%nat.
Proof. unfold padl. rewrite app_length, repeat_length. lia. Qed.

Lemma e12_parts_range x : (0 <= fst (e12_parts x) < 10 ^ 13)%Z.
Proof.
  destruct x as [s|s|s pl P|s m e P]; try (cbn; lia).
  destruct (Req_dec (B2R 53 1024 (B754_finite 53 1024 s m e P)) 0) as [E|NE].
  - exfalso. cbn [B2R] in E. apply eq_0_F2R in E. now destruct s.
  - destruct (e12_parts_nearest (B754_finite 53 1024 s m e P) eq_refl NE) as ((Q & _) & _).
    assert ((10 ^ 12 > 0)%Z) by (vm_compute; reflexivity). lia.
Qed.

Lemma zero_parts x : finite x = true -> R64 x = 0 -> e12_parts x = (0, 0)%Z.
Proof.
  destruct x as [s|s|s pl P|s m e P]; try discriminate; intros _ E; [reflexivity|].
  cbn [B2R] in E. apply eq_0_F2R in E. now destruct s.
Qed.

Theorem e12_written_as x : finite x = true -> written_as (R64 x) (Bsign 53 1024 x) (e12_text x).
Proof.
  intros F. rewrite e12_text_parts by assumption. pose proof (e12_parts_range x) as QR.
  assert (NEAR : (R64 x = 0 /\ fst (e12_parts x) = 0%Z /\ snd (e12_parts x) = 0%Z) \/
                 (R64 x <> 0 /\ nearest13 (Rabs (R64 x)) (fst (e12_parts x)) (snd (e12_parts x)))).
  { destruct (Req_dec (R64 x) 0) as [E|NE]; [left|right].
    - rewrite (zero_parts x F E). auto.
    - split; [exact NE|]. now apply e12_parts_nearest. }
  destruct (e12_parts x) as [q k]. cbn [fst snd] in *.
  unfold e12_digits. destruct (digits13_text q QR) as (d & ds & -> & D & DS & LN & V). cbn [firstn skipn].
  destruct (exp_digits k) as (X & XN & XV).
  set (xs := padl "0" 2 (int_text (Z.abs k))) in *. set (sg := if (k <? 0)%Z then "-"%char else "+"%char).
  exists d, ds, sg, xs. split; [reflexivity|].
  assert (DD : forallb is_digit (d :: ds) = true) by (cbn [forallb]; now rewrite D, DS).
  split; [now apply digits_decimal|]. split; [exact LN|]. split; [now apply digits_decimal|].
  split; [apply padl_length|]. split; [unfold sg; destruct (k <? 0)%Z; auto|].
  rewrite !number_digits, V, XV, !Z2N.id by (assumption || lia).
  assert (K : (if Ascii.eqb sg "-" then - Z.abs k else Z.abs k)%Z = k).
  { unfold sg. destruct (Z.ltb_spec k 0); cbn [Ascii.eqb Bool.eqb]; lia. }
  cbv zeta. rewrite K. exact NEAR.
Qed.

(** * Its length *)

Lemma exp_text_length k j : (2 <= j)%nat -> (Z.abs k < 10 ^ Z.of_nat j)%Z -> (length (exp_text k) <= 1 + j)%nat.
Proof.
  intros J H. unfold exp_text. cbn [length]. apply le_n_S. unfold padl. rewrite app_length, repeat_length.
  assert (L : (length (int_text (Z.abs k)) <= j)%nat).
  { rewrite int_text_nonneg by lia. apply dec_loop_length; [lia|].
    apply N2Z.inj_lt. rewrite N2Z.inj_pow, nat_N_Z, Z2N.id by lia. exact H. }
  lia.
Qed.

Lemma e12_length x j : finite x = true -> (2 <= j)%nat -> (Z.abs (snd (e12_parts x)) < 10 ^ Z.of_nat j)%Z ->
  (length (e12_text x) <= (if Bsign 53 1024 x then 1 else 0) + 16 + j)%nat.
Proof.
  intros F J H. rewrite e12_text_parts by assumption. pose proof (e12_parts_range x) as QR.
  destruct (e12_parts x) as [q k]. cbn [fst snd] in *. unfold e12_digits.
  destruct (digits13_text q QR) as (d & ds & -> & _ & _ & LN & _). cbn [firstn skipn].
  pose proof (exp_text_length k j J H). rewrite !app_length, LN. destruct (Bsign 53 1024 x); cbn [length]; lia.
Qed.

(** Bounds of powers of ten hold for the exponent. *)
Lemma exponent_bounds X q k lo hi : nearest13 X q k -> bpow radix10 lo <= X -> X <= bpow radix10 hi ->
  (lo <= k <= hi)%Z.
Proof.
  intros (Q & N) L U.
  assert (D1 : bpow radix10 k <= decimal q k).
  { unfold decimal. replace k with (12 + (k - 12))%Z at 1 by lia. rewrite bpow_plus, (ten_nat 12) by lia.
    apply Rmult_le_compat_r; [left; apply ten_pos | apply IZR_le; lia]. }
  assert (D2 : decimal q k < bpow radix10 (k + 1)).
  { unfold decimal. replace (k + 1)%Z with (13 + (k - 12))%Z by lia. rewrite bpow_plus, (ten_nat 13) by lia.
    apply Rmult_lt_compat_r; [apply ten_pos | apply IZR_lt; lia]. }
  assert (P : forall j, decimal (10 ^ 12) j = bpow radix10 j).
  { intros j. unfold decimal. rewrite <- ten_nat, <- bpow_plus by lia. f_equal. lia. }
  split.
  - apply Z.lt_succ_r. unfold Z.succ. apply (lt_bpow radix10).
    specialize (N (10 ^ 12)%Z lo ltac:(lia)). rewrite P in N.
    destruct (Rlt_or_le (decimal q k) (bpow radix10 lo)) as [G|G]; [|lra].
    rewrite !Rabs_pos_eq in N by lra. lra.
  - apply (le_bpow radix10).
    specialize (N (10 ^ 12)%Z hi ltac:(lia)). rewrite P in N.
    destruct (Rlt_or_le (bpow radix10 hi) (decimal q k)) as [G|G]; [|lra].
    rewrite (Rabs_minus_sym X (decimal q k)), (Rabs_minus_sym X (bpow radix10 hi)), !Rabs_pos_eq in N by lra. lra.
Qed.

Lemma smallest x : finite x = true -> R64 x <> 0 -> bpow radix2 (-1074) <= Rabs (R64 x).
Proof.
  intros F NZ. pose proof (parts_spec x F) as P. destruct (parts x) as [m e]. destruct P as (V & _ & E).
  assert (m <> 0%Z) by (intros ->; apply NZ; rewrite V; ring).
  rewrite V, Rabs_mult, <- abs_IZR, (Rabs_pos_eq (bpow radix2 e)) by apply bpow_ge_0.
  apply Rle_trans with (1 * bpow radix2 e).
  - rewrite Rmult_1_l. now apply bpow_le.
  - apply Rmult_le_compat_r; [apply bpow_ge_0 | apply IZR_le; lia].
Qed.

(** Every number takes at most nineteen characters after its sign. *)
Lemma e12_length_any x : finite x = true -> (length (e12_text x) <= (if Bsign 53 1024 x then 1 else 0) + 19)%nat.
Proof.
  intros F. destruct (Req_dec (R64 x) 0) as [E|NE].
  - pose proof (e12_length x 2 F ltac:(lia)) as H. rewrite (zero_parts x F E) in H. specialize (H eq_refl). lia.
  - destruct (e12_parts_nearest x F NE) as (N & _).
    assert (B : (-324 <= snd (e12_parts x) <= 309)%Z).
    { eapply exponent_bounds; [exact N | |].
      - eapply Rle_trans; [|now apply smallest].
        change (-324)%Z with (- (324))%Z. change (-1074)%Z with (- (1074))%Z. rewrite !bpow_opp. apply Rinv_le; [apply bpow_gt_0|].
        rewrite ten_nat, <- IZR_Zpower by lia. apply IZR_le. apply Z.leb_le. vm_compute. reflexivity.
      - eapply Rle_trans; [apply finite_le_max; exact F|]. rewrite max64_R, ten_nat by lia. apply IZR_le. apply Z.leb_le. vm_compute. reflexivity. }
    pose proof (e12_length x 3 F ltac:(lia)) as H. change (10 ^ Z.of_nat 3)%Z with 1000%Z in H. specialize (H ltac:(lia)). lia.
Qed.

(** Those between 10^-99 and 10^99 take at most eighteen. *)
Lemma e12_length_usual x : finite x = true -> R64 x = 0 \/ bpow radix10 (-99) <= Rabs (R64 x) <= bpow radix10 99 ->
  (length (e12_text x) <= (if Bsign 53 1024 x then 1 else 0) + 18)%nat.
Proof.
  intros F U. pose proof (e12_length x 2 F ltac:(lia)) as H. change (10 ^ Z.of_nat 2)%Z with 100%Z in H. 
  assert (B : (-99 <= snd (e12_parts x) <= 99)%Z).
  { destruct (Req_dec (R64 x) 0) as [E|NE]; [rewrite (zero_parts x F E); cbn; lia|].
    destruct U as [E|U]; [now elim NE|]. destruct (e12_parts_nearest x F NE) as (N & _).
    eapply exponent_bounds; [exact N | apply U | apply U]. }
  specialize (H ltac:(lia)). lia.
Qed.

(** * Steps and times *)

Lemma b64_of_Z_exact z : (Z.abs z < 2 ^ 53)%Z -> R64 (b64_of_Z z) = IZR z /\ finite (b64_of_Z z) = true.
Proof.
  intros H. destruct (exact_normalize z 0 false H ltac:(lia)) as (V & F & _).
  - change (bpow radix2 0) with 1. rewrite Rmult_1_r, <- abs_IZR, <- IZR_Zpower by lia. apply IZR_lt.
    eapply Z.lt_trans; [exact H|]. vm_compute. reflexivity.
  - change (bpow radix2 0) with 1 in V. rewrite Rmult_1_r in V. split; assumption.
Qed.

Lemma mult_finite x y : finite (b64_mult mode_NE x y) = true -> finite x = true -> finite y = true ->
  R64 (b64_mult mode_NE x y) = round radix2 fexp64 ZnearestE (R64 x * R64 y).
Proof.
  intros F FX FY. pose proof (Binary.Bmult_correct 53 1024 eq_refl eq_refl binop_nan_pl64 mode_NE x y) as M.
  change (Binary.Bmult 53 1024 eq_refl eq_refl binop_nan_pl64 mode_NE x y) with (b64_mult mode_NE x y) in M.
  destruct (Rlt_bool _ _); [exact (proj1 M)|]. exfalso.
  destruct (b64_mult mode_NE x y); try discriminate F; cbn in M; unfold binary_overflow in M; cbn in M; discriminate M.
Qed.

(** The product is off by less than dt. *)
Lemma product_error dt k : finite dt = true -> 0 < R64 dt -> (0 <= k < 2 ^ 49)%Z ->
  Rabs (round radix2 fexp64 ZnearestE (R64 dt * IZR k) - R64 dt * IZR k) < R64 dt.
Proof.
  intros F P K. assert (KR : 0 <= IZR k) by (apply IZR_le; lia). set (z := R64 dt * IZR k).
  assert (ZP : 0 <= z) by (apply Rmult_le_pos; lra).
  destruct (Rle_or_lt (bpow radix2 (-1074 + 53 - 1)) z) as [L|L].
  - eapply Rle_lt_trans; [apply (relative_error_N_FLT radix2 (-1074) 53 eq_refl (fun z => negb (Z.even z)) z)|].
    + now rewrite Rabs_pos_eq.
    + rewrite Rabs_pos_eq by assumption. change (/ 2 * bpow radix2 (- (53) + 1)) with u53. rewrite u53_value. unfold z.
      assert (KU : IZR k < IZR (2 ^ 53)) by (apply IZR_lt; lia).
      apply Rmult_lt_reg_l with (IZR (2 ^ 53)); [apply IZR_lt; reflexivity|].
      rewrite <- Rmult_assoc, Rinv_r, Rmult_1_l by (apply IZR_neq; discriminate).
      rewrite Rmult_comm. now apply Rmult_lt_compat_r.
  - eapply Rle_lt_trans; [apply (error_le_half_ulp radix2 fexp64 (fun z => negb (Z.even z)) z)|].
    assert (U : ulp radix2 fexp64 z = bpow radix2 (-1074)).
    { change fexp64 with (FLT_exp (-1074) 53). apply ulp_FLT_small; [reflexivity|]. rewrite Rabs_pos_eq by assumption.
      eapply Rlt_le_trans; [exact L|]. apply bpow_le. lia. }
    rewrite U. pose proof (smallest dt F ltac:(lra)) as S. rewrite Rabs_pos_eq in S by lra.
    pose proof (bpow_gt_0 radix2 (-1074)). lra.
Qed.

Theorem step_of_time_of_step dt k : finite dt = true -> 0 < R64 dt -> (0 <= k < 2 ^ 49)%Z ->
  let t := b64_mult mode_NE dt (b64_of_Z k) in finite t = true ->
  b64_floordiv t dt = Whole_number (if Rle_bool (R64 dt * IZR k) (R64 t) then k else k - 1).
Proof.
  intros F P K t FT. destruct (b64_of_Z_exact k ltac:(lia)) as (VK & FK).
  pose proof (mult_finite dt (b64_of_Z k) FT F FK) as VT. rewrite VK in VT. fold t in VT.
  pose proof (product_error dt k F P K) as E. rewrite <- VT in E. apply Rabs_lt_inv in E.
  assert (KR : 0 <= IZR k) by (apply IZR_le; lia).
  assert (TP : 0 <= R64 t).
  { rewrite VT. apply round_ge_generic; [typeclasses eauto | typeclasses eauto | apply generic_format_0 |].
    apply Rmult_le_pos; lra. }
  rewrite floordiv_is_floor; try assumption.
  - f_equal. apply Zfloor_imp. destruct (Rle_bool_spec (R64 dt * IZR k) (R64 t)) as [L|L].
    + split; apply Rmult_le_reg_r with (R64 dt) || apply Rmult_lt_reg_r with (R64 dt); try assumption;
        unfold Rdiv; rewrite Rmult_assoc, Rinv_l, Rmult_1_r by lra; rewrite ?plus_IZR; lra.
    + split; apply Rmult_le_reg_r with (R64 dt) || apply Rmult_lt_reg_r with (R64 dt); try assumption;
        unfold Rdiv; rewrite Rmult_assoc, Rinv_l, Rmult_1_r by lra; rewrite ?plus_IZR, ?minus_IZR; lra.
  - rewrite Rabs_pos_eq by assumption. assert (K1 : IZR k + 1 <= IZR (2 ^ 49)) by (rewrite <- (plus_IZR k 1); apply IZR_le; lia).
    assert ((IZR k + 1) * R64 dt <= IZR (2 ^ 49) * R64 dt) by (apply Rmult_le_compat_r; lra). lra.
Qed.
