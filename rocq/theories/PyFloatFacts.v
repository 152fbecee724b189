(** float(s) gives the nearest float to the decimal number. *)
From Coq Require Import Ascii String List Bool PeanoNat NArith ZArith Reals Lia Lra Psatz.
Import ListNotations.
From Flocq Require Import Core IEEE754.BinarySingleNaN IEEE754.Binary IEEE754.Bits.
From Verif Require Import MdsMeta MdsTextFacts Float64 FmtE FmtEFacts PyFloat SpecTimes.
Local Open Scope R_scope.

(** * Rounding twice, the first time to an odd number *)

Lemma znear_same y y' n : IZR n < 2 * y < IZR n + 1 -> IZR n < 2 * y' < IZR n + 1 -> ZnearestE y = ZnearestE y'.
Proof.
  assert (G : forall z, IZR n < 2 * z < IZR n + 1 ->
    ZnearestE z = (if Z.even n then n / 2 else n / 2 + 1)%Z).
  { intros z Hz. apply Znearest_imp. pose proof (Z.div_mod n 2 ltac:(lia)) as D.
    rewrite Zmod_even in D. destruct (Z.even n).
    - replace n with (2 * (n / 2))%Z in Hz at 1 2 by lia. rewrite mult_IZR in Hz. apply Rabs_lt. lra.
    - replace n with (2 * (n / 2) + 1)%Z in Hz at 1 2 by lia. rewrite plus_IZR, mult_IZR in Hz. rewrite plus_IZR.
      apply Rabs_lt. lra. }
  intros H H'. now rewrite (G y H), (G y' H').
Qed.

Definition fexp64 : Z -> Z := SpecFloat.fexp 53 1024.

#[global] Instance fexp64_valid : Valid_exp fexp64 := fexp_correct 53 1024 eq_refl.

Lemma fexp64_ge M : (M - 53 <= fexp64 M)%Z.
Proof. unfold fexp64, SpecFloat.fexp. lia. Qed.

Lemma between_mult (q P e : Z) x : IZR q * bpow radix2 e < x < IZR (q + 1) * bpow radix2 e ->
  (IZR P * bpow radix2 e <= x -> (P <= q)%Z) /\ (x < IZR P * bpow radix2 e -> (q + 1 <= P)%Z).
Proof.
  intros [L U]. pose proof (bpow_gt_0 radix2 e) as B. split; intros H.
  - apply Z.lt_succ_r, lt_IZR. unfold Z.succ. apply Rmult_lt_reg_r with (bpow radix2 e); [exact B|]. lra.
  - apply Z.le_succ_l, lt_IZR. apply Rmult_lt_reg_r with (bpow radix2 e); [exact B|]. lra.
Qed.

Lemma bpow_split (n e : Z) : (0 <= n)%Z -> bpow radix2 (n + e) = IZR (2 ^ n) * bpow radix2 e.
Proof. intros H. rewrite bpow_plus, <- IZR_Zpower by assumption. reflexivity. Qed.

Lemma sticky_round q e x x' : (2 ^ 63 <= q)%Z ->
  IZR q * bpow radix2 e < x < IZR (q + 1) * bpow radix2 e ->
  IZR q * bpow radix2 e < x' < IZR (q + 1) * bpow radix2 e ->
  round radix2 fexp64 ZnearestE x = round radix2 fexp64 ZnearestE x'.
Proof.
  intros Q X X'.
  assert (BP : 0 < bpow radix2 e) by apply bpow_gt_0.
  assert (X63 : bpow radix2 (63 + e) < x).
  { rewrite bpow_split by lia. apply Rle_lt_trans with (IZR q * bpow radix2 e); [|apply X].
    apply Rmult_le_compat_r; [lra|]. now apply IZR_le. }
  destruct (mag radix2 x) as [M HM]. assert (XP : 0 < x) by (pose proof (bpow_gt_0 radix2 (63 + e)); lra).
  specialize (HM ltac:(lra)). rewrite Rabs_pos_eq in HM by lra.
  assert (ML : (63 + e < M)%Z).
  { apply (lt_bpow radix2). lra. }
  destruct HM as [H1 H2].
  assert (B1 : bpow radix2 (M - 1) <= x').
  { replace (M - 1)%Z with ((M - 1 - e) + e)%Z in H1 |- * by lia. rewrite bpow_split in H1 |- * by lia.
    apply (proj1 (between_mult q _ e x X)), IZR_le in H1.
    apply Rle_trans with (IZR q * bpow radix2 e); [|lra]. now apply Rmult_le_compat_r; [lra|]. }
  assert (B2 : x' < bpow radix2 M).
  { replace M with ((M - e) + e)%Z in H2 |- * by lia. rewrite bpow_split in H2 |- * by lia.
    apply (proj2 (between_mult q _ e x X)), IZR_le in H2.
    apply Rlt_le_trans with (IZR (q + 1) * bpow radix2 e); [lra|]. now apply Rmult_le_compat_r; [lra|]. }
  assert (MX : mag radix2 x = M :> Z) by (apply mag_unique_pos; lra).
  assert (MX' : mag radix2 x' = M :> Z) by (apply mag_unique_pos; lra).
  unfold round, F2R, scaled_mantissa, cexp. cbn [Fnum Fexp]. rewrite MX, MX'. f_equal. f_equal.
  pose proof (fexp64_ge M) as FG. set (c := fexp64 M) in *.
  set (D := (2 ^ (c - 1 - e))%Z). assert (DP : (0 < D)%Z) by (apply Z.pow_pos_nonneg; lia).
  pose proof (Z.div_mod q D ltac:(lia)) as DM. pose proof (Z.mod_pos_bound q D DP) as MB.
  assert (SC : forall z, 2 * (z * bpow radix2 (- c)) * (IZR D * bpow radix2 e) = z).
  { intros z. unfold D. rewrite <- bpow_split by lia. replace (c - 1 - e + e)%Z with (-1 + c)%Z by lia.
    rewrite bpow_plus, bpow_opp. change (bpow radix2 (-1)) with (/ 2). pose proof (bpow_gt_0 radix2 c). field. lra. }
  assert (DR : 0 < IZR D * bpow radix2 e) by (apply Rmult_lt_0_compat; [now apply IZR_lt | exact BP]).
  assert (G : forall z, IZR q * bpow radix2 e < z < IZR (q + 1) * bpow radix2 e ->
    IZR (q / D) < 2 * (z * bpow radix2 (- c)) < IZR (q / D) + 1).
  { intros z [Z1 Z2]. rewrite <- (plus_IZR _ 1). split; apply Rmult_lt_reg_r with (IZR D * bpow radix2 e); try exact DR;
      rewrite SC, <- Rmult_assoc, <- mult_IZR.
    - eapply Rle_lt_trans; [|exact Z1]. apply Rmult_le_compat_r; [lra|]. apply IZR_le. nia.
    - eapply Rlt_le_trans; [exact Z2|]. apply Rmult_le_compat_r; [lra|]. apply IZR_le. nia. }
  apply znear_same with (n := (q / D)%Z); apply G; assumption.
Qed.

(** * The quotient *)

Lemma log2_R a : (0 < a)%Z -> bpow radix2 (Z.log2 a) <= IZR a < bpow radix2 (Z.log2 a + 1).
Proof.
  intros A. destruct (Z.log2_spec a A) as [L U]. pose proof (Z.log2_nonneg a).
  rewrite <- !IZR_Zpower by lia. split; [now apply IZR_le | now apply IZR_lt].
Qed.

Lemma quotient_bits_spec a b e : (0 < a)%Z -> (0 < b)%Z -> (e = Z.log2 a - Z.log2 b - 64)%Z ->
  let m := quotient_bits a b e in
  let x' := IZR m * bpow radix2 (e - 1) in
  (0 < m)%Z /\ (x' = IZR a / IZR b \/
    exists q, (2 ^ 63 <= q)%Z /\ IZR q * bpow radix2 e < x' < IZR (q + 1) * bpow radix2 e /\
      IZR q * bpow radix2 e < IZR a / IZR b < IZR (q + 1) * bpow radix2 e).
Proof.
  intros A B E m x'.
  set (a' := if (e <? 0)%Z then (a * 2 ^ (- e))%Z else a).
  set (b' := if (e <? 0)%Z then b else (b * 2 ^ e)%Z).
  assert (AB : IZR a / IZR b = IZR a' / IZR b' * bpow radix2 e /\ (0 < b')%Z).
  { apply pos_R in A as AR. pose proof (pos_R b B) as BR. pose proof (bpow_gt_0 radix2 e). unfold a', b'.
    destruct (Z.ltb_spec e 0).
    - split; [|assumption]. rewrite mult_IZR. change 2%Z with (radix_val radix2). rewrite IZR_Zpower by lia. rewrite bpow_opp. field. lra.
    - assert (0 < 2 ^ e)%Z by (apply Z.pow_pos_nonneg; lia). split; [|nia].
      rewrite mult_IZR. change 2%Z with (radix_val radix2). rewrite IZR_Zpower by lia. field. lra. }
  destruct AB as (AB & BP). assert (BR : 0 < IZR b') by now apply pos_R.
  assert (ME : m = (2 * (a' / b') + (if (a' mod b' =? 0)%Z then 0 else 1))%Z) by reflexivity.
  pose proof (Z.div_mod a' b' ltac:(lia)) as DM. pose proof (Z.mod_pos_bound a' b' BP) as MB.
  set (q := (a' / b')%Z) in *. set (r := (a' mod b')%Z) in *.
  assert (P2 : 0 < bpow radix2 e) by apply bpow_gt_0.
  assert (Q63 : (2 ^ 63 <= q)%Z).
  { apply Z.lt_succ_r. unfold Z.succ. apply lt_IZR.
    assert (X63 : bpow radix2 (63 + e) < IZR a / IZR b).
    { destruct (log2_R a A) as [LA _]. destruct (log2_R b B) as [_ UB]. pose proof (pos_R b B) as BR0.
      apply Rmult_lt_reg_r with (IZR b); [exact BR0|]. unfold Rdiv. rewrite Rmult_assoc, Rinv_l, Rmult_1_r by lra.
      eapply Rlt_le_trans; [|exact LA]. replace (Z.log2 a) with ((63 + e) + (Z.log2 b + 1))%Z by lia.
      rewrite (bpow_plus _ (63 + e)). apply Rmult_lt_compat_l; [apply bpow_gt_0 | exact UB]. }
    rewrite AB, bpow_split in X63 by lia. apply Rmult_lt_reg_r in X63; [|exact P2].
    eapply Rlt_trans; [exact X63|]. apply Rmult_lt_reg_r with (IZR b'); [exact BR|].
    unfold Rdiv. rewrite Rmult_assoc, Rinv_l, Rmult_1_r, <- mult_IZR by lra. apply IZR_lt. nia. }
  split; [rewrite ME; destruct (r =? 0)%Z; lia|].
  assert (XE : x' = IZR m / 2 * bpow radix2 e).
  { unfold x'. unfold Z.sub. rewrite bpow_plus. change (bpow radix2 (-(1))) with (/ 2). field. }
  destruct (Z.eqb_spec r 0) as [R0|RN].
  - left. rewrite XE, AB, ME. f_equal. rewrite Z.add_0_r, mult_IZR.
    replace a' with (b' * q)%Z by lia. rewrite mult_IZR. field. lra.
  - right. exists q. split; [exact Q63|]. rewrite XE, AB, ME. rewrite !plus_IZR, mult_IZR.
    assert (QB : IZR q < IZR a' / IZR b' < IZR q + 1).
    { rewrite <- (plus_IZR q 1). split; apply Rmult_lt_reg_r with (IZR b'); try exact BR; unfold Rdiv;
        rewrite Rmult_assoc, Rinv_l, Rmult_1_r, <- mult_IZR by lra; apply IZR_lt; nia. }
    repeat split; apply Rmult_lt_compat_r; try exact P2; try apply QB; lra.
Qed.

(** The nearest float of the quotient. *)
Theorem b64_ratio_nearest s a b : (0 < a)%Z -> (0 < b)%Z ->
  let r := round radix2 fexp64 ZnearestE (IZR a / IZR b) in
  r < bpow radix2 1024 ->
  B2R 53 1024 (b64_ratio s a b) = (if s then - r else r) /\
  is_finite 53 1024 (b64_ratio s a b) = true /\
  Bsign 53 1024 (b64_ratio s a b) = s.
Proof.
  intros A B r R. unfold b64_ratio. set (e := (Z.log2 a - Z.log2 b - 64)%Z).
  destruct (quotient_bits_spec a b e A B eq_refl) as (MP & C). set (m := quotient_bits a b e) in *. cbv zeta in C.
  assert (RM : round radix2 fexp64 ZnearestE (IZR m * bpow radix2 (e - 1)) = r).
  { destruct C as [-> | (q & Q & X' & X)]; [reflexivity|]. unfold r. now apply sticky_round with (q := q) (e := e). }
  assert (RN : 0 <= r).
  { unfold r. apply round_ge_generic; [typeclasses eauto | typeclasses eauto | apply generic_format_0 |].
    apply pos_R in A. apply pos_R in B. left. now apply Rdiv_lt_0_compat. }
  assert (FV : F2R (Float radix2 (if s then (- m)%Z else m) (e - 1))
               = (if s then - (IZR m * bpow radix2 (e - 1)) else IZR m * bpow radix2 (e - 1))).
  { unfold F2R. cbn [Fnum Fexp]. destruct s; [rewrite opp_IZR; ring | reflexivity]. }
  assert (RV : round radix2 (SpecFloat.fexp 53 1024) (round_mode mode_NE) (F2R (Float radix2 (if s then (- m)%Z else m) (e - 1)))
               = (if s then - r else r)).
  { rewrite FV. cbn [round_mode]. fold fexp64. destruct s; [rewrite round_NE_opp, RM; reflexivity | exact RM]. }
  pose proof (Binary.binary_normalize_correct 53 1024 eq_refl eq_refl mode_NE (if s then (- m)%Z else m) (e - 1) s) as N.
  rewrite RV, FV in N. rewrite Rlt_bool_true in N by (destruct s; [rewrite Rabs_Ropp|]; rewrite Rabs_pos_eq; assumption).
  destruct N as (N1 & N2 & N3). split; [exact N1|]. split; [exact N2|]. rewrite N3.
  assert (0 < IZR m * bpow radix2 (e - 1)) by (apply Rmult_lt_0_compat; [now apply IZR_lt | apply bpow_gt_0]).
  destruct s; [rewrite Rcompare_Lt by lra | rewrite Rcompare_Gt by lra]; reflexivity.
Qed.

(** * The text *)

Local Open Scope list_scope.

Lemma take_digits_run l : forall n c t, forallb is_digit l = true ->
  match t with [] => True | x :: _ => is_digit x = false end ->
  take_digits (Z.of_N n) c (l ++ t) = (Z.of_N (digits_value n l), (c + length l)%nat, t).
Proof.
  induction l as [|x l IH]; intros n c t H T.
  - cbn [app digits_value fold_left length]. rewrite Nat.add_0_r. destruct t as [|y t]; [reflexivity|].
    cbn [take_digits]. now rewrite T.
  - cbn [forallb] in H. apply andb_prop in H. destruct H as [X H]. cbn [app take_digits]. rewrite X.
    replace (10 * Z.of_N n + Z.of_N (digit_val x))%Z with (Z.of_N (10 * n + digit_val x)) by lia.
    rewrite IH by assumption. cbn [length]. replace (S c + length l)%nat with (c + S (length l))%nat by lia. reflexivity.
Qed.

Lemma dec_loop_length k : forall n j, (1 <= j)%nat -> (n < 10 ^ N.of_nat j)%N -> (length (dec_loop k n) <= j)%nat.
Proof.
  induction k as [|k IH]; intros n j J H; [cbn; lia|]. cbn [dec_loop]. rewrite app_length. cbn [length].
  destruct (N.ltb_spec n 10) as [L|L]; [cbn [length]; lia|].
  destruct j as [|[|j]]; [lia | change (10 ^ N.of_nat 1)%N with 10%N in H; lia|].
  specialize (IH (n / 10)%N (S j) ltac:(lia)).
  assert (n / 10 < 10 ^ N.of_nat (S j))%N.
  { apply N.div_lt_upper_bound; [lia|]. rewrite (Nat2N.inj_succ (S j)), N.pow_succ_r' in H. exact H. }
  specialize (IH H0). lia.
Qed.

Lemma digits_value_app n a b : digits_value n (a ++ b) = digits_value (digits_value n a) b.
Proof. apply fold_left_app. Qed.

Lemma padl_zeros w l : forallb is_digit l = true -> (length l <= w)%nat ->
  forallb is_digit (padl "0" w l) = true /\ length (padl "0" w l) = w /\ digits_value 0 (padl "0" w l) = digits_value 0 l.
Proof.
  intros H L. unfold padl. split; [|split].
  - rewrite forallb_app, H, forallb_repeat by reflexivity. reflexivity.
  - rewrite app_length, repeat_length. lia.
  - rewrite digits_value_app. f_equal. induction (w - length l)%nat as [|j IH]; [reflexivity|]. exact IH.
Qed.

Lemma padl_digits w l : forallb is_digit l = true -> l <> [] ->
  forallb is_digit (padl "0" w l) = true /\ padl "0" w l <> [] /\ digits_value 0 (padl "0" w l) = digits_value 0 l.
Proof.
  intros H L. unfold padl. split; [|split].
  - rewrite forallb_app, H, forallb_repeat by reflexivity. reflexivity.
  - intros E. apply app_eq_nil in E. now apply L.
  - rewrite digits_value_app. f_equal. induction (w - length l)%nat as [|j IH]; [reflexivity|]. exact IH.
Qed.

Lemma int_text_nonneg q : (0 <= q)%Z -> int_text q = dec_text (Z.to_N q).
Proof. destruct q; intros H; [reflexivity | reflexivity | lia]. Qed.

Lemma digits13_text q : (0 <= q < 10 ^ 13)%Z ->
  exists c l, padl "0" 13 (int_text q) = c :: l /\ is_digit c = true /\ forallb is_digit l = true /\
    length l = 12%nat /\ digits_value 0 (c :: l) = Z.to_N q.
Proof.
  intros H. rewrite int_text_nonneg by lia.
  assert (L : (length (dec_text (Z.to_N q)) <= 13)%nat).
  { apply dec_loop_length; [lia|]. change (10 ^ N.of_nat 13)%N with (Z.to_N (10 ^ 13)). apply Z2N.inj_lt; lia. }
  destruct (padl_zeros 13 (dec_text (Z.to_N q)) (dec_text_digits _) L) as (D & LN & V).
  rewrite dec_text_value in V. destruct (padl "0" 13 (dec_text (Z.to_N q))) as [|c l]; [discriminate LN|].
  exists c, l. cbn [forallb] in D. apply andb_prop in D. destruct D as [D1 D2].
  split; [reflexivity|]. split; [exact D1|]. split; [exact D2|]. split; [|exact V]. now injection LN.
Qed.

Lemma exp_digits k : let l := padl "0" 2 (int_text (Z.abs k)) in
  forallb is_digit l = true /\ l <> [] /\ digits_value 0 l = Z.to_N (Z.abs k).
Proof.
  intros l. unfold l. rewrite int_text_nonneg by lia.
  destruct (padl_digits 2 (dec_text (Z.to_N (Z.abs k))) (dec_text_digits _) (dec_text_nonempty _)) as (A & B & C).
  rewrite dec_text_value in C. auto.
Qed.

Lemma lower_is_digit w c0 w' c l : w = String c0 w' -> is_digit c0 = false -> is_digit c = true -> lower_is w (c :: l) = false.
Proof.
  intros -> W C. apply text_eqb_neq. intros E. apply (f_equal (hd "0"%char)) in E.
  cbn [map lit list_ascii_of_string hd] in E. cbv zeta beta in E.
  unfold is_digit in C. apply andb_prop in C. rewrite !Nat.leb_le in C.
  replace (65 <=? nat_of_ascii c)%nat with false in E by (symmetry; apply Nat.leb_gt; lia).
  cbn [andb] in E. subst c0. unfold is_digit in W. apply andb_false_iff in W. rewrite !Nat.leb_gt in W. lia.
Qed.

(** The binary64 for the decimal number q * 10^(k-12). *)
Definition of_decimal (s : bool) (q k : Z) : binary64 :=
  if (q =? 0)%Z then B754_zero 53 1024 s
  else if (0 <=? k - 12)%Z then b64_ratio s (q * 10 ^ (k - 12)) 1 else b64_ratio s q (10 ^ (- (k - 12))).

Lemma e12_digits_chars q k : (0 <= q < 10 ^ 13)%Z ->
  forallb (fun c : ascii => is_digit c || existsb (Ascii.eqb c) ["."; "E"; "+"; "-"]%char) (e12_digits q k) = true.
Proof.
  intros H. unfold e12_digits. destruct (digits13_text q H) as (c & l & -> & C & L & _ & _).
  cbn [firstn skipn]. destruct (exp_digits k) as (X & _).
  assert (G : forall d : text, forallb is_digit d = true ->
    forallb (fun c : ascii => is_digit c || existsb (Ascii.eqb c) ["."; "E"; "+"; "-"]%char) d = true).
  { intros d. apply forallb_imp. intros a A. now rewrite A. }
  rewrite !forallb_app. unfold exp_text. cbn [forallb]. rewrite C, (G l L), (G _ X).
  destruct (k <? 0)%Z; reflexivity.
Qed.

Lemma py_float_e12 (s : bool) q k : (0 <= q < 10 ^ 13)%Z ->
  py_float ((if s then ["-"%char] else []) ++ e12_digits q k) = Some (of_decimal s q k).
Proof.
  intros H. unfold py_float. rewrite strip_none.
  2:{ rewrite forallb_app. apply andb_true_intro. split; [destruct s; reflexivity|].
      eapply forallb_imp; [|exact (e12_digits_chars q k H)]. intros a A. apply negb_true_iff.
      apply orb_prop in A. destruct A as [A|A]; [now apply digit_facts|].
      cbn [existsb] in A. repeat (apply orb_prop in A; destruct A as [A|A]; [apply Ascii.eqb_eq in A; subst a; reflexivity|]).
      discriminate A. }
  unfold e12_digits. destruct (digits13_text q H) as (c & l & -> & C & L & LN & V). cbn [firstn skipn].
  assert (TS : take_sign ((if s then ["-"%char] else []) ++ [c] ++ ["."%char] ++ l ++ ["E"%char] ++ exp_text k)
               = (s, [c] ++ ["."%char] ++ l ++ ["E"%char] ++ exp_text k)).
  { destruct s; [reflexivity|]. cbn [app take_sign]. destruct (digit_facts c C) as (_ & M & P & _).
    apply Ascii.eqb_neq in M, P. now rewrite M, P. }
  rewrite TS. cbn [app].
  rewrite !(lower_is_digit _ _ _ c _ eq_refl) by (reflexivity || assumption). cbn [orb].
  change (c :: "."%char :: l ++ "E"%char :: exp_text k) with ([c] ++ ("."%char :: l ++ "E"%char :: exp_text k)).
  change 0%Z with (Z.of_N 0) at 1. rewrite take_digits_run by (reflexivity || (cbn [forallb]; now rewrite C)).
  cbn [Ascii.eqb Bool.eqb]. rewrite take_digits_run by (reflexivity || assumption).
  cbn [exponent Ascii.eqb Bool.eqb orb].
  destruct (exp_digits k) as (X & XN & XV).
  assert (ET : take_sign (exp_text k) = ((k <? 0)%Z, padl "0" 2 (int_text (Z.abs k)))).
  { unfold exp_text. destruct (k <? 0)%Z; reflexivity. }
  rewrite ET. rewrite <- (app_nil_r (padl "0" 2 (int_text (Z.abs k)))).
  change 0%Z with (Z.of_N 0) at 1. rewrite take_digits_run by (exact X || exact I).
  rewrite XV. destruct (padl "0" 2 (int_text (Z.abs k))) as [|x0 xs]; [now elim XN|]. cbn [length Nat.add].
  rewrite LN. cbn [Nat.add].
  replace (digits_value (digits_value 0 [c]) l) with (digits_value 0 (c :: l)) by reflexivity.
  rewrite V, !Z2N.id by lia. unfold of_decimal.
  replace (if (k <? 0)%Z then (- Z.abs k)%Z else Z.abs k) with k by (destruct (Z.ltb_spec k 0); lia).
  reflexivity.
Qed.

Lemma of_decimal_ratio q k : (0 < q)%Z -> exists a b, (0 < a)%Z /\ (0 < b)%Z /\ IZR a / IZR b = decimal q k /\
  forall s, of_decimal s q k = b64_ratio s a b.
Proof.
  intros Q. unfold of_decimal, decimal. replace (q =? 0)%Z with false by (symmetry; apply Z.eqb_neq; lia).
  destruct (Z.leb_spec 0 (k - 12)) as [D|D].
  - exists (q * 10 ^ (k - 12))%Z, 1%Z. assert (0 < 10 ^ (k - 12))%Z by (apply Z.pow_pos_nonneg; lia).
    split; [nia|]. split; [lia|]. split; [|reflexivity]. rewrite mult_IZR, ten_nat by assumption. field.
  - exists q, (10 ^ (- (k - 12)))%Z. assert (0 < 10 ^ (- (k - 12)))%Z by (apply Z.pow_pos_nonneg; lia).
    split; [lia|]. split; [lia|]. split; [|reflexivity]. rewrite <- ten_nat, bpow_opp by lia.
    pose proof (ten_pos (k - 12)). field. lra.
Qed.

(** * There and back *)

Definition max64 : binary64 := B754_finite 53 1024 false 9007199254740991 971 eq_refl.

Lemma max64_R : B2R 53 1024 max64 = IZR (9007199254740991 * 2 ^ 971).
Proof. unfold max64, B2R, F2R. cbn [Fnum Fexp cond_Zopp]. rewrite mult_IZR, <- IZR_Zpower by lia. reflexivity. Qed.

Lemma finite_le_max x : is_finite 53 1024 x = true -> Rabs (B2R 53 1024 x) <= B2R 53 1024 max64.
Proof.
  intros F. pose proof (abs_B2R_le_emax_minus_prec 53 1024 eq_refl x) as H.
  eapply Rle_trans; [exact H|]. rewrite max64_R, <- !IZR_Zpower, <- minus_IZR by lia. apply IZR_le.
  apply Z.leb_le. vm_compute. reflexivity.
Qed.

(** The thirteen digits of a float are never beyond the largest float. *)
Lemma decimal_below_max x q k : is_finite 53 1024 x = true -> nearest13 (Rabs (B2R 53 1024 x)) q k ->
  decimal q k <= B2R 53 1024 max64.
Proof.
  intros F (Q & N). set (Q0 := 1797693134862%Z).
  assert (V0 : decimal Q0 308 = IZR (Q0 * 10 ^ 296)).
  { unfold decimal. change (308 - 12)%Z with 296%Z. rewrite ten_nat by lia. now rewrite mult_IZR. }
  assert (V0M : decimal Q0 308 <= B2R 53 1024 max64).
  { rewrite V0, max64_R. apply IZR_le. apply Z.leb_le. vm_compute. reflexivity. }
  destruct (Rle_or_lt (decimal q k) (decimal Q0 308)) as [L|G]; [lra|exfalso].
  assert (V1 : decimal Q0 308 + IZR (10 ^ 296) <= decimal q k).
  { rewrite V0 in G |- *. rewrite <- plus_IZR. unfold decimal in *. destruct (Z.le_gt_cases 308 k) as [K|K].
    - replace (k - 12)%Z with ((k - 308) + 296)%Z in G |- * by lia. rewrite bpow_plus, !ten_nat, <- !mult_IZR in G |- * by lia.
      apply lt_IZR in G. apply IZR_le. set (n := (10 ^ (k - 308))%Z) in *. set (u := (10 ^ 296)%Z) in *.
      assert (0 < u)%Z by (apply Z.pow_pos_nonneg; lia). nia.
    - exfalso. apply (Rlt_irrefl (IZR (Q0 * 10 ^ 296))). eapply Rlt_trans; [exact G|].
      apply Rle_lt_trans with (IZR (10 ^ 13) * bpow radix10 295).
      + apply Rmult_le_compat; [apply IZR_le; lia | left; apply ten_pos | apply IZR_le; lia | apply bpow_le; lia].
      + rewrite ten_nat, <- mult_IZR by lia. apply IZR_lt. apply Z.ltb_lt. vm_compute. reflexivity. }
  pose proof (finite_le_max x F) as XM. specialize (N Q0 308%Z ltac:(unfold Q0; lia)).
  assert (MH : 2 * B2R 53 1024 max64 < 2 * decimal Q0 308 + IZR (10 ^ 296)).
  { rewrite V0, max64_R, <- !mult_IZR, <- plus_IZR. apply IZR_lt. apply Z.ltb_lt. vm_compute. reflexivity. }
  set (X := Rabs (B2R 53 1024 x)) in *. set (v := decimal q k) in *. set (v0 := decimal Q0 308) in *.
  set (u := IZR (10 ^ 296)) in *. assert (0 < u) by (apply IZR_lt; apply Z.pow_pos_nonneg; lia).
  rewrite (Rabs_minus_sym X v), (Rabs_pos_eq (v - X)) in N by lra.
  destruct (Rle_or_lt v0 X); [rewrite Rabs_pos_eq in N by lra | rewrite Rabs_left in N by lra]; lra.
Qed.

Lemma times_ten n : forall q, (0 < q < 10 ^ 13)%Z -> (10 ^ 12 <= q * 10 ^ Z.of_nat n)%Z ->
  exists j, (0 <= j)%Z /\ (10 ^ 12 <= q * 10 ^ j < 10 ^ 13)%Z.
Proof.
  induction n as [|n IH]; intros q Q H.
  - exists 0%Z. change (10 ^ Z.of_nat 0)%Z with 1%Z in H. change (10 ^ 0)%Z with 1%Z. lia.
  - destruct (Z.le_gt_cases (10 ^ 12) q) as [L|G].
    + exists 0%Z. change (10 ^ 0)%Z with 1%Z. lia.
    + rewrite Nat2Z.inj_succ, Z.pow_succ_r in H by lia.
      destruct (IH (10 * q)%Z) as (j & J & B); [lia | lia |].
      exists (j + 1)%Z. split; [lia|]. rewrite Z.pow_add_r by lia. lia.
Qed.

(** What a finite number comes back as. *)
Definition signed (s : bool) (r : R) : R := if s then - r else r.

Lemma signed_value x : is_finite 53 1024 x = true -> B2R 53 1024 x = signed (Bsign 53 1024 x) (Rabs (B2R 53 1024 x)).
Proof.
  destruct x as [s|s|s pl P|s m e P]; try discriminate; intros _; unfold signed.
  - cbn [B2R Bsign]. rewrite Rabs_R0. destruct s; lra.
  - cbn [B2R Bsign]. rewrite <- F2R_Zabs, abs_cond_Zopp. destruct s; [cbn [cond_Zopp]; change (Z.neg m) with (- Z.pos m)%Z; rewrite F2R_Zopp|]; reflexivity.
Qed.

Theorem e12_there_and_back x : is_finite 53 1024 x = true ->
  exists y, py_float (e12_text x) = Some y /\ is_finite 53 1024 y = true /\ Bsign 53 1024 y = Bsign 53 1024 x /\
    Rabs (B2R 53 1024 y - B2R 53 1024 x) <= bpow radix10 (-12) * Rabs (B2R 53 1024 x) /\
    (B2R 53 1024 x <> 0 -> forall v, v = decimal (fst (e12_parts x)) (snd (e12_parts x)) ->
       B2R 53 1024 y = signed (Bsign 53 1024 x) (round radix2 fexp64 ZnearestE v)) /\
    (digits_at_most_13 (B2R 53 1024 x) -> y = x).
Proof.
  intros F. rewrite (e12_text_parts x F).
  destruct (Req_dec (B2R 53 1024 x) 0) as [Z0|NZ].
  - assert (X : x = B754_zero 53 1024 (Bsign 53 1024 x)).
    { destruct x as [s|s|s pl P|s m e P]; try discriminate; [reflexivity|]. exfalso. cbn [B2R] in Z0.
      apply eq_0_F2R in Z0. destruct s; discriminate Z0. }
    exists x. split; [|split; [exact F|]; split; [reflexivity|]; split; [|split; [intros N; now elim N | reflexivity]]].
    + rewrite X. cbn [e12_parts fst snd Bsign]. exact (py_float_e12 (Bsign 53 1024 x) 0 0 ltac:(lia)).
    + rewrite Z0. rewrite Rminus_0_r, Rabs_R0. lra.
  - destruct (e12_parts_nearest x F NZ) as (N & ER). destruct (e12_parts x) as [q k]. cbn [fst snd] in *.
    pose proof N as (Q & NN).
    destruct (of_decimal_ratio q k ltac:(lia)) as (a & b & A & B & V & OD).
    set (s := Bsign 53 1024 x) in *. set (X := Rabs (B2R 53 1024 x)) in *.
    set (r := round radix2 fexp64 ZnearestE (decimal q k)).
    assert (RM : r <= B2R 53 1024 max64).
    { apply round_le_generic; [typeclasses eauto | typeclasses eauto | apply generic_format_B2R |].
      now apply decimal_below_max with (x := x). }
    assert (RB : r < bpow radix2 1024).
    { eapply Rle_lt_trans; [exact RM|]. rewrite max64_R, <- IZR_Zpower by lia. apply IZR_lt. apply Z.ltb_lt. vm_compute. reflexivity. }
    assert (RN : 0 <= r).
    { apply round_ge_generic; [typeclasses eauto | typeclasses eauto | apply generic_format_0 |].
      unfold decimal. apply Rmult_le_pos; [apply IZR_le; lia | left; apply ten_pos]. }
    pose proof (b64_ratio_nearest s a b A B) as R. cbv zeta in R. rewrite V in R. fold r in R. specialize (R RB).
    rewrite <- OD in R. destruct R as (R1 & R2 & R3).
    exists (of_decimal s q k). split; [apply py_float_e12; lia|]. split; [exact R2|]. split; [exact R3|].
    assert (XR : B2R 53 1024 x = signed s X) by now apply signed_value.
    split; [|split].
    + assert (RX : Rabs (r - decimal q k) <= Rabs (X - decimal q k)).
      { destruct (round_N_pt radix2 fexp64 (fun z => negb (Z.even z)) (decimal q k)) as (_ & RP). fold r in RP.
        apply RP. unfold X. apply generic_format_abs, generic_format_B2R. }
      assert (RX2 : Rabs (r - X) <= bpow radix10 (-12) * X).
      { replace (r - X) with ((r - decimal q k) - (X - decimal q k)) by ring.
        eapply Rle_trans; [apply Rabs_triang|]. rewrite Rabs_Ropp. nra. }
      rewrite R1, XR. destruct s; cbn [signed]; [|exact RX2].
      replace (- r - - X) with (- (r - X)) by ring. now rewrite Rabs_Ropp.
    + intros _ v ->. exact R1.
    + intros (q0 & k0 & Q0 & E).
      apply B2R_Bsign_inj; [exact R2 | exact F | | exact R3].
      rewrite R1, XR. enough (r = X) as -> by reflexivity.
      assert (Q0N : q0 <> 0%Z) by (intros ->; apply NZ; rewrite E; ring).
      destruct (times_ten 12 (Z.abs q0)) as (j & J & QB); [lia | change (Z.of_nat 12) with 12%Z; nia |].
      assert (XE : X = decimal (Z.abs q0 * 10 ^ j) (k0 - j + 12)).
      { unfold X, decimal. rewrite E, Rabs_mult, <- abs_IZR, (Rabs_pos_eq (bpow radix10 k0)) by (left; apply ten_pos).
        rewrite mult_IZR, <- ten_nat, Rmult_assoc, <- bpow_plus by assumption. do 2 f_equal. lia. }
      specialize (NN _ (k0 - j + 12)%Z QB). rewrite <- XE in NN. replace (X - X) with 0 in NN by ring. rewrite Rabs_R0 in NN.
      pose proof (Rabs_pos (X - decimal q k)).
      assert (XD : X - decimal q k = 0) by (apply Rabs_eq_R0; lra).
      assert (DX : decimal q k = X) by lra.
      unfold r. rewrite DX. apply round_generic; [typeclasses eauto|]. unfold X. apply generic_format_abs, generic_format_B2R.
Qed.
