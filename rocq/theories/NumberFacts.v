(** float() against its specification. *)
From Coq Require Import Ascii String List Bool PeanoNat NArith ZArith Reals Lia Lra.
Import ListNotations.
From Flocq Require Import Core IEEE754.BinarySingleNaN IEEE754.Binary IEEE754.Bits.
From Verif Require Import Prelude MdsMeta Mds SpecMds MdsTextFacts MdsParseFacts MdsScanFacts SpecMeta MetaFacts
  Float64 FmtE FmtEFacts PyFloat PyFloatFacts SpecTimes SpecNumber ArgParse ArgNumbers.
Local Open Scope nat_scope.
Local Open Scope list_scope.

(** * Rounding *)

Lemma fexp64_FLT k : fexp64 k = FLT_exp (-1074) 53 k.
Proof. unfold fexp64, SpecFloat.fexp, SpecFloat.emin, FLT_exp. lia. Qed.

Lemma round_FLT v : round radix2 (FLT_exp (-1074) 53) ZnearestE v = round radix2 fexp64 ZnearestE v.
Proof. unfold round, scaled_mantissa, cexp. rewrite <- !(fexp64_FLT (mag radix2 v)). reflexivity. Qed.

Lemma b64_ratio_overflow s a b : (0 < a)%Z -> (0 < b)%Z ->
  (bpow radix2 1024 <= round radix2 fexp64 ZnearestE (IZR a / IZR b))%R ->
  b64_ratio s a b = B754_infinity 53 1024 s.
Proof.
  intros A B R. unfold b64_ratio. set (e := (Z.log2 a - Z.log2 b - 64)%Z).
  destruct (quotient_bits_spec a b e A B eq_refl) as (MP & C). set (m := quotient_bits a b e) in *. cbv zeta in C.
  set (r := round radix2 fexp64 ZnearestE (IZR a / IZR b)) in *.
  assert (RM : round radix2 fexp64 ZnearestE (IZR m * bpow radix2 (e - 1)) = r).
  { destruct C as [-> | (q & Q & X' & X)]; [reflexivity|]. unfold r. now apply sticky_round with (q := q) (e := e). }
  assert (RN : (0 <= r)%R) by (pose proof (bpow_gt_0 radix2 1024); lra).
  assert (FV : F2R (Float radix2 (if s then (- m)%Z else m) (e - 1))
               = (if s then - (IZR m * bpow radix2 (e - 1)) else IZR m * bpow radix2 (e - 1))%R).
  { unfold F2R. cbn [Fnum Fexp]. destruct s; [rewrite opp_IZR; ring | reflexivity]. }
  assert (RV : round radix2 (SpecFloat.fexp 53 1024) (round_mode mode_NE) (F2R (Float radix2 (if s then (- m)%Z else m) (e - 1)))
               = (if s then - r else r)%R).
  { rewrite FV. cbn [round_mode]. fold fexp64. destruct s; [rewrite round_NE_opp, RM; reflexivity | exact RM]. }
  pose proof (Binary.binary_normalize_correct 53 1024 eq_refl eq_refl mode_NE (if s then (- m)%Z else m) (e - 1) s) as N.
  rewrite RV, FV in N. rewrite Rlt_bool_false in N by (destruct s; [rewrite Rabs_Ropp|]; rewrite Rabs_pos_eq; assumption).
  assert (P : (0 < IZR m * bpow radix2 (e - 1))%R) by (apply Rmult_lt_0_compat; [now apply IZR_lt | apply bpow_gt_0]).
  assert (RB : Rlt_bool (if s then - (IZR m * bpow radix2 (e - 1)) else IZR m * bpow radix2 (e - 1))%R 0 = s).
  { destruct s; [apply Rlt_bool_true|apply Rlt_bool_false]; lra. }
  rewrite RB in N. clear - N.
  destruct (Binary.binary_normalize 53 1024 eq_refl eq_refl mode_NE (if s then (- m)%Z else m) (e - 1) s) as [x|x|x pl Q|x mm ee Q];
    cbn in N; try discriminate N. now injection N as ->.
Qed.

Lemma radix10_pow n : (0 <= n)%Z -> bpow radix10 n = IZR (10 ^ n).
Proof. intros H. rewrite <- (IZR_Zpower radix10) by exact H. reflexivity. Qed.

Definition of_digits (s : bool) (n d : Z) : binary64 :=
  if (n =? 0)%Z then B754_zero 53 1024 s
  else if (0 <=? d)%Z then b64_ratio s (n * 10 ^ d) 1 else b64_ratio s n (10 ^ (- d)).

Lemma of_digits_nearest s n d : (0 <= n)%Z -> nearest_double s (IZR n * bpow radix10 d) (of_digits s n d).
Proof.
  intros N. unfold nearest_double, of_digits. rewrite round_FLT. destruct (Z.eqb_spec n 0) as [->|NZ].
  - rewrite Rmult_0_l, round_0 by typeclasses eauto. split.
    + intros _. cbn. repeat split. destruct s; lra.
    + intros H. pose proof (bpow_gt_0 radix2 1024). lra.
  - assert (RATIO : forall a b, (0 < a)%Z -> (0 < b)%Z -> (IZR n * bpow radix10 d = IZR a / IZR b)%R ->
      let r := round radix2 fexp64 ZnearestE (IZR n * bpow radix10 d) in
      ((r < bpow radix2 1024)%R -> is_finite 53 1024 (b64_ratio s a b) = true /\
         B2R 53 1024 (b64_ratio s a b) = (if s then - r else r)%R /\ Bsign 53 1024 (b64_ratio s a b) = s) /\
      ((bpow radix2 1024 <= r)%R -> b64_ratio s a b = B754_infinity 53 1024 s)).
    { intros a b A B E r. unfold r. rewrite E. split.
      - intros R. destruct (b64_ratio_nearest s a b A B R) as (X & Y & Z). auto.
      - apply b64_ratio_overflow; assumption. }
    destruct (Z.leb_spec 0 d) as [D|D].
    + apply RATIO; [apply Z.mul_pos_pos; [lia|apply Z.pow_pos_nonneg; lia]|lia|].
      rewrite radix10_pow, mult_IZR by exact D. field.
    + apply RATIO; [lia|apply Z.pow_pos_nonneg; lia|].
      rewrite <- radix10_pow by lia. rewrite bpow_opp. pose proof (bpow_gt_0 radix10 d). field. lra.
Qed.

Lemma nearest_unique s v x y : nearest_double s v x -> nearest_double s v y -> x = y.
Proof.
  intros (A & B) (A' & B'). set (r := round radix2 (FLT_exp (-1074) 53) ZnearestE v) in *.
  destruct (Rlt_or_le r (bpow radix2 1024)) as [L|L].
  - destruct (A L) as (F & V & S), (A' L) as (F' & V' & S'). apply B2R_Bsign_inj; congruence.
  - rewrite (B L), (B' L). reflexivity.
Qed.

(** * Plain digits *)

Definition plain_run (t ds : text) : Prop := t = ds /\ is_decimal ds /\ ds <> [].

Lemma maybe_plain t ds : maybe_run plain_run t ds <-> t = ds /\ is_decimal ds.
Proof.
  split.
  - intros [(-> & ->)|(-> & D & _)]; split; try reflexivity; try assumption. apply Forall_nil.
  - intros (-> & D). destruct ds; [now left|right]. repeat split; [exact D|discriminate].
Qed.

Lemma take_digits_spec l : forall acc c, exists ds r, l = ds ++ r /\ is_decimal ds /\ not_first digit r /\
  take_digits acc c l = ((acc * 10 ^ Z.of_nat (length ds) + decimal_value ds)%Z, c + length ds, r).
Proof.
  induction l as [|x l IH]; intros acc c.
  - exists [], []. repeat split; [apply Forall_nil|intros d r X; discriminate X|]. cbn [take_digits length decimal_value].
    rewrite Nat.add_0_r. do 2 f_equal. cbn. lia.
  - cbn [take_digits]. destruct (is_digit x) eqn:D.
    + destruct (IH (10 * acc + Z.of_N (digit_val x))%Z (S c)) as (ds & r & -> & DD & NF & E).
      exists (x :: ds), r. repeat split; [apply Forall_cons; [now apply is_digit_digit|exact DD]|exact NF|].
      rewrite E. rewrite digit_val_Z by exact D. cbn [length decimal_value]. rewrite Nat2Z.inj_succ, Z.pow_succ_r by lia.
      f_equal; [f_equal; [ring|lia]].
    + exists [], (x :: l). repeat split; [apply Forall_nil|intros d r [= <- <-] X; apply is_digit_digit in X; congruence|].
      cbn [length decimal_value]. rewrite Nat.add_0_r. do 2 f_equal. cbn. lia.
Qed.

Lemma take_digits_is ds r acc c : is_decimal ds -> not_first digit r ->
  take_digits acc c (ds ++ r) = ((acc * 10 ^ Z.of_nat (length ds) + decimal_value ds)%Z, c + length ds, r).
Proof.
  intros D NF. destruct (take_digits_spec (ds ++ r) acc c) as (ds' & r' & E & D' & NF' & T). rewrite T.
  assert (ds' = ds /\ r' = r) as (-> & ->); [|reflexivity]. clear T.
  revert ds' E D'. induction D as [|x ds X D IH]; intros ds' E D'.
  - destruct D' as [|y ds' Y D']; [now split|]. cbn [app] in E. now elim (NF y (ds' ++ r')).
  - destruct D' as [|y ds' Y D'].
    + cbn [app] in E. now elim (NF' x (ds ++ r)).
    + injection E as -> E. destruct (IH ds' E D') as (-> & ->). now split.
Qed.

Lemma take_sign_spec l : exists sg neg r, l = sg ++ r /\ sign_text sg neg /\ take_sign l = (neg, r).
Proof.
  destruct l as [|c l]; [exists [], false, []; repeat split; constructor|]. cbn [take_sign].
  destruct (Ascii.eqb_spec c "-"%char) as [->|]; [exists ["-"%char], true, l; repeat split; constructor|].
  destruct (Ascii.eqb_spec c "+"%char) as [->|]; [exists ["+"%char], false, l; repeat split; constructor|].
  exists [], false, (c :: l). repeat split. constructor.
Qed.

Definition is_sign (c : ascii) : Prop := c = "+"%char \/ c = "-"%char.

Lemma take_sign_is sg neg r : sign_text sg neg -> not_first is_sign r -> take_sign (sg ++ r) = (neg, r).
Proof.
  intros S NF. destruct S; cbn [app]; try reflexivity.
  destruct r as [|c r]; [reflexivity|]. cbn [take_sign]. specialize (NF c r eq_refl). unfold is_sign in NF.
  destruct (Ascii.eqb_spec c "-"%char) as [->|]; [elim NF; now right|].
  destruct (Ascii.eqb_spec c "+"%char) as [->|]; [elim NF; now left|]. reflexivity.
Qed.

Lemma digit_not_sign c : digit c -> ~ is_sign c.
Proof. intros D [-> | ->]; unfold digit in D; cbn in D; lia. Qed.

Lemma decimal_nonneg ds : is_decimal ds -> (0 <= decimal_value ds)%Z.
Proof. intros D. apply decimal_bound in D. lia. Qed.

Lemma exponent_iff t k : exponent t = Some k <-> exponent_text plain_run t k.
Proof.
  unfold exponent. split.
  - destruct t as [|c r]; [intros [= <-]; now left|].
    destruct (Ascii.eqb c "e" || Ascii.eqb c "E") eqn:C; [|discriminate].
    destruct (take_sign_spec r) as (sg & neg & r1 & -> & S & ->).
    destruct (take_digits_spec r1 0 0) as (ds & r2 & -> & D & NF & ->). rewrite Nat.add_0_l, Z.mul_0_l, Z.add_0_l.
    destruct ds as [|d ds]; cbn [length]; [discriminate|]. destruct r2; [|discriminate]. intros [= <-]. right.
    exists c, sg, neg, (d :: ds), (d :: ds). rewrite app_nil_r. repeat split; try assumption; try discriminate.
    apply orb_true_iff in C. rewrite !Ascii.eqb_eq in C. exact C.
  - intros [(-> & ->)|(c & sg & neg & body & ds & -> & C & S & (-> & D & NE) & ->)]; [reflexivity|].
    assert (C' : Ascii.eqb c "e" || Ascii.eqb c "E" = true) by (rewrite orb_true_iff, !Ascii.eqb_eq; exact C).
    rewrite C'. destruct ds as [|d ds]; [now elim NE|].
    rewrite (take_sign_is sg neg (d :: ds) S) by (intros x y [= <- <-]; inversion D; now apply digit_not_sign).
    rewrite <- (app_nil_r (d :: ds)) at 1. rewrite take_digits_is; [|exact D|intros x y X; discriminate X].
    cbn [length Nat.add]. rewrite Z.mul_0_l, Z.add_0_l. reflexivity.
Qed.

Definition lower (c : ascii) : ascii :=
  let n := nat_of_ascii c in if (65 <=? n) && (n <=? 90) then ascii_of_nat (n + 32) else c.

Lemma lower_iff c d : ~ (65 <= nat_of_ascii c <= 90) ->
  lower d = c <-> d = c \/ (65 <= nat_of_ascii d <= 90 /\ nat_of_ascii c = nat_of_ascii d + 32).
Proof.
  intros NC. unfold lower. destruct ((65 <=? nat_of_ascii d) && (nat_of_ascii d <=? 90)) eqn:E.
  - apply andb_true_iff in E. rewrite !Nat.leb_le in E. split.
    + intros <-. right. split; [exact E|]. rewrite nat_ascii_embedding; lia.
    + intros [->|(_ & X)]; [contradiction|]. rewrite <- X. apply ascii_nat_embedding.
  - assert (N : ~ (65 <= nat_of_ascii d <= 90)).
    { intros (A & B). apply Nat.leb_le in A, B. rewrite A, B in E. discriminate E. }
    split; [intros ->; now left|]. intros [->|(X & _)]; [reflexivity|contradiction].
Qed.

Lemma spells_iff w t : Forall (fun c => ~ (65 <= nat_of_ascii c <= 90)) (lit w) -> lower_is w t = true <-> spells w t.
Proof.
  intros NW. unfold lower_is, spells. rewrite text_eqb_eq. change (map _ t) with (map lower t). generalize (lit w) NW. clear w NW.
  induction t as [|d t IH]; intros w NW; cbn [map].
  - split; [intros <-; constructor|intros H; inversion H; reflexivity].
  - split.
    + intros <-. inversion NW as [|? ? N NW']; subst. constructor; [now apply lower_iff|]. now apply IH.
    + intros H. inversion H as [|c ? w' ? X H']; subst. inversion NW as [|? ? N NW']; subst.
      apply (lower_iff c d N) in X. rewrite X. f_equal. now apply IH.
Qed.

Lemma small_letters w : In w ["inf"; "infinity"; "nan"]%string -> Forall (fun c => ~ (65 <= nat_of_ascii c <= 90)) (lit w).
Proof.
  intros H. cbn in H. destruct H as [<-|[<-|[<-|[]]]]; cbn [lit list_ascii_of_string]; repeat (constructor; [cbn; lia|]); constructor.
Qed.

Definition numeral_char (c : ascii) : Prop := digit c \/ c = "."%char.

Lemma spells_not_numeral w t : In w ["inf"; "infinity"; "nan"]%string -> spells w t -> 
  not_first is_sign t /\ (forall c r, t = c :: r -> ~ numeral_char c) /\ t <> [] /\ not_last white_char t /\ not_first white_char t.
Proof.
  intros W S. unfold spells in S.
  assert (L : forall c d, In c (lit w) -> (d = c \/ (65 <= nat_of_ascii d <= 90 /\ nat_of_ascii c = nat_of_ascii d + 32)) -> 65 <= nat_of_ascii d).
  { intros c d I [->|(X & _)]; [|lia]. cbn in W. destruct W as [<-|[<-|[<-|[]]]]; cbn in I; intuition (subst; cbn; lia). }
  assert (A : Forall (fun d => 65 <= nat_of_ascii d) t).
  { revert L. generalize (lit w) S. clear. intros w S L. induction S as [|c d w t X S IH]; constructor.
    - apply (L c d); [now left|exact X].
    - apply IH. intros c' d' I. apply L. now right. }
  rewrite Forall_forall in A. repeat split.
  - intros c r -> [-> | ->]; specialize (A _ (or_introl eq_refl)); cbn in A; lia.
  - intros c r -> [D| ->]; [specialize (A c (or_introl eq_refl)); unfold digit in D; lia|specialize (A _ (or_introl eq_refl)); cbn in A; lia].
  - intros ->. cbn in W. destruct W as [<-|[<-|[<-|[]]]]; inversion S.
  - intros c r -> X. assert (I : In c (r ++ [c])) by (apply in_app_iff; right; now left). apply A in I. unfold white_char in X. lia.
  - intros c r -> X. specialize (A c (or_introl eq_refl)). unfold white_char in X. lia.
Qed.

(** What a numeral begins and ends with. *)
Lemma number_first t n k : number_text plain_run t n k -> exists c r, t = c :: r /\ numeral_char c.
Proof.
  intros (i & is & f & fs & e & ek & -> & I & F & NE & _). apply maybe_plain in I. destruct I as (-> & D).
  destruct is as [|c is].
  - destruct F as [(-> & ->)|(g & -> & G)]; [now elim NE|]. exists "."%char, (g ++ e). split; [reflexivity|now right].
  - exists c, (is ++ f ++ e). split; [reflexivity|]. left. now inversion D.
Qed.

Lemma not_last_app (P : ascii -> Prop) s t : not_last P s -> not_last P t -> not_last P (s ++ t).
Proof.
  intros S T c r E. destruct t as [|d t _] using rev_ind; [rewrite app_nil_r in E; now apply (S c r)|].
  rewrite app_assoc in E. apply app_inj_tail in E. destruct E as (_ & ->). now apply (T c t).
Qed.

Lemma not_last_cons (P : ascii -> Prop) a t : (t = [] -> ~ P a) -> not_last P t -> not_last P (a :: t).
Proof.
  intros A T c r E. destruct t as [|d t].
  - destruct r as [|x [|y r]]; [injection E as <-; auto|discriminate E|discriminate E].
  - destruct r as [|x r]; [discriminate E|]. injection E as _ E. now apply (T c r).
Qed.

Lemma not_last_nil (P : ascii -> Prop) : not_last P [].
Proof. intros c r E. destruct r; discriminate E. Qed.

Lemma decimal_not_white ds : is_decimal ds -> not_last white_char ds.
Proof.
  intros D c r ->. unfold is_decimal in D. rewrite Forall_app in D. destruct D as (_ & D). inversion D; subst.
  now apply digit_not_white.
Qed.

Lemma exponent_not_white t k : exponent_text plain_run t k -> not_last white_char t.
Proof.
  intros [(-> & _)|(c & sg & neg & body & ds & -> & C & S & (-> & D & NE) & _)]; [apply not_last_nil|].
  apply not_last_cons; [intros E; apply app_eq_nil in E; now destruct E|].
  apply not_last_app; [|now apply decimal_not_white].
  intros c' r E. apply sign_not_white in S. rewrite E, Forall_app in S. destruct S as (_ & S). now inversion S.
Qed.

Lemma number_not_white t n k : number_text plain_run t n k -> not_last white_char t.
Proof.
  intros (i & is & f & fs & e & ek & -> & I & F & NE & E & _). apply maybe_plain in I. destruct I as (-> & D).
  apply not_last_app; [now apply decimal_not_white|]. apply not_last_app; [|now apply (exponent_not_white e ek)].
  destruct F as [(-> & ->)|(g & -> & G)]; [apply not_last_nil|]. apply maybe_plain in G. destruct G as (-> & G).
  apply not_last_cons; [intros _ X; unfold white_char in X; cbn in X; lia|now apply decimal_not_white].
Qed.

Lemma exponent_not_digit t k : exponent_text plain_run t k -> not_first digit t /\ not_first (eq "."%char) t.
Proof.
  intros [(-> & _)|(c & sg & neg & body & ds & -> & C & _)]; split; intros x r E; try discriminate E; injection E as <- _.
  - unfold digit. destruct C as [-> | ->]; cbn; lia.
  - destruct C as [-> | ->]; discriminate.
Qed.

Lemma decimal_app a b : is_decimal a -> is_decimal b ->
  decimal_value (a ++ b) = (decimal_value a * 10 ^ Z.of_nat (length b) + decimal_value b)%Z.
Proof.
  intros A B. induction A as [|c a C A IH]; [cbn; lia|]. cbn [app decimal_value]. rewrite IH, app_length, Nat2Z.inj_add, Z.pow_add_r by lia. ring.
Qed.

(** The digits and the exponent py_float finds. *)
Definition numeral (l : text) : option (Z * Z) :=
  let '(n1, c1, r1) := take_digits 0 0 l in
  let '(n, c2, r2) := match r1 with
                      | c :: r => if Ascii.eqb c "." then take_digits n1 0 r else (n1, O, r1)
                      | [] => (n1, O, r1)
                      end in
  match (c1 + c2)%nat, exponent r2 with
  | S _, Some k => Some (n, k - Z.of_nat c2)%Z
  | _, _ => None
  end.

Lemma py_float_numeral t : py_float t =
  let '(s, l) := take_sign (strip is_space t) in
  if lower_is "inf" l || lower_is "infinity" l then Some (B754_infinity 53 1024 s)
  else if lower_is "nan" l then Some b64_nan
  else match numeral l with Some (n, d) => Some (of_digits s n d) | None => None end.
Proof.
  unfold py_float, numeral. destruct (take_sign (strip is_space t)) as [s l].
  destruct (lower_is "inf" l || lower_is "infinity" l); [reflexivity|]. destruct (lower_is "nan" l); [reflexivity|].
  destruct (take_digits 0 0 l) as [[n1 c1] r1].
  destruct (match r1 with [] => (n1, 0, r1) | c :: r => if Ascii.eqb c "." then take_digits n1 0 r else (n1, 0, r1) end) as [[n c2] r2].
  destruct (c1 + c2); [reflexivity|]. destruct (exponent r2); reflexivity.
Qed.

Lemma numeral_iff l n k : numeral l = Some (n, k) <-> number_text plain_run l n k.
Proof.
  unfold numeral. split.
  - destruct (take_digits_spec l 0 0) as (is & r1 & -> & D & NF & ->). rewrite Nat.add_0_l, Z.mul_0_l, Z.add_0_l.
    destruct r1 as [|c r1].
    + destruct (exponent []) as [ek|] eqn:E; [|destruct (length is + 0); discriminate].
      destruct (length is + 0) as [|m] eqn:LI; [discriminate|]. intros [= <- <-]. apply exponent_iff in E.
      exists is, is, [], [], [], ek. rewrite !app_nil_r. repeat split; [now apply maybe_plain|now left| |exact E].
      intros ->. discriminate LI.
    + destruct (Ascii.eqb_spec c "."%char) as [->|NP].
      * destruct (take_digits_spec r1 (decimal_value is) 0) as (fs & r2 & -> & DF & NF2 & ->). rewrite Nat.add_0_l.
        destruct (exponent r2) as [ek|] eqn:E; [|destruct (length is + length fs); discriminate].
        destruct (length is + length fs) as [|m] eqn:LI; [discriminate|]. intros [= <- <-]. apply exponent_iff in E.
        exists is, is, ("."%char :: fs), fs, r2, ek. repeat split.
        -- now apply maybe_plain.
        -- right. exists fs. split; [reflexivity|now apply maybe_plain].
        -- intros X. apply app_eq_nil in X. destruct X as (-> & ->). discriminate LI.
        -- exact E.
        -- now rewrite decimal_app.
      * destruct (exponent (c :: r1)) as [ek|] eqn:E; [|destruct (length is + 0); discriminate].
        destruct (length is + 0) as [|m] eqn:LI; [discriminate|]. intros [= <- <-]. apply exponent_iff in E.
        exists is, is, [], [], (c :: r1), ek. rewrite !app_nil_r. repeat split; [now apply maybe_plain|now left| |exact E].
        intros ->. discriminate LI.
  - intros (i & is & f & fs & e & ek & -> & I & F & NE & E & -> & ->). apply maybe_plain in I. destruct I as (-> & D).
    destruct (exponent_not_digit e ek E) as (ND & NP). pose proof E as E'. apply exponent_iff in E'.
    destruct F as [(-> & ->)|(g & -> & G)].
    + cbn [app]. rewrite take_digits_is by assumption. rewrite app_nil_r in *. rewrite Nat.add_0_l, Z.mul_0_l, Z.add_0_l.
      destruct is as [|c is]; [now elim NE|].
      destruct e as [|d e]; [|destruct (Ascii.eqb_spec d "."%char) as [->|]; [now elim (NP "."%char e)|]];
        rewrite E'; reflexivity.
    + apply maybe_plain in G. destruct G as (-> & G). cbn [app].
      rewrite (take_digits_is is) by (try exact D; intros x r [= <- <-]; unfold digit; cbn; lia).
      cbn [Ascii.eqb Bool.eqb]. rewrite Nat.add_0_l, Z.mul_0_l, Z.add_0_l. rewrite (take_digits_is fs) by assumption.
      rewrite Nat.add_0_l, E'. rewrite <- decimal_app by assumption.
      destruct (length is + length fs) as [|m] eqn:LI; [|reflexivity].
      exfalso. apply NE. rewrite <- app_length in LI. now apply length_zero_iff_nil in LI.
Qed.

Lemma plain_float_iff t x : py_float t = Some x <-> float_text_by plain_run t x.
Proof.
  rewrite py_float_numeral. unfold float_text_by. split.
  - destruct (proj1 (within_strip _ _ is_space_white t (strip is_space t)) eq_refl) as (a & b & E & A & B & _).
    destruct (take_sign_spec (strip is_space t)) as (sg & neg & l & ES & S & ->).
    assert (T : t = a ++ sg ++ l ++ b) by (rewrite E at 1; rewrite ES, <- app_assoc; reflexivity).
    intros H. exists a, sg, neg, l, b. repeat split; try assumption.
    destruct (lower_is "inf" l) eqn:L1; [|destruct (lower_is "infinity" l) eqn:L2; [|destruct (lower_is "nan" l) eqn:L3]]; cbn [orb] in H.
    + injection H as <-. left. split; [left|reflexivity]. apply spells_iff; [apply small_letters; cbn; tauto|exact L1].
    + injection H as <-. left. split; [right|reflexivity]. apply spells_iff; [apply small_letters; cbn; tauto|exact L2].
    + injection H as <-. right. left. split; [|reflexivity]. apply spells_iff; [apply small_letters; cbn; tauto|exact L3].
    + destruct (numeral l) as [[n d]|] eqn:N; [|discriminate]. injection H as <-. right. right. exists n, d.
      apply numeral_iff in N. split; [exact N|]. apply of_digits_nearest.
      destruct N as (i & is & f & fs & e & ek & _ & I & F & _ & _ & -> & _). apply decimal_nonneg. apply maybe_plain in I.
      apply Forall_app. split; [apply I|]. destruct F as [(_ & ->)|(g & _ & G)]; [apply Forall_nil|]. now apply maybe_plain in G.
  - intros (a & sg & neg & body & b & -> & A & B & S & H).
    assert (SH : not_first is_sign body /\ body <> [] /\ not_first white_char body /\ not_last white_char body).
    { destruct H as [([H|H] & _)|[(H & _)|(n & k & H & _)]].
      - destruct (spells_not_numeral "inf" body) as (X & _ & NE & L & F); [cbn; tauto|exact H|]. repeat split; assumption.
      - destruct (spells_not_numeral "infinity" body) as (X & _ & NE & L & F); [cbn; tauto|exact H|]. repeat split; assumption.
      - destruct (spells_not_numeral "nan" body) as (X & _ & NE & L & F); [cbn; tauto|exact H|]. repeat split; assumption.
      - destruct (number_first body n k H) as (c & r & -> & C). repeat split.
        + intros d r' [= <- <-] X. destruct C as [C| ->]; [now apply (digit_not_sign c C)|destruct X; discriminate].
        + discriminate.
        + intros d r' [= <- <-] X. destruct C as [C| ->]; [now apply (digit_not_white c C)|unfold white_char in X; cbn in X; lia].
        + now apply (number_not_white _ n k). }
    destruct SH as (NS & NE & NW & NL).
    rewrite (proj2 (within_strip _ _ is_space_white (a ++ sg ++ body ++ b) (sg ++ body))).
    2:{ exists a, b. split; [now rewrite <- app_assoc|]. split; [exact A|]. split; [exact B|].
        apply (signed_within sg neg); [exact S| |].
        - destruct body as [|c r]; [now elim NE|]. exists c, r. split; [reflexivity|]. now apply (NW c r).
        - destruct body as [|c r _] using rev_ind; [now elim NE|]. exists r, c. split; [reflexivity|]. now apply (NL c r). }
    rewrite (take_sign_is sg neg body S NS).
    assert (SI : forall w, In w ["inf"; "infinity"; "nan"]%string -> lower_is w body = true <-> spells w body).
    { intros w W. apply spells_iff, small_letters, W. }
    destruct H as [(H & ->)|[(H & ->)|(n & k & H & N)]].
    + replace (lower_is "inf" body || lower_is "infinity" body) with true; [reflexivity|].
      symmetry. apply orb_true_iff. destruct H as [H|H]; [left|right]; apply SI; cbn; tauto.
    + assert (X : lower_is "inf" body || lower_is "infinity" body = false).
      { apply orb_false_iff. apply SI in H; [|cbn; tauto]. unfold lower_is in H |- *. apply text_eqb_eq in H. rewrite H. now split. }
      rewrite X. apply SI in H; [|cbn; tauto]. now rewrite H.
    + destruct (number_first body n k H) as (c & r & EB & C).
      assert (NO : forall w, In w ["inf"; "infinity"; "nan"]%string -> lower_is w body = false).
      { intros w W. destruct (lower_is w body) eqn:L; [|reflexivity]. apply SI in L; [|exact W].
        apply spells_not_numeral in L; [|exact W]. now elim (proj1 (proj2 L) c r EB). }
      rewrite !NO by (cbn; tauto). cbn [orb]. apply numeral_iff in H. rewrite H. f_equal.
      apply (nearest_unique neg (IZR n * bpow radix10 k)); [|exact N]. apply of_digits_nearest.
      apply numeral_iff in H. destruct H as (i & is & f & fs & e & ek & _ & I & F & _ & _ & -> & _). apply decimal_nonneg. apply maybe_plain in I.
      apply Forall_app. split; [apply I|]. destruct F as [(_ & ->)|(g & _ & G)]; [apply Forall_nil|]. now apply maybe_plain in G.
Qed.

(** * Underscores *)

Definition D (b : bool) (t u : text) : Prop := drop_underscores b t = Some u.

Lemma D_cons b c t u : c <> "_"%char -> D b (c :: t) (c :: u) <-> D (is_digit c) t u.
Proof.
  intros N. unfold D. cbn [drop_underscores]. apply Ascii.eqb_neq in N. rewrite N.
  destruct (drop_underscores (is_digit c) t); cbn [option_map]; split; intros [=]; subst; reflexivity.
Qed.

Lemma D_inv b t c u : D b t (c :: u) ->
  (exists t', t = c :: t' /\ c <> "_"%char /\ D (is_digit c) t' u) \/
  (exists t', b = true /\ is_digit c = true /\ t = "_"%char :: c :: t' /\ D true t' u).
Proof.
  unfold D. destruct t as [|x t]; cbn [drop_underscores]; [discriminate|].
  destruct (Ascii.eqb_spec x "_"%char) as [->|N].
  - destruct t as [|d t]; [discriminate|]. destruct b; cbn [andb]; [|discriminate]. destruct (is_digit d) eqn:DD; [|discriminate].
    cbn [drop_underscores]. assert (X : Ascii.eqb d "_" = false) by (apply Ascii.eqb_neq; intros ->; discriminate DD).
    rewrite X, DD. destruct (drop_underscores true t) as [v|] eqn:E; [|discriminate]. intros [= -> ->]. right. now exists t.
  - destruct (drop_underscores (is_digit x) t) as [v|] eqn:E; [|discriminate]. intros [= -> ->]. left. now exists t.
Qed.

Lemma D_nil_inv b t : D b t [] -> t = [].
Proof.
  unfold D. destruct t as [|x t]; [reflexivity|]. cbn [drop_underscores]. destruct (Ascii.eqb x "_").
  - destruct t as [|d t]; [discriminate|]. destruct b; cbn [andb]; [|discriminate]. destruct (is_digit d) eqn:DD; [|discriminate].
    cbn [drop_underscores]. assert (X : Ascii.eqb d "_" = false) by (apply Ascii.eqb_neq; intros ->; discriminate DD).
    rewrite X. destruct (drop_underscores (is_digit d) t); discriminate.
  - destruct (drop_underscores (is_digit x) t); discriminate.
Qed.

(** Texts without digits and underscores are kept. *)
Definition other (s : text) : Prop := Forall (fun c => ~ digit c /\ c <> "_"%char) s.

Lemma not_digit c : ~ digit c -> is_digit c = false.
Proof. intros N. destruct (is_digit c) eqn:E; [apply is_digit_digit in E; contradiction|reflexivity]. Qed.

Lemma D_other s : other s -> forall b t u, s <> [] -> D b (s ++ t) (s ++ u) <-> D false t u.
Proof.
  induction 1 as [|c s (N & NU) O IH]; intros b t u NE; [now elim NE|]. cbn [app]. rewrite D_cons by exact NU.
  rewrite not_digit by exact N. destruct s as [|d s]; [reflexivity|]. apply IH. discriminate.
Qed.

Lemma D_other_inv s : other s -> forall b t u, D b t (s ++ u) -> exists t', t = s ++ t' /\ D (match s with [] => b | _ => false end) t' u.
Proof.
  induction 1 as [|c s (N & NU) O IH]; intros b t u H; [exists t; now split|]. cbn [app] in H. apply D_inv in H.
  destruct H as [(t' & -> & _ & H)|(t' & _ & X & _)]; [|rewrite not_digit in X by exact N; discriminate X].
  rewrite not_digit in H by exact N. apply IH in H. destruct H as (t'' & -> & H). exists t''. split; [reflexivity|].
  destruct s; exact H.
Qed.

(** A run of digits. *)
Lemma D_run s ds : spelled s ds -> forall b t u, D b (s ++ t) (ds ++ u) <-> D true t u.
Proof.
  induction 1 as [c C|c s ds C S IH|c s ds C S IH]; intros b t u; cbn [app];
    rewrite D_cons by (intros ->; unfold digit in C; cbn in C; lia); apply is_digit_digit in C; rewrite C.
  - reflexivity.
  - apply IH.
  - destruct (spelled_first _ _ S) as (d & r & -> & DD). apply is_digit_digit in DD.
    assert (X : D true ("_"%char :: (d :: r) ++ t) (ds ++ u) <-> D false ((d :: r) ++ t) (ds ++ u)).
    { unfold D. change (drop_underscores true ("_"%char :: (d :: r) ++ t))
        with (if true && is_digit d then drop_underscores false ((d :: r) ++ t) else None). rewrite DD. reflexivity. }
    rewrite X. apply IH.
Qed.

Lemma D_run_inv ds : is_decimal ds -> forall b t u, ds <> [] -> not_first digit u -> b = false -> D b t (ds ++ u) ->
  exists s t', t = s ++ t' /\ spelled s ds /\ D true t' u /\ not_first (eq "_"%char) t'.
Proof.
  assert (G : forall k ds, length ds <= k -> is_decimal ds -> forall t u, ds <> [] -> not_first digit u -> D false t (ds ++ u) ->
    exists s t', t = s ++ t' /\ spelled s ds /\ D true t' u /\ not_first (eq "_"%char) t').
  { induction k as [|k IH]; intros es L DD t u NE NF H; [destruct es; [now elim NE|cbn in L; lia]|].
    destruct es as [|c es]; [now elim NE|]. inversion DD as [|? ? C DE]; subst. cbn [app length] in H, L. apply D_inv in H.
    destruct H as [(t' & -> & NU & H)|(t' & X & _)]; [|discriminate X].
    pose proof (proj2 (is_digit_digit c) C) as C'. rewrite C' in H.
    destruct es as [|d es].
    - exists [c], t'. repeat split; [now constructor|exact H|]. intros x r -> <-. cbn [app] in H.
      destruct u as [|y u]; [apply D_nil_inv in H; discriminate H|]. apply D_inv in H.
      destruct H as [(t'' & [= <- <-] & X & _)|(t'' & _ & X & _)]; [now elim X|]. apply is_digit_digit in X. now apply (NF y u).
    - cbn [app] in H. pose proof H as H0. apply D_inv in H. destruct H as [(t'' & -> & NU' & H)|(t'' & _ & DC & -> & H)].
      + destruct (IH (d :: es) ltac:(cbn in *; lia) DE (d :: t'') u ltac:(discriminate) NF) as (s & t3 & E & S & H3 & N3).
        { now apply D_cons. }
        exists (c :: s), t3. rewrite E. repeat split; [now apply sp_next|exact H3|exact N3].
      + destruct (IH (d :: es) ltac:(cbn in *; lia) DE (d :: t'') u ltac:(discriminate) NF) as (s & t3 & E & S & H3 & N3).
        { apply D_cons; [intros ->; discriminate DC|]. now rewrite DC. }
        exists (c :: "_"%char :: s), t3. rewrite E. repeat split; [now apply sp_under|exact H3|exact N3]. }
  intros DD b t u NE NF -> H. exact (G (length ds) ds (le_n _) DD t u NE NF H).
Qed.

Lemma D_state b b' t u : not_first (eq "_"%char) t -> D b t u -> D b' t u.
Proof.
  unfold D. destruct t as [|c t]; [auto|]. intros N. cbn [drop_underscores].
  assert (X : Ascii.eqb c "_" = false) by (apply Ascii.eqb_neq; intros ->; now elim (N "_"%char t)). now rewrite X.
Qed.

Lemma D_refl s b : other s -> D b s s.
Proof.
  intros O. destruct s as [|c s]; [reflexivity|]. pose proof (proj2 (D_other (c :: s) O b [] [] ltac:(discriminate))) as H.
  rewrite app_nil_r in H. now apply H.
Qed.

Lemma white_other a : white_text a -> other a.
Proof.
  intros W. eapply Forall_impl; [|exact W]. intros c C. split; [intros DC; now apply (digit_not_white c)|].
  intros ->. unfold white_char in C. cbn in C. lia.
Qed.

Lemma sign_other sg neg : sign_text sg neg -> other sg.
Proof. intros S. destruct S; repeat constructor; try discriminate; unfold digit; cbn; lia. Qed.

Lemma spells_other w t : In w ["inf"; "infinity"; "nan"]%string -> spells w t -> other t.
Proof.
  intros W S. unfold spells in S.
  assert (L : forall c d, In c (lit w) -> (d = c \/ (65 <= nat_of_ascii d <= 90 /\ nat_of_ascii c = nat_of_ascii d + 32)) ->
    ~ digit d /\ d <> "_"%char).
  { intros c d I X. assert (Y : 65 <= nat_of_ascii d /\ nat_of_ascii d <> 95).
    { destruct X as [->|(X & _)]; [|lia]. cbn in W. destruct W as [<-|[<-|[<-|[]]]]; cbn in I; repeat (destruct I as [<-|I]; [cbn; lia|]); destruct I. }
    split; [unfold digit; lia|]. intros ->. cbn in Y. lia. }
  revert L. generalize (lit w) S. clear. intros w S L. induction S as [|c d w t X S IH]; constructor.
  - apply (L c d); [now left|exact X].
  - apply IH. intros c' d' I. apply L. now right.
Qed.

(** ** From spelled digits to plain ones *)

Lemma other_first s : other s -> not_first (eq "_"%char) s.
Proof. intros O c r -> <-. inversion O as [|? ? (_ & N)]; subst. now elim N. Qed.

Lemma run_plain s ds : spelled s ds -> plain_run ds ds.
Proof. intros S. apply spelled_digits in S. split; [reflexivity|exact S]. Qed.

Lemma maybe_drop i is : maybe_run spelled i is -> maybe_run plain_run is is /\
  forall b t u, not_first (eq "_"%char) t -> D false t u -> D b (i ++ t) (is ++ u).
Proof.
  intros [(-> & ->)|S].
  - split; [now left|]. intros b t u N H. cbn [app]. now apply (D_state false).
  - split; [right; now apply (run_plain i)|]. intros b t u N H. apply (D_run i is S). now apply (D_state false).
Qed.

Lemma exponent_drop e ek : exponent_text spelled e ek -> exists e', exponent_text plain_run e' ek /\
  not_first (eq "_"%char) e /\ forall b t u, not_first (eq "_"%char) t -> D false t u -> D b (e ++ t) (e' ++ u).
Proof.
  intros [(-> & ->)|(c & sg & neg & body & ds & -> & C & S & R & ->)].
  - exists []. split; [now left|]. split; [intros c r E; discriminate E|]. intros b t u N H. cbn [app]. now apply (D_state false).
  - exists (c :: sg ++ ds). split; [right; exists c, sg, neg, ds, ds; repeat split; try assumption; apply (run_plain body ds R)|].
    assert (O : other (c :: sg)).
    { constructor; [|now apply (sign_other sg neg)]. destruct C as [-> | ->]; split; try discriminate; unfold digit; cbn; lia. }
    split; [intros x r [= <- <-] E; destruct C as [-> | ->]; discriminate E|]. intros b t u N H.
    replace ((c :: sg ++ body) ++ t) with ((c :: sg) ++ body ++ t) by (cbn [app]; now rewrite <- app_assoc).
    replace ((c :: sg ++ ds) ++ u) with ((c :: sg) ++ ds ++ u) by (cbn [app]; now rewrite <- app_assoc).
    apply D_other; [exact O|discriminate|]. apply (D_run body ds R). now apply (D_state false).
Qed.

Lemma not_first_app (P : ascii -> Prop) s t : not_first P s -> (s = [] -> not_first P t) -> not_first P (s ++ t).
Proof. intros S T. destruct s as [|c s]; [now apply T|]. intros x r [= <- <-]. now apply (S c s). Qed.

Lemma number_drop body n k : number_text spelled body n k -> exists body', number_text plain_run body' n k /\
  forall b t u, not_first (eq "_"%char) t -> D false t u -> D b (body ++ t) (body' ++ u).
Proof.
  intros (i & is & f & fs & e & ek & -> & I & F & NE & E & EN & EK).
  destruct (exponent_drop e ek E) as (e' & E' & NU & DE). destruct (maybe_drop i is I) as (I' & DI).
  destruct F as [(-> & ->)|(g & -> & G)].
  - exists (is ++ [] ++ e'). split; [exists is, is, [], [], e', ek; repeat split; try assumption; now left|].
    intros b t u N H. cbn [app]. rewrite <- !app_assoc. apply DI; [|now apply DE].
    apply not_first_app; [exact NU|]. now intros _.
  - destruct (maybe_drop g fs G) as (G' & DG).
    exists (is ++ ("."%char :: fs) ++ e'). split.
    { exists is, is, ("."%char :: fs), fs, e', ek. repeat split; try assumption. right. now exists fs. }
    intros b t u N H. rewrite <- !app_assoc. apply DI; [intros x r [= <- <-]; discriminate|]. cbn [app].
    apply D_cons; [discriminate|]. change (is_digit ".") with false.
    apply DG; [|now apply DE]. apply not_first_app; [exact NU|]. now intros _.
Qed.

Lemma float_text_drop t x : float_text t x -> exists u, D false t u /\ float_text_by plain_run u x.
Proof.
  intros (a & sg & neg & body & b & -> & A & B & S & H).
  assert (X : exists body', (forall u v, not_first (eq "_"%char) u -> D false u v -> forall b, D b (body ++ u) (body' ++ v)) /\
    (((spells "inf" body' \/ spells "infinity" body') /\ x = B754_infinity 53 1024 neg) \/
     (spells "nan" body' /\ x = b64_nan) \/
     exists n k, number_text plain_run body' n k /\ nearest_double neg (IZR n * bpow radix10 k) x)).
  { assert (W : forall w, In w ["inf"; "infinity"; "nan"]%string -> spells w body ->
      forall u v, not_first (eq "_"%char) u -> D false u v -> forall b, D b (body ++ u) (body ++ v)).
    { intros w I SP u v N H' b'. apply D_other; [now apply (spells_other w)| |exact H'].
      intros ->. apply spells_not_numeral in SP; [|exact I]. now elim (proj1 (proj2 (proj2 SP))). }
    destruct H as [([H|H] & E)|[(H & E)|(n & k & H & N)]].
    - exists body. split; [apply (W "inf"%string); [cbn; tauto|exact H]|left; auto].
    - exists body. split; [apply (W "infinity"%string); [cbn; tauto|exact H]|left; auto].
    - exists body. split; [apply (W "nan"%string); [cbn; tauto|exact H]|auto].
    - destruct (number_drop body n k H) as (body' & H' & DB). exists body'. split; [intros u v N' H'' b'; now apply DB|].
      right. right. now exists n, k. }
  destruct X as (body' & DB & X). exists (a ++ sg ++ body' ++ b). split.
  - pose proof (white_other a A) as OA. pose proof (white_other b B) as OB. pose proof (sign_other sg neg S) as OS.
    assert (R : forall b', D b' (body ++ b) (body' ++ b)) by (apply DB; [now apply other_first|now apply D_refl]).
    assert (R2 : forall b', D b' (sg ++ body ++ b) (sg ++ body' ++ b)).
    { intros b'. destruct sg as [|c sg]; [apply R|]. apply D_other; [exact OS|discriminate|]. apply R. }
    destruct a as [|c a]; [apply R2|]. apply D_other; [exact OA|discriminate|]. apply R2.
  - exists a, sg, neg, body', b. repeat split; assumption.
Qed.

(** ** And back *)

Lemma maybe_undrop is t u : maybe_run plain_run is is -> not_first digit u -> D false t (is ++ u) ->
  exists i t', t = i ++ t' /\ maybe_run spelled i is /\ D false t' u.
Proof.
  intros [(E & _)|(_ & DD & NE)] NF H.
  - subst is. exists [], t. repeat split; [now left|exact H].
  - destruct (D_run_inv is DD false t u NE NF eq_refl H) as (s & t' & -> & S & H' & N).
    exists s, t'. repeat split; [now right|]. now apply (D_state true).
Qed.

Lemma other_one c : ~ digit c -> c <> "_"%char -> other [c].
Proof. intros A B. constructor; [now split|constructor]. Qed.

Lemma exponent_undrop e' ek t u : exponent_text plain_run e' ek -> not_first digit u -> D false t (e' ++ u) ->
  exists e t', t = e ++ t' /\ exponent_text spelled e ek /\ D false t' u.
Proof.
  intros [(-> & ->)|(c & sg & neg & body & ds & -> & C & S & (-> & DD & NE) & ->)] NF H.
  - exists [], t. repeat split; [now left|exact H].
  - assert (O : other (c :: sg)).
    { constructor; [|now apply (sign_other sg neg)]. destruct C as [-> | ->]; split; try discriminate; unfold digit; cbn; lia. }
    replace ((c :: sg ++ ds) ++ u) with ((c :: sg) ++ ds ++ u) in H by (cbn [app]; now rewrite <- app_assoc).
    apply D_other_inv in H; [|exact O]. destruct H as (t1 & -> & H). cbv iota in H.
    destruct (D_run_inv ds DD false t1 u NE NF eq_refl H) as (s & t' & -> & SP & H' & N).
    exists (c :: sg ++ s), t'. split; [cbn [app]; now rewrite <- app_assoc|]. split; [|now apply (D_state true)].
    right. exists c, sg, neg, s, ds. repeat split; assumption.
Qed.

Lemma exponent_first e k u : exponent_text plain_run e k -> not_first digit u -> not_first digit (e ++ u).
Proof. intros E N. apply not_first_app; [now apply (exponent_not_digit e k)|]. now intros _. Qed.

Lemma number_undrop body' n k t u : number_text plain_run body' n k -> not_first digit u -> D false t (body' ++ u) ->
  exists body t', t = body ++ t' /\ number_text spelled body n k /\ D false t' u.
Proof.
  intros (i & is & f & fs & e & ek & -> & I & F & NE & E & EN & EK) NF H.
  assert (I' : maybe_run plain_run is is) by (apply maybe_plain in I; apply maybe_plain; split; [reflexivity|apply I]).
  apply maybe_plain in I. destruct I as (-> & _).
  destruct F as [(-> & ->)|(g & -> & G)].
  - cbn [app] in H. rewrite <- app_assoc in H. apply maybe_undrop in H; [|exact I'|now apply (exponent_first e ek)].
    destruct H as (i' & t1 & -> & MI & H). apply (exponent_undrop e ek) in H; [|exact E|exact NF].
    destruct H as (e2 & t' & -> & E2 & H). exists (i' ++ [] ++ e2), t'. split; [now rewrite <- app_assoc|]. split; [|exact H].
    exists i', is, [], [], e2, ek. repeat split; try assumption. now left.
  - assert (G' : maybe_run plain_run fs fs) by (apply maybe_plain in G; apply maybe_plain; split; [reflexivity|apply G]).
    apply maybe_plain in G. destruct G as (-> & _). rewrite <- !app_assoc in H.
    apply maybe_undrop in H; [|exact I'|intros c r [= <- <-]; unfold digit; cbn; lia].
    destruct H as (i' & t1 & -> & MI & H).
    change (("."%char :: fs) ++ e ++ u) with (["."%char] ++ fs ++ e ++ u) in H.
    apply D_other_inv in H; [|apply other_one; [unfold digit; cbn; lia|discriminate]]. destruct H as (t2 & -> & H). cbv iota in H.
    apply maybe_undrop in H; [|exact G'|now apply (exponent_first e ek)].
    destruct H as (g' & t3 & -> & MG & H). apply (exponent_undrop e ek) in H; [|exact E|exact NF].
    destruct H as (e2 & t' & -> & E2 & H). exists (i' ++ ("."%char :: g') ++ e2), t'.
    split; [now rewrite <- !app_assoc|]. split; [|exact H].
    exists i', is, ("."%char :: g'), fs, e2, ek. repeat split; try assumption. right. now exists g'.
Qed.

Lemma float_text_undrop t u x : D false t u -> float_text_by plain_run u x -> float_text t x.
Proof.
  intros H (a & sg & neg & body & b & -> & A & B & S & X).
  pose proof (white_other a A) as OA. pose proof (white_other b B) as OB. pose proof (sign_other sg neg S) as OS.
  apply D_other_inv in H; [|exact OA]. destruct H as (t1 & -> & H).
  assert (H1 : D false t1 (sg ++ body ++ b)) by (destruct a; exact H). clear H.
  apply D_other_inv in H1; [|exact OS]. destruct H1 as (t2 & -> & H).
  assert (H2 : D false t2 (body ++ b)) by (destruct sg; exact H). clear H.
  assert (E : exists body' t3, t2 = body' ++ t3 /\ D false t3 b /\
    (((spells "inf" body' \/ spells "infinity" body') /\ x = B754_infinity 53 1024 neg) \/
     (spells "nan" body' /\ x = b64_nan) \/
     exists n k, number_text spelled body' n k /\ nearest_double neg (IZR n * bpow radix10 k) x)).
  { assert (W : forall w, In w ["inf"; "infinity"; "nan"]%string -> spells w body -> exists t3, t2 = body ++ t3 /\ D false t3 b).
    { intros w I SP. apply D_other_inv in H2; [|now apply (spells_other w)]. destruct H2 as (t3 & -> & H). exists t3. split; [reflexivity|].
      destruct body; exact H. }
    destruct X as [([X|X] & E)|[(X & E)|(n & k & X & N)]].
    - destruct (W "inf"%string) as (t3 & E3 & H3); [cbn; tauto|exact X|]. exists body, t3. auto 6.
    - destruct (W "infinity"%string) as (t3 & E3 & H3); [cbn; tauto|exact X|]. exists body, t3. auto 6.
    - destruct (W "nan"%string) as (t3 & E3 & H3); [cbn; tauto|exact X|]. exists body, t3. auto 6.
    - destruct (number_undrop body n k t2 b X) as (body' & t3 & E3 & X' & H3); [|exact H2|].
      + intros c r EB DC. rewrite EB in B. inversion B; subst. now apply (digit_not_white c).
      + exists body', t3. repeat split; try assumption. right. right. now exists n, k. }
  destruct E as (body' & t3 & -> & H3 & X').
  assert (t3 = b) as ->.
  { rewrite <- (app_nil_r b) in H3. apply D_other_inv in H3; [|exact OB]. destruct H3 as (t4 & -> & H4). apply D_nil_inv in H4. subst t4. apply app_nil_r. }
  exists a, sg, neg, body', b. repeat split; assumption.
Qed.

Theorem float_text_iff t x : float_arg t = Some x <-> float_text t x.
Proof.
  unfold float_arg. split.
  - destruct (drop_underscores false t) as [u|] eqn:E; [|discriminate]. intros H. apply plain_float_iff in H.
    now apply (float_text_undrop t u).
  - intros H. apply float_text_drop in H. destruct H as (u & E & H). unfold D in E. rewrite E. now apply plain_float_iff.
Qed.
