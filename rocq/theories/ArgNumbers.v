(** The values of decimal numbers on the command line. *)
From Coq Require Import Ascii String List Bool PeanoNat ZArith Reals Lia Lra.
Import ListNotations.
From Flocq Require Import Core IEEE754.BinarySingleNaN IEEE754.Binary IEEE754.Bits.
From Verif Require Import MdsMeta MdsTextFacts MdsScanFacts SpecMds SpecTimes PyFloat PyFloatFacts FmtEFacts ArgParse Main SpecArgs ArgFacts.
Local Open Scope nat_scope.
Local Open Scope list_scope.

Lemma all_digits_forallb l : all_digits l <-> forallb is_digit l = true.
Proof. unfold all_digits. now rewrite Forall_forall, forallb_forall. Qed.

Lemma drop_none l : forall b, ~ In "_"%char l -> drop_underscores b l = Some l.
Proof.
  induction l as [|c l IH]; intros b H; [reflexivity|]. cbn [drop_underscores].
  destruct (Ascii.eqb_spec c "_") as [-> |]; [destruct H; now left|].
  rewrite IH; [reflexivity|]. intros K. apply H. now right.
Qed.

Lemma number_value l : forallb is_digit l = true -> number l = Z.of_N (digits_value 0 l).
Proof.
  intros H. unfold number.
  assert (G : forall l n, forallb is_digit l = true ->
    fold_left (fun a c => 10 * a + (Z.of_nat (nat_of_ascii c) - 48))%Z l (Z.of_N n) = Z.of_N (digits_value n l)).
  { clear. induction l as [|c l IH]; intros n H; [reflexivity|]. cbn [forallb] in H. apply andb_prop in H as (C & H).
    cbn [fold_left]. change (digits_value n (c :: l)) with (digits_value (10 * n + digit_val c) l). rewrite <- IH by exact H.
    f_equal. rewrite N2Z.inj_add, N2Z.inj_mul, digit_val_Z by exact C. reflexivity. }
  exact (G l 0%N H).
Qed.

Lemma decimal_chars neg a point b : decimal_parts a point b ->
  forallb (fun c : ascii => is_digit c || existsb (Ascii.eqb c) ["."; "-"]%char) (decimal_text neg a point b) = true.
Proof.
  intros (A & B & _). apply all_digits_forallb in A, B.
  assert (G : forall d : text, forallb is_digit d = true ->
    forallb (fun c : ascii => is_digit c || existsb (Ascii.eqb c) ["."; "-"]%char) d = true).
  { intros d. apply forallb_imp. intros x X. now rewrite X. }
  unfold decimal_text. rewrite !forallb_app. rewrite (G a A).
  destruct neg, point; cbn [forallb]; try rewrite (G b B); reflexivity.
Qed.

Lemma decimal_read neg a point b : decimal_parts a point b ->
  float_arg (decimal_text neg a point b) =
  Some (if (number (a ++ b) =? 0)%Z then B754_zero 53 1024 neg
        else b64_ratio neg (number (a ++ b)) (10 ^ Z.of_nat (length b))).
Proof.
  intros P. pose proof (decimal_chars neg a point b P) as C. destruct P as (A & B & N & D).
  apply all_digits_forallb in A, B.
  unfold float_arg. rewrite drop_none.
  2:{ rewrite forallb_forall in C. intros I. specialize (C _ I). discriminate C. }
  unfold py_float. rewrite strip_none.
  2:{ eapply forallb_imp; [|exact C]. intros x X. apply negb_true_iff. apply orb_prop in X as [X|X]; [now apply digit_facts|].
      cbn [existsb] in X. repeat (apply orb_prop in X; destruct X as [X|X]; [apply Ascii.eqb_eq in X; subst x; reflexivity|]).
      discriminate X. }
  assert (TS : take_sign (decimal_text neg a point b) = (neg, a ++ (if point then "."%char :: b else []))).
  { unfold decimal_text. destruct neg; [reflexivity|]. cbn [app]. destruct a as [|c a].
    - cbn [app]. destruct point; [reflexivity|]. rewrite (D eq_refl) in N. now destruct N.
    - cbn [app take_sign]. cbn [forallb] in A. apply andb_prop in A as (Ac & _).
      destruct (digit_facts c Ac) as (_ & M & Q & _). apply Ascii.eqb_neq in M, Q. now rewrite M, Q. }
  rewrite TS.
  assert (LI : forall w c0 w', w = String c0 w' -> is_digit c0 = false -> c0 <> "."%char ->
    lower_is w (a ++ (if point then "."%char :: b else [])) = false).
  { intros w c0 w' -> W W'. destruct a as [|c a].
    - cbn [app]. destruct point; [|rewrite (D eq_refl) in N; now destruct N].
      apply text_eqb_neq. intros E. apply (f_equal (hd "0"%char)) in E. cbn [map lit list_ascii_of_string hd] in E.
      change (nat_of_ascii ".") with 46 in E. cbn in E. congruence.
    - cbn [app]. cbn [forallb] in A. apply andb_prop in A as (Ac & _). eapply lower_is_digit; eauto. }
  rewrite !(LI _ _ _ eq_refl) by (reflexivity || discriminate). cbn [orb].
  change 0%Z with (Z.of_N 0) at 1. rewrite take_digits_run; [|exact A|destruct point; [reflexivity|exact I]].
  assert (NV : forall n c, take_digits (Z.of_N n) c b = (Z.of_N (digits_value n b), c + length b, [])).
  { intros n c. rewrite <- (app_nil_r b) at 1. now apply take_digits_run. }
  rewrite number_value by (rewrite forallb_app, A, B; reflexivity). rewrite digits_value_app.
  assert (L : exists k, length a + length b = S k).
  { destruct a; [destruct b; [now destruct N|]|]; cbn; eauto. }
  destruct L as (k & L).
  set (m := Z.of_N (digits_value (digits_value 0 a) b)).
  assert (Fin : (if (m =? 0)%Z then B754_zero 53 1024 neg
     else if (0 <=? 0 - Z.of_nat (length b))%Z then b64_ratio neg (m * 10 ^ (0 - Z.of_nat (length b))) 1
     else b64_ratio neg m (10 ^ (- (0 - Z.of_nat (length b))))) =
     (if (m =? 0)%Z then B754_zero 53 1024 neg else b64_ratio neg m (10 ^ Z.of_nat (length b)))).
  { destruct (m =? 0)%Z; [reflexivity|]. destruct (Z.leb_spec 0 (0 - Z.of_nat (length b))) as [G|G].
    - assert (Z.of_nat (length b) = 0)%Z as -> by lia. cbn [Z.sub Z.opp Z.pow]. now rewrite Z.mul_1_r.
    - do 2 f_equal. lia. }
  destruct point.
  - cbn [Ascii.eqb Bool.eqb]. rewrite NV. cbn [Nat.add]. cbn [exponent]. rewrite L. f_equal. exact Fin.
  - pose proof (D eq_refl) as Db. subst m. subst b. cbn [length exponent]. cbn [length] in L. rewrite Nat.add_0_r in *. cbn [Nat.add].
    rewrite L. f_equal. exact Fin.
Qed.

Local Open Scope R_scope.

(** The double nearest to the decimal number. *)
Theorem decimal_nearest neg a point b : decimal_parts a point b ->
  let r := round radix2 fexp64 ZnearestE (IZR (number (a ++ b)) / 10 ^ length b) in
  r < bpow radix2 1024 ->
  exists x, float_arg (decimal_text neg a point b) = Some x /\ is_finite 53 1024 x = true /\
    B2R 53 1024 x = (if neg then - r else r) /\ Bsign 53 1024 x = neg.
Proof.
  intros P r R. rewrite (decimal_read neg a point b P). eexists. split; [reflexivity|].
  assert (NN : (0 <= number (a ++ b))%Z).
  { destruct P as (A & B & _). apply all_digits_forallb in A, B.
    rewrite number_value by (rewrite forallb_app, A, B; reflexivity). lia. }
  assert (T : 10 ^ length b = IZR (10 ^ Z.of_nat (length b))) by (now rewrite <- pow_IZR).
  destruct (Z.eqb_spec (number (a ++ b)) 0) as [E|E].
  - cbn [is_finite B2R Bsign]. repeat split. unfold r. rewrite E. unfold Rdiv. rewrite Rmult_0_l, round_0 by typeclasses eauto.
    destruct neg; ring.
  - unfold r in *. rewrite T in *.
    destruct (b64_ratio_nearest neg (number (a ++ b)) (10 ^ Z.of_nat (length b))) as (A & B & C);
      [lia|apply Z.pow_pos_nonneg; lia|exact R|]. auto.
Qed.
Local Close Scope R_scope.

(** A decimal number can follow its option unless it is negative and ends in its point. *)
Theorem decimal_plain g neg a point b : decimal_parts a point b ->
  (plain g (decimal_text neg a point b) <-> ~ (neg = true /\ point = true /\ b = [])).
Proof.
  intros (A & B & N & D). unfold decimal_text. destruct neg.
  - cbn [app]. split.
    + intros P (_ & -> & ->). unfold plain in P. destruct P as [P|[P|[P|(P & _)]]].
      * eapply P. reflexivity.
      * destruct a; [now destruct N|discriminate].
      * destruct P as (a' & b' & E & A' & f & e & -> & Ee & H). injection E as E.
        destruct H as [(-> & Na)|(d & -> & Dd & Nd)]; cbn [app] in E.
        -- destruct (digits_maximal a a' ["."%char] e A A') as (_ & K); auto.
           ++ destruct Ee as [-> | ->]; [exact I|reflexivity].
           ++ subst e. destruct Ee; discriminate.
        -- destruct (digits_maximal a a' ["."%char] ("."%char :: d ++ e) A A') as (_ & K); auto; try reflexivity.
           injection K as K. destruct d; [congruence|discriminate].
      * cbn [In] in P. rewrite in_app_iff in P. cbn [In] in P. destruct P as [P|[P|[P|[]]]]; try discriminate.
        unfold all_digits in A. rewrite Forall_forall in A. specialize (A _ P). discriminate.
    + intros H. right. right. left. exists a, (if point then "."%char :: b else []). repeat split; auto.
      exists (if point then "."%char :: b else []), []. rewrite app_nil_r. split; [reflexivity|]. split; [now left|].
      destruct point.
      * right. exists b. repeat split; auto.
      * left. split; [reflexivity|]. rewrite (D eq_refl), app_nil_r in N. exact N.
  - cbn [app]. split; [intros _ (K & _); discriminate|]. intros _. left. intros r E.
    destruct a as [|c a].
    + cbn [app] in E. destruct point; [discriminate|]. rewrite (D eq_refl) in N. now destruct N.
    + cbn [app] in E. injection E as -> _. inversion A; subst. discriminate.
Qed.
