From Coq Require Import Ascii String List Bool PeanoNat ZArith NArith Reals Lia Lra.
Import ListNotations.
From Flocq Require Import Core IEEE754.Binary IEEE754.Bits.
From Verif Require Import MdsMeta MdsTextFacts FmtE FmtEFacts FmtF PyFloatFacts SpecTimes ArgNumbers.
Local Open Scope Z_scope.
Local Open Scope list_scope.

Lemma half_even_nearest a b : 0 < b -> half_even a b = ZnearestE (IZR a / IZR b).
Proof.
  intros B. unfold half_even, Znearest.
  rewrite Zfloor_div by lia.
  pose proof (Z.div_mod a b ltac:(lia)) as D. pose proof (Z.mod_pos_bound a b B) as M.
  set (q := a / b) in *. set (r := a mod b) in *.
  assert (B' : (0 < IZR b)%R) by now apply IZR_lt.
  assert (X : (IZR a / IZR b - IZR q = IZR r / IZR b)%R).
  { rewrite D, plus_IZR, mult_IZR. field. lra. }
  rewrite X.
  assert (Ce : (0 < r)%Z -> Zceil (IZR a / IZR b) = q + 1).
  { intros R0. apply IZR_lt in R0. assert (R1 : (IZR r < IZR b)%R) by (apply IZR_lt; lia).
    assert (0 < IZR r / IZR b)%R by now apply Rdiv_lt_0_compat.
    assert (IZR r / IZR b < 1)%R by (apply Rmult_lt_reg_r with (IZR b); [lra|]; field_simplify; lra).
    apply Zceil_imp. replace (q + 1 - 1)%Z with q by lia. rewrite plus_IZR. split; lra. }
  destruct (Rcompare_spec (IZR r / IZR b) (/ 2)) as [H|H|H].
  - assert (K : (2 * r < b)%Z).
    { apply lt_IZR. rewrite mult_IZR. apply Rmult_lt_compat_r with (r := IZR b) in H; [|lra]. field_simplify in H; lra. }
    destruct (Z.ltb_spec b (2 * r)); [lia|]. destruct (Z.eqb_spec (2 * r) b); [lia|]. reflexivity.
  - assert (K : (2 * r = b)%Z).
    { apply eq_IZR. rewrite mult_IZR. apply (f_equal (fun t => t * IZR b)%R) in H. field_simplify in H; lra. }
    destruct (Z.ltb_spec b (2 * r)); [lia|]. destruct (Z.eqb_spec (2 * r) b); [|lia]. cbn [orb andb].
    rewrite <- Z.negb_even. destruct (negb (Z.even q)); [|reflexivity]. now rewrite Ce by lia.
  - assert (K : (b < 2 * r)%Z).
    { apply lt_IZR. rewrite mult_IZR. apply Rmult_lt_compat_r with (r := IZR b) in H; [|lra]. field_simplify in H; lra. }
    destruct (Z.ltb_spec b (2 * r)); [|lia]. cbn [orb]. now rewrite Ce by lia.
Qed.

(** The ten thousandths that are written. *)
Definition f4_parts (x : binary64) : Z :=
  match x with
  | B754_finite _ _ _ m e _ => let '(a, b) := fraction (Zpos m) e in half_even (a * 10 ^ 4) b
  | _ => 0
  end.

Lemma f4_text_parts x : is_finite 53 1024 x = true ->
  f4_text x = (if Bsign 53 1024 x then ["-"%char] else []) ++ f4_digits (f4_parts x).
Proof.
  destruct x as [s|s|s pl P|s m e P]; try discriminate; intros _; [reflexivity|].
  cbn [f4_text f4_parts Bsign]. now destruct (fraction (Z.pos m) e) as [a b].
Qed.

Lemma f4_parts_nearest x : is_finite 53 1024 x = true ->
  f4_parts x = ZnearestE (Rabs (B2R 53 1024 x) * 10 ^ 4).
Proof.
  destruct x as [s|s|s pl P|s m e P]; try discriminate; intros _; cbn [f4_parts].
  - cbn [B2R]. rewrite Rabs_R0, Rmult_0_l. symmetry. exact (Zrnd_IZR ZnearestE 0).
  - destruct (fraction (Z.pos m) e) as [a b] eqn:F.
    destruct (fraction_spec (Z.pos m) e a b ltac:(reflexivity) F) as ((A & B) & E).
    rewrite half_even_nearest by exact B. f_equal.
    assert (V : Rabs (B2R 53 1024 (B754_finite 53 1024 s m e P)) = (IZR a / IZR b)%R).
    { rewrite E. cbn [B2R]. rewrite <- F2R_Zabs, abs_cond_Zopp. reflexivity. }
    rewrite V, mult_IZR. change (IZR (10 ^ 4)) with 10000%R. assert (0 < IZR b)%R by now apply IZR_lt. field. lra.
Qed.

Lemma ZnearestE_nonneg x : (0 <= x)%R -> 0 <= ZnearestE x.
Proof.
  intros H. replace 0 with (ZnearestE (IZR 0)) by exact (Zrnd_IZR ZnearestE 0).
  apply (Zrnd_le ZnearestE). exact H.
Qed.

(** The digits before the point and the four behind it. *)
Lemma f4_digits_split q : 0 <= q ->
  exists a b, f4_digits q = a ++ "."%char :: b /\ forallb is_digit a = true /\ forallb is_digit b = true /\
    a <> [] /\ length b = 4%nat /\ number a * 10 ^ 4 + number b = q.
Proof.
  intros Q. exists (int_text (q / 10 ^ 4)), (padl "0" 4 (int_text (q mod 10 ^ 4))).
  pose proof (Z.div_mod q (10 ^ 4) ltac:(lia)) as D. pose proof (Z.mod_pos_bound q (10 ^ 4) ltac:(lia)) as M.
  assert (H : 0 <= q / 10 ^ 4) by (apply Z.div_pos; lia).
  rewrite !int_text_nonneg by lia.
  assert (L : (length (dec_text (Z.to_N (q mod 10 ^ 4))) <= 4)%nat).
  { apply dec_loop_length; [lia|]. change (10 ^ N.of_nat 4)%N with (Z.to_N (10 ^ 4)). apply Z2N.inj_lt; lia. }
  destruct (padl_zeros 4 _ (dec_text_digits (Z.to_N (q mod 10 ^ 4))) L) as (A & B & V).
  split; [unfold f4_digits; now rewrite !int_text_nonneg by lia|].
  split; [apply dec_text_digits|]. split; [exact A|]. split; [apply dec_text_nonempty|]. split; [exact B|].
  rewrite !number_value by auto using dec_text_digits. rewrite V, !dec_text_value, !Z2N.id by lia. lia.
Qed.
