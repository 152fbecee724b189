(** Facts about single precision storage. *)
From Coq Require Import ZArith NArith Strings.Byte List Reals Lia Bool Lra.
From Flocq Require Import IEEE754.BinarySingleNaN IEEE754.Binary IEEE754.Bits Core.
Import ListNotations.
From Verif Require Import Num Float64 Float64Facts Float32.
Local Open Scope Z_scope.

Lemma b32_enc_len x : length (enc b32codec x) = 4%nat.
Proof. apply be_bytes_length. Qed.

Lemma b32_dec_enc x : dec b32codec (enc b32codec x) = widen (narrow x).
Proof.
  cbn [enc dec b32codec]. rewrite be_Z_bytes.
  - f_equal. apply (binary_float_of_bits_of_binary_float 23 8); reflexivity.
  - pose proof (bits_of_binary_float_range 23 8 eq_refl eq_refl (narrow x)) as H.
    change (256 ^ Z.of_nat 4) with (2 ^ (23 + 8 + 1)). exact H.
Qed.

Lemma sign_compare s m e :
  match Rcompare (F2R (Float radix2 (cond_Zopp s (Zpos m)) e)) 0 with
  | Eq => s | Lt => true | Gt => false end = s.
Proof.
  destruct s; cbn [cond_Zopp].
  - rewrite Rcompare_Lt; [reflexivity|]. now apply F2R_lt_0.
  - rewrite Rcompare_Gt; [reflexivity|]. now apply F2R_gt_0.
Qed.

(** Singles are doubles. *)
Lemma single_in_double x :
  generic_format radix2 (SpecFloat.fexp 24 128) x -> generic_format radix2 (SpecFloat.fexp 53 1024) x.
Proof.
  apply generic_inclusion_mag. intros _. unfold SpecFloat.fexp, SpecFloat.emin. lia.
Qed.

Lemma widen_finite (x : binary32) : is_finite 24 128 x = true ->
  is_finite 53 1024 (widen x) = true /\ B2R 53 1024 (widen x) = B2R 24 128 x
  /\ Bsign 53 1024 (widen x) = Bsign 24 128 x.
Proof.
  intros H. pose proof (generic_format_B2R 24 128 x) as G. pose proof (abs_B2R_lt_emax 24 128 x) as A.
  destruct x as [s|s|s pl Hpl|s m e B]; try discriminate H.
  - now repeat split.
  - cbn [widen]. cbn [B2R] in *.
    pose proof (Binary.binary_normalize_correct 53 1024 eq_refl eq_refl mode_NE (cond_Zopp s (Zpos m)) e s) as C.
    rewrite round_generic in C; [|apply valid_rnd_N|now apply single_in_double].
    rewrite Rlt_bool_true in C.
    + rewrite sign_compare in C. destruct C as (C1 & C2 & C3). repeat split; assumption.
    + eapply Rlt_trans; [exact A|]. apply bpow_lt. reflexivity.
Qed.

(** Rounding to single: to nearest, ties to even, where it does not overflow. *)
Lemma narrow_finite (x : binary64) : is_finite 53 1024 x = true ->
  (Rabs (round radix2 (SpecFloat.fexp 24 128) ZnearestE (B2R 53 1024 x)) < bpow radix2 128)%R ->
  is_finite 24 128 (narrow x) = true
  /\ B2R 24 128 (narrow x) = round radix2 (SpecFloat.fexp 24 128) ZnearestE (B2R 53 1024 x)
  /\ Bsign 24 128 (narrow x) = Bsign 53 1024 x.
Proof.
  intros H R. destruct x as [s|s|s pl Hpl|s m e B]; try discriminate H.
  - cbn [narrow B2R]. rewrite round_0 by apply valid_rnd_N. now repeat split.
  - cbn [narrow]. cbn [B2R] in *.
    pose proof (Binary.binary_normalize_correct 24 128 eq_refl eq_refl mode_NE (cond_Zopp s (Zpos m)) e s) as C.
    cbn [round_mode] in C. rewrite Rlt_bool_true in C by exact R.
    rewrite sign_compare in C. destruct C as (C1 & C2 & C3). repeat split; assumption.
Qed.

(** A single survives being widened and narrowed. *)
Lemma narrow_widen (x : binary32) : is_nan 24 128 x = false -> narrow (widen x) = x.
Proof.
  intros H. destruct (is_finite 24 128 x) eqn:E.
  - destruct (widen_finite x E) as (A & B & C).
    pose proof (generic_format_B2R 24 128 x) as G. pose proof (abs_B2R_lt_emax 24 128 x) as L.
    assert (R : round radix2 (SpecFloat.fexp 24 128) ZnearestE (B2R 53 1024 (widen x)) = B2R 24 128 x).
    { rewrite B. apply round_generic; [apply valid_rnd_N | exact G]. }
    destruct (narrow_finite (widen x) A) as (D & F & K).
    + rewrite R. exact L.
    + apply B2R_Bsign_inj; try assumption; congruence.
  - destruct x; try discriminate; reflexivity.
Qed.

Lemma widen_narrow_nan (x : binary64) : is_nan 53 1024 x = true -> is_nan 53 1024 (widen (narrow x)) = true.
Proof. destruct x; try discriminate. reflexivity. Qed.

(** Doubles that are singles are kept. *)
Definition is_single (x : binary64) : Prop := exists y, is_nan 24 128 y = false /\ x = widen y.

Lemma single_kept x : is_single x -> widen (narrow x) = x.
Proof. intros (y & H & ->). now rewrite narrow_widen. Qed.
