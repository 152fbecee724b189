(** Facts about the times in a meta file. *)
From Coq Require Import Ascii String List Bool PeanoNat NArith ZArith Reals Lia Lra Psatz.
Import ListNotations.
From Flocq Require Import Core Relative Ulp IEEE754.BinarySingleNaN IEEE754.Binary IEEE754.Bits.
From Verif Require Import Prelude MdsMeta SpecMds MdsTextFacts MdsParseFacts MdsFacts Float64 FmtE FmtEFacts PyFloat PyFloatFacts
  FloorDivFacts SpecTimes TimeFacts RdMds WrMds WrMdsFacts.
Local Open Scope R_scope.
Local Open Scope list_scope.

(** * The exponent *)

(** A number nearer to the smaller of two decimals, and on the other side of the second. *)
Lemma exponent_below X q k j : nearest13 X q k -> X < (IZR (10 ^ 13) - / 2) * bpow radix10 (j - 12) -> (k <= j)%Z.
Proof.
  intros (Q & N) U. destruct (Z.le_gt_cases k j) as [H|H]; [exact H|exfalso].
  specialize (N (10 ^ 13 - 1)%Z j ltac:(lia)).
  assert (D : IZR (10 ^ 13) * bpow radix10 (j - 12) <= decimal q k).
  { unfold decimal. apply Rle_trans with (IZR (10 ^ 12) * bpow radix10 (k - 12)).
    - change (10 ^ 13)%Z with (10 ^ 12 * 10)%Z. rewrite (mult_IZR _ 10), Rmult_assoc. apply Rmult_le_compat_l; [apply IZR_le; lia|].
      rewrite <- ten_succ. apply bpow_le. lia.
    - apply Rmult_le_compat_r; [left; apply ten_pos | apply IZR_le; lia]. }
  unfold decimal at 2 in N. rewrite minus_IZR in N. pose proof (ten_pos (j - 12)) as P. set (b := bpow radix10 (j - 12)) in *.
  set (M := IZR (10 ^ 13)) in *. rewrite (Rabs_left1 (X - decimal q k)) in N by nra.
  unfold Rabs in N. destruct (Rcase_abs _) in N; nra.
Qed.

Lemma exponent_above X q k j : nearest13 X q k -> (IZR (10 ^ 13) - / 2) * bpow radix10 (j - 12) < X -> (j < k)%Z.
Proof.
  intros (Q & N) U. destruct (Z.le_gt_cases k j) as [H|H]; [exfalso|exact H].
  specialize (N (10 ^ 12)%Z (j + 1)%Z ltac:(lia)).
  assert (D : decimal q k <= (IZR (10 ^ 13) - 1) * bpow radix10 (j - 12)).
  { unfold decimal. rewrite <- (minus_IZR (10 ^ 13) 1). apply Rmult_le_compat; [apply IZR_le; lia | left; apply ten_pos | apply IZR_le; lia | apply bpow_le; lia]. }
  assert (E : decimal (10 ^ 12) (j + 1) = IZR (10 ^ 13) * bpow radix10 (j - 12)).
  { unfold decimal. replace (j + 1 - 12)%Z with (j - 12 + 1)%Z by lia. rewrite ten_succ.
    change (10 ^ 13)%Z with (10 ^ 12 * 10)%Z. rewrite (mult_IZR _ 10). ring. }
  rewrite E in N. pose proof (ten_pos (j - 12)) as P. set (b := bpow radix10 (j - 12)) in *.
  set (M := IZR (10 ^ 13)) in *. rewrite (Rabs_pos_eq (X - decimal q k)) in N by nra.
  unfold Rabs in N. destruct (Rcase_abs _) in N; nra.
Qed.

Lemma usual_exponent x : finite x = true -> usual (R64 x) -> (-99 <= snd (e12_parts x) <= 99)%Z.
Proof.
  intros F U. destruct (Req_dec (R64 x) 0) as [E|NE]; [rewrite (zero_parts x F E); cbn; lia|].
  destruct U as [E|(U1 & U2)]; [now elim NE|]. destruct (e12_parts_nearest x F NE) as (N & _). split.
  - apply (exponent_above _ _ _ (-100)) in N; [lia | exact U1].
  - apply (exponent_below _ _ _ 99) in N; [lia | exact U2].
Qed.

Lemma unusual_exponent x : finite x = true -> unusual (R64 x) -> (snd (e12_parts x) < -99 \/ 99 < snd (e12_parts x))%Z.
Proof.
  intros F (NE & U). destruct (e12_parts_nearest x F NE) as (N & _). destruct U as [U|U]; [left|right].
  - apply (exponent_below _ _ _ (-100)) in N; [lia | exact U].
  - apply (exponent_above _ _ _ 99) in N; [lia | exact U].
Qed.

Lemma exp_text_long k : (100 <= Z.abs k)%Z -> (4 <= length (exp_text k))%nat.
Proof.
  intros H. unfold exp_text. cbn [length]. apply le_n_S.
  destruct (exp_digits k) as (X & XN & XV). set (l := padl "0" 2 (int_text (Z.abs k))) in *.
  assert (V : (Z.to_N (Z.abs k) >= 100)%N) by lia. rewrite <- XV in V.
  destruct l as [|a [|b [|c l]]]; cbn [length]; try lia; exfalso; cbn [forallb] in X;
    repeat match goal with H : (_ && _)%bool = true |- _ => apply andb_prop in H; destruct H end;
    unfold digits_value, digit_val, is_digit in *; cbn [fold_left] in V; unfold nat_of_ascii in *;
    repeat match goal with H : (_ && _)%bool = true |- _ => apply andb_prop in H; destruct H end;
    repeat match goal with H : (_ <=? _)%nat = true |- _ => apply Nat.leb_le in H end; lia.
Qed.

Lemma e12_length_exact x : finite x = true ->
  length (e12_text x) = ((if Bsign 53 1024 x then 1 else 0) + 15 + length (exp_text (snd (e12_parts x))))%nat.
Proof.
  intros F. rewrite e12_text_parts by assumption. pose proof (e12_parts_range x) as QR.
  destruct (e12_parts x) as [q k]. cbn [fst snd] in *. unfold e12_digits.
  destruct (digits13_text q QR) as (d & ds & -> & _ & _ & LN & _). cbn [firstn skipn].
  rewrite !app_length, LN. destruct (Bsign 53 1024 x); cbn [length]; lia.
Qed.

(** A blank is left over unless the number is negative with an exponent of three digits. *)
Lemma fits_length x : finite x = true -> Bsign 53 1024 x = false \/ usual (R64 x) -> (length (e12_text x) < 20)%nat.
Proof.
  intros F [S|U].
  - pose proof (e12_length_any x F) as H. rewrite S in H. lia.
  - pose proof (usual_exponent x F U) as K. pose proof (e12_length x 2 F ltac:(lia)) as H.
    change (10 ^ Z.of_nat 2)%Z with 100%Z in H. specialize (H ltac:(lia)). destruct (Bsign 53 1024 x); lia.
Qed.

Lemma crowded_length x : finite x = true -> Bsign 53 1024 x = true -> unusual (R64 x) -> length (e12_text x) = 20%nat.
Proof.
  intros F S U. pose proof (unusual_exponent x F U) as K. pose proof (e12_length_any x F) as H1.
  pose proof (e12_length_exact x F) as H2. pose proof (exp_text_long (snd (e12_parts x)) ltac:(lia)). rewrite S in *. lia.
Qed.

(** * The tokens *)

Lemma padl_len c w l : length (padl c w l) = Nat.max w (length l).
Proof. unfold padl. rewrite app_length, repeat_length. lia. Qed.

Lemma b64_format_tok x : t_format b64times x
  = repeat " "%char (length (t_format b64times x) - length (e12_text x)) ++ e12_text x.
Proof.
  cbn [t_format b64times]. unfold fmt_e12 at 2. rewrite padl_len. unfold fmt_e12, padl. f_equal. f_equal. lia.
Qed.

Lemma b64_pad x : pad_of b64times e12_text x = (20 - length (e12_text x))%nat.
Proof. unfold pad_of. cbn [t_format b64times]. unfold fmt_e12. rewrite padl_len. lia. Qed.

Lemma e12_chars x : forallb num_char (e12_text x) = true /\ e12_text x <> [].
Proof.
  destruct (finite x) eqn:F.
  - rewrite e12_text_parts by assumption. pose proof (e12_parts_range x) as QR. split.
    + rewrite forallb_app. apply andb_true_intro. split; [destruct (Bsign 53 1024 x); reflexivity|].
      eapply forallb_imp; [|exact (e12_digits_chars _ _ QR)]. intros a A. unfold num_char.
      apply orb_prop in A. destruct A as [A|A]; [now rewrite A|]. apply orb_true_iff. right.
      cbn [existsb] in *. destruct (Ascii.eqb a "."), (Ascii.eqb a "E"), (Ascii.eqb a "+"), (Ascii.eqb a "-"); try reflexivity. discriminate A.
    + intros E. apply app_eq_nil in E. destruct E as [_ E]. unfold e12_digits in E.
      destruct (digits13_text _ QR) as (d & ds & D & _). rewrite D in E. discriminate E.
  - destruct x as [s|s|s pl P|s m e P]; try discriminate F; [destruct s|]; split; reflexivity || discriminate.
Qed.

(** The text of a finite number has a point and is no string. *)
Lemma e12_first x : finite x = true -> exists c r, e12_text x = c :: r /\ c <> quote /\ has "." (e12_text x) = true.
Proof.
  intros F. rewrite e12_text_parts by assumption. pose proof (e12_parts_range x) as QR. unfold e12_digits.
  destruct (digits13_text _ QR) as (d & ds & -> & D & _). cbn [firstn skipn].
  assert (QD : d <> quote) by (intros ->; discriminate D).
  destruct (Bsign 53 1024 x); cbn [app]; eexists; eexists; (split; [reflexivity|]); (split; [assumption || discriminate|]);
    unfold has; cbn [existsb Ascii.eqb Bool.eqb orb]; rewrite ?orb_true_r; reflexivity.
Qed.

Lemma not_quoted c r : c <> quote -> quoted (c :: r) = None.
Proof. intros H. unfold quoted. apply Ascii.eqb_neq in H. now rewrite H. Qed.

Definition time_back (x y : binary64) : Prop :=
  finite y = true /\ Bsign 53 1024 y = Bsign 53 1024 x /\
  Rabs (R64 y - R64 x) <= bpow radix10 (-12) * Rabs (R64 x) /\
  (R64 x <> 0 -> exists q k, nearest13 (Rabs (R64 x)) q k /\
     R64 y = signed (Bsign 53 1024 x) (round radix2 fexp64 ZnearestE (decimal q k))) /\
  (digits_at_most_13 (R64 x) -> y = x).

Lemma parse_finite x : finite x = true -> exists y, parse1 py_float (e12_text x) = Ok (Vfloat y) /\ time_back x y.
Proof.
  intros F. destruct (e12_there_and_back x F) as (y & PF & FY & SY & ER & RN & EX). exists y. split.
  - destruct (e12_first x F) as (c & r & E & Q & H). unfold parse1. rewrite E, not_quoted, <- E, H by exact Q. cbn [orb]. now rewrite PF.
  - split; [exact FY|]. split; [exact SY|]. split; [exact ER|]. split; [|exact EX].
    intros NZ. exists (fst (e12_parts x)), (snd (e12_parts x)). split; [now apply e12_parts_nearest | now apply RN].
Qed.

Lemma parse_infinite x : finite x = false -> parse1 py_float (e12_text x) = Err ParseError.
Proof. destruct x as [s|s|s pl P|s m e P]; try discriminate; intros _; [destruct s|]; reflexivity. Qed.

Lemma parse_all l : Forall (fun x => finite x = true) l ->
  exists ys, mapM (parse1 py_float) (map e12_text l) = Ok (map (@Vfloat _) ys) /\ Forall2 time_back l ys.
Proof.
  intros H. induction H as [|x l F H (ys & M & B)]; [exists []; split; [reflexivity | constructor]|].
  destruct (parse_finite x F) as (y & P & TB). exists (y :: ys). split; [|now constructor].
  cbn [map mapM]. rewrite P. cbn [rbind]. now rewrite M.
Qed.

Lemma parse_some_infinite l : Exists (fun x => finite x = false) l ->
  mapM (parse1 py_float) (map e12_text l) = Err ParseError.
Proof.
  intros H. induction l as [|x l IH]; [inversion H|]. cbn [map mapM]. destruct (finite x) eqn:F.
  - destruct (parse_finite x F) as (y & -> & _). cbn [rbind]. inversion H as [? ? X|? ? X]; subst; [congruence|].
    now rewrite IH.
  - now rewrite parse_infinite.
Qed.

(** Two numbers run together. *)
Lemma rstrip_mid p c a r : p c = false -> exists r', rstrip p (a ++ c :: r) = a ++ c :: r'.
Proof.
  intros H. exists (rstrip p r). unfold rstrip. rewrite rev_app_distr. cbn [rev]. rewrite <- app_assoc. cbn [app].
  induction (rev r) as [|d l IH].
  - cbn [app lstrip]. rewrite H. cbn [rev]. rewrite rev_involutive. reflexivity.
  - cbn [app lstrip]. destruct (p d); [exact IH|]. rewrite app_comm_cons, rev_app_distr. cbn [rev]. rewrite rev_involutive, <- !app_assoc. reflexivity.
Qed.

Lemma py_float_two (s : bool) q k r : (0 <= q < 10 ^ 13)%Z ->
  py_float (((if s then ["-"%char] else []) ++ e12_digits q k) ++ "-"%char :: r) = None.
Proof.
  intros H. unfold py_float. unfold strip.
  assert (FS : exists c t, (if s then ["-"%char] else []) ++ e12_digits q k = c :: t /\ is_space c = false).
  { unfold e12_digits. destruct (digits13_text q H) as (c & l & -> & C & _). cbn [firstn].
    destruct s; cbn [app]; eexists; eexists; (split; [reflexivity|]); [reflexivity | now apply digit_facts]. }
  destruct FS as (c0 & t0 & E0 & S0).
  assert (LS : lstrip is_space (((if s then ["-"%char] else []) ++ e12_digits q k) ++ "-"%char :: r)
     = ((if s then ["-"%char] else []) ++ e12_digits q k) ++ "-"%char :: r).
  { rewrite E0. cbn [app]. now apply lstrip_stop. }
  rewrite LS. destruct (rstrip_mid is_space "-" ((if s then ["-"%char] else []) ++ e12_digits q k) r eq_refl) as (r' & ->).
  unfold e12_digits. destruct (digits13_text q H) as (c & l & -> & C & L & LN & V). cbn [firstn skipn].
  assert (TS : take_sign (((if s then ["-"%char] else []) ++ [c] ++ ["."%char] ++ l ++ ["E"%char] ++ exp_text k) ++ "-"%char :: r')
               = (s, [c] ++ ["."%char] ++ l ++ ["E"%char] ++ exp_text k ++ "-"%char :: r')).
  { destruct s.
    - cbn [app take_sign Ascii.eqb Bool.eqb]. now rewrite <- !app_assoc.
    - cbn [app take_sign]. destruct (digit_facts c C) as (_ & M & P & _).
      apply Ascii.eqb_neq in M, P. rewrite M, P. now rewrite <- !app_assoc. }
  rewrite TS. cbn [app].
  rewrite !(lower_is_digit _ _ _ c _ eq_refl) by (reflexivity || assumption). cbn [orb].
  change (c :: "."%char :: l ++ "E"%char :: exp_text k ++ "-"%char :: r')
    with ([c] ++ ("."%char :: l ++ "E"%char :: exp_text k ++ "-"%char :: r')).
  change 0%Z with (Z.of_N 0) at 1. rewrite take_digits_run by (reflexivity || (cbn [forallb]; now rewrite C)).
  cbn [Ascii.eqb Bool.eqb]. rewrite take_digits_run by (reflexivity || assumption).
  cbn [exponent Ascii.eqb Bool.eqb orb].
  destruct (exp_digits k) as (X & XN & XV).
  assert (ET : take_sign (exp_text k ++ "-"%char :: r') = ((k <? 0)%Z, padl "0" 2 (int_text (Z.abs k)) ++ "-"%char :: r')).
  { unfold exp_text. destruct (k <? 0)%Z; reflexivity. }
  rewrite ET.
  change 0%Z with (Z.of_N 0) at 1. rewrite take_digits_run by (exact X || reflexivity).
  destruct (padl "0" 2 (int_text (Z.abs k))) as [|x0 xs]; [now elim XN|]. cbn [length Nat.add].
  destruct (length l); reflexivity.
Qed.

Lemma parse_two x y r : finite x = true -> finite y = true -> Bsign 53 1024 y = true ->
  parse1 py_float (e12_text x ++ e12_text y ++ r) = Err (ValueError "could not convert string to float").
Proof.
  intros FX FY S. destruct (e12_first x FX) as (c & t & E & Q & H). unfold parse1.
  assert (NQ : quoted (e12_text x ++ e12_text y ++ r) = None) by (rewrite E; cbn [app]; now apply not_quoted).
  assert (HD : has "." (e12_text x ++ e12_text y ++ r) = true) by (unfold has in *; now rewrite existsb_app, H).
  rewrite NQ, HD. cbn [orb]. rewrite (e12_text_parts y FY), S. cbn [app]. rewrite (e12_text_parts x FX).
  rewrite py_float_two by apply e12_parts_range. reflexivity.
Qed.

(** * The lists of times *)

Lemma apart l : l <> [] -> Forall (fun x => length (e12_text x) < 20)%nat (tl l) -> times_apart b64times e12_text l.
Proof.
  intros NE H. split; [exact NE|]. split; [apply Forall_forall; intros x _; apply e12_chars|].
  eapply Forall_impl; [|exact H]. intros x L. cbn [t_format b64times]. unfold fmt_e12. rewrite padl_len. apply Nat.lt_le_trans with 20%nat; [exact L | apply Nat.le_max_l].
Qed.

Lemma crowded_bad l : Forall (fun x => finite x = true) l ->
  Exists (fun x => Bsign 53 1024 x = true /\ unusual (R64 x)) (tl l) ->
  times_bad b64times py_float e12_text l (ValueError "could not convert string to float").
Proof.
  intros F X. apply times_crowded.
  - exact b64_format_tok.
  - apply Forall_forall. intros x _. apply e12_chars.
  - eapply Forall_impl; [|exact F]. intros x FX. destruct (parse_finite x FX) as (y & P & _). eauto.
  - rewrite Forall_forall in F. intros x y r IX IY P0. rewrite b64_pad in P0. apply parse_two; auto.
    destruct (Bsign 53 1024 y) eqn:S; [reflexivity|exfalso]. pose proof (fits_length y (F y IY) (or_introl S)). lia.
  - assert (FT : Forall (fun x => finite x = true) (tl l)) by (destruct F; [constructor | assumption]).
    clear F. revert X FT. 
    assert (G : forall m : list binary64, Exists (fun x => Bsign 53 1024 x = true /\ unusual (R64 x)) m ->
      Forall (fun x => finite x = true) m -> Exists (fun y => pad_of b64times e12_text y = 0%nat) m).
    { intros m X FT. induction X as [x t (S & U)|x t X IH]; inversion FT; subst.
      - left. rewrite b64_pad, crowded_length; auto.
      - right. now apply IH. }
    apply G.
Qed.
