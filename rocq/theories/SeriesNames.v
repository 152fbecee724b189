(** The names of the files of an iteration. *)
From Coq Require Import Ascii String List Bool PeanoNat NArith ZArith Lia.
Import ListNotations.
From Verif Require Import Prelude PreludeFacts MdsMeta Mds SpecMds MdsTextFacts MdsParseFacts MdsScanFacts RdMds SpecRdMds
  SpecSeries.
Local Open Scope nat_scope.
Local Open Scope list_scope.

Lemma dec_loop_head k : forall n, (n < 2 ^ N.of_nat k)%N -> (0 < n)%N ->
  exists c r, dec_loop (S k) n = c :: r /\ c <> "0"%char.
Proof.
  induction k as [|k IH]; intros n H P; [cbn in H; lia|].
  change (dec_loop (S (S k)) n) with ((if (n <? 10)%N then [] else dec_loop (S k) (n / 10)%N) ++ [digit_char (n mod 10)%N]).
  destruct (N.ltb_spec n 10) as [L|L].
  - eexists _, _. split; [reflexivity|]. rewrite N.mod_small by exact L. intros E. unfold digit_char in E.
    apply (f_equal N_of_ascii) in E. rewrite N_ascii_embedding in E by lia. change (N_of_ascii "0") with 48%N in E. lia.
  - destruct (IH (n / 10)%N) as (c & r & -> & C).
    + rewrite Nat2N.inj_succ, N.pow_succ_r' in H. apply N.div_lt_upper_bound; lia.
    + apply N.div_str_pos. lia.
    + eexists _, _. split; [reflexivity|exact C].
Qed.

Lemma dec_text_head n : (0 < n)%N -> exists c r, dec_text n = c :: r /\ c <> "0"%char.
Proof. apply dec_loop_head, size_nat_bound. Qed.

Lemma is_decimal_digits ds : forallb is_digit ds = true -> is_decimal ds.
Proof. apply is_decimal_iff. Qed.

Lemma zeros_value k ds : decimal_value (repeat "0"%char k ++ ds) = decimal_value ds.
Proof. induction k as [|k IH]; [reflexivity|]. cbn [repeat app decimal_value]. rewrite IH. change (nat_of_ascii "0") with 48. lia. Qed.
Lemma zeros_decimal k ds : is_decimal ds -> is_decimal (repeat "0"%char k ++ ds).
Proof.
  intros H. apply Forall_app. split; [|exact H]. apply Forall_forall. intros c I. apply repeat_spec in I. subst c.
  change (nat_of_ascii "0") with 48. lia.
Qed.
Lemma dec_text_decimal n : is_decimal (dec_text n) /\ decimal_value (dec_text n) = Z.of_N n.
Proof.
  split; [apply is_decimal_digits, dec_text_digits|].
  pose proof (digits_value_decimal (dec_text n) 0 (dec_text_digits n)) as E. rewrite dec_text_value in E. lia.
Qed.

Lemma fmt_iteration z : iteration_text z (fmt_0d 10 z).
Proof.
  assert (C : forall n w s, is_decimal (padl "0" w (dec_text n)) /\ decimal_value (padl "0" w (dec_text n)) = Z.of_N n /\
    w <= length (padl "0" w (dec_text n)) /\
    (length s + w < length (s ++ padl "0" w (dec_text n)) -> 2 <= w -> exists c r, padl "0" w (dec_text n) = c :: r /\ c <> "0"%char)).
  { intros n w s. destruct (dec_text_decimal n) as (D & V). unfold padl.
    rewrite zeros_value, !app_length, repeat_length. split; [now apply zeros_decimal|]. split; [exact V|]. split; [lia|].
    intros LT W. assert (L : w < length (dec_text n)) by lia. replace (w - length (dec_text n)) with 0 by lia. cbn [repeat app].
    destruct (N.eq_dec n 0) as [->|NZ]; [|apply dec_text_head; lia]. cbn in L. lia. }
  destruct z as [|p|p]; unfold iteration_text, fmt_0d.
  - exists (padl "0" 10 (dec_text 0)). cbn [Z.ltb Z.compare app]. destruct (C 0%N 10 []) as (C1 & C2 & C3 & C4).
    split; [reflexivity|]. split; [exact C1|]. split; [exact C2|]. split; [exact C3|]. intros H. apply C4; [exact H|lia].
  - exists (padl "0" 10 (dec_text (N.pos p))). change (Z.pos p <? 0)%Z with false. cbn [app]. destruct (C (N.pos p) 10 []) as (C1 & C2 & C3 & C4).
    split; [reflexivity|]. split; [exact C1|]. split; [exact C2|]. split; [exact C3|]. intros H. apply C4; [exact H|lia].
  - exists (padl "0" 9 (dec_text (N.pos p))). change (Z.neg p <? 0)%Z with true. destruct (C (N.pos p) 9 ["-"%char]) as (C1 & C2 & C3 & C4).
    change (10 - 1) with 9. split; [reflexivity|]. split; [exact C1|]. split; [exact C2|]. split; [cbn [length]; lia|]. intros H. apply C4; [exact H|lia].
Qed.

(** ** One text for each number *)
Lemma leading_digit ds c r : ds = c :: r -> is_decimal ds -> c <> "0"%char ->
  (10 ^ (Z.of_nat (length ds) - 1) <= decimal_value ds)%Z.
Proof.
  intros -> D C. inversion D as [|? ? Hc D']; subst. pose proof (decimal_bound r D') as B. cbn [decimal_value length].
  assert (48 < nat_of_ascii c).
  { destruct (Nat.eq_dec (nat_of_ascii c) 48) as [E|E]; [|lia]. exfalso. apply C. now rewrite <- (ascii_nat_embedding c), E. }
  replace (Z.of_nat (S (length r)) - 1)%Z with (Z.of_nat (length r)) by lia.
  assert (0 < 10 ^ Z.of_nat (length r))%Z by (apply Z.pow_pos_nonneg; lia). nia.
Qed.

Lemma longer_value ds es c r : is_decimal ds -> is_decimal es -> es = c :: r -> c <> "0"%char ->
  length ds < length es -> decimal_value ds <> decimal_value es.
Proof.
  intros D E EE C LT V. pose proof (leading_digit es c r EE E C) as B. pose proof (decimal_bound ds D) as B'.
  assert (10 ^ Z.of_nat (length ds) <= 10 ^ (Z.of_nat (length es) - 1))%Z by (apply Z.pow_le_mono_r; lia). lia.
Qed.

Lemma iteration_unique z t t' : iteration_text z t -> iteration_text z t' -> t = t'.
Proof.
  intros (ds & -> & D & V & L & M) (es & -> & E & V' & L' & M'). f_equal.
  rewrite !app_length in *. set (s := length (if (z <? 0)%Z then ["-"%char] else [])) in *.
  destruct (Nat.lt_trichotomy (length ds) (length es)) as [H|[H|H]].
  - exfalso. destruct (M' ltac:(lia)) as (c & r & EE & C). apply (longer_value ds es c r); auto. congruence.
  - apply decimal_inj; auto. congruence.
  - exfalso. destruct (M ltac:(lia)) as (c & r & EE & C). apply (longer_value es ds c r); auto. congruence.
Qed.

Lemma iteration_text_iff z t : iteration_text z t <-> t = fmt_0d 10 z.
Proof. split; [intros H; now apply (iteration_unique z); [|apply fmt_iteration] | intros ->; apply fmt_iteration]. Qed.

Lemma decimal_not ds c : is_decimal ds -> In c ds -> c <> "-"%char /\ c <> "."%char.
Proof. intros D I. unfold is_decimal in D. rewrite Forall_forall in D. specialize (D c I). split; intros ->; cbv in D; lia. Qed.

Lemma iteration_inj z z' t : iteration_text z t -> iteration_text z' t -> z = z'.
Proof.
  intros (ds & -> & D & V & L & _) (es & E & DE & V' & _ & _).
  assert (NE : ds <> []) by (intros ->; rewrite app_length in L; destruct (z <? 0)%Z; cbn in L; lia).
  destruct (Z.ltb_spec z 0), (Z.ltb_spec z' 0); cbn [app] in E.
  - injection E as <-. lia.
  - exfalso. subst es. destruct (decimal_not _ "-"%char DE (or_introl eq_refl)) as (H1 & _). now apply H1.
  - exfalso. destruct (decimal_not ds "-"%char D) as (H1 & _); [rewrite E; now left|]. now apply H1.
  - subst es. lia.
Qed.

Lemma iteration_no_point z t : iteration_text z t -> ~ In "."%char t.
Proof.
  intros (ds & -> & D & _) I. apply in_app_iff in I. destruct I as [I|I].
  - destruct (z <? 0)%Z; [destruct I as [I|[]]; discriminate I|destruct I].
  - apply (decimal_not _ _ D) in I. tauto.
Qed.

Lemma iteration_long z t : iteration_text z t -> 10 <= length t.
Proof. intros (ds & _ & _ & _ & L & _). exact L. Qed.

(** ** Files of different iterations *)
Lemma app_eq_tail {A} (a b c d : list A) : a ++ c = b ++ d -> length c = length d -> a = b /\ c = d.
Proof.
  intros E L. assert (LA : length a = length b) by (apply (f_equal (@length A)) in E; rewrite !app_length in E; lia).
  revert b E LA. induction a as [|x a IH]; intros [|y b] E LA; try discriminate LA; [now split|].
  cbn [app] in E. injection E as -> E. destruct (IH b E) as (-> & ->); [now injection LA|now split].
Qed.

Lemma tile_name_point name : tile_name name -> exists r, name = "."%char :: r.
Proof. intros (d & e & _ & _ & _ & _ & ->). eexists. reflexivity. Qed.

Lemma tile_name_length name : tile_name name -> length name = 8.
Proof. intros (d & e & L1 & L2 & _ & _ & ->). rewrite !app_length. cbn [length]. lia. Qed.

(** The files of one iteration are not taken for those of another. *)
Lemma other_iteration fbase z z' t t' (e : text) : iteration_text z t -> iteration_text z' t' -> z <> z' ->
  e = lit ".meta" \/ e = lit ".data" -> ~ file_of (fbase ++ ["."%char] ++ t) (fbase ++ ["."%char] ++ t' ++ e).
Proof.
  intros T T' NZ HE (name & NM & K).
  assert (LE : length e = 5) by (destruct HE as [-> | ->]; reflexivity).
  assert (X : exists e', length e' = 5 /\ t' ++ e = t ++ name ++ e').
  { destruct K as [K|K]; rewrite <- !app_assoc in K; apply app_inv_head in K; apply app_inv_head in K; rewrite ?app_nil_r in K;
      eexists; (split; [|exact K]); reflexivity. }
  destruct X as (e' & L' & X). rewrite app_assoc in X. apply app_eq_tail in X; [|lia]. destruct X as (X & _).
  destruct NM as [->|NM].
  - rewrite app_nil_r in X. subst t'. apply NZ. eapply iteration_inj; eassumption.
  - apply tile_name_point in NM. destruct NM as (r & ->). apply (iteration_no_point _ _ T'). rewrite X. apply in_app_iff. right. now left.
Qed.

(** Nor are they for a file without iteration. *)
Lemma no_iteration fbase z t (e : text) : iteration_text z t -> e = lit ".meta" \/ e = lit ".data" ->
  ~ file_of fbase (fbase ++ ["."%char] ++ t ++ e).
Proof.
  intros T HE (name & NM & K).
  assert (LE : length e = 5) by (destruct HE as [-> | ->]; reflexivity).
  assert (X : exists e', length e' = 5 /\ (["."%char] ++ t) ++ e = name ++ e').
  { destruct K as [K|K]; apply app_inv_head in K; rewrite <- !app_assoc; eexists; (split; [|exact K]); reflexivity. }
  destruct X as (e' & L' & X). apply app_eq_tail in X; [|lia]. destruct X as (X & _). pose proof (iteration_long _ _ T) as LT.
  destruct NM as [->|NM]; [discriminate X|]. apply tile_name_length in NM. rewrite <- X in NM. cbn [app length] in NM. lia.
Qed.
