(** The parser of meta files against their specification. *)
From Coq Require Import Ascii String List Bool PeanoNat NArith ZArith Lia.
Import ListNotations.
From Verif Require Import Prelude MdsMeta Mds SpecMds MdsTextFacts MdsParseFacts MdsScanFacts SpecMeta.
Local Open Scope nat_scope.
Local Open Scope list_scope.

(** * Characters *)

Lemma is_space_white c : is_space c = true <-> white_char c.
Proof. unfold is_space, white_char. rewrite orb_true_iff, !andb_true_iff, !Nat.leb_le. reflexivity. Qed.

Lemma is_digit_digit c : is_digit c = true <-> digit c.
Proof. unfold is_digit, digit. rewrite andb_true_iff, !Nat.leb_le. reflexivity. Qed.

Lemma is_word_word c : is_word c = true <-> word_char c.
Proof.
  unfold is_word, word_char, is_digit. rewrite !orb_true_iff, !andb_true_iff, !Nat.leb_le, Nat.eqb_eq.
  assert (E : nat_of_ascii c = 95 <-> c = "_"%char).
  { split; [|now intros ->]. intros E. rewrite <- (ascii_nat_embedding c), E. reflexivity. }
  rewrite E. tauto.
Qed.

Lemma is_blank c : Ascii.eqb " " c = true <-> " "%char = c.
Proof. apply Ascii.eqb_eq. Qed.
Lemma is_quote c : Ascii.eqb quote c = true <-> quote = c.
Proof. apply Ascii.eqb_eq. Qed.

Lemma is_separator c : Ascii.eqb c " " || Ascii.eqb c "," = true <-> separator c.
Proof. unfold separator. rewrite orb_true_iff, !Ascii.eqb_eq. reflexivity. Qed.

Section Reflect.
Context (p : ascii -> bool) (P : ascii -> Prop) (R : forall c, p c = true <-> P c).

Lemma forallb_Forall t : forallb p t = true <-> Forall P t.
Proof. rewrite forallb_forall, Forall_forall. split; intros H c I; apply R, H, I. Qed.

Lemma not_true c : p c = false <-> ~ P c.
Proof. rewrite <- R. destruct (p c); split; congruence. Qed.

Lemma lstrip_split t : exists a, t = a ++ lstrip p t /\ Forall P a /\ not_first P (lstrip p t).
Proof.
  induction t as [|c t (a & E & FA & NF)].
  - exists []. repeat split; [constructor|]. intros c r X. discriminate X.
  - cbn [lstrip]. destruct (p c) eqn:PC.
    + exists (c :: a). cbn [app]. rewrite <- E. repeat split; [constructor; [now apply R|exact FA]|exact NF].
    + exists []. repeat split; [constructor|]. intros c' r [= <- <-]. now apply not_true.
Qed.

Lemma lstrip_not_first t : not_first P t -> lstrip p t = t.
Proof. destruct t as [|c t]; intros H; [reflexivity|]. apply lstrip_stop, not_true. now apply (H c t). Qed.

Lemma not_last_rev t : not_last P t <-> not_first P (rev t).
Proof.
  split; intros H c r E.
  - apply (H c (rev r)). rewrite <- (rev_involutive t), E. reflexivity.
  - apply (H c (rev r)). rewrite E, rev_app_distr. reflexivity.
Qed.

Lemma rstrip_split t : exists b, t = rstrip p t ++ b /\ Forall P b /\ not_last P (rstrip p t).
Proof.
  unfold rstrip. destruct (lstrip_split (rev t)) as (a & E & FA & NF). exists (rev a). split; [|split].
  - rewrite <- rev_app_distr, <- E. now rewrite rev_involutive.
  - now apply Forall_rev.
  - apply not_last_rev. now rewrite rev_involutive.
Qed.

Lemma rstrip_not_last t : not_last P t -> rstrip p t = t.
Proof. intros H. unfold rstrip. apply not_last_rev in H. rewrite lstrip_not_first by exact H. apply rev_involutive. Qed.

Lemma rstrip_is t u b : t = u ++ b -> Forall P b -> not_last P u -> rstrip p t = u.
Proof. intros -> FB NL. rewrite rstrip_all by (now apply forallb_Forall). now apply rstrip_not_last. Qed.

Lemma lstrip_is t a u : t = a ++ u -> Forall P a -> not_first P u -> lstrip p t = u.
Proof. intros -> FA NF. rewrite lstrip_all by (now apply forallb_Forall). now apply lstrip_not_first. Qed.

Lemma not_first_cut u b : not_first P (u ++ b) -> not_first P u.
Proof. intros H c r ->. now apply (H c (r ++ b)). Qed.

Lemma within_strip t core : strip p t = core <-> within P t core.
Proof.
  split.
  - intros <-. unfold strip. destruct (lstrip_split t) as (a & E & FA & NF).
    destruct (rstrip_split (lstrip p t)) as (b & E' & FB & NL).
    exists a, b. split; [now rewrite <- E'|]. repeat split; try assumption.
    rewrite E' in NF. now apply not_first_cut in NF.
  - intros (a & b & -> & FA & FB & NF & NL). unfold strip.
    rewrite lstrip_all by (now apply forallb_Forall).
    destruct core as [|c core].
    + cbn [app]. rewrite <- (app_nil_r b), lstrip_all by (now apply forallb_Forall). reflexivity.
    + cbn [app]. rewrite lstrip_stop by (apply not_true; now apply (NF c core)).
      change (c :: core ++ b) with ((c :: core) ++ b). now apply (rstrip_is _ _ b).
Qed.

End Reflect.

Lemma trimmed_end_iff s u : rstrip is_space s = u <-> trimmed_end s u.
Proof.
  split.
  - intros <-. destruct (rstrip_split _ _ is_space_white s) as (b & E & FB & NL). now exists b.
  - intros (w & E & W & NL). now apply (rstrip_is _ _ is_space_white s u w).
Qed.

Lemma white_forallb t : forallb is_space t = true <-> white_text t.
Proof. apply forallb_Forall, is_space_white. Qed.

(** * Integers *)

Lemma spelled_digits t ds : spelled t ds -> is_decimal ds /\ ds <> [].
Proof.
  induction 1 as [c D|c t ds D S (I & _)|c t ds D S (I & _)]; (split; [|discriminate]).
  - apply Forall_cons; [exact D|apply Forall_nil].
  - apply Forall_cons; [exact D|exact I].
  - apply Forall_cons; [exact D|exact I].
Qed.

Lemma digits_loop_spelled t ds : spelled t ds -> forall acc b, digits_loop acc b t = Some (digits_value acc ds).
Proof.
  induction 1 as [c D|c t ds D S IH|c t ds D S IH]; intros acc b; cbn [digits_loop]; apply is_digit_digit in D; rewrite D.
  - reflexivity.
  - apply IH.
  - replace (is_digit "_") with false by reflexivity. cbn [andb Ascii.eqb Bool.eqb]. apply IH.
Qed.

Lemma spelled_of_digits_loop t : forall acc n, digits_loop acc false t = Some n ->
  (exists ds, spelled t ds /\ n = digits_value acc ds).
Proof.
  assert (G : forall k t, length t <= k -> forall acc n, digits_loop acc false t = Some n ->
    exists ds, spelled t ds /\ n = digits_value acc ds).
  { induction k as [|k IH]; intros t' L acc n H.
    - destruct t'; [discriminate H|cbn in L; lia].
    - destruct t' as [|c r]; [discriminate H|]. cbn [digits_loop] in H.
      destruct (is_digit c) eqn:D; [|rewrite andb_false_r in H; discriminate H].
      pose proof (proj1 (is_digit_digit c) D) as D'. cbn [length] in L.
      destruct r as [|d r].
      + injection H as <-. exists [c]. split; [now constructor|reflexivity].
      + cbn [digits_loop] in H. destruct (is_digit d) eqn:DD.
        * destruct (IH (d :: r) ltac:(cbn [length] in *; lia) (10 * acc + digit_val c)%N n) as (ds & S & E).
          { cbn [digits_loop]. now rewrite DD. }
          exists (c :: ds). split; [now apply sp_next|exact E].
        * destruct (Ascii.eqb_spec d "_"%char) as [->|]; [|discriminate H]. cbn [andb] in H.
          destruct (IH r ltac:(cbn [length] in *; lia) (10 * acc + digit_val c)%N n H) as (ds & S & E).
          exists (c :: ds). split; [now apply sp_under|exact E]. }
  exact (G (length t) t (le_n _)).
Qed.

Lemma spelled_value t ds : spelled t ds -> Z.of_N (digits_value 0 ds) = decimal_value ds.
Proof.
  intros S. apply spelled_digits in S. destruct S as (D & _). apply is_decimal_iff in D.
  rewrite digits_value_decimal by exact D. now rewrite Z.mul_0_l, Z.add_0_l.
Qed.

Lemma digit_not_white c : digit c -> ~ white_char c.
Proof. unfold digit, white_char. lia. Qed.

Lemma spelled_first t ds : spelled t ds -> exists c r, t = c :: r /\ digit c.
Proof. destruct 1; eauto. Qed.

Lemma spelled_last t ds : spelled t ds -> exists r c, t = r ++ [c] /\ digit c.
Proof.
  induction 1 as [c D|c t ds D S (r & d & -> & DD)|c t ds D S (r & d & -> & DD)].
  - exists [], c. now split.
  - exists (c :: r), d. now split.
  - exists (c :: "_"%char :: r), d. now split.
Qed.

Lemma sign_not_white sg neg : sign_text sg neg -> Forall (fun c => ~ white_char c) sg.
Proof.
  intros S. destruct S; repeat constructor; unfold white_char; cbn; lia.
Qed.

Lemma last_of_app {A} (x r : list A) (c d : A) y : x ++ y ++ [c] = r ++ [d] -> d = c.
Proof. rewrite app_assoc. intros E. now apply app_inj_tail in E. Qed.

Lemma signed_within sg neg body : sign_text sg neg ->
  (exists c r, body = c :: r /\ ~ white_char c) -> (exists r c, body = r ++ [c] /\ ~ white_char c) ->
  not_first white_char (sg ++ body) /\ not_last white_char (sg ++ body).
Proof.
  intros S (c & r & E & W) (r' & c' & E' & W'). split.
  - apply sign_not_white in S. destruct S as [|d sg D]; intros x y X.
    + rewrite E in X. now injection X as <- <-.
    + now injection X as <- <-.
  - intros x y X. rewrite E' in X. apply last_of_app in X. now subst.
Qed.

Lemma integer_text_iff t z : int_of_text t = Some z <-> integer_text t z.
Proof.
  unfold int_of_text. split.
  - destruct (proj1 (within_strip _ _ is_space_white t (strip is_space t)) eq_refl) as (a & b & E & A & B & _).
    destruct (strip is_space t) as [|c r] eqn:S; [discriminate|].
    assert (K : forall n sg body, c :: r = sg ++ body -> forall neg, sign_text sg neg -> digits_loop 0 false body = Some n ->
      z = (if neg then - Z.of_N n else Z.of_N n)%Z -> integer_text t z).
    { intros n sg body E' neg SG D Z. apply spelled_of_digits_loop in D. destruct D as (ds & SP & ->).
      exists a, sg, neg, body, ds, b. rewrite E, E', <- app_assoc. repeat split; try assumption.
      now rewrite <- (spelled_value body ds SP). }
    destruct (Ascii.eqb_spec c "-"%char) as [->|NM]; [|destruct (Ascii.eqb_spec c "+"%char) as [->|NP]].
    + destruct (digits_loop 0 false r) as [n|] eqn:D; [|discriminate]. intros [= <-].
      now apply (K n ["-"%char] r eq_refl true minus_sign).
    + destruct (digits_loop 0 false r) as [n|] eqn:D; [|discriminate]. intros [= <-].
      now apply (K n ["+"%char] r eq_refl false plus_sign).
    + destruct (digits_loop 0 false (c :: r)) as [n|] eqn:D; [|discriminate]. intros [= <-].
      now apply (K n [] (c :: r) eq_refl false no_sign).
  - intros (a & sg & neg & body & ds & b & -> & A & B & SG & SP & ->).
    destruct (spelled_first _ _ SP) as (c & r & EB & D). destruct (spelled_last _ _ SP) as (r' & c' & EB' & D').
    rewrite (proj2 (within_strip _ _ is_space_white (a ++ sg ++ body ++ b) (sg ++ body))).
    2:{ exists a, b. split; [now rewrite <- app_assoc|]. split; [exact A|]. split; [exact B|].
        apply (signed_within sg neg); [exact SG| |]; [exists c, r|exists r', c']; split; try assumption; now apply digit_not_white. }
    pose proof (digits_loop_spelled body ds SP 0%N false) as DL. pose proof (spelled_value body ds SP) as V.
    apply is_digit_digit in D. destruct (digit_facts c D) as (_ & NM & NP & _).
    destruct SG; cbn [app].
    + rewrite EB. apply Ascii.eqb_neq in NM, NP. rewrite NM, NP, <- EB, DL. cbn [option_map]. now rewrite V.
    + cbn [Ascii.eqb Bool.eqb]. rewrite DL. cbn [option_map]. now rewrite V.
    + cbn [Ascii.eqb Bool.eqb]. rewrite DL. cbn [option_map]. now rewrite V.
Qed.

(** * Values *)

Lemma unquoted_total t : exists u, unquoted t u.
Proof.
  assert (G : forall k t, length t <= k -> exists u, unquoted t u).
  { induction k as [|k IH]; intros s L.
    - destruct s; [exists []; constructor|cbn in L; lia].
    - destruct s as [|c r]; [exists []; constructor|]. cbn [length] in L.
      destruct (ascii_dec c quote) as [->|N].
      + destruct r as [|d r].
        * exists [quote]. apply uq_one; [intros c r X; discriminate X|constructor].
        * cbn [length] in L. destruct (ascii_dec d quote) as [->|N].
          -- destruct (IH r ltac:(lia)) as (u & U). exists (quote :: u). now constructor.
          -- destruct (IH (d :: r) ltac:(cbn [length]; lia)) as (u & U). exists (quote :: u).
             apply uq_one; [|exact U]. intros x y [= <- <-]. congruence.
      + destruct (IH r ltac:(lia)) as (u & U). exists (c :: u). now constructor. }
  exact (G _ t (le_n _)).
Qed.

Lemma unquoted_fun t u : unquoted t u -> unquote t = u.
Proof.
  induction 1 as [|t u H IH|t u NF H IH|c t u N H IH]; cbn [unquote].
  - reflexivity.
  - rewrite Ascii.eqb_refl. now rewrite IH.
  - rewrite Ascii.eqb_refl. destruct t as [|d r]; [now inversion H|].
    destruct (Ascii.eqb_spec d quote) as [->|]; [now elim (NF quote r)|]. now rewrite IH.
  - apply Ascii.eqb_neq in N. rewrite N. now rewrite IH.
Qed.

Lemma unquoted_iff t u : unquote t = u <-> unquoted t u.
Proof.
  split; [|apply unquoted_fun]. intros <-. destruct (unquoted_total t) as (u & U). now rewrite (unquoted_fun t u U).
Qed.

Lemma quoted_iff s b : quoted s = Some b <-> s = quote :: b ++ [quote].
Proof.
  unfold quoted. split.
  - destruct s as [|c r]; [discriminate|]. destruct (Ascii.eqb_spec c quote) as [->|]; [|discriminate].
    destruct (rev r) as [|d x] eqn:E; [discriminate|]. destruct (Ascii.eqb_spec d quote) as [->|]; [|discriminate].
    intros [= <-]. f_equal. apply (f_equal (@rev _)) in E. rewrite rev_involutive in E. rewrite E. reflexivity.
  - intros ->. rewrite Ascii.eqb_refl, rev_app_distr. cbn [rev app]. now rewrite Ascii.eqb_refl, rev_involutive.
Qed.

Lemma quoted_none s : quoted s = None <-> ~ in_quotes s.
Proof.
  split.
  - intros E (b & B). apply quoted_iff in B. congruence.
  - intros N. destruct (quoted s) as [b|] eqn:E; [|reflexivity]. elim N. exists b. now apply quoted_iff.
Qed.

Lemma like_float_iff s : has "." s || has "e" s || has "E" s = true <-> like_float s.
Proof. unfold like_float. rewrite !orb_true_iff, !has_in. tauto. Qed.

Section Values.
Context {F : Type} (float_of : text -> option F) (FT : text -> F -> Prop) (FI : forall s x, float_of s = Some x <-> FT s x).

Lemma parse1_iff s v : parse1 float_of s = Ok v <-> item_value FT s v.
Proof.
  unfold parse1. split.
  - destruct (quoted s) as [b|] eqn:Q.
    + intros [= <-]. apply quoted_iff in Q. subst s. constructor. now apply unquoted_iff.
    + apply quoted_none in Q. destruct (has "." s || has "e" s || has "E" s) eqn:L.
      * destruct (float_of s) as [x|] eqn:E; [|discriminate]. intros [= <-].
        apply iv_float; [exact Q|now apply like_float_iff|now apply FI].
      * destruct (int_of_text s) as [z|] eqn:E; [|discriminate]. intros [= <-].
        apply iv_int; [exact Q|intros X; apply like_float_iff in X; congruence|now apply integer_text_iff].
  - intros H. destruct H as [b u U|s x Q L X|s z Q L X].
    + rewrite (proj2 (quoted_iff _ b) eq_refl). apply unquoted_fun in U. now rewrite U.
    + apply quoted_none in Q. rewrite Q. apply like_float_iff in L. rewrite L. apply FI in X. now rewrite X.
    + apply quoted_none in Q. rewrite Q. destruct (has "." s || has "e" s || has "E" s) eqn:E; [elim L; now apply like_float_iff|].
      apply integer_text_iff in X. now rewrite X.
Qed.

Lemma mapM_iff {A B} (f : A -> res B) (P : A -> B -> Prop) : (forall x y, f x = Ok y <-> P x y) ->
  forall l vs, mapM f l = Ok vs <-> Forall2 P l vs.
Proof.
  intros R. induction l as [|x l IH]; intros vs; cbn [mapM].
  - split; [intros [= <-]; constructor|intros H; inversion H; reflexivity].
  - split.
    + destruct (f x) as [y|] eqn:E; [|discriminate]. cbn [rbind]. destruct (mapM f l) as [ys|] eqn:E'; [|discriminate].
      cbn [rbind]. intros [= <-]. constructor; [now apply R|now apply IH].
    + intros H. inversion H as [|? y ? ys P1 P2]; subst. apply R in P1. apply IH in P2. now rewrite P1, P2.
Qed.

(** ** Lists *)

Lemma split_plain s : forall cur skip t, Forall (fun c => ~ separator c) s -> s <> [] \/ skip = false ->
  split_items cur skip (s ++ t) = split_items (rev s ++ cur) false t.
Proof.
  induction s as [|c s IH]; intros cur skip t NS NE.
  - destruct NE as [NE| ->]; [now elim NE|reflexivity].
  - inversion NS as [|? ? N NS']; subst. cbn [app split_items].
    assert (X : Ascii.eqb c " " || Ascii.eqb c "," = false).
    { destruct (Ascii.eqb c " " || Ascii.eqb c ",") eqn:E; [|reflexivity]. now apply is_separator in E. }
    rewrite X. apply orb_false_iff in X. destruct X as (X & _). rewrite X. cbn [andb].
    rewrite IH by (auto). cbn [rev]. now rewrite <- app_assoc.
Qed.

Lemma split_skip b : forall t, blank_text b -> split_items [] true (b ++ t) = split_items [] true t.
Proof.
  induction b as [|c b IH]; intros t H; [reflexivity|]. inversion H as [|? ? <- H']; subst. cbn [app split_items andb Ascii.eqb Bool.eqb].
  now apply IH.
Qed.

Lemma split_noskip t : not_first (eq " "%char) t -> split_items [] true t = split_items [] false t.
Proof.
  destruct t as [|c t]; intros H; [reflexivity|]. cbn [split_items].
  assert (E : Ascii.eqb c " " = false) by (apply Ascii.eqb_neq; intros ->; now elim (H " "%char t)).
  now rewrite E.
Qed.

Lemma separated_fun t l : separated t l -> split_items [] false t = l.
Proof.
  induction 1 as [s N|s c b t l N SC B NF S IH].
  - rewrite <- (app_nil_r s) at 1. rewrite split_plain by auto. cbn [split_items]. now rewrite app_nil_r, rev_involutive.
  - rewrite split_plain by auto. cbn [split_items]. apply is_separator in SC. rewrite SC, andb_false_r.
    rewrite app_nil_r, rev_involutive. f_equal. rewrite split_skip by exact B. now rewrite split_noskip.
Qed.

Lemma blank_split t : exists b r, t = b ++ r /\ blank_text b /\ not_first (eq " "%char) r.
Proof. destruct (lstrip_split _ _ is_blank t) as (a & E & B & N). eauto. Qed.

Lemma separated_total t : exists l, separated t l.
Proof.
  assert (G : forall k t, length t <= k -> exists l, separated t l).
  { induction k as [|k IH]; intros s L.
    - destruct s; [exists [[]]; repeat constructor|cbn in L; lia].
    - destruct (lstrip_split (fun c => negb (Ascii.eqb c " " || Ascii.eqb c ",")) (fun c => ~ separator c)) with (t := s) as (a & E & A & N).
      { intros c. rewrite <- is_separator. destruct (Ascii.eqb c " " || Ascii.eqb c ","); cbn; split; congruence. }
      destruct (lstrip _ s) as [|c r].
      + rewrite app_nil_r in E. subst a. exists [s]. now constructor.
      + assert (SC : separator c).
        { specialize (N c r eq_refl). destruct (Ascii.eqb c " " || Ascii.eqb c ",") eqn:X; [now apply is_separator|].
          elim N. intros Y. apply is_separator in Y. congruence. }
        destruct (blank_split r) as (b & r' & -> & B & NF).
        destruct (IH r') as (l & S). { subst s. rewrite !app_length in L. cbn [length] in L. rewrite app_length in L. lia. }
        exists (a :: l). rewrite E. now constructor. }
  exact (G _ t (le_n _)).
Qed.

Lemma separated_iff t l : split_items [] false t = l <-> separated t l.
Proof.
  split; [|apply separated_fun]. intros <-. destruct (separated_total t) as (l & S). now rewrite (separated_fun t l S).
Qed.

(** ** Strings *)

Lemma blanks_quote_some l : forall some t, blanks_quote some l = Some t <->
  exists b, blank_text b /\ l = b ++ quote :: t /\ (b <> [] \/ some = true).
Proof.
  induction l as [|c l IH]; intros some t; cbn [blanks_quote].
  - split; [discriminate|]. intros (b & _ & E & _). destruct b; discriminate E.
  - destruct (Ascii.eqb_spec c " "%char) as [->|N].
    + rewrite IH. split.
      * intros (b & B & -> & _). exists (" "%char :: b). repeat split; [now constructor|]. left. discriminate.
      * intros (b & B & E & _). destruct b as [|d b]; [discriminate E|]. inversion B; subst. injection E as ->. exists b. auto.
    + destruct (Ascii.eqb_spec c quote) as [->|N'].
      * cbn [andb]. split.
        -- destruct some; [|discriminate]. intros [= <-]. exists []. repeat split; [constructor|auto].
        -- intros (b & B & E & O). destruct b as [|d b]; [|inversion B; subst; discriminate E].
           injection E as ->. destruct O as [O| ->]; [now elim O|reflexivity].
      * cbn [andb]. split; [discriminate|]. intros (b & B & E & _). destruct b as [|d b].
        -- injection E as -> ->. now elim N'.
        -- inversion B; subst. injection E as -> _. now elim N.
Qed.

Definition gap_at (c : ascii) (r : text) : option text := if Ascii.eqb c quote then blanks_quote false r else None.

Lemma gap_at_some c r t : gap_at c r = Some t <-> exists b, b <> [] /\ blank_text b /\ c :: r = quote :: b ++ quote :: t.
Proof.
  unfold gap_at. destruct (Ascii.eqb_spec c quote) as [->|N].
  - rewrite blanks_quote_some. split.
    + intros (b & B & -> & [O|O]); [|discriminate O]. now exists b.
    + intros (b & NE & B & [= ->]). exists b. auto.
  - split; [discriminate|]. intros (b & _ & _ & [= -> _]). now elim N.
Qed.

Lemma gap_at_none c r : gap_at c r = None <-> ~ gap (c :: r).
Proof.
  destruct (gap_at c r) as [t|] eqn:E; split; try congruence.
  - intros N. elim N. apply gap_at_some in E. destruct E as (b & NE & B & X). now exists b, t.
  - intros _ (b & t & NE & B & X). assert (E' : gap_at c r = Some t) by (apply gap_at_some; now exists b). congruence.
Qed.

Lemma split_strings_S k cur c r : split_strings (S k) cur (c :: r) =
  match gap_at c r with Some t => rev cur :: split_strings k [] t | None => split_strings k (c :: cur) r end.
Proof. reflexivity. Qed.

Lemma split_strings_skip s : forall k cur t,
  (forall a c s', s = a ++ c :: s' -> ~ gap (c :: s' ++ t)) -> length s <= k ->
  split_strings k cur (s ++ t) = split_strings (k - length s) (rev s ++ cur) t.
Proof.
  induction s as [|c s IH]; intros k cur t N L.
  - cbn [app length rev]. now rewrite Nat.sub_0_r.
  - cbn [length] in L. destruct k as [|k]; [lia|]. cbn [app]. rewrite split_strings_S.
    rewrite (proj2 (gap_at_none c (s ++ t)) (N [] c s eq_refl)). rewrite IH; [|intros a d s' ->; now apply (N (c :: a))|lia].
    cbn [rev]. now rewrite <- app_assoc.
Qed.

Lemma split_strings_nil k cur : split_strings k cur [] = [rev cur].
Proof. destruct k; reflexivity. Qed.

Lemma parted_fun t l : parted t l -> forall k, length t <= k -> split_strings k [] t = l.
Proof.
  induction 1 as [s N|s b t l NE B N P IH]; intros k L.
  - rewrite <- (app_nil_r s) at 1. rewrite split_strings_skip; [|intros a c s' E; rewrite app_nil_r; apply (N a); exact E|exact L].
    rewrite split_strings_nil, app_nil_r, rev_involutive. reflexivity.
  - rewrite app_length in L. cbn [length] in L. rewrite app_length in L. cbn [length] in L.
    rewrite split_strings_skip; [|exact N|lia]. destruct (k - length s) as [|k'] eqn:K; [lia|].
    rewrite split_strings_S. rewrite (proj2 (gap_at_some quote (b ++ quote :: t) t)) by (now exists b).
    rewrite app_nil_r, rev_involutive. f_equal. apply IH. lia.
Qed.

Lemma first_gap t : (forall a r, t = a ++ r -> ~ gap r) \/
  exists s b r, b <> [] /\ blank_text b /\ t = s ++ quote :: b ++ quote :: r /\
    forall a c s', s = a ++ c :: s' -> ~ gap (c :: s' ++ quote :: b ++ quote :: r).
Proof.
  induction t as [|c t IH].
  - left. intros a r E. symmetry in E. apply app_eq_nil in E. destruct E as (_ & ->). intros (b & r & _ & _ & X). discriminate X.
  - destruct (gap_at c t) as [r|] eqn:G.
    + right. apply gap_at_some in G. destruct G as (b & NE & B & E). exists [], b, r. repeat split; try assumption.
      intros a d s' X. destruct a; discriminate X.
    + apply gap_at_none in G. destruct IH as [IH|(s & b & r & NE & B & -> & N)].
      * left. intros [|d a] r E; cbn [app] in E; [now subst r|]. injection E as _ E. now apply (IH a).
      * right. exists (c :: s), b, r. repeat split; try assumption. intros [|d a] e s' E; cbn [app] in E.
        -- injection E as <- <-. exact G.
        -- injection E as _ E. now apply (N a).
Qed.

Lemma parted_total t : exists l, parted t l.
Proof.
  assert (G : forall k t, length t <= k -> exists l, parted t l).
  { induction k as [|k IH]; intros s L; destruct (first_gap s) as [N|(a & b & r & NE & B & -> & N)];
      try (eexists; constructor; exact N); rewrite app_length in L; cbn [length] in L; rewrite app_length in L; cbn [length] in L; [lia|].
    destruct (IH r ltac:(lia)) as (l & P). exists (a :: l). now constructor. }
  exact (G _ t (le_n _)).
Qed.

Lemma parted_iff t l : split_strings (length t) [] t = l <-> parted t l.
Proof.
  split; [|intros P; now apply (parted_fun t l P)].
  intros <-. destruct (parted_total t) as (l & S). now rewrite (parted_fun t l S).
Qed.

Lemma trimmed_all parts us : Forall2 trimmed_end parts us <-> us = map (rstrip is_space) parts.
Proof.
  split.
  - induction 1 as [|s u ss us T _ IH]; [reflexivity|]. cbn [map]. apply trimmed_end_iff in T. now rewrite T, IH.
  - intros ->. induction parts as [|s ss IH]; constructor; [now apply trimmed_end_iff|exact IH].
Qed.

(** ** The value of an entry *)

Lemma last_two (line : text) c : 
  text_eqb (skipn (length line - 2) line) [c; ";"%char] = true <-> exists r, line = r ++ [c; ";"%char].
Proof.
  rewrite text_eqb_eq. split.
  - intros E. exists (firstn (length line - 2) line). rewrite <- E. symmetry. apply firstn_skipn.
  - intros (r & ->). rewrite app_length. cbn [length]. rewrite Nat.add_sub, skipn_app, skipn_all, Nat.sub_diag. reflexivity.
Qed.

Lemma closes_ne o c : closes o c -> o <> c.
Proof. intros [(-> & ->)|(-> & ->)]; discriminate. Qed.

Lemma entry_value_iff o c t vs : closes o c ->
  entry_value float_of o c (o :: t) = Ok vs <-> exists inner, o :: t = o :: inner ++ [c; ";"%char] /\ values FT o inner vs.
Proof.
  intros CL. unfold entry_value. split.
  - destruct (text_eqb _ _) eqn:E; cbn [negb]; [|discriminate]. apply last_two in E. destruct E as (r & E).
    destruct r as [|o' inner]; [injection E as E _; now apply closes_ne in CL|]. injection E as <- ->.
    assert (I : firstn (length (o :: inner ++ [c; ";"%char]) - 2 - 1) (skipn 1 (o :: inner ++ [c; ";"%char])) = inner).
    { cbn [skipn length]. rewrite app_length. cbn [length].
      replace (S (length inner + 2) - 2 - 1) with (length inner) by lia.
      rewrite firstn_app, firstn_all, Nat.sub_diag. cbn [firstn]. apply app_nil_r. }
    rewrite I. intros H. exists inner. split; [reflexivity|].
    destruct CL as [(-> & ->)|(-> & ->)]; cbn [Ascii.eqb Bool.eqb] in H.
    + apply (mapM_iff _ _ parse1_iff) in H. eapply vl_list; [apply (within_strip _ _ is_separator); reflexivity| |exact H].
      now apply separated_iff.
    + injection H as <-.
      set (core := strip (fun c => Ascii.eqb c " " || Ascii.eqb c ",") inner).
      replace (map _ _) with (map (@Vstr F) (map (rstrip is_space) (split_strings (length (strip (Ascii.eqb quote) core)) [] (strip (Ascii.eqb quote) core))))
        by (rewrite map_map; reflexivity).
      eapply (vl_strings FT inner core (strip (Ascii.eqb quote) core)).
      * apply (within_strip _ _ is_separator). reflexivity.
      * apply (within_strip _ _ is_quote). reflexivity.
      * apply parted_iff. reflexivity.
      * now apply trimmed_all.
  - intros (inner & [= ->] & V).
    rewrite (proj2 (last_two (o :: inner ++ [c; ";"%char]) c)) by (now exists (o :: inner)). cbn [negb].
    assert (I : firstn (length (o :: inner ++ [c; ";"%char]) - 2 - 1) (skipn 1 (o :: inner ++ [c; ";"%char])) = inner).
    { cbn [skipn length]. rewrite app_length. cbn [length].
      replace (S (length inner + 2) - 2 - 1) with (length inner) by lia.
      rewrite firstn_app, firstn_all, Nat.sub_diag. cbn [firstn]. apply app_nil_r. }
    rewrite I. destruct V as [inner core items vs W S FV|inner core core' parts us W W' P T].
    + apply (within_strip _ _ is_separator) in W. rewrite W. cbn [Ascii.eqb Bool.eqb].
      apply separated_fun in S. rewrite S. now apply (mapM_iff _ _ parse1_iff).
    + apply (within_strip _ _ is_separator) in W. rewrite W. cbn [Ascii.eqb Bool.eqb].
      apply (within_strip _ _ is_quote) in W'. rewrite W'. rewrite (parted_fun _ _ P) by lia.
      apply trimmed_all in T. rewrite T, map_map. reflexivity.
Qed.

(** * Entries *)

Lemma firstn_key {A} (key t : list A) : firstn (length (key ++ t) - length t) (key ++ t) = key.
Proof.
  rewrite app_length, Nat.add_sub, firstn_app, firstn_all, Nat.sub_diag. cbn [firstn]. apply app_nil_r.
Qed.

Lemma word_not_blank c : word_char c -> " "%char <> c.
Proof. intros W <-. unfold word_char in W. cbn in W. destruct W as [W|[W|[W|W]]]; [lia|lia|lia|discriminate W]. Qed.

Definition cut_end (line : text) : text :=
  match rev line with c :: b => if Ascii.eqb c newline then rev b else line | [] => line end.

Lemma cut_end_spec line : exists e, line = cut_end line ++ e /\ (e = [] \/ e = [newline]).
Proof.
  unfold cut_end. destruct (rev line) as [|c b] eqn:E.
  - exists []. rewrite app_nil_r. auto.
  - destruct (Ascii.eqb_spec c newline) as [->|].
    + exists [newline]. split; [|auto]. apply (f_equal (@rev _)) in E. rewrite rev_involutive in E. exact E.
    + exists []. rewrite app_nil_r. auto.
Qed.

Lemma cut_end_is l e : no_line_end l -> e = [] \/ e = [newline] -> cut_end (l ++ e) = l.
Proof.
  intros N [-> | ->]; unfold cut_end.
  - rewrite app_nil_r. destruct (rev l) as [|c b] eqn:E; [reflexivity|].
    destruct (Ascii.eqb_spec c newline) as [->|]; [|reflexivity]. elim N. apply in_rev. rewrite E. now left.
  - rewrite rev_app_distr. cbn [rev app]. rewrite Ascii.eqb_refl. apply rev_involutive.
Qed.

Lemma blank_no_line_end b : blank_text b -> no_line_end b.
Proof. intros B I. unfold blank_text in B. rewrite Forall_forall in B. apply B in I. discriminate I. Qed.

Lemma head_line_iff l key val : match_line l = Some (key, val) <-> head_line l key val.
Proof.
  unfold match_line. fold (cut_end l). split.
  - destruct (cut_end_spec l) as (e & E & EC). set (l0 := cut_end l) in *.
    destruct (has newline l0) eqn:NL; [discriminate|]. apply has_false in NL.
    destruct (lstrip_split _ _ is_blank l0) as (b1 & E1 & B1 & N1). set (l1 := lstrip (Ascii.eqb " ") l0) in *.
    destruct (lstrip_split _ _ is_word_word l1) as (k & E2 & B2 & N2). set (l2 := lstrip is_word l1) in *.
    destruct (lstrip_split _ _ is_blank l2) as (b2 & E3 & B3 & N3). destruct (lstrip (Ascii.eqb " ") l2) as [|c r]; [discriminate|].
    destruct (Ascii.eqb_spec c "="%char) as [->|]; [|discriminate]. intros [= <- <-].
    rewrite E2, firstn_key.
    destruct (lstrip_split _ _ is_blank r) as (b3 & E4 & B4 & N4). set (r1 := lstrip (Ascii.eqb " ") r) in *.
    destruct (rstrip_split _ _ is_blank r1) as (b4 & E5 & B5 & N5). set (v := rstrip (Ascii.eqb " ") r1) in *.
    exists b1, b2, b3, b4, e.
    assert (X : l0 = b1 ++ k ++ b2 ++ "="%char :: b3 ++ v ++ b4) by (rewrite E1, E2, E3, E4, E5; reflexivity).
    split; [rewrite E, X, <- !app_assoc; cbn [app]; rewrite <- !app_assoc; reflexivity|].
    repeat split; try assumption.
    + intros I. apply NL. rewrite X. apply in_app_iff. right. apply in_app_iff. right. apply in_app_iff. right. right.
      apply in_app_iff. right. apply in_app_iff. now left.
    + rewrite E5 in N4. now apply not_first_cut in N4.
  - intros (b1 & b2 & b3 & b4 & e & E & B1 & B2 & B3 & B4 & EC & K & NV & NF & NL).
    set (l0 := b1 ++ key ++ b2 ++ "="%char :: b3 ++ val ++ b4).
    assert (X : l = l0 ++ e) by (rewrite E; unfold l0; rewrite <- !app_assoc; cbn [app]; rewrite <- !app_assoc; reflexivity).
    assert (N0 : no_line_end l0).
    { unfold l0. intros I. rewrite !in_app_iff in I. destruct I as [I|[I|[I|I]]].
      - now apply blank_no_line_end in I.
      - rewrite Forall_forall in K. apply K in I. unfold word_char in I. cbn in I. destruct I as [I|[I|[I|I]]]; [lia|lia|lia|discriminate I].
      - now apply blank_no_line_end in I.
      - destruct I as [I|I]; [discriminate I|]. rewrite !in_app_iff in I. destruct I as [I|[I|I]].
        + now apply blank_no_line_end in I.
        + now apply NV.
        + now apply blank_no_line_end in I. }
    rewrite X, cut_end_is by assumption. rewrite (proj2 (has_false newline l0) N0).
    assert (NB : not_first (eq " "%char) ("="%char :: b3 ++ val ++ b4)) by (intros c r [= <- <-]; discriminate).
    assert (L1 : lstrip (Ascii.eqb " ") l0 = key ++ b2 ++ "="%char :: b3 ++ val ++ b4 \/
                 (key = [] /\ lstrip (Ascii.eqb " ") l0 = "="%char :: b3 ++ val ++ b4)).
    { unfold l0. destruct key as [|c key].
      - right. split; [reflexivity|]. cbn [app]. rewrite app_assoc. eapply (lstrip_is _ _ is_blank); [reflexivity| |exact NB].
        now apply Forall_app.
      - left. eapply (lstrip_is _ _ is_blank); [reflexivity|exact B1|]. intros d r [= <- <-]. inversion K; subst.
        now apply word_not_blank. }
    assert (VAL : rstrip (Ascii.eqb " ") (lstrip (Ascii.eqb " ") (b3 ++ val ++ b4)) = val).
    { destruct val as [|v0 val'].
      - cbn [app]. rewrite lstrip_all by (now apply (forallb_Forall _ _ is_blank)).
        rewrite <- (app_nil_r b4), lstrip_all by (now apply (forallb_Forall _ _ is_blank)). reflexivity.
      - rewrite (lstrip_is _ _ is_blank _ b3 ((v0 :: val') ++ b4)); [|reflexivity|exact B3|].
        + now apply (rstrip_is _ _ is_blank _ _ b4).
        + intros c r [= <- <-]. now apply (NF v0 val'). }
    assert (W2 : forall b, blank_text b -> lstrip is_word (b ++ "="%char :: b3 ++ val ++ b4) = b ++ "="%char :: b3 ++ val ++ b4).
    { intros b B. destruct b as [|c b]; [apply lstrip_stop; reflexivity|]. inversion B; subst. apply lstrip_stop. reflexivity. }
    destruct L1 as [L1|(-> & L1)]; rewrite L1.
    + rewrite (lstrip_all is_word key) by (now apply (forallb_Forall _ _ is_word_word)). rewrite W2 by exact B2. rewrite firstn_key.
      rewrite lstrip_all by (now apply (forallb_Forall _ _ is_blank)). cbn [lstrip Ascii.eqb Bool.eqb]. now rewrite VAL.
    + rewrite (lstrip_stop is_word "="%char) by reflexivity. rewrite Nat.sub_diag. cbn [firstn].
      cbn [lstrip Ascii.eqb Bool.eqb]. now rewrite VAL.
Qed.

Lemma joined_iff c ls : forall t w ls', gather c t ls = Ok (w, ls') <-> joined c t ls w ls'.
Proof.
  induction ls as [|l ls IH]; intros t w ls'; cbn [gather]; destruct (has c t) eqn:H.
  - apply has_in in H. split; [intros [= <- <-]; now constructor|intros J; inversion J; subst; reflexivity].
  - apply has_false in H. split; [discriminate|intros J; inversion J; subst; contradiction].
  - apply has_in in H. split; [intros [= <- <-]; now constructor|intros J; inversion J; subst; [reflexivity|contradiction]].
  - apply has_false in H. rewrite IH. split.
    + intros J. eapply jn_more; [exact H|apply strip_comments_iff; reflexivity|apply trimmed_end_iff; reflexivity|exact J].
    + intros J. inversion J as [|? ? u v ? ? ? N S T J']; subst; [contradiction|].
      apply strip_comments_iff in S. apply trimmed_end_iff in T. now rewrite S, T.
Qed.

Lemma closing_of_iff val c : closing_of val = Ok c <-> exists o r, val = o :: r /\ closes o c.
Proof.
  destruct val as [|o r]; cbn [closing_of].
  - split; [discriminate|]. intros (o & r & E & _). discriminate E.
  - destruct (Ascii.eqb_spec o "["%char) as [->|N1]; [|destruct (Ascii.eqb_spec o "{"%char) as [->|N2]].
    + split; [intros [= <-]; exists "["%char, r; split; [reflexivity|now left]|].
      intros (o' & r' & [= <- <-] & [(_ & ->)|(X & _)]); [reflexivity|discriminate X].
    + split; [intros [= <-]; exists "{"%char, r; split; [reflexivity|now right]|].
      intros (o' & r' & [= <- <-] & [(X & _)|(_ & ->)]); [discriminate X|reflexivity].
    + split; [discriminate|]. intros (o' & r' & [= <- <-] & [(X & _)|(X & _)]); congruence.
Qed.

Lemma joined_head c o t ls w ls' : joined c (o :: t) ls w ls' -> exists t', w = o :: t'.
Proof.
  intros J. remember (o :: t) as s eqn:E. revert t E. induction J as [s ls I|s l u v ls w ls' N S T J IH]; intros t E.
  - subst s. now exists t.
  - subst s. eapply IH. reflexivity.
Qed.

Lemma head_not_white u key val : head_line u key val -> ~ white_text u.
Proof.
  intros (b1 & b2 & b3 & b4 & e & -> & _) W. unfold white_text in W. rewrite Forall_forall in W.
  assert (X : white_char "="%char).
  { apply W. rewrite !in_app_iff. right. right. right. now left. }
  unfold white_char in X. cbn in X. lia.
Qed.

Lemma joined_len c t ls w ls' : joined c t ls w ls' -> length ls' <= length ls.
Proof. induction 1; cbn [length]; lia. Qed.

Definition dset_all (d : metadict F) (es : list (text * list (value F))) : metadict F :=
  fold_left (fun d kv => dset d (fst kv) (snd kv)) es d.

Lemma parse_loop_iff k : forall ls d d', length ls <= k ->
  parse_loop float_of k ls d = Ok d' <-> exists es, entries FT ls es /\ d' = dset_all d es.
Proof.
  induction k as [|k IH]; intros ls d d' L.
  - destruct ls; [|cbn in L; lia]. cbn [parse_loop]. split.
    + intros [= <-]. exists []. split; [constructor|reflexivity].
    + intros (es & E & ->). inversion E. reflexivity.
  - destruct ls as [|l ls].
    { cbn [parse_loop]. split; [intros [= <-]; exists []; split; [constructor|reflexivity]|].
      intros (es & E & ->). inversion E. reflexivity. }
    cbn [length] in L. cbn [parse_loop]. pose proof (proj1 (strip_comments_iff l _) eq_refl) as SC. set (u := strip_comments l) in *.
    destruct (forallb is_space u) eqn:W.
    + apply white_forallb in W. rewrite IH by lia. split.
      * intros (es & E & ->). exists es. split; [|reflexivity]. eapply en_blank; eassumption.
      * intros (es & E & ->). exists es. split; [|reflexivity].
        inversion E as [|? u' ? ? S' W' E'|? u' ? key o c val inner ls' vs es' S' H' C' J' V' E']; subst; [exact E'|].
        apply strip_comments_iff in S'. change (u = u') in S'. subst u'. now apply head_not_white in H'.
    + assert (NW : ~ white_text u) by (intros X; apply white_forallb in X; congruence).
      destruct (match_line u) as [[key val]|] eqn:M.
      * pose proof (proj1 (head_line_iff u key val) M) as HL. split.
        -- destruct (closing_of val) as [c|] eqn:CO; [|discriminate]. cbn [rbind].
           apply closing_of_iff in CO. destruct CO as (o & r & -> & CL).
           destruct (gather c (o :: r) ls) as [[w ls']|] eqn:G; [|discriminate]. cbn [rbind]. apply joined_iff in G.
           destruct (joined_head _ _ _ _ _ _ G) as (t' & ->). cbn [hd].
           destruct (entry_value float_of o c (o :: t')) as [vs|] eqn:EV; [|discriminate]. cbn [rbind].
           apply (entry_value_iff o c t' vs CL) in EV. destruct EV as (inner & EI & V).
           intros H. apply IH in H; [|apply joined_len in G; lia]. destruct H as (es & E & ->).
           exists ((key, vs) :: es). split; [|reflexivity]. rewrite EI in G. eapply en_entry; eassumption.
        -- intros (es & E & ->).
           inversion E as [|? u' ? ? S' W' E'|? u' ? key' o c val' inner ls' vs es' S' H' C' J' V' E']; subst.
           { apply strip_comments_iff in S'. change (u = u') in S'. subst u'. contradiction. }
           apply strip_comments_iff in S'. change (u = u') in S'. subst u'.
           apply head_line_iff in H'. rewrite M in H'. injection H' as -> ->.
           rewrite (proj2 (closing_of_iff (o :: val') c)) by (now exists o, val'). cbn [rbind].
           pose proof (joined_len _ _ _ _ _ J') as LJ.
           apply joined_iff in J'. rewrite J'. cbn [rbind hd].
           rewrite (proj2 (entry_value_iff o c _ vs C')) by (now exists inner). cbn [rbind].
           apply IH; [lia|]. exists es'. split; [exact E'|reflexivity].
      * split; [discriminate|]. intros (es & E & ->).
        inversion E as [|? u' ? ? S' W' E'|? u' ? key o c val inner ls' vs es' S' H' C' J' V' E']; subst;
          apply strip_comments_iff in S'; change (u = u') in S'; subst u'; [contradiction|].
        apply head_line_iff in H'. congruence.
Qed.

(** * Lines *)

Lemma lines_from_rest b : forall cur, ~ In newline b -> lines_from cur b = match rev cur ++ b with [] => [] | l => [l] end.
Proof.
  induction b as [|c b IH]; intros cur N; cbn [lines_from].
  - rewrite app_nil_r. destruct cur as [|d cur]; [reflexivity|]. destruct (rev (d :: cur)) eqn:E; [|reflexivity].
    apply (f_equal (@length _)) in E. rewrite rev_length in E. discriminate E.
  - destruct (Ascii.eqb_spec c newline) as [->|]; [elim N; now left|].
    rewrite IH by (intros I; apply N; now right). cbn [rev]. now rewrite <- app_assoc.
Qed.

Lemma text_lines_fun t ls : text_lines t ls -> lines_of t = ls.
Proof.
  intros (-> & whole & rest & -> & W & R). induction W as [|l whole (b & -> & N) W IH].
  - cbn [app]. destruct R as [-> |(b & -> & NE & N)]; [reflexivity|]. cbn [concat]. rewrite app_nil_r.
    unfold lines_of. rewrite lines_from_rest by exact N. cbn [rev app]. destruct b; [now elim NE|reflexivity].
  - cbn [app concat]. rewrite <- app_assoc. cbn [app]. rewrite lines_of_line by exact N. now rewrite IH.
Qed.

Lemma text_lines_total t : exists ls, text_lines t ls.
Proof.
  induction t as [|c t (ls & E & whole & rest & EL & W & R)].
  - exists []. split; [reflexivity|]. exists [], []. auto.
  - destruct (ascii_dec c newline) as [->|N].
    + exists ([newline] :: ls). split; [cbn [concat app]; now rewrite E|]. exists ([newline] :: whole), rest.
      split; [rewrite EL; reflexivity|]. split; [|exact R]. constructor; [|exact W]. exists []. split; [reflexivity|intros []].
    + destruct W as [|l whole (b & EB & NB) W].
      * destruct R as [-> |(b & -> & NE & NB)].
        -- cbn [app] in EL. subst ls. exists [[c]]. split; [cbn in *; now rewrite E|]. exists [], [[c]].
           repeat split; [constructor|]. right. exists [c]. repeat split; [discriminate|]. intros [X|[]]. now apply N.
        -- cbn [app] in EL. subst ls. exists [c :: b]. split; [cbn in *; now rewrite E|]. exists [], [c :: b].
           repeat split; [constructor|]. right. exists (c :: b). repeat split; [discriminate|]. intros [X|X]; [now apply N|now apply NB].
      * exists ((c :: l) :: whole ++ rest). split; [rewrite E, EL; reflexivity|]. exists ((c :: l) :: whole), rest.
        split; [reflexivity|]. split; [|exact R]. constructor; [|exact W]. exists (c :: b). split; [now rewrite EB|].
        intros [X|X]; [now apply N|now apply NB].
Qed.

Lemma text_lines_iff t ls : lines_of t = ls <-> text_lines t ls.
Proof.
  split; [|apply text_lines_fun]. intros <-. destruct (text_lines_total t) as (ls & S). now rewrite (text_lines_fun t ls S).
Qed.

Lemma parsemeta_iff t d : parsemeta float_of t = Ok d <-> exists es, meta_file FT t es /\ d = dset_all [] es.
Proof.
  unfold parsemeta. rewrite parse_loop_iff by lia. split.
  - intros (es & E & ->). exists es. split; [|reflexivity]. exists (lines_of t). split; [now apply text_lines_iff|exact E].
  - intros (es & (ls & T & E) & ->). apply text_lines_fun in T. subst ls. now exists es.
Qed.

End Values.
