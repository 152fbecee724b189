(** Facts about the text functions of MdsMeta.v. *)
From Coq Require Import Ascii String List Bool PeanoNat NArith ZArith Nnat Lia Sorted Permutation.
Import ListNotations.
From Verif Require Import Prelude MdsMeta Mds SpecMds.
Local Open Scope nat_scope.
Local Open Scope list_scope.

Lemma text_eqb_eq a b : text_eqb a b = true <-> a = b.
Proof. unfold text_eqb. destruct (list_eq_dec ascii_dec a b); split; congruence. Qed.
Lemma text_eqb_refl a : text_eqb a a = true.
Proof. now apply text_eqb_eq. Qed.
Lemma text_eqb_neq a b : text_eqb a b = false <-> a <> b.
Proof. unfold text_eqb. destruct (list_eq_dec ascii_dec a b); split; congruence. Qed.

Lemma has_in c l : has c l = true <-> In c l.
Proof.
  unfold has. rewrite existsb_exists. split.
  - intros (x & H & E). apply Ascii.eqb_eq in E. now subst.
  - intros H. exists c. split; [assumption | apply Ascii.eqb_refl].
Qed.

(** * Comments *)

Lemma after_line_app b t : no_line_end b -> at_line_end t -> after_line (b ++ t) = t.
Proof.
  unfold no_line_end. induction b as [|c b IH]; intros H T; cbn [app after_line].
  - destruct T as [-> | (r & ->)]; [reflexivity|]. cbn [after_line]. now rewrite Ascii.eqb_refl.
  - destruct (Ascii.eqb_spec c newline); [exfalso; apply H; left; congruence|].
    apply IH; [|assumption]. intros I. apply H. now right.
Qed.

Lemma after_line_spec l :
  exists b, l = b ++ after_line l /\ no_line_end b /\ at_line_end (after_line l).
Proof.
  unfold no_line_end. induction l as [|c l IH]; cbn [after_line].
  - exists []. repeat split; [auto | now left].
  - destruct (Ascii.eqb_spec c newline) as [->|E].
    + exists []. repeat split; [auto | right; eauto].
    + destruct IH as (b & E1 & E2 & E3). exists (c :: b). repeat split.
      * cbn [app]. congruence.
      * intros [I|I]; [congruence | auto].
      * assumption.
Qed.

Lemma after_line_len l : length (after_line l) <= length l.
Proof. induction l; cbn [after_line length]; [auto|]. destruct (Ascii.eqb a newline); cbn [length]; lia. Qed.

Lemma after_block_app b t :
  (forall x y, b ++ ["*"%char] <> x ++ lit "*/" ++ y) -> after_block (b ++ lit "*/" ++ t) = Some t.
Proof.
  induction b as [|c b IH]; intros H.
  - reflexivity.
  - cbn [app after_block].
    assert (H' : forall x y, b ++ ["*"%char] <> x ++ lit "*/" ++ y).
    { intros x y E. apply (H (c :: x) y). cbn [app]. now rewrite E. }
    specialize (IH H').
    destruct (Ascii.eqb_spec c "*"%char) as [->|E]; [|exact IH].
    destruct b as [|d b'].
    + cbn [app lit list_ascii_of_string]. cbn [app] in IH. exact IH.
    + cbn [app] in *. destruct (Ascii.eqb_spec d "/"%char) as [->|E2]; [|exact IH].
      exfalso. apply (H [] (b' ++ ["*"%char])). reflexivity.
Qed.

Lemma after_block_spec l t :
  after_block l = Some t ->
  exists b, l = b ++ lit "*/" ++ t /\ forall x y, b ++ ["*"%char] <> x ++ lit "*/" ++ y.
Proof.
  induction l as [|c l IH]; cbn [after_block]; [discriminate|].
  assert (GO : after_block l = Some t -> (c <> "*"%char \/ forall r, l <> "/"%char :: r) ->
    exists b, c :: l = b ++ lit "*/" ++ t /\ forall x y, b ++ ["*"%char] <> x ++ lit "*/" ++ y).
  { intros H D. destruct (IH H) as (b & E & Hb). exists (c :: b). split.
    - cbn [app]. now rewrite E.
    - intros x y X. destruct x as [|x0 x].
      + cbn [app lit list_ascii_of_string] in X. injection X as X1 X2. subst c.
        destruct D as [D|D]; [congruence|].
        destruct b as [|b0 b].
        * cbn [app] in X2. discriminate X2.
        * cbn [app] in X2. injection X2 as X2 _. subst b0.
          apply (D (b ++ lit "*/" ++ t)). exact E.
      + cbn [app] in X. injection X as _ X. now apply (Hb x y). }
  destruct (Ascii.eqb_spec c "*"%char) as [->|E].
  - destruct l as [|d l']; [discriminate|].
    destruct (Ascii.eqb_spec d "/"%char) as [->|E2].
    + intros [= <-]. exists []. split; [reflexivity|].
      intros [|x0 [|x1 x]] y X; discriminate X.
    + intros H. apply GO; [exact H|]. right. intros r [= R _]. contradiction.
  - intros H. apply GO; [exact H | now left].
Qed.

Lemma after_block_len l t : after_block l = Some t -> length t <= length l.
Proof.
  intros H. apply after_block_spec in H. destruct H as (b & -> & _).
  rewrite !app_length. lia.
Qed.

Lemma string_body_app q b t :
  q <> "\"%char -> string_inner q b -> string_body q (b ++ q :: t) = Some (b ++ [q], t).
Proof.
  intros Q H. induction H as [|c b E1 E2 H IH|d b H IH]; cbn [app string_body].
  - now rewrite Ascii.eqb_refl.
  - destruct (Ascii.eqb_spec c q); [contradiction|].
    destruct (Ascii.eqb_spec c "\"%char); [contradiction|]. now rewrite IH.
  - destruct (Ascii.eqb_spec "\"%char q) as [e|_]; [congruence|]. rewrite Ascii.eqb_refl, IH. reflexivity.
Qed.

Lemma string_body_spec q l : forall b t,
  q <> "\"%char -> string_body q l = Some (b, t) ->
  exists b', b = b' ++ [q] /\ string_inner q b' /\ l = b ++ t.
Proof.
  remember (length l) as n eqn:En. revert l En.
  induction n as [n IH] using lt_wf_ind. intros l -> b t Q.
  destruct l as [|c r]; cbn [string_body]; [discriminate|].
  destruct (Ascii.eqb_spec c q) as [->|E].
  - intros [= <- <-]. exists []. repeat split; [constructor].
  - destruct (Ascii.eqb_spec c "\"%char) as [->|E2].
    + destruct r as [|d r']; [discriminate|].
      destruct (string_body q r') as [[b1 t1]|] eqn:B; [|discriminate].
      intros [= <- <-].
      destruct (IH (length r') ltac:(cbn [length]; lia) r' eq_refl b1 t1 Q B) as (b' & -> & S & ->).
      exists ("\"%char :: d :: b'). repeat split. now constructor.
    + destruct (string_body q r) as [[b1 t1]|] eqn:B; [|discriminate].
      intros [= <- <-].
      destruct (IH (length r) ltac:(cbn [length]; lia) r eq_refl b1 t1 Q B) as (b' & -> & S & ->).
      exists (c :: b'). repeat split. now constructor.
Qed.

Lemma quote_not_backslash q : q = quote \/ q = dquote -> q <> "\"%char.
Proof. intros [-> | ->]; discriminate. Qed.

Lemma step_line s t : line_comment s -> at_line_end t ->
  exists c r, s ++ t = c :: r /\ comment_step c r = ([], t).
Proof.
  intros (b & -> & B) T. exists "/"%char, ("/"%char :: b ++ t). split; [reflexivity|].
  unfold comment_step. cbn. now rewrite after_line_app.
Qed.

Lemma step_block s t : block_comment s ->
  exists c r, s ++ t = c :: r /\ comment_step c r = ([], t).
Proof.
  intros (b & -> & B). exists "/"%char, ("*"%char :: b ++ lit "*/" ++ t). split.
  - cbn [lit list_ascii_of_string app]. now rewrite <- app_assoc.
  - unfold comment_step. cbn [Ascii.eqb Bool.eqb]. now rewrite after_block_app.
Qed.

Lemma step_string s t : string_literal s ->
  exists c r, s ++ t = c :: r /\ comment_step c r = (s, t).
Proof.
  intros (q & b & Q & -> & B). exists q, (b ++ q :: t). split.
  - cbn [app]. now rewrite <- app_assoc.
  - unfold comment_step. pose proof (string_body_app q b t (quote_not_backslash _ Q) B) as S.
    destruct Q as [-> | ->]; cbn [Ascii.eqb Bool.eqb orb quote dquote]; fold quote; fold dquote;
      rewrite S; reflexivity.
Qed.

Lemma step_other c t : ~ token_here (c :: t) -> comment_step c t = ([c], t).
Proof.
  intros H. unfold comment_step.
  destruct (Ascii.eqb_spec c "/"%char) as [->|E].
  - destruct t as [|d t]; [reflexivity|].
    destruct (Ascii.eqb_spec d "/"%char) as [->|E2].
    + exfalso. apply H. destruct (after_line_spec t) as (b & E & N & A).
      exists (lit "//" ++ b), (after_line t). split; [cbn; now rewrite E at 1|].
      left. exists b. auto.
    + destruct (Ascii.eqb_spec d "*"%char) as [->|E3]; [|reflexivity].
      destruct (after_block t) as [u|] eqn:B; [|reflexivity].
      exfalso. apply H. destruct (after_block_spec t u B) as (b & -> & Hb).
      exists (lit "/*" ++ b ++ lit "*/"), u. split; [cbn; now rewrite <- app_assoc|].
      right; left. exists b. auto.
  - destruct (Ascii.eqb c quote || Ascii.eqb c dquote) eqn:Q; [|reflexivity].
    destruct (string_body c t) as [[b u]|] eqn:B; [|reflexivity].
    exfalso. apply H.
    assert (Q' : c = quote \/ c = dquote).
    { apply orb_true_iff in Q. destruct Q as [Q|Q]; apply Ascii.eqb_eq in Q; auto. }
    destruct (string_body_spec c t b u (quote_not_backslash _ Q') B) as (b' & -> & S & ->).
    exists (c :: b' ++ [c]), u. split; [reflexivity|].
    right; right. exists c, b'. auto.
Qed.

Lemma step_cases c t :
  (exists s u, c :: t = s ++ u /\ line_comment s /\ at_line_end u /\ comment_step c t = ([], u))
  \/ (exists s u, c :: t = s ++ u /\ block_comment s /\ comment_step c t = ([], u))
  \/ (exists s u, c :: t = s ++ u /\ string_literal s /\ comment_step c t = (s, u))
  \/ (~ token_here (c :: t) /\ comment_step c t = ([c], t)).
Proof.
  assert (NT : comment_step c t = ([c], t) \/ comment_step c t <> ([c], t)).
  { destruct (comment_step c t) as [o u].
    destruct (list_eq_dec ascii_dec o [c]) as [->|]; [|right; congruence].
    destruct (list_eq_dec ascii_dec u t) as [->|]; [now left | right; congruence]. }
  destruct NT as [NT|NT].
  - right; right; right. split; [|assumption].
    intros (s & r & E & [L | [B | S]]).
    + destruct L as (b & -> & N).
      cbn in E. injection E as -> ->. revert NT. unfold comment_step. cbn. discriminate.
    + destruct (step_block s r B) as (c' & r' & E1 & E2). rewrite <- E in E1. injection E1 as <- <-.
      rewrite NT in E2. discriminate E2.
    + destruct (step_string s r S) as (c' & r' & E1 & E2). rewrite <- E in E1. injection E1 as <- <-.
      rewrite NT in E2. injection E2 as E2 _. destruct S as (q & b & _ & -> & _).
      destruct b; discriminate E2.
  - revert NT. unfold comment_step.
    destruct (Ascii.eqb_spec c "/"%char) as [->|E].
    + destruct t as [|d t]; [intros X; now elim X|].
      destruct (Ascii.eqb_spec d "/"%char) as [->|E2].
      * intros _. left. destruct (after_line_spec t) as (b & E & N & A).
        exists (lit "//" ++ b), (after_line t). repeat split; [cbn; now rewrite E at 1 | exists b; auto | assumption].
      * destruct (Ascii.eqb_spec d "*"%char) as [->|E3]; [|intros X; now elim X].
        destruct (after_block t) as [u|] eqn:B; [|intros X; now elim X].
        intros _. right; left. destruct (after_block_spec t u B) as (b & -> & Hb).
        exists (lit "/*" ++ b ++ lit "*/"), u. repeat split; [cbn; now rewrite <- app_assoc|].
        exists b. auto.
    + destruct (Ascii.eqb c quote || Ascii.eqb c dquote) eqn:Q; [|intros X; now elim X].
      destruct (string_body c t) as [[b u]|] eqn:B; [|intros X; now elim X].
      intros _. right; right; left.
      assert (Q' : c = quote \/ c = dquote).
      { apply orb_true_iff in Q. destruct Q as [Q|Q]; apply Ascii.eqb_eq in Q; auto. }
      destruct (string_body_spec c t b u (quote_not_backslash _ Q') B) as (b' & -> & S & ->).
      exists (c :: b' ++ [c]), u. repeat split. exists c, b'. auto.
Qed.

Lemma strip_loop_strips k : forall l, length l <= k -> strips l (strip_loop k l).
Proof.
  induction k as [|k IH]; intros l K.
  - destruct l; [constructor | cbn in K; lia].
  - destruct l as [|c t]; [constructor|]. cbn [strip_loop].
    cbn [length] in K.
    destruct (step_cases c t) as [(s & u & E & L & A & ->) | [(s & u & E & L & ->) | [(s & u & E & L & ->) | (L & ->)]]].
    + cbn [app]. rewrite E. apply st_line; auto. apply IH.
      destruct L as (b & -> & _). apply (f_equal (@length _)) in E. cbn in E. rewrite app_length in E. lia.
    + cbn [app]. rewrite E. apply st_block; auto. apply IH.
      destruct L as (b & -> & _). apply (f_equal (@length _)) in E. cbn in E. rewrite !app_length in E. lia.
    + rewrite E. apply st_string; auto. apply IH.
      destruct L as (q & b & _ & -> & _). apply (f_equal (@length _)) in E. cbn in E. rewrite !app_length in E. lia.
    + cbn [app]. apply st_char; auto. apply IH. lia.
Qed.

Lemma strips_loop t u : strips t u -> forall k, length t <= k -> strip_loop k t = u.
Proof.
  induction 1 as [|s t u L A S IH|s t u L S IH|s t u L S IH|c t u L S IH]; intros k K.
  - destruct k; reflexivity.
  - destruct (step_line s t L A) as (c & r & E & C). rewrite E in *.
    destruct k; [cbn in K; lia|]. cbn [strip_loop]. rewrite C. cbn [app]. apply IH.
    destruct L as (b & -> & _). apply (f_equal (@length _)) in E. cbn in E, K. rewrite app_length in E. lia.
  - destruct (step_block s t L) as (c & r & E & C). rewrite E in *.
    destruct k; [cbn in K; lia|]. cbn [strip_loop]. rewrite C. cbn [app]. apply IH.
    destruct L as (b & -> & _). apply (f_equal (@length _)) in E. cbn in E, K. rewrite !app_length in E. lia.
  - destruct (step_string s t L) as (c & r & E & C). rewrite E in *.
    destruct k; [cbn in K; lia|]. cbn [strip_loop]. rewrite C. f_equal. apply IH.
    destruct L as (q & b & _ & -> & _). apply (f_equal (@length _)) in E. cbn in E, K. rewrite !app_length in E. lia.
  - destruct k; [cbn in K; lia|]. cbn [strip_loop]. rewrite (step_other c t L). cbn [app]. f_equal.
    apply IH. cbn in K. lia.
Qed.

Lemma strip_comments_iff t u : strip_comments t = u <-> strips t u.
Proof.
  split.
  - intros <-. now apply strip_loop_strips.
  - intros S. now apply strips_loop.
Qed.

(** Text in which nothing is special. *)
Definition plain_char (c : ascii) : bool :=
  negb (Ascii.eqb c "/" || Ascii.eqb c quote || Ascii.eqb c dquote).

Lemma strips_plain l t u : forallb plain_char l = true -> strips t u -> strips (l ++ t) (l ++ u).
Proof.
  induction l as [|c l IH]; intros H S; [exact S|].
  cbn [forallb] in H. apply andb_prop in H. destruct H as [Hc H]. cbn [app].
  apply st_char; [|auto].
  unfold plain_char in Hc. apply negb_true_iff in Hc. apply orb_false_iff in Hc.
  destruct Hc as [Hc H3]. apply orb_false_iff in Hc. destruct Hc as [H1 H2].
  apply Ascii.eqb_neq in H1, H2, H3.
  intros (s & r & E & [(b & -> & _) | [(b & -> & _) | (q & b & Q & -> & _)]]); cbn in E;
    injection E as E _; try congruence; destruct Q; congruence.
Qed.

Lemma strip_comments_plain l : forallb plain_char l = true -> strip_comments l = l.
Proof.
  intros H. apply strip_comments_iff.
  rewrite <- (app_nil_r l). apply strips_plain; [assumption | constructor].
Qed.

(** * Stripping characters *)

Lemma lstrip_all p l t : forallb p l = true -> lstrip p (l ++ t) = lstrip p t.
Proof.
  induction l as [|c l IH]; intros H; [reflexivity|]. cbn [forallb] in H.
  apply andb_prop in H. destruct H as [Hc H]. cbn [app lstrip]. rewrite Hc. auto.
Qed.

Lemma lstrip_stop p c l : p c = false -> lstrip p (c :: l) = c :: l.
Proof. intros H. cbn [lstrip]. now rewrite H. Qed.

Lemma lstrip_none p l : forallb (fun c => negb (p c)) l = true -> lstrip p l = l.
Proof.
  destruct l as [|c l]; intros H; [reflexivity|]. cbn [forallb] in H.
  apply andb_prop in H. destruct H as [H _]. apply negb_true_iff in H. now apply lstrip_stop.
Qed.

Lemma forallb_rev {A} (p : A -> bool) l : forallb p (rev l) = forallb p l.
Proof.
  induction l as [|a l IH]; [reflexivity|]. cbn [rev]. rewrite forallb_app, IH. cbn [forallb].
  rewrite andb_true_r. apply andb_comm.
Qed.

Lemma rstrip_all p l t : forallb p t = true -> rstrip p (l ++ t) = rstrip p l.
Proof.
  intros H. unfold rstrip. rewrite rev_app_distr, lstrip_all; [reflexivity|]. now rewrite forallb_rev.
Qed.

Lemma rstrip_stop p c l : p c = false -> rstrip p (l ++ [c]) = l ++ [c].
Proof.
  intros H. unfold rstrip. rewrite rev_app_distr. cbn [rev app]. rewrite lstrip_stop by assumption.
  cbn [rev]. now rewrite rev_involutive.
Qed.

Lemma rstrip_none p l : forallb (fun c => negb (p c)) l = true -> rstrip p l = l.
Proof.
  intros H. unfold rstrip. rewrite lstrip_none; [apply rev_involutive|]. now rewrite forallb_rev.
Qed.

Lemma strip_none p l : forallb (fun c => negb (p c)) l = true -> strip p l = l.
Proof. intros H. unfold strip. rewrite lstrip_none by assumption. now apply rstrip_none. Qed.

Lemma forallb_repeat {A} (p : A -> bool) c n : p c = true -> forallb p (repeat c n) = true.
Proof. intros H. induction n; cbn [repeat forallb]; [reflexivity|]. now rewrite H. Qed.

(** * Integers *)

Lemma forallb_imp {A} (p q : A -> bool) l :
  (forall a, p a = true -> q a = true) -> forallb p l = true -> forallb q l = true.
Proof. rewrite !forallb_forall. auto. Qed.

Lemma digit_char_ok d : (d < 10)%N -> is_digit (digit_char d) = true /\ digit_val (digit_char d) = d.
Proof.
  intros H. unfold is_digit, digit_val, digit_char, nat_of_ascii.
  rewrite N_ascii_embedding by lia. split; [|lia].
  apply andb_true_intro. rewrite !Nat.leb_le. lia.
Qed.

Lemma dec_loop_digits k n : forallb is_digit (dec_loop k n) = true.
Proof.
  revert n. induction k as [|k IH]; intros n; [reflexivity|]. cbn [dec_loop].
  rewrite forallb_app. cbn [forallb].
  rewrite (proj1 (digit_char_ok (n mod 10) ltac:(apply N.mod_lt; lia))).
  destruct (n <? 10)%N; [reflexivity|]. now rewrite IH.
Qed.

Lemma dec_text_digits n : forallb is_digit (dec_text n) = true.
Proof. apply dec_loop_digits. Qed.

Lemma dec_text_nonempty n : dec_text n <> [].
Proof. unfold dec_text. cbn [dec_loop]. destruct (n <? 10)%N; [discriminate|]. intros H.
  apply app_eq_nil in H. now destruct H. Qed.

(** The value of a string of digits, from the left. *)
Definition digits_value (acc : N) (l : text) : N :=
  fold_left (fun a c => (10 * a + digit_val c)%N) l acc.

Lemma digits_loop_value l : forall acc b,
  forallb is_digit l = true -> (b = true \/ l <> []) ->
  digits_loop acc b l = Some (digits_value acc l).
Proof.
  induction l as [|c l IH]; intros acc b H B; cbn [digits_loop digits_value fold_left].
  - destruct B as [-> | B]; [reflexivity | now elim B].
  - cbn [forallb] in H. apply andb_prop in H. destruct H as [Hc H]. rewrite Hc.
    apply IH; auto.
Qed.

Lemma dec_loop_value k : forall n, (n < 2 ^ N.of_nat k)%N -> digits_value 0 (dec_loop (S k) n) = n.
Proof.
  induction k as [|k IH]; intros n H.
  - assert (n = 0)%N by (cbn in H; lia). subst. reflexivity.
  - cbn [dec_loop]. unfold digits_value. rewrite fold_left_app. cbn [fold_left].
    rewrite (proj2 (digit_char_ok (n mod 10) ltac:(apply N.mod_lt; lia))).
    destruct (N.ltb_spec n 10) as [L|L].
    + cbn [fold_left]. rewrite N.mod_small by assumption. lia.
    + fold (digits_value 0 (dec_loop (S k) (n / 10)%N)).
      change ((if (n / 10 <? 10)%N then [] else dec_loop k (n / 10 / 10)%N) ++ [digit_char ((n / 10) mod 10)%N])
        with (dec_loop (S k) (n / 10)%N).
      fold (digits_value 0 (dec_loop (S k) (n / 10)%N)).
      rewrite IH.
      * pose proof (N.div_mod n 10 ltac:(lia)). lia.
      * rewrite Nat2N.inj_succ, N.pow_succ_r' in H.
        apply N.div_lt_upper_bound; [lia|]. lia.
Qed.

Lemma size_nat_bound n : (n < 2 ^ N.of_nat (N.size_nat n))%N.
Proof.
  destruct n as [|p]; [reflexivity|].
  replace (N.of_nat (N.size_nat (N.pos p))) with (N.size (N.pos p)).
  - apply N.size_gt.
  - cbn. induction p; cbn [Pos.size Pos.size_nat]; [| |reflexivity];
      rewrite Nat2N.inj_succ, <- IHp; now destruct (Pos.size p).
Qed.

Lemma dec_text_value n : digits_value 0 (dec_text n) = n.
Proof. unfold dec_text. apply dec_loop_value. apply size_nat_bound. Qed.

Lemma digit_facts c : is_digit c = true ->
  is_space c = false /\ c <> "-"%char /\ c <> "+"%char /\ c <> " "%char /\ c <> ","%char
  /\ c <> "."%char /\ c <> "e"%char /\ c <> "E"%char /\ c <> quote /\ c <> dquote /\ c <> "/"%char
  /\ c <> "]"%char /\ c <> "}"%char /\ c <> newline /\ c <> "_"%char /\ is_word c = true.
Proof.
  unfold is_digit. intros H. apply andb_prop in H. rewrite !Nat.leb_le in H.
  unfold is_space, is_word, is_digit.
  assert (NE : forall d, (nat_of_ascii d < 48 \/ 57 < nat_of_ascii d) -> c <> d).
  { intros d D E. subst d. lia. }
  repeat split; try (apply NE; cbv; lia).
  - apply orb_false_iff. split; apply andb_false_iff; rewrite !Nat.leb_gt; lia.
  - replace (48 <=? nat_of_ascii c) with true by (symmetry; apply Nat.leb_le; lia).
    replace (nat_of_ascii c <=? 57) with true by (symmetry; apply Nat.leb_le; lia). reflexivity.
Qed.

Lemma int_of_digits l : forallb is_digit l = true -> l <> [] ->
  int_of_text l = Some (Z.of_N (digits_value 0 l)).
Proof.
  intros H E. unfold int_of_text. rewrite strip_none.
  - destruct l as [|c r]; [now elim E|].
    assert (Hc : is_digit c = true) by (cbn [forallb] in H; apply andb_prop in H; tauto).
    destruct (digit_facts c Hc) as (_ & M & P & _).
    apply Ascii.eqb_neq in M, P. rewrite M, P.
    rewrite digits_loop_value by auto. reflexivity.
  - eapply forallb_imp; [|exact H]. intros a Ha. apply negb_true_iff. now apply digit_facts.
Qed.

Lemma int_text_cases z :
  (exists n, int_text z = dec_text n /\ z = Z.of_N n)
  \/ (exists n, int_text z = "-"%char :: dec_text n /\ z = (- Z.of_N n)%Z).
Proof. destruct z; cbn [int_text]; [left; now exists 0%N | left; eexists; split; reflexivity | right; eexists; split; reflexivity]. Qed.

Lemma int_of_int_text z : int_of_text (int_text z) = Some z.
Proof.
  destruct (int_text_cases z) as [(n & -> & E) | (n & -> & E)].
  - rewrite int_of_digits; [|apply dec_text_digits | apply dec_text_nonempty].
    rewrite dec_text_value. congruence.
  - unfold int_of_text. rewrite strip_none.
    + cbn [Ascii.eqb Bool.eqb]. rewrite digits_loop_value.
      * rewrite dec_text_value. cbn [option_map]. congruence.
      * apply dec_text_digits.
      * right. apply dec_text_nonempty.
    + cbn [forallb]. eapply forallb_imp; [|apply (dec_text_digits n)].
      intros a Ha. apply negb_true_iff. now apply digit_facts.
Qed.

(** The characters of a number as printed. *)
Definition int_char (c : ascii) : bool := is_digit c || Ascii.eqb c "-".

Lemma int_char_not c d : int_char c = true -> int_char d = false -> c <> d.
Proof. congruence. Qed.

Lemma int_text_chars z : forallb int_char (int_text z) = true.
Proof.
  assert (D : forall n, forallb int_char (dec_text n) = true).
  { intros n. eapply forallb_imp; [|apply (dec_text_digits n)]. intros a H. unfold int_char. now rewrite H. }
  destruct (int_text_cases z) as [(n & -> & _) | (n & -> & _)]; [apply D|].
  cbn [forallb]. now rewrite D.
Qed.

Lemma int_text_nonempty z : int_text z <> [].
Proof. destruct (int_text_cases z) as [(n & -> & _) | (n & -> & _)]; [apply dec_text_nonempty | discriminate]. Qed.

Lemma int_text_first z : exists c r, int_text z = c :: r /\ int_char c = true.
Proof.
  pose proof (int_text_chars z) as H. destruct (int_text z) as [|c r] eqn:E; [now apply int_text_nonempty in E|].
  exists c, r. split; [reflexivity|]. cbn in H. apply andb_prop in H. tauto.
Qed.

Lemma int_text_last z : exists r c, int_text z = r ++ [c] /\ int_char c = true.
Proof.
  pose proof (int_text_chars z) as H. destruct (exists_last (int_text_nonempty z)) as (r & c & E).
  exists r, c. split; [exact E|]. rewrite E, forallb_app in H. cbn in H. apply andb_prop in H.
  destruct H as [_ H]. now rewrite andb_true_r in H.
Qed.

Lemma forallb_int p l : (forall c, p c = false -> int_char c = false) ->
  forallb int_char l = true -> forallb p l = true.
Proof.
  intros H. apply forallb_imp. intros a A. destruct (p a) eqn:P; [reflexivity|].
  rewrite (H a P) in A. discriminate.
Qed.
