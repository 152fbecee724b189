(** The text wrmds writes, read by parsemeta. *)
From Coq Require Import Ascii String List Bool PeanoNat NArith ZArith Lia.
Import ListNotations.
From Verif Require Import Prelude MdsMeta Mds SpecMds MdsTextFacts.
Local Open Scope nat_scope.
Local Open Scope list_scope.

(** * Lines *)

Lemma lines_from_line l : forall cur t,
  ~ In newline l -> lines_from cur (l ++ newline :: t) = (rev cur ++ l ++ [newline]) :: lines_from [] t.
Proof.
  induction l as [|c l IH]; intros cur t H; cbn [app lines_from].
  - rewrite Ascii.eqb_refl. cbn [rev]. reflexivity.
  - destruct (Ascii.eqb_spec c newline) as [->|E]; [exfalso; apply H; now left|].
    rewrite IH by (intros I; apply H; now right). cbn [rev]. now rewrite <- app_assoc.
Qed.

Lemma lines_of_line l t : ~ In newline l -> lines_of (l ++ newline :: t) = (l ++ [newline]) :: lines_of t.
Proof. intros H. unfold lines_of. now rewrite lines_from_line. Qed.

Lemma not_in_forallb c l : forallb (fun a => negb (Ascii.eqb c a)) l = true <-> ~ In c l.
Proof.
  rewrite forallb_forall. split.
  - intros H I. specialize (H c I). now rewrite Ascii.eqb_refl in H.
  - intros H x I. destruct (Ascii.eqb_spec c x); [subst; contradiction | reflexivity].
Qed.

Lemma has_false c l : has c l = false <-> ~ In c l.
Proof. rewrite <- has_in. destruct (has c l); split; congruence. Qed.

(** * One entry *)

Section Parse.
Context {F : Type} (float_of : text -> option F).

Lemma gather_len cl rest : forall line w r, gather cl line rest = Ok (w, r) -> length r <= length rest.
Proof.
  induction rest as [|n rest IH]; intros line w r; cbn [gather].
  - destruct (has cl line); [intros [= _ <-]; auto | discriminate].
  - destruct (has cl line); [intros [= _ <-]; auto|].
    intros H. apply IH in H. cbn [length]. lia.
Qed.

Lemma parse_loop_fuel k : forall k' lines d, length lines <= k -> length lines <= k' ->
  parse_loop float_of k lines d = parse_loop float_of k' lines d.
Proof.
  induction k as [|k IH]; intros k' lines d K K'.
  - destruct lines; [|cbn in K; lia]. destruct k'; reflexivity.
  - destruct lines as [|l rest]; [destruct k'; reflexivity|].
    destruct k' as [|k']; [cbn in K'; lia|]. cbn [length] in K, K'. cbn [parse_loop].
    destruct (forallb is_space (strip_comments l)); [apply IH; lia|].
    destruct (match_line (strip_comments l)) as [[key val]|]; [|reflexivity].
    destruct (closing_of val) as [cl|e]; cbn [rbind]; [|reflexivity].
    destruct (gather cl val rest) as [[w r]|e] eqn:G; cbn [rbind]; [|reflexivity].
    apply gather_len in G.
    destruct (entry_value float_of (hd " "%char w) cl w) as [v|e]; cbn [rbind]; [|reflexivity].
    apply IH; lia.
Qed.

Definition parse (lines : list text) (d : metadict F) := parse_loop float_of (length lines) lines d.

Lemma parse_entry_any l rest d key val cl whole rest' :
  strip_comments l = l -> match_line l = Some (key, val) -> forallb is_space l = false ->
  closing_of val = Ok cl -> gather cl val rest = Ok (whole, rest') ->
  parse (l :: rest) d = (v <- entry_value float_of (hd " "%char whole) cl whole ;; parse rest' (dset d key v)).
Proof.
  intros S M B C G. unfold parse. cbn [length parse_loop]. rewrite S, B, M, C. cbn [rbind].
  rewrite G. cbn [rbind]. destruct (entry_value float_of (hd " "%char whole) cl whole); [|reflexivity]. cbn [rbind].
  apply parse_loop_fuel; [eapply gather_len; eassumption | reflexivity].
Qed.

Lemma parse_entry l rest d key val cl whole rest' v :
  strip_comments l = l -> match_line l = Some (key, val) -> forallb is_space l = false ->
  closing_of val = Ok cl -> gather cl val rest = Ok (whole, rest') ->
  entry_value float_of (hd " "%char whole) cl whole = Ok v ->
  parse (l :: rest) d = parse rest' (dset d key v).
Proof.
  intros S M B C G V. rewrite (parse_entry_any l rest d key val cl whole rest') by assumption. now rewrite V.
Qed.

(** A line  key = value . *)
Definition entry_line (key val : text) : text := lit " " ++ key ++ lit " = " ++ val ++ [newline].

Lemma word_not_space c : is_word c = true -> Ascii.eqb " " c = false.
Proof. intros H. destruct (Ascii.eqb_spec " "%char c) as [<-|]; [discriminate H | reflexivity]. Qed.

Lemma word_not c : is_word c = true -> c <> " "%char /\ c <> newline /\ c <> "="%char /\ is_space c = false
  /\ plain_char c = true.
Proof.
  intros H. repeat split; try (intros ->; discriminate H).
  - unfold is_space. unfold is_word, is_digit in H.
    destruct ((9 <=? nat_of_ascii c) && (nat_of_ascii c <=? 13) || (28 <=? nat_of_ascii c) && (nat_of_ascii c <=? 32)) eqn:E; [|reflexivity].
    exfalso. revert H E. set (n := nat_of_ascii c). clearbody n.
    rewrite !orb_true_iff, !andb_true_iff, !Nat.leb_le, Nat.eqb_eq. lia.
  - unfold plain_char. apply negb_true_iff, orb_false_iff; split; [apply orb_false_iff; split|];
      apply Ascii.eqb_neq; intros ->; discriminate H.
Qed.

Lemma lstrip_word_key key t : forallb is_word key = true ->
  lstrip is_word (key ++ " "%char :: t) = " "%char :: t.
Proof. intros H. rewrite lstrip_all by assumption. reflexivity. Qed.

Lemma match_entry_line key val c m e :
  forallb is_word key = true -> key <> [] -> val = c :: m -> c <> " "%char ->
  (exists i, val = i ++ [e]) -> e <> " "%char -> ~ In newline val ->
  match_line (entry_line key val) = Some (key, val).
Proof.
  intros K KE V C (i & I) E NL. unfold match_line, entry_line.
  rewrite (app_assoc key), (app_assoc (key ++ _)), (app_assoc (lit " ")), rev_app_distr. cbn [rev app].
  rewrite Ascii.eqb_refl.
  change (" "%char :: (key ++ lit " = ") ++ val) with (lit " " ++ (key ++ lit " = ") ++ val).
  change (rev (lit " " ++ (key ++ lit " = ") ++ val)) with (rev (lit " " ++ (key ++ lit " = ") ++ val)).
  rewrite rev_involutive.
  assert (NLA : has newline (lit " " ++ (key ++ lit " = ") ++ val) = false).
  { apply has_false. rewrite !in_app_iff. intros [I1 | [[I1 | I1] | I1]].
    - destruct I1 as [I1|[]]. discriminate I1.
    - rewrite forallb_forall in K. apply K in I1. now apply word_not in I1.
    - destruct I1 as [I1|[I1|[I1|[]]]]; discriminate I1.
    - auto. }
  rewrite NLA.
  assert (L1 : lstrip (Ascii.eqb " ") (lit " " ++ (key ++ lit " = ") ++ val) = key ++ lit " = " ++ val).
  { rewrite lstrip_all by reflexivity. rewrite <- app_assoc.
    destruct key as [|k0 key']; [now elim KE|]. cbn [app]. apply lstrip_stop.
    cbn [forallb] in K. apply andb_prop in K. now apply word_not_space. }
  rewrite L1. cbn [lit list_ascii_of_string app].
  rewrite (lstrip_word_key key _ K).
  replace (firstn _ _) with key.
  2:{ rewrite firstn_app, app_length. cbn [length].
      replace (length key + S (S (S (length val))) - S (S (S (length val)))) with (length key) by lia.
      rewrite firstn_all, Nat.sub_diag. cbn [firstn]. now rewrite app_nil_r. }
  cbn [lstrip]. cbn [Ascii.eqb Bool.eqb]. f_equal. f_equal.
  assert (LV : lstrip (Ascii.eqb " ") val = val).
  { rewrite V. apply lstrip_stop. apply Ascii.eqb_neq. congruence. }
  cbn [lstrip Ascii.eqb Bool.eqb]. rewrite LV, I. apply rstrip_stop. apply Ascii.eqb_neq. congruence.
Qed.

Lemma entry_line_not_blank key val : forallb is_space (entry_line key val) = false.
Proof.
  unfold entry_line. rewrite !forallb_app. cbn [lit list_ascii_of_string forallb].
  change (is_space "="%char) with false. rewrite !andb_false_r. cbn [andb].
  rewrite ?andb_false_r. reflexivity.
Qed.

(** * Values in brackets *)

Definition blank_or_comma (c : ascii) : bool := Ascii.eqb c " " || Ascii.eqb c ",".

Lemma int_char_no_sep c : int_char c = true -> blank_or_comma c = false.
Proof.
  intros H. unfold blank_or_comma. apply orb_false_iff. split; apply Ascii.eqb_neq; intros ->; discriminate H.
Qed.

Lemma split_token tok : forall cur b t,
  forallb int_char tok = true -> tok <> [] ->
  split_items cur b (tok ++ t) = split_items (rev tok ++ cur) false t.
Proof.
  induction tok as [|c tok IH]; intros cur b t H E; [now elim E|].
  cbn [forallb] in H. apply andb_prop in H. destruct H as [Hc H].
  pose proof (int_char_no_sep c Hc) as S. unfold blank_or_comma in S. apply orb_false_iff in S.
  destruct S as [S1 S2]. cbn [app split_items]. rewrite S1, S2. cbn [andb orb].
  destruct tok as [|c' tok'].
  - reflexivity.
  - rewrite IH by (auto; discriminate). cbn [rev]. now rewrite <- !app_assoc.
Qed.

Lemma split_blanks n cur t : split_items cur true (repeat " "%char n ++ t) = split_items cur true t.
Proof. induction n as [|n IH]; [reflexivity|]. cbn [repeat app split_items Ascii.eqb Bool.eqb andb]. exact IH. Qed.

(** Numbers, each after some blanks, separated by commas. *)
Definition numbers (l : list (nat * Z)) : text :=
  join [","%char] (map (fun nz => repeat " "%char (fst nz) ++ int_text (snd nz)) l).

Lemma split_numbers l : forall cur b, cur = [] ->
  match l with (n, _) :: _ => b = true \/ n = 0 | [] => True end -> l <> [] ->
  split_items cur b (numbers l) = map (fun nz => int_text (snd nz)) l.
Proof.
  unfold numbers. induction l as [|[n z] l IH]; intros cur b -> B E; [now elim E|].
  cbn [map join fst snd].
  assert (S0 : forall t, split_items [] b (repeat " "%char n ++ t) = split_items [] true t \/ n = 0).
  { intros t. destruct B as [-> | ->]; [left; apply split_blanks | now right]. }
  destruct l as [|p l'].
  - cbn [map]. assert (S1 : split_items [] b (repeat " "%char n ++ int_text z) = [int_text z]).
    { assert (S2 : forall b', split_items [] b' (int_text z) = [int_text z]).
      { intros b'. pose proof (split_token (int_text z) [] b' [] (int_text_chars z) (int_text_nonempty z)) as S2.
        rewrite !app_nil_r in S2. rewrite S2. cbn [split_items]. now rewrite rev_involutive. }
      destruct (S0 (int_text z)) as [-> | ->]; apply S2. }
    exact S1.
  - remember (map (fun nz => repeat " "%char (fst nz) ++ int_text (snd nz)) (p :: l')) as m eqn:M.
    destruct m as [|m0 m']; [discriminate M|]. rewrite M in IH |- *. clear M.
    cbn [map] in IH |- *. rewrite <- app_assoc.
    assert (S3 : forall b', split_items [] b' (int_text z ++ [","%char] ++
        join [","%char] ((repeat " "%char (fst p) ++ int_text (snd p))
            :: map (fun nz => repeat " "%char (fst nz) ++ int_text (snd nz)) l'))
       = int_text z :: int_text (snd p) :: map (fun nz => int_text (snd nz)) l').
    { intros b'. rewrite split_token by (apply int_text_chars || apply int_text_nonempty).
      rewrite app_nil_r. cbn [app split_items]. cbn [Ascii.eqb Bool.eqb andb orb].
      rewrite rev_involutive. f_equal. apply (IH [] true); [reflexivity | destruct p; now left | discriminate]. }
    destruct (S0 (int_text z ++ [","%char] ++
        join [","%char] ((repeat " "%char (fst p) ++ int_text (snd p))
            :: map (fun nz => repeat " "%char (fst nz) ++ int_text (snd nz)) l'))) as [-> | ->]; apply S3.
Qed.

Lemma parse1_int z : parse1 float_of (int_text z) = Ok (Vint z).
Proof.
  unfold parse1.
  assert (NC : forall c, int_char c = false -> has c (int_text z) = false).
  { intros c C. apply has_false. intros I. pose proof (int_text_chars z) as H.
    rewrite forallb_forall in H. rewrite (H c I) in C. discriminate. }
  assert (Q : quoted (int_text z) = None).
  { destruct (int_text_first z) as (c & r & E & C). unfold quoted. rewrite E.
    destruct (Ascii.eqb_spec c quote) as [->|]; [discriminate C | reflexivity]. }
  rewrite Q, !NC by reflexivity. cbn [orb]. now rewrite int_of_int_text.
Qed.

Lemma mapM_parse1 l : mapM (parse1 float_of) (map (fun nz : nat * Z => int_text (snd nz)) l)
  = Ok (map (fun nz => Vint (snd nz)) l).
Proof.
  induction l as [|[n z] l IH]; [reflexivity|]. cbn [map mapM snd]. rewrite parse1_int. cbn [rbind].
  rewrite IH. reflexivity.
Qed.

Lemma numbers_cons n z l : exists t, numbers ((n, z) :: l) = repeat " "%char n ++ int_text z ++ t
  /\ (forall m, numbers ((m, z) :: l) = repeat " "%char m ++ int_text z ++ t).
Proof.
  unfold numbers. cbn [map fst snd join]. destruct (map _ l) as [|x r] eqn:E.
  - exists []. split; [now rewrite app_nil_r | intros; now rewrite app_nil_r].
  - eexists. split; [rewrite <- app_assoc; reflexivity | intros; rewrite <- app_assoc; reflexivity].
Qed.

Lemma numbers_last l : l <> [] -> exists r c, numbers l = r ++ [c] /\ int_char c = true.
Proof.
  unfold numbers. induction l as [|[n z] l IH]; intros E; [now elim E|]. cbn [map fst snd join].
  destruct l as [|p l'].
  - cbn [map]. destruct (int_text_last z) as (r & c & -> & C). exists (repeat " "%char n ++ r), c.
    split; [now rewrite app_assoc | assumption].
  - destruct (IH ltac:(discriminate)) as (r & c & EQ & C).
    remember (map (fun nz => repeat " "%char (fst nz) ++ int_text (snd nz)) (p :: l')) as m eqn:M.
    destruct m as [|m0 m']; [discriminate M|]. rewrite EQ.
    exists ((repeat " "%char n ++ int_text z) ++ [","%char] ++ r), c.
    split; [|assumption]. now rewrite <- !app_assoc.
Qed.

Lemma strip_numbers n z l k :
  strip blank_or_comma (numbers ((n, z) :: l) ++ repeat " "%char k) = numbers ((0, z) :: l).
Proof.
  unfold strip. destruct (numbers_cons n z l) as (t & E & E0).
  rewrite E, <- app_assoc, lstrip_all by (now apply forallb_repeat).
  specialize (E0 0). cbn [repeat app] in E0. rewrite <- E0.
  assert (LS : lstrip blank_or_comma (numbers ((0, z) :: l) ++ repeat " "%char k) = numbers ((0, z) :: l) ++ repeat " "%char k).
  { rewrite E0. destruct (int_text_first z) as (c & r & -> & C). cbn [app]. apply lstrip_stop.
    now apply int_char_no_sep. }
  rewrite LS, rstrip_all by (now apply forallb_repeat).
  destruct (numbers_last ((0, z) :: l) ltac:(discriminate)) as (r & c & -> & C).
  apply rstrip_stop. now apply int_char_no_sep.
Qed.

Lemma skipn_end {A} (l t : list A) : skipn (length (l ++ t) - length t) (l ++ t) = t.
Proof.
  rewrite app_length. replace (length l + length t - length t) with (length l) by lia.
  rewrite skipn_app, skipn_all, Nat.sub_diag. reflexivity.
Qed.

Lemma inner_of o inner (t : text) : length t = 2 ->
  firstn (length (o :: inner ++ t) - 2 - 1) (skipn 1 (o :: inner ++ t)) = inner.
Proof.
  intros T. cbn [length skipn]. rewrite app_length, T.
  replace (S (length inner + 2) - 2 - 1) with (length inner) by lia.
  rewrite firstn_app, firstn_all, Nat.sub_diag. cbn [firstn]. now rewrite app_nil_r.
Qed.

Lemma skip_tail (o : ascii) inner (t : text) : length t = 2 ->
  skipn (length (o :: inner ++ t) - 2) (o :: inner ++ t) = t.
Proof. intros T. rewrite <- T. change (o :: inner ++ t) with ((o :: inner) ++ t). apply skipn_end. Qed.

Lemma value_numbers n z l k :
  entry_value float_of "[" "]" ("["%char :: (numbers ((n, z) :: l) ++ repeat " "%char k) ++ lit "];")
  = Ok (map (fun nz => Vint (snd nz)) ((n, z) :: l)).
Proof.
  unfold entry_value. rewrite skip_tail by reflexivity. change (lit "];") with ["]"%char; ";"%char] at 1.
  rewrite text_eqb_refl. cbn [negb]. rewrite inner_of by reflexivity.
  change (fun c => Ascii.eqb c " " || Ascii.eqb c ",") with blank_or_comma.
  rewrite strip_numbers. cbn [Ascii.eqb Bool.eqb].
  rewrite split_numbers by (auto; discriminate).
  apply (mapM_parse1 ((0, z) :: l)).
Qed.

(** An entry holding one number. *)
Lemma fmt_d_numbers w z : fmt_d w z = numbers [(w - length (int_text z), z)].
Proof. reflexivity. Qed.

Definition meta_char (c : ascii) : bool := int_char c || Ascii.eqb c " " || Ascii.eqb c ",".

Lemma meta_char_facts c : meta_char c = true ->
  plain_char c = true /\ c <> newline /\ c <> "]"%char /\ c <> "}"%char.
Proof.
  intros H. unfold plain_char. repeat split; try (intros ->; discriminate H).
  apply negb_true_iff, orb_false_iff; split; [apply orb_false_iff; split|];
      apply Ascii.eqb_neq; intros ->; discriminate H.
Qed.

Lemma int_meta_chars z : forallb meta_char (int_text z) = true.
Proof. eapply forallb_imp; [|apply (int_text_chars z)]. intros a A. unfold meta_char. now rewrite A. Qed.

Lemma fmt_meta_chars w z : forallb meta_char (fmt_d w z) = true.
Proof.
  unfold fmt_d, padl. rewrite forallb_app, int_meta_chars, andb_true_r. now apply forallb_repeat.
Qed.

Lemma parse_int_entry key w z rest d :
  forallb is_word key = true -> key <> [] ->
  parse (entry_line key (lit "[ " ++ fmt_d w z ++ lit " ];") :: rest) d
  = parse rest (dset d key [Vint z]).
Proof.
  intros K KE.
  set (n := w - length (int_text z)).
  assert (EV : lit "[ " ++ fmt_d w z ++ lit " ];"
             = "["%char :: (numbers [(S n, z)] ++ repeat " "%char 1) ++ lit "];").
  { rewrite fmt_d_numbers. unfold numbers. cbn [map join fst snd]. fold n.
    cbn [lit list_ascii_of_string app repeat]. rewrite <- !app_assoc. reflexivity. }
  eapply parse_entry with (val := lit "[ " ++ fmt_d w z ++ lit " ];") (cl := "]"%char)
     (whole := lit "[ " ++ fmt_d w z ++ lit " ];").
  - apply strip_comments_plain. unfold entry_line. rewrite !forallb_app.
    rewrite (forallb_imp is_word plain_char key) by (auto; intros a A; now apply word_not).
    rewrite (forallb_imp meta_char plain_char (fmt_d w z)) by (apply fmt_meta_chars || (intros a A; now apply meta_char_facts)).
    reflexivity.
  - eapply match_entry_line with (c := "["%char) (e := ";"%char); try assumption; try discriminate.
    + reflexivity.
    + exists (lit "[ " ++ fmt_d w z ++ lit " ]"). rewrite <- !app_assoc. reflexivity.
    + rewrite !in_app_iff. intros [I|[I|I]].
      * repeat (destruct I as [I|I]; [discriminate I|]). destruct I.
      * pose proof (fmt_meta_chars w z) as H. rewrite forallb_forall in H. apply H in I. discriminate I.
      * repeat (destruct I as [I|I]; [discriminate I|]). destruct I.
  - apply entry_line_not_blank.
  - reflexivity.
  - assert (HH : has "]" (lit "[ " ++ fmt_d w z ++ lit " ];") = true).
    { apply has_in. rewrite !in_app_iff. right; right. now right; left. }
    destruct rest as [|r0 rest0]; cbn [gather]; rewrite HH; reflexivity.
  - rewrite EV. cbn [hd]. apply value_numbers.
Qed.

(** * The list of dimensions *)

Lemma join_cons sep (x y : text) r : join sep (x :: y :: r) = x ++ sep ++ join sep (y :: r).
Proof. reflexivity. Qed.

Lemma numbers_app a b : a <> [] -> b <> [] -> numbers (a ++ b) = numbers a ++ [","%char] ++ numbers b.
Proof.
  unfold numbers. intros A B. induction a as [|x a IH]; [now elim A|].
  destruct a as [|y a].
  - cbn [app map]. destruct b as [|z b]; [now elim B|]. reflexivity.
  - specialize (IH ltac:(discriminate)). cbn [app map] in *. rewrite !join_cons. unfold text in *. rewrite IH.
    now rewrite <- !app_assoc.
Qed.

Definition trip (w d : nat) : list (nat * Z) :=
  [(S (S (w - length (int_text (Z.of_nat d)))), Z.of_nat d);
   (w - length (int_text 1), 1%Z);
   (w - length (int_text (Z.of_nat d)), Z.of_nat d)].

Lemma numbers_trip w d : numbers (trip w d) = lit "  " ++ dim_line w d.
Proof. unfold numbers, trip, dim_line, fmt_d, padl. cbn [map join fst snd lit list_ascii_of_string repeat].
  cbn [app]. rewrite <- !app_assoc. reflexivity. Qed.

Fixpoint dim_rows (w : nat) (dims : list nat) : list text :=
  match dims with
  | [] => []
  | [d] => [" "%char :: dim_line w d ++ [newline]]
  | d :: r => (" "%char :: (dim_line w d ++ [","%char]) ++ [newline]) :: dim_rows w r
  end.

Lemma dim_line_chars w d : forallb meta_char (dim_line w d) = true.
Proof. unfold dim_line. rewrite !forallb_app, !fmt_meta_chars. reflexivity. Qed.

Lemma dim_line_last w d : exists r c, dim_line w d = r ++ [c] /\ int_char c = true.
Proof.
  unfold dim_line. set (x := fmt_d w (Z.of_nat d)) at 1. unfold fmt_d at 2, padl.
  destruct (int_text_last (Z.of_nat d)) as (r & c & E & C). rewrite E.
  set (n := w - _). exists (x ++ [","%char] ++ fmt_d w 1 ++ [","%char] ++ repeat " "%char n ++ r), c.
  split; [|exact C]. now rewrite <- !app_assoc.
Qed.

Lemma meta_no_newline l : forallb meta_char l = true -> ~ In newline l.
Proof. intros H I. rewrite forallb_forall in H. apply H in I. discriminate I. Qed.

Lemma lines_dims w dims t : dims <> [] ->
  lines_of (" "%char :: join ([","%char] ++ [newline] ++ [" "%char]) (map (dim_line w) dims) ++ newline :: t)
  = dim_rows w dims ++ lines_of t.
Proof.
  induction dims as [|d r IH]; intros E; [now elim E|].
  destruct r as [|d' r].
  - cbn [map join dim_rows app].
    change (" "%char :: dim_line w d ++ newline :: t) with ((" "%char :: dim_line w d) ++ newline :: t).
    rewrite lines_of_line; [reflexivity|]. intros [I|I]; [discriminate I|].
    revert I. apply meta_no_newline, dim_line_chars.
  - specialize (IH ltac:(discriminate)). cbn [map] in IH |- *. rewrite join_cons.
    cbn [app] in IH |- *.
    assert (RE : " "%char :: (dim_line w d ++ ","%char :: newline :: " "%char ::
                   join [","%char; newline; " "%char] (dim_line w d' :: map (dim_line w) r)) ++ newline :: t
       = (" "%char :: dim_line w d ++ [","%char]) ++ newline ::
           (" "%char :: join [","%char; newline; " "%char] (dim_line w d' :: map (dim_line w) r) ++ newline :: t)).
    { cbn [app]. rewrite <- !app_assoc. reflexivity. }
    rewrite RE. clear RE. rewrite lines_of_line.
    + rewrite IH. reflexivity.
    + intros [I|I]; [discriminate I|]. apply in_app_iff in I. destruct I as [I|[I|[]]]; [|discriminate I].
      revert I. apply meta_no_newline, dim_line_chars.
Qed.

Lemma strip_row l e : forallb meta_char l = true -> is_space e = false -> meta_char e = true ->
  rstrip is_space (strip_comments (l ++ [e] ++ [newline])) = l ++ [e].
Proof.
  intros L E M. rewrite strip_comments_plain.
  - rewrite app_assoc, rstrip_all by reflexivity. now apply rstrip_stop.
  - rewrite !forallb_app. cbn [forallb]. rewrite (proj1 (meta_char_facts e M)).
    rewrite (forallb_imp meta_char plain_char l) by (auto; intros a A; now apply meta_char_facts). reflexivity.
Qed.

Lemma int_char_facts c : int_char c = true -> is_space c = false /\ meta_char c = true.
Proof.
  intros H. split; [|unfold meta_char; now rewrite H]. unfold int_char in H. apply orb_prop in H.
  destruct H as [H|H]; [now apply digit_facts | apply Ascii.eqb_eq in H; now subst].
Qed.

Lemma strip_dim_line w d :
  rstrip is_space (strip_comments (" "%char :: dim_line w d ++ [newline])) = " "%char :: dim_line w d.
Proof.
  destruct (dim_line_last w d) as (r & c & E & C).
  pose proof (dim_line_chars w d) as H. rewrite E in *. rewrite forallb_app in H. apply andb_prop in H.
  rewrite <- app_assoc. change (" "%char :: r ++ [c] ++ [newline]) with ((" "%char :: r) ++ [c] ++ [newline]).
  rewrite strip_row; [reflexivity | cbn [forallb]; now rewrite (proj1 H) | |]; now apply int_char_facts.
Qed.

Lemma strip_dim_line_comma w d :
  rstrip is_space (strip_comments (" "%char :: (dim_line w d ++ [","%char]) ++ [newline])) = " "%char :: dim_line w d ++ [","%char].
Proof.
  rewrite <- app_assoc.
  change (" "%char :: dim_line w d ++ [","%char] ++ [newline]) with ((" "%char :: dim_line w d) ++ [","%char] ++ [newline]).
  rewrite strip_row; [reflexivity | cbn [forallb]; now rewrite dim_line_chars | reflexivity | reflexivity].
Qed.

Lemma meta_no_bracket l : forallb meta_char l = true -> ~ In "]"%char l.
Proof. intros H I. rewrite forallb_forall in H. apply H in I. discriminate I. Qed.

Lemma gather_dims w dims : forall acc rest, dims <> [] -> ~ In "]"%char acc ->
  gather "]" acc (dim_rows w dims ++ (lit " ];" ++ [newline]) :: rest)
  = Ok (acc ++ numbers (flat_map (trip w) dims) ++ lit "  ];", rest).
Proof.
  induction dims as [|d r IH]; intros acc rest E A; [now elim E|].
  destruct r as [|d' r].
  - cbn [dim_rows app flat_map].
    set (tl := " ];"%string). cbn [gather]. rewrite (proj2 (has_false _ _) A). rewrite strip_dim_line.
    assert (A1 : has "]" (acc ++ " "%char :: " "%char :: dim_line w d) = false).
    { apply has_false. rewrite in_app_iff. intros [I|[I|[I|I]]]; try discriminate I; [auto|].
      revert I. apply meta_no_bracket, dim_line_chars. }
    rewrite A1. rewrite app_nil_r.
    change (rstrip is_space (strip_comments (lit tl ++ [newline]))) with (lit " ];").
    assert (A2 : has "]" ((acc ++ " "%char :: " "%char :: dim_line w d) ++ " "%char :: lit " ];") = true).
    { apply has_in. rewrite in_app_iff. right. right; right; left; reflexivity. }
    destruct rest as [|r0 rest]; cbn [gather]; rewrite A2; f_equal; f_equal;
      rewrite numbers_trip, <- !app_assoc; reflexivity.
  - cbn [dim_rows app]. cbn [gather]. rewrite (proj2 (has_false _ _) A).
    rewrite strip_dim_line_comma.
    change (match r with [] => [" "%char :: dim_line w d' ++ [newline]] | _ :: _ =>
       (" "%char :: (dim_line w d' ++ [","%char]) ++ [newline]) :: dim_rows w r end) with (dim_rows w (d' :: r)).
    rewrite IH.
    + f_equal. f_equal.
      change (flat_map (trip w) (d :: d' :: r)) with (trip w d ++ flat_map (trip w) (d' :: r)).
      rewrite numbers_app by discriminate. rewrite numbers_trip. cbn [lit list_ascii_of_string app].
      rewrite <- !app_assoc. cbn [app]. rewrite <- !app_assoc. reflexivity.
    + discriminate.
    + rewrite in_app_iff. intros [I|[I|[I|I]]]; try discriminate I; [auto|].
      rewrite in_app_iff in I. destruct I as [I|[I|[]]]; [|discriminate I].
      revert I. apply meta_no_bracket, dim_line_chars.
Qed.

Definition dim_values (dims : list nat) : list (value F) :=
  flat_map (fun d => [Vint (Z.of_nat d); Vint 1; Vint (Z.of_nat d)]) dims.

Lemma parse_dims w dims rest d : dims <> [] ->
  parse (entry_line (lit "dimList") (lit "[") :: dim_rows w dims ++ (lit " ];" ++ [newline]) :: rest) d
  = parse rest (dset d (lit "dimList") (dim_values dims)).
Proof.
  intros E. eapply parse_entry.
  - vm_compute. reflexivity.
  - vm_compute. reflexivity.
  - vm_compute. reflexivity.
  - reflexivity.
  - apply (gather_dims w dims (lit "[") rest E). intros [I|[]]. discriminate I.
  - destruct dims as [|d0 r]; [now elim E|].
    change (flat_map (trip w) (d0 :: r)) with (trip w d0 ++ flat_map (trip w) r).
    set (l := trip w d0 ++ flat_map (trip w) r).
    replace (lit "[" ++ numbers l ++ lit "  ];") with ("["%char :: (numbers l ++ repeat " "%char 2) ++ lit "];")
      by (cbn [lit list_ascii_of_string app repeat]; now rewrite <- app_assoc).
    cbn [hd]. unfold l, trip at 1. cbn [app]. rewrite value_numbers. f_equal.
    cbn [map snd dim_values flat_map app]. do 3 f_equal. clear. unfold dim_values.
    induction r as [|x r IH]; [reflexivity|]. cbn [flat_map trip app map snd]. now rewrite IH.
Qed.

(** * Strings *)

Lemma parse_dataprec p rest d : p = lit "float64" \/ p = lit "float32" ->
  parse (entry_line (lit "dataprec") (lit "[ '" ++ p ++ lit "' ];") :: rest) d
  = parse rest (dset d (lit "dataprec") [Vstr p]).
Proof.
  intros [-> | ->]; (eapply parse_entry;
    [vm_compute; reflexivity | vm_compute; reflexivity | vm_compute; reflexivity | reflexivity
    | destruct rest; reflexivity | vm_compute; reflexivity]).
Qed.

(** Text that can be put between quotes: no quote, no backslash, no line end. *)
Definition quotable (s : text) : Prop :=
  ~ In quote s /\ ~ In "\"%char s /\ ~ In newline s.

Lemma quotable_inner s : quotable s -> string_inner quote s.
Proof.
  intros (Q & B & _). induction s as [|c s IH]; constructor.
  - intros ->. apply Q. now left.
  - intros ->. apply B. now left.
  - apply IH; intros I; [apply Q | apply B]; now right.
Qed.

Lemma strips_quoted s t u : quotable s -> strips t u ->
  strips (quote :: s ++ quote :: t) (quote :: s ++ quote :: u).
Proof.
  intros Q S.
  replace (quote :: s ++ quote :: t) with ((quote :: s ++ [quote]) ++ t) by (cbn [app]; now rewrite <- app_assoc).
  replace (quote :: s ++ quote :: u) with ((quote :: s ++ [quote]) ++ u) by (cbn [app]; now rewrite <- app_assoc).
  apply st_string; [|assumption]. exists quote, s. repeat split; [now left | now apply quotable_inner].
Qed.

Lemma split_no_quote l : forall k cur, ~ In quote l -> length l <= k ->
  split_strings k cur l = [rev cur ++ l].
Proof.
  induction l as [|c l IH]; intros k cur Q K.
  - rewrite app_nil_r. destruct k; reflexivity.
  - destruct k; [cbn in K; lia|]. cbn [split_strings].
    destruct (Ascii.eqb_spec c quote) as [->|E]; [exfalso; apply Q; now left|].
    rewrite IH; [|intros I; apply Q; now right | cbn in K; lia].
    cbn [rev]. now rewrite <- app_assoc.
Qed.

Lemma blanks_quote_repeat n t b : b = true \/ n <> 0 ->
  blanks_quote b (repeat " "%char n ++ quote :: t) = Some t.
Proof.
  revert b. induction n as [|n IH]; intros b B; cbn [repeat app blanks_quote].
  - destruct B as [-> | B]; [|lia]. reflexivity.
  - cbn [Ascii.eqb Bool.eqb]. apply IH. now left.
Qed.

Lemma split_one l n t : forall k cur, ~ In quote l -> n <> 0 ->
  length l < k ->
  split_strings k cur (l ++ quote :: repeat " "%char n ++ quote :: t)
  = (rev cur ++ l) :: split_strings (k - S (length l)) [] t.
Proof.
  induction l as [|c l IH]; intros k cur Q N K.
  - destruct k; [cbn in K; lia|]. cbn [app split_strings]. rewrite Ascii.eqb_refl.
    rewrite blanks_quote_repeat by auto. rewrite app_nil_r. f_equal. f_equal. cbn [length]. lia.
  - destruct k; [cbn in K; lia|]. cbn [app split_strings].
    destruct (Ascii.eqb_spec c quote) as [->|E]; [exfalso; apply Q; now left|].
    rewrite IH; [|intros I; apply Q; now right | assumption | cbn in K; lia].
    cbn [rev length]. rewrite <- app_assoc. reflexivity.
Qed.

(** Strings, each with a number of blanks in front of its opening quote. *)
Definition quoted_items (l : list (nat * text)) : text :=
  flat_map (fun ns => repeat " "%char (fst ns) ++ quote :: snd ns ++ [quote]) l.

(** What follows the first string, without the last quote. *)
Definition more_items (l : list (nat * text)) : text :=
  flat_map (fun ns => quote :: repeat " "%char (fst ns) ++ quote :: snd ns) l.

Lemma quoted_items_cons n s r :
  quoted_items ((n, s) :: r) = repeat " "%char n ++ quote :: (s ++ more_items r) ++ [quote].
Proof.
  revert n s. induction r as [|[m t] r IH]; intros n s.
  - cbn. rewrite !app_nil_r. reflexivity.
  - change (quoted_items ((n, s) :: (m, t) :: r))
      with ((repeat " "%char n ++ quote :: s ++ [quote]) ++ quoted_items ((m, t) :: r)).
    rewrite IH. cbn [more_items flat_map fst snd]. fold (more_items r).
    repeat (cbn [app]; rewrite <- ?app_assoc). reflexivity.
Qed.

Lemma split_items_strings r : forall s k,
  Forall (fun ns => fst ns <> 0 /\ ~ In quote (snd ns)) r -> ~ In quote s ->
  length (s ++ more_items r) <= k ->
  split_strings k [] (s ++ more_items r) = s :: map snd r.
Proof.
  induction r as [|[n t] r IH]; intros s k H Q K.
  - cbn [more_items flat_map map]. rewrite app_nil_r in *. now rewrite split_no_quote.
  - inversion H as [|x y [H1 H2] H3]; subst. cbn [fst snd] in *.
    cbn [more_items flat_map fst snd map] in *. fold (more_items r) in *.
    replace (s ++ (quote :: repeat " "%char n ++ quote :: t) ++ more_items r)
      with (s ++ quote :: repeat " "%char n ++ quote :: (t ++ more_items r)) in *
      by (repeat (cbn [app]; rewrite <- ?app_assoc); reflexivity).
    rewrite !app_length in K. cbn [length] in K. rewrite !app_length in K. cbn [length] in K.
    rewrite app_length in K.
    rewrite split_one by (auto; lia). cbn [rev app]. f_equal. apply IH; auto.
    rewrite app_length. lia.
Qed.

(** The first and the last string are not empty unless it is the only one. *)
Definition ends_ok (l : list (nat * text)) : Prop :=
  match l with
  | [] => False
  | [_] => True
  | _ => Forall (fun ns => snd ns <> []) l
  end.

Lemma not_quote s c : ~ In quote s -> In c s -> Ascii.eqb quote c = false.
Proof. intros Q I. apply Ascii.eqb_neq. intros <-. contradiction. Qed.

Lemma strip_quotes n s r :
  ends_ok ((n, s) :: r) -> Forall (fun ns => ~ In quote (snd ns)) ((n, s) :: r) ->
  strip (Ascii.eqb quote) (quote :: (s ++ more_items r) ++ [quote]) = s ++ more_items r.
Proof.
  intros E Q. inversion Q as [|x y Qs Qr]; subst. cbn [snd] in Qs.
  destruct r as [|[m t] r].
  - cbn [more_items flat_map]. rewrite app_nil_r. unfold strip. cbn [lstrip]. rewrite Ascii.eqb_refl.
    destruct s as [|c s'].
    + cbn [app lstrip]. rewrite Ascii.eqb_refl. reflexivity.
    + assert (P : forallb (fun c => negb (Ascii.eqb quote c)) (c :: s') = true).
      { apply forallb_forall. intros x I. now rewrite (not_quote _ _ Qs I). }
      cbn [app]. rewrite lstrip_stop by (eapply not_quote; [exact Qs | now left]).
      change (c :: s' ++ [quote]) with ((c :: s') ++ [quote]).
      rewrite rstrip_all by (cbn [forallb]; now rewrite Ascii.eqb_refl).
      now apply rstrip_none.
  - cbn [ends_ok] in E.
    inversion E as [|x y Es Er]; subst. cbn [snd] in Es.
    destruct s as [|c s']; [now elim Es|].
    unfold strip. change (quote :: ?a) with ([quote] ++ a).
    rewrite lstrip_all by (cbn [forallb]; now rewrite Ascii.eqb_refl).
    cbn [app]. rewrite lstrip_stop by (eapply not_quote; [exact Qs | now left]).
    change (c :: (s' ++ more_items ((m, t) :: r)) ++ [quote])
      with ((c :: s' ++ more_items ((m, t) :: r)) ++ [quote]).
    rewrite rstrip_all by (cbn [forallb]; now rewrite Ascii.eqb_refl).
    assert (L : exists u e, more_items ((m, t) :: r) = u ++ [e] /\ Ascii.eqb quote e = false).
    { clear - Qr Er. revert m t Qr Er. induction r as [|[m' t'] r IH]; intros m t Qr Er.
      - inversion Er; inversion Qr; subst. cbn [snd] in *. cbn [more_items flat_map fst snd].
        destruct (exists_last H1) as (u & e & ->). rewrite app_nil_r.
        exists (quote :: repeat " "%char m ++ quote :: u), e. split.
        + repeat (cbn [app]; rewrite <- ?app_assoc). reflexivity.
        + eapply not_quote; [eassumption|]. apply in_app_iff. right. now left.
      - inversion Er; inversion Qr; subst.
        destruct (IH m' t' ltac:(assumption) ltac:(assumption)) as (u & e & EQ & NQ).
        change (more_items ((m, t) :: (m', t') :: r))
          with ((quote :: repeat " "%char m ++ quote :: t) ++ more_items ((m', t') :: r)).
        rewrite EQ, app_assoc. eauto. }
    destruct L as (u & e & -> & NE).
    change (c :: s' ++ u ++ [e]) with ((c :: s') ++ u ++ [e]).
    rewrite app_assoc. now apply rstrip_stop.
Qed.

Lemma value_strings l k :
  ends_ok l -> Forall (fun ns => fst ns <> 0 /\ ~ In quote (snd ns)) l ->
  entry_value float_of "{" "}" ("{"%char :: (quoted_items l ++ repeat " "%char k) ++ lit "};")
  = Ok (map (fun ns => Vstr (rstrip is_space (snd ns))) l).
Proof.
  intros E H. destruct l as [|[n s] r]; [destruct E|].
  assert (Q : Forall (fun ns : nat * text => ~ In quote (snd ns)) ((n, s) :: r)).
  { eapply Forall_impl; [|exact H]. intros a (_ & A). exact A. }
  unfold entry_value. rewrite skip_tail by reflexivity. change (lit "};") with ["}"%char; ";"%char] at 1.
  rewrite text_eqb_refl. cbn [negb]. rewrite inner_of by reflexivity.
  change (fun c => Ascii.eqb c " " || Ascii.eqb c ",") with blank_or_comma.
  assert (SI : strip blank_or_comma (quoted_items ((n, s) :: r) ++ repeat " "%char k)
     = quote :: (s ++ more_items r) ++ [quote]).
  { rewrite quoted_items_cons. unfold strip.
    rewrite <- app_assoc, lstrip_all by (now apply forallb_repeat).
    cbn [app]. rewrite lstrip_stop by reflexivity.
    change (quote :: ((s ++ more_items r) ++ [quote]) ++ repeat " "%char k)
      with ((quote :: (s ++ more_items r) ++ [quote]) ++ repeat " "%char k).
    rewrite rstrip_all by (now apply forallb_repeat).
    change (quote :: (s ++ more_items r) ++ [quote]) with ((quote :: s ++ more_items r) ++ [quote]).
    now apply rstrip_stop. }
  rewrite SI. cbn [Ascii.eqb Bool.eqb]. rewrite (strip_quotes n s r E Q).
  inversion H as [|x y [H1 H2] H3]; subst.
  rewrite split_items_strings by auto. cbn [map snd]. rewrite map_map. reflexivity.
Qed.

Lemma parse_simulation s rest d : quotable s ->
  parse (entry_line (lit "simulation") (lit "{ '" ++ s ++ lit "' };") :: rest) d
  = parse rest (dset d (lit "simulation") [Vstr (rstrip is_space s)]).
Proof.
  intros Q.
  assert (EV : lit "{ '" ++ s ++ lit "' };"
             = "{"%char :: (quoted_items [(1, s)] ++ repeat " "%char 1) ++ lit "};").
  { cbn. rewrite app_nil_r. repeat (cbn [app]; rewrite <- ?app_assoc). reflexivity. }
  eapply parse_entry with (val := lit "{ '" ++ s ++ lit "' };") (cl := "}"%char)
     (whole := lit "{ '" ++ s ++ lit "' };").
  - apply strip_comments_iff. unfold entry_line.
    replace (lit " " ++ lit "simulation" ++ lit " = " ++ (lit "{ '" ++ s ++ lit "' };") ++ [newline])
      with (lit " simulation = { " ++ quote :: s ++ quote :: (lit " };" ++ [newline]))
      by (cbn [lit list_ascii_of_string app]; rewrite <- !app_assoc; reflexivity).
    apply strips_plain; [reflexivity|]. apply strips_quoted; [assumption|].
    rewrite <- (app_nil_r (lit " };" ++ [newline])). apply strips_plain; [reflexivity | constructor].
  - eapply match_entry_line with (c := "{"%char) (e := ";"%char); try assumption; try discriminate; try reflexivity.
    + exists (lit "{ '" ++ s ++ lit "' }"). rewrite <- !app_assoc. reflexivity.
    + destruct Q as (_ & _ & Q). rewrite !in_app_iff. intros [I|[I|I]]; [|auto|];
        repeat (destruct I as [I|I]; [discriminate I|]); destruct I.
  - apply entry_line_not_blank.
  - reflexivity.
  - assert (HH : has "}" (lit "{ '" ++ s ++ lit "' };") = true).
    { apply has_in. rewrite !in_app_iff. right; right. now right; right; left. }
    destruct rest as [|r0 rest0]; cbn [gather]; rewrite HH; reflexivity.
  - rewrite EV. cbn [hd].
    rewrite (value_strings [(1, s)] 1).
    + reflexivity.
    + exact I.
    + constructor; [|constructor]. split; [discriminate | apply Q].
Qed.

(** * Field names *)

Definition field_ok (f : text) : Prop := quotable f /\ ~ In "}"%char f.

Definition pad8 (f : text) : text := padr " " 8 f.

Lemma pad8_in c f : In c (pad8 f) -> In c f \/ c = " "%char.
Proof.
  unfold pad8, padr. rewrite in_app_iff. intros [I|I]; [now left|].
  apply repeat_spec in I. now right.
Qed.

Lemma pad8_ok f : field_ok f -> field_ok (pad8 f).
Proof.
  intros ((Q & B & N) & C).
  repeat split; intros I; apply pad8_in in I; destruct I as [I|I]; try discriminate I; contradiction.
Qed.

Lemma pad8_nonempty f : pad8 f <> [].
Proof. destruct f; [discriminate|]. unfold pad8, padr. discriminate. Qed.

Lemma rstrip_pad8 f : rstrip is_space (pad8 f) = rstrip is_space f.
Proof. unfold pad8, padr. apply rstrip_all. now apply forallb_repeat. Qed.

Definition row_text (fs : list text) : text :=
  flat_map (fun f => lit " '" ++ padr " " 8 f ++ [quote]) fs.

Lemma row_quoted fs : row_text fs = quoted_items (map (fun f => (1, pad8 f)) fs).
Proof.
  unfold row_text, quoted_items. induction fs as [|f fs IH]; [reflexivity|].
  cbn [map flat_map fst snd]. rewrite IH. reflexivity.
Qed.

Fixpoint row_lines (k : nat) (fs : list text) : list text :=
  match k, fs with
  | S k', _ :: _ => (row_text (firstn 20 fs) ++ [newline]) :: row_lines k' (skipn 20 fs)
  | _, _ => []
  end.

Fixpoint row_items (k : nat) (fs : list text) : list (nat * text) :=
  match k, fs with
  | S k', f :: fs' =>
      (2, pad8 f) :: map (fun f => (1, pad8 f)) (firstn 19 fs') ++ row_items k' (skipn 19 fs')
  | _, _ => []
  end.

Lemma row_items_names k : forall fs, length fs <= k -> map snd (row_items k fs) = map pad8 fs.
Proof.
  induction k as [|k IH]; intros fs K; [destruct fs; [reflexivity | cbn in K; lia]|].
  destruct fs as [|f fs]; [reflexivity|]. cbn [row_items map snd].
  rewrite map_app, map_map. cbn [snd]. f_equal.
  rewrite IH by (rewrite skipn_length; cbn in K; lia).
  rewrite <- map_app. now rewrite firstn_skipn.
Qed.

Lemma row_no_newline fs : Forall field_ok fs -> ~ In newline (row_text fs).
Proof.
  induction 1 as [|f fs H _ IH]; [intros []|]. unfold row_text. cbn [flat_map]. fold (row_text fs).
  rewrite !in_app_iff. intros [[I|[I|I]]|I]; [| | |auto].
  - repeat (destruct I as [I|I]; [discriminate I|]). destruct I.
  - apply pad8_in in I. destruct I as [I|I]; [|discriminate I]. destruct H as ((_ & _ & H) & _). contradiction.
  - destruct I as [I|[]]. discriminate I.
Qed.

Lemma row_no_brace fs : Forall field_ok fs -> ~ In "}"%char (row_text fs).
Proof.
  induction 1 as [|f fs H _ IH]; [intros []|]. unfold row_text. cbn [flat_map]. fold (row_text fs).
  rewrite !in_app_iff. intros [[I|[I|I]]|I]; [| | |auto].
  - repeat (destruct I as [I|I]; [discriminate I|]). destruct I.
  - apply pad8_in in I. destruct I as [I|I]; [|discriminate I]. destruct H as (_ & H). contradiction.
  - destruct I as [I|[]]. discriminate I.
Qed.

Lemma Forall_firstn {A} (P : A -> Prop) n l : Forall P l -> Forall P (firstn n l).
Proof. intros H. revert n. induction H; intros [|n]; cbn [firstn]; constructor; auto. Qed.
Lemma Forall_skipn {A} (P : A -> Prop) n l : Forall P l -> Forall P (skipn n l).
Proof. intros H. revert n. induction H; intros [|n]; cbn [skipn]; auto. Qed.

Lemma lines_rows k : forall fs t, Forall field_ok fs ->
  lines_of (field_rows k fs ++ t) = row_lines k fs ++ lines_of t.
Proof.
  induction k as [|k IH]; intros fs t H; [reflexivity|].
  destruct fs as [|f fs]; [reflexivity|]. cbn [field_rows row_lines].
  change (flat_map (fun f => lit " '" ++ padr " " 8 f ++ [quote]) (firstn 20 (f :: fs)))
    with (row_text (firstn 20 (f :: fs))).
  rewrite <- !app_assoc. change ([newline] ++ ?a) with (newline :: a). cbn [app].
  rewrite lines_of_line by (apply row_no_newline; now apply Forall_firstn).
  rewrite IH by (now apply Forall_skipn). reflexivity.
Qed.

Lemma strip_row_text fs : Forall field_ok fs -> fs <> [] ->
  rstrip is_space (strip_comments (row_text fs ++ [newline])) = row_text fs.
Proof.
  intros H E.
  assert (S : strip_comments (row_text fs ++ [newline]) = row_text fs ++ [newline]).
  { apply strip_comments_iff. clear E. induction H as [|f fs H _ IH].
    - apply (strips_plain [newline] [] []); [reflexivity | constructor].
    - unfold row_text. cbn [flat_map]. fold (row_text fs).
      replace ((lit " '" ++ padr " " 8 f ++ [quote]) ++ row_text fs)
        with ([" "%char] ++ quote :: pad8 f ++ quote :: row_text fs)
        by (unfold pad8; cbn [lit list_ascii_of_string app]; rewrite <- app_assoc; reflexivity).
      rewrite <- !app_assoc. apply strips_plain; [reflexivity|].
      cbn [app]. rewrite <- app_assoc. cbn [app].
      apply strips_quoted; [apply pad8_ok; exact H | exact IH]. }
  rewrite S, rstrip_all by reflexivity.
  destruct (exists_last E) as (l & f & ->). unfold row_text. rewrite flat_map_app. cbn [flat_map].
  rewrite app_nil_r, !app_assoc. now apply rstrip_stop.
Qed.

Lemma gather_rows k : forall fs acc rest, Forall field_ok fs -> length fs <= k -> ~ In "}"%char acc ->
  gather "}" acc (row_lines k fs ++ (lit " };" ++ [newline]) :: rest)
  = Ok (acc ++ quoted_items (row_items k fs) ++ lit "  };", rest).
Proof.
  induction k as [|k IH]; intros fs acc rest H K A.
  - destruct fs; [|cbn in K; lia]. cbn [row_lines row_items app quoted_items flat_map].
    cbn [gather]. rewrite (proj2 (has_false _ _) A).
    change (rstrip is_space (strip_comments (lit " };" ++ [newline]))) with (lit " };").
    assert (A2 : has "}" (acc ++ " "%char :: lit " };") = true).
    { apply has_in. rewrite in_app_iff. right. right; right; left; reflexivity. }
    destruct rest as [|r0 rest]; cbn [gather]; rewrite A2; reflexivity.
  - destruct fs as [|f fs].
    + specialize (IH [] acc rest H ltac:(cbn; lia) A). destruct k; exact IH.
    + cbn [row_lines row_items app]. cbn [gather]. rewrite (proj2 (has_false _ _) A).
      change (firstn 20 (f :: fs)) with (f :: firstn 19 fs). change (skipn 20 (f :: fs)) with (skipn 19 fs).
      inversion H; subst.
      assert (H' : Forall field_ok (f :: firstn 19 fs)) by (constructor; [assumption | now apply Forall_firstn]).
      rewrite strip_row_text by (auto; discriminate).
      rewrite IH.
      * f_equal. f_equal. rewrite row_quoted. cbn [map].
        unfold quoted_items. cbn [flat_map fst snd]. rewrite flat_map_app.
        cbn [repeat]. repeat (cbn [app]; rewrite <- ?app_assoc). reflexivity.
      * now apply Forall_skipn.
      * rewrite skipn_length. cbn in K. lia.
      * rewrite in_app_iff. intros [I|[I|I]]; [auto | discriminate I|].
        revert I. now apply row_no_brace.
Qed.

Lemma row_items_ok k : forall fs, Forall field_ok fs ->
  Forall (fun ns => fst ns <> 0 /\ ~ In quote (snd ns)) (row_items k fs)
  /\ Forall (fun ns => snd ns <> []) (row_items k fs).
Proof.
  induction k as [|k IH]; intros fs H; [split; constructor|].
  destruct fs as [|f fs]; [split; constructor|]. cbn [row_items]. inversion H; subst.
  destruct (IH (skipn 19 fs)) as (I1 & I2); [now apply Forall_skipn|].
  assert (P : forall f, field_ok f -> ~ In quote (pad8 f)) by (intros g G; apply (pad8_ok g G)).
  split; constructor.
  - split; [discriminate | now apply P].
  - apply Forall_app. split; [|assumption]. apply Forall_map. cbn [fst snd].
    eapply Forall_impl; [|apply Forall_firstn; eassumption]. intros g G. split; [discriminate | now apply P].
  - apply pad8_nonempty.
  - apply Forall_app. split; [|assumption]. apply Forall_map. cbn [snd].
    apply Forall_forall. intros g _. apply pad8_nonempty.
Qed.

Lemma parse_fields fs rest d : Forall field_ok fs -> fs <> [] ->
  parse (entry_line (lit "fldList") (lit "{") :: row_lines (length fs) fs ++ (lit " };" ++ [newline]) :: rest) d
  = parse rest (dset d (lit "fldList") (map (fun f => Vstr (rstrip is_space f)) fs)).
Proof.
  intros H E. eapply parse_entry.
  - vm_compute. reflexivity.
  - vm_compute. reflexivity.
  - vm_compute. reflexivity.
  - reflexivity.
  - apply (gather_rows (length fs) fs (lit "{") rest H (le_n _)). intros [I|[]]. discriminate I.
  - set (l := row_items (length fs) fs).
    replace (lit "{" ++ quoted_items l ++ lit "  };") with ("{"%char :: (quoted_items l ++ repeat " "%char 2) ++ lit "};")
      by (cbn [lit list_ascii_of_string app repeat]; now rewrite <- app_assoc).
    cbn [hd]. destruct (row_items_ok (length fs) fs H) as (O1 & O2). fold l in O1, O2.
    rewrite value_strings.
    + f_equal.
      rewrite <- (map_map snd (fun s => Vstr (rstrip is_space s))). unfold l. rewrite row_items_names by reflexivity.
      rewrite map_map. apply map_ext. intros f. now rewrite rstrip_pad8.
    + destruct l as [|x [|y r]] eqn:L.
      * unfold l in L. destruct fs; [now elim E | discriminate L].
      * exact I.
      * exact O2.
    + exact O1.
Qed.

(** * The whole file *)

Definition written_meta (ndims : nat) (dims : list nat) (dataprec : text) (nrec : nat)
    (itr : option Z) (fields : option (list text)) (simulation : option text) : metadict F :=
  match simulation with Some s => [(lit "simulation", [Vstr (rstrip is_space s)])] | None => [] end
  ++ [(lit "nDims", [Vint (Z.of_nat ndims)]);
      (lit "dimList", dim_values dims);
      (lit "dataprec", [Vstr dataprec]);
      (lit "nrecords", [Vint (Z.of_nat nrec)])]
  ++ match itr with Some i => [(lit "timeStepNumber", [Vint i])] | None => [] end
  ++ match fields with
     | Some fs => [(lit "nFlds", [Vint (Z.of_nat (length fs))]);
                   (lit "fldList", map (fun f => Vstr (rstrip is_space f)) fs)]
     | None => []
     end.

Lemma entry_line_lit (k v : string) : entry_line (lit k) (lit v) = lit " " ++ lit k ++ lit " = " ++ lit v ++ [newline].
Proof. reflexivity. Qed.

Lemma no_newline_entry (pre : string) (mid : text) (post : string) :
  ~ In newline (lit pre) -> ~ In newline mid -> ~ In newline (lit post) ->
  ~ In newline (lit pre ++ mid ++ lit post).
Proof. intros A B C. rewrite !in_app_iff. tauto. Qed.

Ltac no_nl := let I := fresh in intros I; repeat (destruct I as [I|I]; [discriminate I|]); destruct I.

Lemma parse_nil d : parse [] d = Ok d.
Proof. reflexivity. Qed.

Lemma parse_fields_entry fs t d : Forall field_ok fs -> fs <> [] ->
  parse (lines_of (lit " nFlds = [ " ++ fmt_d 4 (Z.of_nat (length fs)) ++ lit " ];" ++ [newline]
             ++ lit " fldList = {" ++ [newline]
             ++ field_rows (length fs) fs
             ++ lit " };" ++ newline :: t)) d
  = parse (lines_of t) (dset (dset d (lit "nFlds") [Vint (Z.of_nat (length fs))]) (lit "fldList")
       (map (fun f => Vstr (rstrip is_space f)) fs)).
Proof.
  intros H E.
  match goal with |- parse (lines_of (?a ++ ?b ++ ?c ++ [newline] ++ ?r)) _ = _ =>
    replace (a ++ b ++ c ++ [newline] ++ r) with ((a ++ b ++ c) ++ newline :: r)
      by (rewrite <- !app_assoc; reflexivity) end.
  rewrite lines_of_line.
  2:{ apply no_newline_entry; [no_nl | apply meta_no_newline, fmt_meta_chars | no_nl]. }
  rewrite <- !app_assoc.
  change ((lit " nFlds = [ " ++ fmt_d 4 (Z.of_nat (length fs)) ++ lit " ];" ++ [newline]))
    with (lit " nFlds = [ " ++ fmt_d 4 (Z.of_nat (length fs)) ++ (lit " ];" ++ [newline])).
  rewrite (app_assoc (fmt_d _ _)).
  change (lit " nFlds = [ " ++ (fmt_d 4 (Z.of_nat (length fs)) ++ lit " ];") ++ [newline])
    with (entry_line (lit "nFlds") (lit "[ " ++ fmt_d 4 (Z.of_nat (length fs)) ++ lit " ];")).
  rewrite parse_int_entry by (reflexivity || discriminate).
  change (lit " fldList = {" ++ [newline] ++ field_rows (length fs) fs ++ lit " };" ++ newline :: t)
    with (lit " fldList = {" ++ newline :: (field_rows (length fs) fs ++ lit " };" ++ newline :: t)).
  rewrite lines_of_line by no_nl.
  rewrite lines_rows by assumption. rewrite lines_of_line by no_nl.
  change (lit " fldList = {" ++ [newline]) with (entry_line (lit "fldList") (lit "{")).
  apply parse_fields; assumption.
Qed.

Lemma parse_int_line (pre key : string) (w : nat) z t d :
  lit pre = lit " " ++ lit key ++ lit " = [ " -> forallb is_word (lit key) = true -> lit key <> [] ->
  parse (lines_of (lit pre ++ fmt_d w z ++ lit " ];" ++ newline :: t)) d
  = parse (lines_of t) (dset d (lit key) [Vint z]).
Proof.
  intros P K E.
  replace (lit pre ++ fmt_d w z ++ lit " ];" ++ newline :: t)
    with ((lit pre ++ fmt_d w z ++ lit " ];") ++ newline :: t) by (now rewrite <- !app_assoc).
  rewrite lines_of_line.
  - replace ((lit pre ++ fmt_d w z ++ lit " ];") ++ [newline])
      with (entry_line (lit key) (lit "[ " ++ fmt_d w z ++ lit " ];")).
    + apply parse_int_entry; assumption.
    + unfold entry_line. rewrite P. rewrite <- !app_assoc. reflexivity.
  - apply no_newline_entry; [|apply meta_no_newline, fmt_meta_chars | no_nl].
    rewrite P, !in_app_iff. intros [I|[I|I]].
    + revert I. no_nl.
    + rewrite forallb_forall in K. apply K in I. now apply word_not in I.
    + revert I. no_nl.
Qed.

(** The entries before timeStepNumber. *)
Definition head_meta (ndims : nat) (dims : list nat) (dataprec : text) (nrec : nat) (simulation : option text)
    : metadict F :=
  match simulation with Some s => [(lit "simulation", [Vstr (rstrip is_space s)])] | None => [] end
  ++ [(lit "nDims", [Vint (Z.of_nat ndims)]);
      (lit "dimList", dim_values dims);
      (lit "dataprec", [Vstr dataprec]);
      (lit "nrecords", [Vint (Z.of_nat nrec)])].

Lemma meta_head_parses ndims dims dataprec nrec simulation w tail :
  dims <> [] -> (dataprec = lit "float64" \/ dataprec = lit "float32") ->
  match simulation with Some s => quotable s | None => True end ->
  parse (lines_of (match simulation with
      | Some s => lit " simulation = { '" ++ s ++ lit "' };" ++ [newline]
      | None => []
      end
      ++ lit " nDims = [ " ++ fmt_d 3 (Z.of_nat ndims) ++ lit " ];" ++ [newline]
      ++ lit " dimList = [" ++ [newline] ++ [" "%char]
      ++ join ([","%char] ++ [newline] ++ [" "%char]) (map (dim_line w) dims)
      ++ [newline] ++ lit " ];" ++ [newline]
      ++ lit " dataprec = [ '" ++ dataprec ++ lit "' ];" ++ [newline]
      ++ lit " nrecords = [ " ++ fmt_d 5 (Z.of_nat nrec) ++ lit " ];" ++ [newline] ++ tail)) []
  = parse (lines_of tail) (head_meta ndims dims dataprec nrec simulation).
Proof.
  intros D P S.
  assert (PN : forall d, parse (lines_of (lit " nrecords = [ " ++ fmt_d 5 (Z.of_nat nrec) ++ lit " ];" ++ [newline] ++ tail)) d
     = parse (lines_of tail) (dset d (lit "nrecords") [Vint (Z.of_nat nrec)])).
  { intros d. change ([newline] ++ tail) with (newline :: tail).
    apply (parse_int_line " nrecords = [ " "nrecords"); [reflexivity | reflexivity | discriminate]. }
  set (tail2 := lit " nrecords = [ " ++ _) in *.
  assert (PP : forall d, parse (lines_of (lit " dataprec = [ '" ++ dataprec ++ lit "' ];" ++ [newline] ++ tail2)) d
     = parse (lines_of tail2) (dset d (lit "dataprec") [Vstr dataprec])).
  { intros d. change ([newline] ++ tail2) with (newline :: tail2).
    replace (lit " dataprec = [ '" ++ dataprec ++ lit "' ];" ++ newline :: tail2)
      with ((lit " dataprec = [ '" ++ dataprec ++ lit "' ];") ++ newline :: tail2) by (now rewrite <- !app_assoc).
    rewrite lines_of_line.
    - replace ((lit " dataprec = [ '" ++ dataprec ++ lit "' ];") ++ [newline])
        with (entry_line (lit "dataprec") (lit "[ '" ++ dataprec ++ lit "' ];"))
        by (unfold entry_line; rewrite <- !app_assoc; reflexivity).
      now apply parse_dataprec.
    - destruct P as [-> | ->]; no_nl. }
  clearbody tail2. set (tail3 := lit " dataprec = [ '" ++ _) in *.
  assert (PD : forall d, parse (lines_of (lit " dimList = [" ++ [newline] ++ [" "%char]
      ++ join ([","%char] ++ [newline] ++ [" "%char]) (map (dim_line w) dims)
      ++ [newline] ++ lit " ];" ++ [newline] ++ tail3)) d
     = parse (lines_of tail3) (dset d (lit "dimList") (dim_values dims))).
  { intros d. change ([newline] ++ tail3) with (newline :: tail3).
    change ([newline] ++ lit " ];" ++ newline :: tail3) with (newline :: lit " ];" ++ newline :: tail3).
    set (J := join _ _).
    change ([newline] ++ [" "%char] ++ J ++ newline :: lit " ];" ++ newline :: tail3)
      with (newline :: (" "%char :: J ++ newline :: (lit " ];" ++ newline :: tail3))).
    rewrite lines_of_line by no_nl. unfold J.
    rewrite lines_dims by assumption. rewrite lines_of_line by no_nl.
    change (lit " dimList = [" ++ [newline]) with (entry_line (lit "dimList") (lit "[")).
    now apply parse_dims. }
  clearbody tail3. set (tail4 := lit " dimList = [" ++ _) in *.
  assert (PM : forall d, parse (lines_of (lit " nDims = [ " ++ fmt_d 3 (Z.of_nat ndims) ++ lit " ];" ++ [newline] ++ tail4)) d
     = parse (lines_of tail4) (dset d (lit "nDims") [Vint (Z.of_nat ndims)])).
  { intros d. change ([newline] ++ tail4) with (newline :: tail4).
    apply (parse_int_line " nDims = [ " "nDims"); [reflexivity | reflexivity | discriminate]. }
  clearbody tail4. set (tail5 := lit " nDims = [ " ++ _) in *. clearbody tail5.
  assert (PS : parse (lines_of (match simulation with
      | Some s => lit " simulation = { '" ++ s ++ lit "' };" ++ [newline] | None => [] end ++ tail5)) []
     = parse (lines_of tail5) (match simulation with Some s => [(lit "simulation", [Vstr (rstrip is_space s)])] | None => [] end)).
  { destruct simulation as [s|]; [|reflexivity].
    rewrite <- !app_assoc. change ([newline] ++ tail5) with (newline :: tail5).
    replace (lit " simulation = { '" ++ s ++ lit "' };" ++ newline :: tail5)
      with ((lit " simulation = { '" ++ s ++ lit "' };") ++ newline :: tail5) by (now rewrite <- !app_assoc).
    rewrite lines_of_line.
    - replace ((lit " simulation = { '" ++ s ++ lit "' };") ++ [newline])
        with (entry_line (lit "simulation") (lit "{ '" ++ s ++ lit "' };"))
        by (unfold entry_line; rewrite <- !app_assoc; reflexivity).
      now rewrite parse_simulation.
    - apply no_newline_entry; [no_nl | apply S | no_nl]. }
  rewrite PS, PM, PD, PP, PN. f_equal. unfold head_meta. destruct simulation; reflexivity.
Qed.

Lemma parse_tail_fields fields d :
  match fields with Some fs => Forall field_ok fs /\ fs <> [] | None => True end ->
  parse (lines_of match fields with
         | Some fs =>
             lit " nFlds = [ " ++ fmt_d 4 (Z.of_nat (length fs)) ++ lit " ];" ++ [newline]
             ++ lit " fldList = {" ++ [newline]
             ++ field_rows (length fs) fs
             ++ lit " };" ++ [newline]
         | None => []
         end) d
  = Ok (match fields with
      | Some fs => dset (dset d (lit "nFlds") [Vint (Z.of_nat (length fs))]) (lit "fldList")
                     (map (fun f => Vstr (rstrip is_space f)) fs)
      | None => d end).
Proof.
  intros H. destruct fields as [fs|]; [|reflexivity].
  destruct H as [H HE]. rewrite (parse_fields_entry fs [] d H HE). reflexivity.
Qed.

Lemma parse_tail_itr itr rest d :
  parse (lines_of (match itr with
         | Some i => lit " timeStepNumber = [ " ++ fmt_d 10 i ++ lit " ];" ++ [newline]
         | None => []
         end ++ rest)) d
  = parse (lines_of rest) (match itr with Some i => dset d (lit "timeStepNumber") [Vint i] | None => d end).
Proof.
  destruct itr as [i|]; [|reflexivity].
  rewrite <- !app_assoc. change ([newline] ++ rest) with (newline :: rest).
  apply (parse_int_line " timeStepNumber = [ " "timeStepNumber"); [reflexivity | reflexivity | discriminate].
Qed.

Lemma meta_text_parses ndims dims dataprec nrec itr fields simulation :
  dims <> [] -> (dataprec = lit "float64" \/ dataprec = lit "float32") ->
  match simulation with Some s => quotable s | None => True end ->
  match fields with Some fs => Forall field_ok fs /\ fs <> [] | None => True end ->
  exists t, meta_text ndims dims dataprec nrec itr fields simulation = Ok t
    /\ parsemeta float_of t = Ok (written_meta ndims dims dataprec nrec itr fields simulation).
Proof.
  intros D P S H. unfold meta_text.
  assert (W : exists w, dim_width dims = Ok w).
  { destruct dims; [now elim D | eexists; reflexivity]. }
  destruct W as (w & ->). cbn [rbind].
  eexists. split; [reflexivity|].
  change (parsemeta float_of ?t) with (parse (lines_of t) []).
  rewrite meta_head_parses by assumption.
  rewrite parse_tail_itr, parse_tail_fields by assumption.
  f_equal. unfold written_meta, head_meta. destruct simulation, itr, fields; reflexivity.
Qed.

End Parse.
