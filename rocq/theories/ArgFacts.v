(** Facts about the argument parsers. *)
From Coq Require Import Ascii String List Bool PeanoNat ZArith Lia.
Import ListNotations.
From Flocq Require Import IEEE754.Binary IEEE754.Bits.
From Verif Require Import MdsMeta MdsTextFacts PyFloat PyFloatFacts ArgParse Main SpecArgs.
Local Open Scope nat_scope.
Local Open Scope list_scope.

(** ** Texts *)

Lemma dget_in {A} (d : list (text * A)) k v : dget d k = Some v -> In (k, v) d.
Proof.
  induction d as [|(k', v') d IH]; cbn [dget]; [discriminate|].
  destruct (text_eqb k k') eqn:E; [|intros H; right; auto].
  apply text_eqb_eq in E. subst. intros [= ->]. now left.
Qed.

Lemma dget_none {A} (d : list (text * A)) k : dget d k = None <-> ~ In k (map fst d).
Proof.
  induction d as [|(k', v') d IH]; cbn [dget map fst In]; [tauto|].
  destruct (text_eqb k k') eqn:E.
  - apply text_eqb_eq in E. subst. split; [discriminate|tauto].
  - apply text_eqb_neq in E. rewrite IH. firstorder congruence.
Qed.

Lemma dget_nodup {A} (d : list (text * A)) k v : NoDup (map fst d) -> In (k, v) d -> dget d k = Some v.
Proof.
  induction d as [|(k', v') d IH]; cbn [dget map fst In]; [tauto|]. intros N H. inversion N as [|? ? N1 N2]; subst.
  destruct H as [[= <- <-]|H].
  - now rewrite text_eqb_refl.
  - destruct (text_eqb k k') eqn:E; [|auto]. apply text_eqb_eq in E. subst.
    destruct N1. apply in_map_iff. now exists (k', v).
Qed.

Lemma starts_with_iff w t : starts_with w t = true <-> begins w t.
Proof.
  unfold begins. revert t. induction w as [|c w IH]; intros t; cbn [starts_with].
  - split; [intros _; now exists t|reflexivity].
  - destruct t as [|d t]; [split; [discriminate|intros (r & E); discriminate]|].
    rewrite andb_true_iff, Ascii.eqb_eq, IH. split.
    + intros (-> & r & ->). exists r. reflexivity.
    + intros (r & E). injection E as -> ->. split; [reflexivity|]. now exists r.
Qed.

Lemma split_eq_none l : ~ In "="%char l -> split_eq l = (l, None).
Proof.
  induction l as [|c l IH]; intros H; [reflexivity|]. cbn [split_eq].
  destruct (Ascii.eqb_spec c "="); [subst; destruct H; now left|].
  rewrite IH; [reflexivity|]. intros K. apply H. now right.
Qed.

Lemma split_eq_app w v : ~ In "="%char w -> split_eq (w ++ "="%char :: v) = (w, Some v).
Proof.
  induction w as [|c w IH]; intros H; [reflexivity|]. cbn [app split_eq].
  destruct (Ascii.eqb_spec c "="); [subst; destruct H; now left|].
  rewrite IH; [reflexivity|]. intros K. apply H. now right.
Qed.

Lemma split_eq_cases l :
  (~ In "="%char l /\ split_eq l = (l, None)) \/
  exists w v, l = w ++ "="%char :: v /\ ~ In "="%char w /\ split_eq l = (w, Some v).
Proof.
  induction l as [|c l IH]; [left; split; [tauto|reflexivity]|].
  destruct (Ascii.eqb_spec c "=") as [-> |N].
  - right. exists [], l. split; [reflexivity|]. split; [tauto|reflexivity].
  - destruct IH as [(A & B)|(w & v & -> & A & B)].
    + left. cbn [In split_eq]. destruct (Ascii.eqb_spec c "="); [contradiction|]. rewrite B. split; [|reflexivity].
      intros [K|K]; [congruence|auto].
    + right. exists (c :: w), v. cbn [app In split_eq]. destruct (Ascii.eqb_spec c "="); [contradiction|]. rewrite B.
      repeat split; auto. intros [K|K]; [congruence|auto].
Qed.

(** ** The tables *)

Definition kind_of (t : vtype) : optkind :=
  match t with A_text => OText | An_integer => OInt | A_double => OFloat end.

Definition option_entry (o : string * vtype * bool) : text * opt :=
  let '(n, t, r) := o in (dashed (lit n), value_opt n (kind_of t) r).
Definition switch_entries (s : ascii * string) : list (text * opt) :=
  let '(c, n) := s in
  [(["-"%char; c], flag_opt (String c "") n); (dashed (lit n), flag_opt (String c "") n)].

Definition strings_of (g : program) := option_strings (parser_of g).

Lemma strings_table g : strings_of g =
  [(lit "-h", help_opt); (lit "--help", help_opt)] ++ map option_entry (options_of g) ++
  flat_map switch_entries (switches_of g).
Proof. destruct g; reflexivity. Qed.

Lemma strings_words g : map fst (strings_of g) = words g.
Proof. destruct g; reflexivity. Qed.

Fixpoint nodup_text (l : list text) : bool :=
  match l with [] => true | a :: r => negb (existsb (text_eqb a) r) && nodup_text r end.
Lemma nodup_text_ok l : nodup_text l = true -> NoDup l.
Proof.
  induction l as [|a l IH]; intros H; constructor; cbn in H; apply andb_prop in H as (A & B); auto.
  intros I. apply negb_true_iff in A. rewrite <- not_true_iff_false, existsb_exists in A. apply A.
  exists a. split; [exact I|apply text_eqb_refl].
Qed.

Lemma words_nodup g : NoDup (words g).
Proof. apply nodup_text_ok. destruct g; vm_compute; reflexivity. Qed.

(** Two dashes and a name, or one dash and a letter. *)
Definition word_shape (w : text) : bool :=
  match w with
  | a :: b :: r =>
      is_dash a && negb (existsb (fun c => Ascii.eqb c "=" || Ascii.eqb c " ") w) &&
      (if is_dash b then negb (length r =? 0) else length r =? 0)
  | _ => false
  end.
Lemma words_shape g w : In w (words g) -> word_shape w = true.
Proof.
  assert (H : forallb word_shape (words g) = true) by (destruct g; vm_compute; reflexivity).
  rewrite forallb_forall in H. apply H.
Qed.

Lemma word_cases g w : In w (words g) ->
  (exists c, w = ["-"%char; c] /\ c <> "-"%char /\ c <> "="%char /\ c <> " "%char) \/
  (exists n, w = dashed n /\ n <> [] /\ ~ In "="%char n /\ ~ In " "%char n).
Proof.
  intros H. apply words_shape in H. destruct w as [|a [|b r]]; try discriminate. unfold word_shape in H.
  apply andb_prop in H as (H & H2). apply andb_prop in H as (H & H1).
  unfold is_dash in *. apply Ascii.eqb_eq in H. subst a.
  apply negb_true_iff in H1. rewrite <- not_true_iff_false, existsb_exists in H1.
  assert (E : forall c, In c (b :: r) -> c <> "="%char /\ c <> " "%char).
  { intros c I. split; intros ->; apply H1; eexists; (split; [right; exact I|reflexivity]). }
  destruct (Ascii.eqb_spec b "-") as [-> |N].
  - right. exists r. split; [reflexivity|]. split; [destruct r; [discriminate|discriminate]|].
    split; intros I; destruct (E _ (or_intror I)); congruence.
  - left. exists b. apply Nat.eqb_eq in H2. destruct r; [|discriminate]. split; [reflexivity|]. split; [exact N|].
    apply E. now left.
Qed.

Lemma entry_cases g w o : In (w, o) (strings_of g) ->
  (o = help_opt /\ (w = lit "-h" \/ w = lit "--help")) \/
  (exists n t r, In (n, t, r) (options_of g) /\ w = dashed (lit n) /\ o = value_opt n (kind_of t) r) \/
  (exists c n, In (c, n) (switches_of g) /\ (w = ["-"%char; c] \/ w = dashed (lit n)) /\ o = flag_opt (String c "") n).
Proof.
  rewrite strings_table. intros H. apply in_app_or in H as [H|H]; [|apply in_app_or in H as [H|H]].
  - left. destruct H as [[= <- <-]|[[= <- <-]|[]]]; auto.
  - right. left. apply in_map_iff in H as (((n & t) & r) & E & I). injection E as <- <-. exists n, t, r. auto.
  - right. right. apply in_flat_map in H as ((c & n) & I & [E|[E|[]]]); injection E as <- <-; exists c, n; auto.
Qed.

Lemma option_in g n t r : In (n, t, r) (options_of g) -> In (dashed (lit n), value_opt n (kind_of t) r) (strings_of g).
Proof.
  rewrite strings_table. intros H. apply in_or_app. right. apply in_or_app. left.
  apply in_map_iff. now exists (n, t, r).
Qed.
Lemma letter_in g c n : In (c, n) (switches_of g) -> In (["-"%char; c], flag_opt (String c "") n) (strings_of g).
Proof.
  rewrite strings_table. intros H. apply in_or_app. right. apply in_or_app. right.
  apply in_flat_map. exists (c, n). split; [exact H|now left].
Qed.
Lemma switch_in g c n : In (c, n) (switches_of g) -> In (dashed (lit n), flag_opt (String c "") n) (strings_of g).
Proof.
  rewrite strings_table. intros H. apply in_or_app. right. apply in_or_app. right.
  apply in_flat_map. exists (c, n). split; [exact H|right; now left].
Qed.

Lemma strings_get g w o : In (w, o) (strings_of g) -> dget (strings_of g) w = Some o.
Proof. apply dget_nodup. rewrite strings_words. apply words_nodup. Qed.
Lemma strings_word g w o : In (w, o) (strings_of g) -> In w (words g).
Proof. intros H. rewrite <- strings_words. now apply (in_map fst) in H. Qed.
Lemma word_string g w : In w (words g) -> exists o, In (w, o) (strings_of g).
Proof.
  rewrite <- strings_words. intros H. apply in_map_iff in H as ((w', o) & <- & H). now exists o.
Qed.

(** ** classify *)

Lemma classify_exact g w o : In (w, o) (strings_of g) -> classify (parser_of g) w = Some (TOption o).
Proof.
  intros H. pose proof (strings_word _ _ _ H) as W. apply strings_get in H. unfold strings_of in H.
  assert (exists r, w = "-"%char :: r) as (r & ->)
    by (destruct (word_cases _ _ W) as [(c & -> & _)|(n & -> & _)]; eexists; reflexivity).
  unfold classify. change (negb (is_dash "-")) with false. cbv iota. now rewrite H.
Qed.

Lemma no_eq_dashed r : ~ In "="%char r -> ~ In "="%char (dashed r).
Proof. intros H [K|[K|K]]; [discriminate|discriminate|auto]. Qed.

Definition matching (g : program) (w : text) : list (text * opt) :=
  filter (fun no => starts_with w (fst no)) (strings_of g).

Lemma negative_dashed r : negative_number (dashed r) = false.
Proof. reflexivity. Qed.

Lemma not_word_get g w : ~ In w (words g) -> dget (strings_of g) w = None.
Proof. rewrite <- strings_words. intros H. now apply dget_none. Qed.

Definition unmatched (l : text) : token :=
  if negative_number l || existsb (Ascii.eqb " ") l then TValue else TUnknown.

(** An unknown word with two dashes. *)
Lemma classify_dashed g r : r <> [] -> ~ In "="%char r -> ~ In (dashed r) (words g) ->
  classify (parser_of g) (dashed r) =
  match matching g (dashed r) with
  | [x] => Some (TOption (snd x))
  | [] => Some (unmatched (dashed r))
  | _ => None
  end.
Proof.
  intros R E W. apply not_word_get in W. unfold classify, dashed at 1. change (is_dash "-") with true. cbn [negb].
  fold (dashed r). unfold strings_of in W. rewrite W. cbn [length Nat.eqb].
  unfold with_equals. rewrite (split_eq_none _ (no_eq_dashed _ E)).
  unfold candidates, dashed at 1. change (is_dash "-") with true. cbn [negb].
  fold (dashed r). rewrite (split_eq_none _ (no_eq_dashed _ E)). fold (strings_of g). fold (matching g (dashed r)).
  destruct (matching g (dashed r)) as [|x [|y l]]; reflexivity.
Qed.

Lemma classify_joined g r v : ~ In "="%char r ->
  classify (parser_of g) (dashed r ++ "="%char :: v) =
  match dget (strings_of g) (dashed r) with
  | Some o => Some (TWith o true true v)
  | None =>
      match matching g (dashed r) with
      | [x] => Some (TWith (snd x) (long (fst x)) true v)
      | [] => Some (unmatched (dashed r ++ "="%char :: v))
      | _ => None
      end
  end.
Proof.
  intros E.
  assert (W : dget (strings_of g) (dashed r ++ "="%char :: v) = None).
  { apply not_word_get. intros H. destruct (word_cases _ _ H) as [(c & K & _)|(n & K & _ & Ne & _)].
    - apply (f_equal (@length ascii)) in K. cbn in K. rewrite app_length in K. cbn in K. lia.
    - unfold dashed in K. cbn [app] in K. injection K as K. apply Ne. rewrite <- K. apply in_or_app. right. now left. }
  unfold classify, dashed at 1. cbn [app]. change (is_dash "-") with true. cbn [negb].
  change ("-"%char :: "-"%char :: r ++ "="%char :: v) with (dashed r ++ "="%char :: v). unfold strings_of in W. rewrite W.
  cbn [length Nat.eqb]. unfold with_equals. rewrite (split_eq_app _ v (no_eq_dashed _ E)).
  change (option_strings (parser_of g)) with (strings_of g).
  destruct (dget (strings_of g) (dashed r)) as [o|] eqn:D; [reflexivity|]. cbn [option_map].
  unfold candidates, dashed at 1. cbn [app]. change (is_dash "-") with true. cbn [negb].
  change ("-"%char :: "-"%char :: r ++ "="%char :: v) with (dashed r ++ "="%char :: v).
  rewrite (split_eq_app _ v (no_eq_dashed _ E)). fold (strings_of g). fold (matching g (dashed r)).
  destruct (matching g (dashed r)) as [|x [|y l]]; reflexivity.
Qed.

Lemma short_candidates g c r : c <> "-"%char -> (r = [] -> ~ In ["-"%char; c] (words g)) ->
  candidates (parser_of g) ("-"%char :: c :: r) =
  match dget (strings_of g) ["-"%char; c] with
  | Some o => [TWith o false false r]
  | None => []
  end.
Proof.
  intros C R. unfold candidates. destruct (Ascii.eqb_spec c "-") as [|_]; [contradiction|].
  unfold is_dash. destruct (Ascii.eqb_spec c "-") as [|_]; [contradiction|].
  change (option_strings (parser_of g)) with (strings_of g).
  assert (H : forall d : list (text * opt), (forall w, In w (map fst d) -> In w (words g)) -> NoDup (map fst d) ->
    flat_map (fun no : text * opt =>
      if text_eqb (fst no) ["-"%char; c] then [TWith (snd no) (long (fst no)) false r]
      else if starts_with ("-"%char :: c :: r) (fst no) then [TOption (snd no)] else []) d =
    match dget d ["-"%char; c] with Some o => [TWith o false false r] | None => [] end).
  2:{ apply H; [intros w; now rewrite strings_words|]. rewrite strings_words. apply words_nodup. }
  induction d as [|(w, o) d IH]; intros I N; [reflexivity|]. cbn [flat_map fst snd dget].
  inversion N as [|? ? N1 N2]; subst. specialize (IH (fun w Hw => I w (or_intror Hw)) N2).
  destruct (text_eqb w ["-"%char; c]) eqn:E.
  - apply text_eqb_eq in E. subst w. rewrite text_eqb_refl, IH. cbn [map fst] in N1.
    apply dget_none in N1. rewrite N1. unfold long, is_dash. destruct (Ascii.eqb_spec c "-"); [contradiction|]. reflexivity.
  - assert (E' : text_eqb ["-"%char; c] w = false) by (apply text_eqb_neq; apply text_eqb_neq in E; congruence).
    rewrite E'. destruct (starts_with ("-"%char :: c :: r) w) eqn:S; [|exact IH]. exfalso.
    apply starts_with_iff in S as (t & ->). apply text_eqb_neq in E.
    destruct (word_cases g _ (I _ (or_introl eq_refl))) as [(c' & K & _)|(n & K & _)].
    + cbn [app] in K. injection K as -> K. destruct r; [|discriminate]. cbn in K. subst t. now apply E.
    + cbn [app] in K. injection K as -> _. contradiction.
Qed.

(** One dash and a character other than a dash, not a word. *)
Lemma classify_short g c r : c <> "-"%char -> ~ In ("-"%char :: c :: r) (words g) ->
  classify (parser_of g) ("-"%char :: c :: r) =
  match dget (strings_of g) ["-"%char; c], r with
  | Some o, d :: r' => Some (if Ascii.eqb d "=" then TWith o false true r' else TWith o false false r)
  | _, _ => Some (unmatched ("-"%char :: c :: r))
  end.
Proof.
  intros C W. pose proof (not_word_get _ _ W) as D. unfold classify. change (is_dash "-") with true. cbn [negb].
  unfold strings_of in D. rewrite D. cbn [length Nat.eqb].
  rewrite (short_candidates g c r C) by (intros ->; exact W).
  change (option_strings (parser_of g)) with (strings_of g) in *.
  assert (WE : with_equals (parser_of g) ("-"%char :: c :: r) =
    match dget (strings_of g) ["-"%char; c], r with
    | Some o, d :: r' => if Ascii.eqb d "=" then Some (TWith o false true r') else None
    | _, _ => None
    end).
  { unfold with_equals. change (option_strings (parser_of g)) with (strings_of g).
    destruct (split_eq_cases ("-"%char :: c :: r)) as [(N & ->)|(w & v & El & N & ->)].
    - destruct (dget (strings_of g) ["-"%char; c]); [|reflexivity]. destruct r as [|d r]; [reflexivity|].
      destruct (Ascii.eqb_spec d "="); [|reflexivity]. subst. destruct N. right. right. now left.
    - destruct (dget (strings_of g) w) as [o|] eqn:Dw.
      + apply dget_in in Dw. pose proof (strings_word _ _ _ Dw) as Ww. apply strings_get in Dw.
        destruct (word_cases _ _ Ww) as [(c' & -> & K1 & _)|(n & -> & _)].
        * cbn [app] in El. injection El as <- ->. rewrite Dw. cbn [option_map long]. unfold is_dash.
          destruct (Ascii.eqb_spec c "-"); [contradiction|]. reflexivity.
        * cbn [app dashed] in El. injection El as -> _. contradiction.
      + cbn [option_map]. destruct (dget (strings_of g) ["-"%char; c]) as [o|] eqn:Dc; [|reflexivity].
        destruct r as [|d r]; [reflexivity|]. destruct (Ascii.eqb_spec d "="); [|reflexivity]. subst d.
        exfalso. destruct w as [|a [|b [|x w]]]; cbn [app] in El.
        * discriminate.
        * injection El as _ K _. subst c. apply dget_in in Dc. apply strings_word in Dc.
          destruct (word_cases _ _ Dc) as [(c' & K & _ & K2 & _)|(n & K & Kn & _)].
          -- injection K as <-. congruence.
          -- discriminate K.
        * injection El as <- <- _. congruence.
        * injection El as <- <- <- _. apply N. right. right. now left. }
  rewrite WE. destruct (dget (strings_of g) ["-"%char; c]) as [o|] eqn:Dc; [|reflexivity].
  destruct r as [|d r]; [|destruct (Ascii.eqb d "="); reflexivity].
  exfalso. apply dget_in in Dc. apply strings_word in Dc. auto.
Qed.

(** ** Words that stand for options *)

Lemma begins_dashed r t g : In t (words g) -> begins (dashed r) t -> exists n, t = dashed n.
Proof. intros _ (x & ->). now exists (r ++ x). Qed.

Lemma filter_one {A} (f : A -> bool) (l : list A) x :
  NoDup l -> In x l -> f x = true -> (forall y, In y l -> f y = true -> y = x) -> filter f l = [x].
Proof.
  intros N I F U. induction l as [|a l IH]; [destruct I|]. inversion N as [|? ? N1 N2]; subst. cbn [filter].
  destruct I as [-> |I].
  - rewrite F. f_equal. destruct (filter f l) as [|b r] eqn:E; [reflexivity|]. exfalso.
    assert (B : In b (filter f l)) by (rewrite E; now left). apply filter_In in B as (B1 & B2).
    rewrite (U b (or_intror B1) B2) in B1. auto.
  - destruct (f a) eqn:Fa.
    + exfalso. rewrite (U a (or_introl eq_refl) Fa) in N1. auto.
    + apply IH; auto. intros y Iy. apply U. now right.
Qed.

Lemma nodup_strings g : NoDup (strings_of g).
Proof. apply NoDup_map_inv with (f := fst). rewrite strings_words. apply words_nodup. Qed.

Lemma matching_one g w n o : In (dashed n, o) (strings_of g) -> begins w (dashed n) ->
  (forall t, In t (words g) -> begins w t -> t = dashed n) -> matching g w = [(dashed n, o)].
Proof.
  intros I B U. apply filter_one; [apply nodup_strings|exact I|now apply starts_with_iff|].
  intros (t, o') I' S. cbn [fst] in S. apply starts_with_iff in S.
  assert (t = dashed n) as -> by (apply U; [eapply strings_word; eauto|exact S]).
  apply strings_get in I, I'. congruence.
Qed.

Lemma stands_dashed g w n : stands_for g w n -> exists r, w = dashed r /\ r <> [] /\ ~ In "="%char r.
Proof.
  intros (I & [-> |(H & _)]); [|exact H].
  destruct (word_cases _ _ I) as [(c & K & N & _)|(n' & K & A & B & _)].
  - unfold dashed in K. injection K as K _. congruence.
  - injection K as <-. exists n. auto.
Qed.

Lemma stands_option g w n o : stands_for g w n -> In (dashed n, o) (strings_of g) ->
  classify (parser_of g) w = Some (TOption o).
Proof.
  intros S I. pose proof (stands_dashed _ _ _ S) as (r & -> & R & E).
  destruct S as (_ & [-> |(_ & B & W & U)]); [now apply classify_exact|].
  rewrite (classify_dashed g r R E W), (matching_one g (dashed r) n o I B U). reflexivity.
Qed.

Lemma stands_joined g w n o v : stands_for g w n -> In (dashed n, o) (strings_of g) ->
  classify (parser_of g) (w ++ "="%char :: v) = Some (TWith o true true v).
Proof.
  intros S I. pose proof (stands_dashed _ _ _ S) as (r & -> & R & E). rewrite (classify_joined g r v E).
  destruct S as (_ & [-> |(_ & B & W & U)]); [now rewrite (strings_get _ _ _ I)|].
  rewrite (not_word_get _ _ W), (matching_one g (dashed r) n o I B U). reflexivity.
Qed.

Lemma matching_inv g w x : matching g w = [x] ->
  In x (strings_of g) /\ begins w (fst x) /\ forall t, In t (words g) -> begins w t -> t = fst x.
Proof.
  intros H. assert (I : In x (matching g w)) by (rewrite H; now left).
  apply filter_In in I as (I & S). split; [exact I|]. split; [now apply starts_with_iff|].
  intros t It B. destruct (word_string _ _ It) as (o & Io).
  assert (J : In (t, o) (matching g w)) by (apply filter_In; split; [exact Io|now apply starts_with_iff]).
  rewrite H in J. destruct J as [J|[]]. now rewrite J.
Qed.

Lemma matching_all g x : matching g (dashed []) <> [x].
Proof. destruct g; intros H; apply (f_equal (@length _)) in H; vm_compute in H; discriminate. Qed.

(** What an argument string is. *)
Inductive reading (g : program) (a : text) : option token -> Prop :=
| reads_word n o : stands_for g a n -> In (dashed n, o) (strings_of g) -> reading g a (Some (TOption o))
| reads_letter c o : a = ["-"%char; c] -> In (a, o) (strings_of g) -> reading g a (Some (TOption o))
| reads_joined w n o v : a = w ++ "="%char :: v -> stands_for g w n -> In (dashed n, o) (strings_of g) ->
    reading g a (Some (TWith o true true v))
| reads_letters c o d r : a = "-"%char :: c :: d :: r -> d <> "="%char -> In (["-"%char; c], o) (strings_of g) ->
    reading g a (Some (TWith o false false (d :: r)))
| reads_letter_eq c o r : a = "-"%char :: c :: "="%char :: r -> In (["-"%char; c], o) (strings_of g) ->
    reading g a (Some (TWith o false true r))
| reads_plain : (forall r, a <> "-"%char :: r) \/ a = ["-"%char] -> reading g a (Some TValue)
| reads_unmatched r : a = "-"%char :: r -> r <> [] -> ~ like_option g a -> ~ In a (words g) ->
    reading g a (Some (unmatched a))
| reads_ambiguous : like_option g a -> (forall n, ~ stands_for g a n) -> reading g a None.

Lemma stands_letters g w n c r : stands_for g w n -> c <> "-"%char -> w <> "-"%char :: c :: r.
Proof. intros S C E. destruct (stands_dashed _ _ _ S) as (x & -> & _). unfold dashed in E. congruence. Qed.

Lemma stands_unique g w n m : stands_for g w n -> stands_for g w m -> n = m.
Proof.
  intros (I & S) (J & T). assert (D : dashed n = dashed m -> n = m) by (intros K; now injection K).
  destruct S as [-> |(_ & B & W & U)], T as [E|(_ & B' & W' & U')]; auto.
  - contradiction.
  - subst. contradiction.
Qed.

Lemma letter_word g c : In ["-"%char; c] (words g) <-> letter g c.
Proof.
  unfold letter. split.
  - intros H. destruct (word_string _ _ H) as (o & I). destruct (entry_cases _ _ _ I) as [(_ & [K|K])|[(n & t & r & _ & K & _)|(c' & n & J & [K|K] & _)]].
    + injection K as ->. now left.
    + discriminate K.
    + destruct (word_cases _ _ H) as [(c0 & E & N & _)|(n' & E & N & _)].
      * injection E as <-. injection K as -> _. congruence.
      * injection E as _ <-. congruence.
    + injection K as ->. right. now apply (in_map fst) in J.
    + destruct (word_cases _ _ H) as [(c0 & E & N & _)|(n' & E & N & _)].
      * injection E as <-. injection K as -> _. congruence.
      * injection E as _ <-. congruence.
  - intros [-> |H].
    + left. reflexivity.
    + apply in_map_iff in H as ((c', n) & <- & H). eapply strings_word. apply letter_in. exact H.
Qed.

Lemma classify_reading g a : a <> lit "--" -> reading g a (classify (parser_of g) a).
Proof.
  intros ND. destruct a as [|a0 a1].
  { apply reads_plain. left. discriminate. }
  destruct (Ascii.eqb_spec a0 "-") as [-> |N0].
  2:{ replace (classify (parser_of g) (a0 :: a1)) with (Some TValue).
      - apply reads_plain. left. intros r [= E _]. auto.
      - unfold classify, is_dash. destruct (Ascii.eqb_spec a0 "-"); [contradiction|reflexivity]. }
  destruct a1 as [|c r].
  { replace (classify (parser_of g) ["-"%char]) with (Some TValue).
    - apply reads_plain. now right.
    - destruct g; reflexivity. }
  destruct (in_dec (list_eq_dec ascii_dec) ("-"%char :: c :: r) (words g)) as [W|W].
  { destruct (word_string _ _ W) as (o & I). rewrite (classify_exact _ _ _ I).
    destruct (word_cases _ _ W) as [(c0 & E & _)|(n & E & _)].
    - eapply reads_letter; [exact E|exact I].
    - rewrite E in *. eapply reads_word; [|exact I]. split; [exact W|now left]. }
  destruct (Ascii.eqb_spec c "-") as [-> |C].
  - change ("-"%char :: "-"%char :: r) with (dashed r) in *.
    assert (R : r <> []) by (intros ->; now apply ND).
    destruct (split_eq_cases r) as [(E & _)|(w & v & -> & E & _)].
    + rewrite (classify_dashed g r R E W). destruct (matching g (dashed r)) as [|x [|y l]] eqn:M.
      * eapply reads_unmatched; [reflexivity|discriminate| |exact W].
        intros [(w & r' & t & K1 & K2 & K3 & K4 & K5)|(c & r' & K1 & K2)].
        -- assert (w = r) as ->.
           { destruct K2 as [-> |(e & ->)]; [rewrite app_nil_r in K1; now injection K1|].
             exfalso. unfold dashed in K1. cbn [app] in K1. injection K1 as ->. apply E. apply in_or_app. right. now left. }
           destruct (word_string _ _ K4) as (o & Io).
           assert (J : In (t, o) (matching g (dashed r))) by (apply filter_In; split; [exact Io|now apply starts_with_iff]).
           rewrite M in J. destruct J.
        -- apply letter_word in K2. injection K1 as <- _.
           destruct (word_cases _ _ K2) as [(c' & E1 & E2 & _)|(n & E1 & E2 & _)]; [injection E1 as <-; congruence|].
           injection E1 as <-. congruence.
      * destruct (matching_inv _ _ _ M) as (I & B & U). destruct x as (t, o). cbn [fst snd] in *.
        destruct (begins_dashed r t g (strings_word _ _ _ I) B) as (n & ->).
        eapply reads_word; [|exact I]. split; [eapply strings_word; eauto|]. right. eauto 8.
      * apply reads_ambiguous.
        -- left. assert (I : In x (matching g (dashed r))) by (rewrite M; now left).
           apply filter_In in I as (I & S). apply starts_with_iff in S. exists r, [], (fst x). rewrite app_nil_r.
           repeat split; auto. destruct x. eapply strings_word; eauto.
        -- intros n S. destruct (word_string _ _ (proj1 S)) as (o & Io).
           pose proof (stands_option _ _ _ _ S Io) as K. rewrite (classify_dashed g r R E W), M in K. discriminate.
    + change (dashed (w ++ "="%char :: v)) with (dashed w ++ "="%char :: v) in *. rewrite (classify_joined g w v E).
      destruct (dget (strings_of g) (dashed w)) as [o|] eqn:D.
      * apply dget_in in D. eapply reads_joined; [reflexivity| |exact D]. split; [eapply strings_word; eauto|now left].
      * apply dget_none in D. rewrite strings_words in D.
        destruct (matching g (dashed w)) as [|x [|y l]] eqn:M.
        -- eapply reads_unmatched; [reflexivity|discriminate| |exact W].
           intros [(w' & r' & t & K1 & K2 & K3 & K4 & K5)|(c & r' & K1 & K2)].
           ++ assert (w' = w) as ->.
              { destruct K2 as [-> |(e & ->)].
                - rewrite app_nil_r in K1. exfalso. injection K1 as <-. apply K3. apply in_or_app. right. now left.
                - unfold dashed in K1. cbn [app] in K1. injection K1 as K1.
                  apply (f_equal split_eq) in K1. rewrite !split_eq_app in K1 by assumption. now injection K1. }
              destruct (word_string _ _ K4) as (o & Io).
              assert (J : In (t, o) (matching g (dashed w))) by (apply filter_In; split; [exact Io|now apply starts_with_iff]).
              rewrite M in J. destruct J.
           ++ apply letter_word in K2. injection K1 as <- _.
              destruct (word_cases _ _ K2) as [(c' & E1 & E2 & _)|(n & E1 & E2 & _)]; [injection E1 as <-; congruence|].
              injection E1 as <-. congruence.
        -- destruct (matching_inv _ _ _ M) as (I & B & U). destruct x as (t, o). cbn [fst snd] in *.
           destruct (begins_dashed w t g (strings_word _ _ _ I) B) as (n & ->).
           replace (long (dashed n)) with true by reflexivity.
           assert (w <> []) by (intros ->; now apply (matching_all g (dashed n, o))).
           eapply reads_joined; [reflexivity| |exact I]. split; [eapply strings_word; eauto|]. right.
           split; [exists w; auto|]. auto.
        -- apply reads_ambiguous.
           ++ left. assert (I : In x (matching g (dashed w))) by (rewrite M; now left).
              apply filter_In in I as (I & S). apply starts_with_iff in S. exists w, ("="%char :: v), (fst x).
              repeat split; eauto. destruct x. eapply strings_word; eauto.
           ++ intros n S. destruct (stands_dashed _ _ _ S) as (x' & K & _ & K'). apply K'.
              unfold dashed in K. cbn [app] in K. injection K as <-. apply in_or_app. right. now left.
  - rewrite (classify_short g c r C W). destruct (dget (strings_of g) ["-"%char; c]) as [o|] eqn:D.
    + apply dget_in in D. destruct r as [|d r]; [exfalso; apply W; eapply strings_word; eauto|].
      destruct (Ascii.eqb_spec d "=") as [-> |Nd]; [eapply reads_letter_eq|eapply reads_letters]; eauto.
    + replace (match r with [] => _ | _ => _ end) with (Some (unmatched ("-"%char :: c :: r))) by (now destruct r).
      eapply reads_unmatched; [reflexivity|discriminate| |exact W].
      intros [(w & r' & t & K1 & _)|(c' & r' & K1 & K2)].
      * injection K1 as -> _. congruence.
      * injection K1 as <- _. apply letter_word in K2. apply dget_none in D. rewrite strings_words in D. auto.
Qed.

(** ** Values *)

Lemma take_digits_split l : forall n c, exists k a t,
  l = a ++ t /\ all_digits a /\ match t with [] => True | d :: _ => is_digit d = false end /\
  take_digits n c l = (k, c + length a, t).
Proof.
  induction l as [|x l IH]; intros n c.
  - exists n, [], []. repeat split; [constructor|]. cbn. now rewrite Nat.add_0_r.
  - cbn [take_digits]. destruct (is_digit x) eqn:D.
    + destruct (IH (10 * n + Z.of_N (digit_val x))%Z (S c)) as (k & a & t & -> & A & T & ->).
      exists k, (x :: a), t. repeat split; auto; [now constructor|]. cbn [length]. do 2 f_equal. lia.
    + exists n, [], (x :: l). repeat split; auto; [constructor|]. cbn. now rewrite Nat.add_0_r.
Qed.

Lemma digits_maximal a b t s : all_digits a -> all_digits b ->
  match t with [] => True | d :: _ => is_digit d = false end ->
  match s with [] => True | d :: _ => is_digit d = false end -> a ++ t = b ++ s -> a = b /\ t = s.
Proof.
  revert b. induction a as [|x a IH]; intros [|y b] A B T S E; cbn [app] in E.
  - auto.
  - subst t. inversion B; subst. congruence.
  - subst s. inversion A; subst. congruence.
  - injection E as -> E. inversion A; inversion B; subst. destruct (IH b) as (-> & ->); auto.
Qed.

Lemma at_end_iff l : at_end l = true <-> l = [] \/ l = [newline].
Proof.
  unfold at_end. destruct l as [|c [|d l]].
  - intuition.
  - rewrite Ascii.eqb_eq. split; [intros ->; auto|intros [K|K]; congruence].
  - split; [discriminate|intros [K|K]; discriminate].
Qed.

Lemma at_end_stop l : at_end l = true -> match l with [] => True | d :: _ => is_digit d = false end.
Proof. intros H. apply at_end_iff in H as [-> | ->]; [exact I|reflexivity]. Qed.

Lemma negative_iff v : negative_number v = true <-> negative v.
Proof.
  unfold negative_number, negative. destruct v as [|m l].
  { split; [discriminate|intros (a & b & K & _); discriminate]. }
  destruct (take_digits_split l 0 0) as (k & a & t & -> & A & T & ->). rewrite andb_true_iff, Ascii.eqb_eq.
  rewrite orb_true_iff, andb_true_iff, negb_true_iff, Nat.eqb_neq. cbn [Nat.add].
  split.
  - intros (-> & [(La & E)|H]).
    + exists a, t. repeat split; auto. exists [], t. split; [reflexivity|]. split; [now apply at_end_iff|].
      left. split; [reflexivity|]. intros ->. now apply La.
    + destruct t as [|d t]; [discriminate|]. apply andb_prop in H as (D & H). apply Ascii.eqb_eq in D. subst d.
      destruct (take_digits_split t 0 0) as (k' & b & u & -> & B & U & E). rewrite E in H. apply andb_prop in H as (Lb & H).
      apply negb_true_iff, Nat.eqb_neq in Lb. exists a, ("."%char :: b ++ u). repeat split; auto.
      exists ("."%char :: b), u. split; [reflexivity|]. split; [now apply at_end_iff|].
      right. exists b. repeat split; auto. intros ->. now apply Lb.
  - intros (a' & b & E & A' & f & e & -> & Ee & H). injection E as -> E. split; [reflexivity|].
    apply at_end_iff in Ee. pose proof (at_end_stop _ Ee) as Se.
    destruct H as [(-> & Na)|(d & -> & Dd & Nd)].
    + cbn [app] in E. destruct (digits_maximal a a' t e) as (-> & ->); auto. left. split; [|exact Ee].
      destruct a'; [congruence|discriminate].
    + cbn [app] in E. destruct (digits_maximal a a' t ("."%char :: d ++ e)) as (-> & ->); auto.
      right. cbn [Ascii.eqb]. change (Ascii.eqb "." ".") with true. cbn [andb].
      destruct (take_digits_split (d ++ e) 0 0) as (k' & b & u & E' & B & U & ->).
      destruct (digits_maximal d b e u) as (-> & ->); auto. rewrite Ee, andb_true_r.
      destruct b; [congruence|reflexivity].
Qed.

Lemma has_blank l : existsb (Ascii.eqb " ") l = true <-> In " "%char l.
Proof.
  rewrite existsb_exists. split; [intros (x & I & E); apply Ascii.eqb_eq in E; now subst|].
  intros I. exists " "%char. split; [exact I|reflexivity].
Qed.

Lemma word_no_blank g w : In w (words g) -> ~ In " "%char w.
Proof.
  intros H I. destruct (word_cases _ _ H) as [(c & -> & N & _ & B)|(n & -> & _ & _ & B)].
  - destruct I as [K|[K|[]]]; congruence.
  - destruct I as [K|[K|K]]; [discriminate|discriminate|auto].
Qed.

Lemma negative_not_option g v : negative v -> ~ like_option g v /\ ~ In v (words g) /\ v <> lit "--" /\
  exists c r, v = "-"%char :: c :: r.
Proof.
  intros (a & b & -> & A & f & e & -> & Ee & H).
  assert (C : exists c r, a ++ f ++ e = c :: r /\ (is_digit c = true \/ c = "."%char)).
  { destruct H as [(-> & Na)|(d & -> & Dd & Nd)].
    - destruct a as [|x a]; [congruence|]. inversion A; subst. cbn [app]. eauto.
    - destruct a as [|x a]; cbn [app]; [eauto|]. inversion A; subst. eauto. }
  destruct C as (c & r & -> & C).
  assert (W : forall w, In w (words g) -> forall r', w <> "-"%char :: c :: r').
  { intros w I r' ->. assert (F : forallb (fun w => match w with
        | [_; x] => negb (is_digit x) && negb (Ascii.eqb x ".") | _ => true end) (words g) = true)
      by (destruct g; vm_compute; reflexivity).
    rewrite forallb_forall in F. specialize (F _ I).
    destruct (word_cases _ _ I) as [(c' & K & _)|(n & K & _)].
    - injection K as <- ->. apply andb_prop in F as (F1 & F2). apply negb_true_iff in F1, F2.
      apply Ascii.eqb_neq in F2. destruct C; congruence.
    - injection K as -> _. destruct C; discriminate. }
  split; [|split; [|split; [|eauto]]].
  - intros [(w & r' & t & K & _)|(c' & r' & K & K2)].
    + injection K as -> _. destruct C; discriminate.
    + injection K as <- _. apply letter_word in K2. now apply (W _ K2 []).
  - intros I. now apply (W _ I r).
  - intros [= -> _]. destruct C; discriminate.
Qed.

Lemma plain_iff g v : plain g v <-> v <> lit "--" /\ classify (parser_of g) v = Some TValue.
Proof.
  split.
  - intros P. assert (ND : v <> lit "--").
    { intros ->. destruct P as [K|[K|[K|(K & _)]]].
      - now apply (K (lit "-")).
      - discriminate.
      - now apply (negative_not_option Sgmkgrid) in K as (_ & _ & K & _).
      - destruct K as [K|[K|[]]]; discriminate. }
    split; [exact ND|]. pose proof (classify_reading g v ND) as R.
    assert (Q : (forall r, v <> "-"%char :: r) \/ v = ["-"%char] \/ (~ like_option g v /\ (negative v \/ In " "%char v) /\
                 exists c r, v = "-"%char :: c :: r)).
    { destruct P as [K|[K|[K|(K & K2)]]]; [auto|auto| |].
      - destruct (negative_not_option g v K) as (A & _ & _ & B). auto 6.
      - destruct v as [|x [|y r]]; [now left; discriminate| |].
        + destruct K as [-> |[]]. left. intros r [=].
        + destruct (Ascii.eqb_spec x "-") as [-> |]; [right; right; eauto 8|left; intros r' [=]; congruence]. }
    clear P. destruct (classify (parser_of g) v) as [t|] eqn:Et.
    + destruct Q as [Q|[-> |(Q & V & _)]].
      * destruct v as [|x r]; [cbn in Et; congruence|]. unfold classify, is_dash in Et.
        destruct (Ascii.eqb_spec x "-") as [-> |]; [now destruct (Q r)|]. cbn [negb] in Et. congruence.
      * rewrite <- Et. destruct g; reflexivity.
      * assert (LW : forall w n, stands_for g w n -> exists x, w = dashed x /\ ~ In "="%char x /\ begins (dashed x) (dashed n)).
        { intros w n S. destruct (stands_dashed _ _ _ S) as (x & -> & _ & Nx). exists x. repeat split; auto.
          destruct S as (_ & [-> |(_ & B & _)]); [exists []; now rewrite app_nil_r|exact B]. }
        inversion R as [n o S I|c' o K I|w n o v' K S I|c' o d r' K N I|c' o r' K I|K|r' K N L W|].
        -- destruct Q. left. destruct (LW _ _ S) as (x & -> & Nx & B). exists x, [], (dashed n).
           rewrite app_nil_r. repeat split; auto. eapply strings_word; eauto.
        -- destruct Q. right. exists c', []. split; [exact K|]. apply letter_word. rewrite K in I. eapply strings_word; eauto.
        -- destruct Q. left. destruct (LW _ _ S) as (x & Ew & Nx & B). subst w. exists x, ("="%char :: v'), (dashed n).
           repeat split; eauto. eapply strings_word; eauto.
        -- destruct Q. right. exists c', (d :: r'). split; [exact K|]. apply letter_word. eapply strings_word; eauto.
        -- destruct Q. right. exists c', ("="%char :: r'). split; [exact K|]. apply letter_word. eapply strings_word; eauto.
        -- reflexivity.
        -- f_equal. unfold unmatched. destruct V as [V|V].
           ++ apply negative_iff in V. now rewrite V.
           ++ apply has_blank in V. now rewrite V, orb_true_r.
    + exfalso. inversion R as [| | | | | | |L N]. destruct Q as [Q|[-> |(Q & _)]]; [|now destruct g|auto].
      destruct L as [(w & r & t & -> & _)|(c & r & -> & _)]; eapply Q; reflexivity.
  - intros (ND & E). pose proof (classify_reading g v ND) as R. rewrite E in R. unfold plain.
    inversion R as [| | | | |K|r K N L W U|]; subst.
    + destruct K; auto.
    + unfold unmatched in U. destruct (negative_number ("-"%char :: r)) eqn:Ng.
      * apply negative_iff in Ng. auto.
      * cbn [orb] in U. destruct (existsb (Ascii.eqb " ") ("-"%char :: r)) eqn:B; [|discriminate]. apply has_blank in B. auto 6.
Qed.
