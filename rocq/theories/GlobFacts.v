(** Facts about glob.glob. *)
From Coq Require Import Ascii String List Bool PeanoNat Wf_nat Lia.
Import ListNotations.
From Verif Require Import Prelude MdsMeta Mds SpecMds SpecGlob MdsTextFacts.
Local Open Scope nat_scope.
Local Open Scope list_scope.

(** ** sets *)

Lemma to_bracket_some p n : to_bracket p = Some n <->
  exists y r, p = y ++ "]"%char :: r /\ ~ In "]"%char y /\ length y = n.
Proof.
  revert n. induction p as [|c p IH]; intros n; cbn [to_bracket].
  - split; [discriminate|]. intros (y & r & E & _). destruct y; discriminate.
  - destruct (Ascii.eqb_spec c "]") as [->|NE].
    + split.
      * intros E. injection E as <-. exists [], p. repeat split. intros [].
      * intros (y & r & E & NI & L). destruct y as [|d y]; [now subst|].
        injection E as <- E. elim NI. now left.
    + destruct (to_bracket p) as [k|] eqn:T; cbn [option_map].
      * split.
        -- intros E. injection E as <-. destruct (proj1 (IH k) eq_refl) as (y & r & -> & NI & L).
           exists (c :: y), r. repeat split; [|cbn; lia]. intros [E|I]; [now apply NE|now apply NI].
        -- intros (y & r & E & NI & L). destruct y as [|d y]; [injection E as -> _; now elim NE|].
           injection E as <- E. f_equal. cbn in L. assert (Some k = Some (length y)); [|now injection H; lia].
           apply (IH (length y)). exists y, r. repeat split; auto. intros I. apply NI. now right.
      * split; [discriminate|]. intros (y & r & E & NI & L). destruct y as [|d y]; [injection E as -> _; now elim NE|].
        injection E as <- E. assert (@None nat = Some (length y)); [|discriminate].
        apply (IH (length y)). exists y, r. repeat split; auto. intros I. apply NI. now right.
Qed.

Lemma set_length_some p n : set_length p = Some n <->
  exists b r, p = b ++ "]"%char :: r /\ set_text b /\ length b = n.
Proof.
  unfold set_length. destruct p as [|c p].
  - split; [discriminate|]. intros (b & r & E & (x & y & _ & S) & _). destruct S as [(-> & _)| ->]; discriminate.
  - destruct (Ascii.eqb_spec c "!") as [->|NE].
    + destruct p as [|d p].
      * split; [discriminate|]. intros (b & r & E & (x & y & _ & S) & _).
        destruct S as [(-> & NE)| ->]; [|discriminate]. cbn in E. injection E as E _. congruence.
      * split.
        -- destruct (to_bracket p) as [k|] eqn:T; [|discriminate]. intros E. injection E as <-.
           apply to_bracket_some in T. destruct T as (y & r & -> & NI & L).
           exists ("!"%char :: d :: y), r. split; [reflexivity|]. split; [|cbn; lia]. exists d, y. auto.
        -- intros (b & r & E & (x & y & NI & S) & L). destruct S as [(-> & NE)| ->]; [injection E as E _; congruence|].
           cbn in E. injection E as -> E. replace (to_bracket p) with (Some (length y)); [cbn in *; f_equal; lia|].
           symmetry. apply to_bracket_some. eauto.
    + split.
      * destruct (to_bracket p) as [k|] eqn:T; [|discriminate]. intros E. injection E as <-.
        apply to_bracket_some in T. destruct T as (y & r & -> & NI & L).
        exists (c :: y), r. split; [reflexivity|]. split; [|cbn; lia]. exists c, y. auto.
      * intros (b & r & E & (x & y & NI & S) & L). destruct S as [(-> & _)| ->]; [|injection E as E _; congruence].
        cbn in E. injection E as -> E. replace (to_bracket p) with (Some (length y)); [cbn in *; f_equal; lia|].
        symmetry. apply to_bracket_some. eauto.
Qed.

Lemma range_first_dec x b : range_first (x :: b) \/ ~ range_first (x :: b).
Proof.
  destruct b as [|d [|e r]].
  - right. intros (? & ? & ? & E). discriminate.
  - right. intros (? & ? & ? & E). discriminate.
  - destruct (Ascii.eqb_spec d "-") as [->|NE]; [left; now exists x, e, r|].
    right. intros (? & ? & ? & E). injection E. congruence.
Qed.

Lemma set_ranges_eq c t : set_ranges (c :: t) =
  match t with
  | d :: e :: r => if Ascii.eqb d "-" then (c, e) :: set_ranges r else (c, c) :: set_ranges t
  | _ => (c, c) :: set_ranges t
  end.
Proof. reflexivity. Qed.

Lemma in_range_iff c r : in_range c r = true <-> nat_of_ascii (fst r) <= nat_of_ascii c <= nat_of_ascii (snd r).
Proof. unfold in_range. now rewrite andb_true_iff, !Nat.leb_le. Qed.
Lemma in_range_one c x : in_range c (x, x) = true <-> c = x.
Proof.
  rewrite in_range_iff. cbn [fst snd]. split; [|intros ->; lia]. intros H.
  rewrite <- (ascii_nat_embedding c), <- (ascii_nat_embedding x). f_equal. lia.
Qed.

Lemma set_ranges_iff b c : existsb (in_range c) (set_ranges b) = true <-> in_set b c.
Proof.
  remember (length b) as n eqn:L. revert b L. induction n as [n IH] using lt_wf_ind. intros b ->.
  destruct b as [|x t].
  { split; [discriminate|]. intros H. inversion H. }
  destruct (range_first_dec x t) as [(x' & y & r & E)|NR].
  - injection E as -> ->. rewrite set_ranges_eq. cbn [Ascii.eqb Bool.eqb existsb].
    change (Ascii.eqb "-" "-") with true. cbn [existsb]. rewrite orb_true_iff, in_range_iff. cbn [fst snd].
    rewrite (IH (length r)); [|cbn; lia|reflexivity]. split.
    + intros [H|H]; [now constructor|now constructor].
    + intros H. inversion H; subst.
      * now left.
      * now right.
      * elim H3. now exists c, y, r.
      * elim H2. now exists x', y, r.
  - assert (E : set_ranges (x :: t) = (x, x) :: set_ranges t).
    { rewrite set_ranges_eq. destruct t as [|d [|e r]]; try reflexivity.
      destruct (Ascii.eqb_spec d "-") as [->|]; [|reflexivity]. elim NR. now exists x, e, r. }
    rewrite E. cbn [existsb]. rewrite orb_true_iff, in_range_one, (IH (length t)); [|cbn; lia|reflexivity]. split.
    + intros [->|H]; [now constructor|now apply in_after_char].
    + intros H. inversion H; subst.
      * elim NR. now exists x, y, r.
      * elim NR. now exists x, y, r.
      * now left.
      * now right.
Qed.

Definition tok_ok (t : tok) (c : ascii) : bool :=
  match t with
  | TLit d => Ascii.eqb d c
  | TAny => true
  | TSet neg l => xorb neg (existsb (in_range c) l)
  | TStar => false
  end.

Lemma set_tok_iff b c : set_text b -> tok_ok (set_tok b) c = true <-> set_allows b c.
Proof.
  intros (x & y & NI & S). unfold set_allows.
  destruct S as [(-> & NE)| ->]; cbn [set_tok].
  - destruct (Ascii.eqb_spec x "!") as [->|_]; [now elim NE|]. cbn [tok_ok].
    rewrite xorb_false_l, set_ranges_iff. split.
    + intros H. right. split; [|exact H]. intros r E. injection E as -> _. now elim NE.
    + intros [(r & E & _)|(_ & H)]; [injection E as -> _; now elim NE|exact H].
  - change (Ascii.eqb "!" "!") with true. cbn [tok_ok]. rewrite xorb_true_l, negb_true_iff. split.
    + intros H. left. exists (x :: y). split; [reflexivity|]. rewrite <- set_ranges_iff, H. discriminate.
    + intros [(r & E & H)|(H & _)]; [|now elim (H (x :: y))]. injection E as <-.
      rewrite <- set_ranges_iff in H. now apply not_true_iff_false.
Qed.

(** ** one part *)

Lemma tokens_skip p n : tokens p n = tokens (skipn n p) 0.
Proof.
  revert n. induction p as [|c p IH]; intros n; [now rewrite skipn_nil|].
  destruct n as [|n]; [reflexivity|]. cbn [tokens skipn]. apply IH.
Qed.

Lemma tokens_set b p : set_text b -> tokens ("["%char :: b ++ "]"%char :: p) 0 = set_tok b :: tokens p 0.
Proof.
  intros S. cbn [tokens]. change (Ascii.eqb "[" "*") with false. change (Ascii.eqb "[" "?") with false.
  change (Ascii.eqb "[" "[") with true. cbn iota.
  replace (set_length (b ++ "]"%char :: p)) with (Some (length b)).
  - rewrite firstn_app, firstn_all, Nat.sub_diag. cbn [firstn]. rewrite app_nil_r. f_equal.
    rewrite tokens_skip. f_equal. rewrite skipn_app, skipn_all2 by lia.
    replace (length b + 1 - length b) with 1 by lia. reflexivity.
  - symmetry. apply set_length_some. exists b, p. auto.
Qed.
Lemma tokens_bracket p : ~ set_opens p -> tokens ("["%char :: p) 0 = TLit "[" :: tokens p 0.
Proof.
  intros S. cbn [tokens]. change (Ascii.eqb "[" "*") with false. change (Ascii.eqb "[" "?") with false.
  change (Ascii.eqb "[" "[") with true. cbn iota.
  destruct (set_length p) as [n|] eqn:E; [|reflexivity]. elim S.
  apply set_length_some in E. destruct E as (b & r & -> & H & _). now exists b, r.
Qed.
Lemma set_opens_dec p : set_opens p \/ ~ set_opens p.
Proof.
  destruct (set_length p) as [n|] eqn:E.
  - left. apply set_length_some in E. destruct E as (b & r & -> & H & _). now exists b, r.
  - right. intros (b & r & H & ->). assert (@None nat = Some (length b)); [|discriminate].
    rewrite <- E. apply set_length_some. now exists b, r.
Qed.
Lemma plain_one c : plain_name [c] <-> c <> "*"%char /\ c <> "?"%char /\ c <> "["%char.
Proof. unfold plain_name. cbn [In]. intuition congruence. Qed.
Lemma tokens_char c p : plain_name [c] -> tokens (c :: p) 0 = TLit c :: tokens p 0.
Proof.
  intros H. apply plain_one in H. destruct H as (H1 & H2 & H3). cbn [tokens].
  apply Ascii.eqb_neq in H1, H2, H3. now rewrite H1, H2, H3.
Qed.

Lemma tok_match_one t ts s : t <> TStar ->
  tok_match (t :: ts) s = match s with c :: s' => tok_ok t c && tok_match ts s' | [] => false end.
Proof. intros NS. destruct t; try reflexivity. now elim NS. Qed.
Lemma tok_match_star ts s : tok_match (TStar :: ts) s = true <-> exists u v, s = u ++ v /\ tok_match ts v = true.
Proof.
  induction s as [|c s IH].
  - cbn [tok_match]. rewrite orb_false_r. split.
    + intros H. now exists [], [].
    + intros (u & v & E & H). symmetry in E. apply app_eq_nil in E. now destruct E as (-> & ->).
  - change (tok_match (TStar :: ts) (c :: s)) with (tok_match ts (c :: s) || tok_match (TStar :: ts) s).
    rewrite orb_true_iff, IH. split.
    + intros [H|(u & v & -> & H)]; [now exists [], (c :: s)|now exists (c :: u), v].
    + intros (u & v & E & H). destruct u as [|d u]; [left; cbn in E; now subst|].
      right. injection E as -> ->. now exists u, v.
Qed.

Lemma shell_match_iff p s : tok_match (tokens p 0) s = true <-> shell_match p s.
Proof.
  remember (length p) as n eqn:L. revert p s L. induction n as [n IH] using lt_wf_ind. intros p s ->.
  destruct p as [|c p].
  { cbn. split; [destruct s; [constructor|discriminate]|]. intros H. now inversion H. }
  assert (IHp : forall s, tok_match (tokens p 0) s = true <-> shell_match p s).
  { intros t. apply (IH (length p)); [cbn; lia|reflexivity]. }
  destruct (Ascii.ascii_dec c "*") as [->|N1].
  { change (tokens ("*"%char :: p) 0) with (TStar :: tokens p 0). rewrite tok_match_star. split.
    - intros (u & v & -> & H). constructor. now apply IHp.
    - intros H. inversion H; subst.
      + exfalso. match goal with H : plain_name _ |- _ => apply plain_one in H; tauto end.
      + exists u, s0. split; [reflexivity|]. now apply IHp. }
  destruct (Ascii.ascii_dec c "?") as [->|N2].
  { change (tokens ("?"%char :: p) 0) with (TAny :: tokens p 0). rewrite tok_match_one by discriminate.
    destruct s as [|d s]; [split; [discriminate|intros H; now inversion H]|]. cbn [tok_ok andb]. split.
    - intros H. constructor. now apply IHp.
    - intros H. apply IHp. inversion H; subst; [|assumption].
      exfalso. match goal with H : plain_name _ |- _ => apply plain_one in H; tauto end. }
  destruct (Ascii.ascii_dec c "[") as [->|N3].
  { destruct (set_opens_dec p) as [(b & r & S & ->)|NO].
    - rewrite tokens_set by exact S. rewrite tok_match_one.
      2:{ destruct S as (x & y & _ & [(-> & _)| ->]); unfold set_tok; [destruct (Ascii.eqb x "!")|]; discriminate. }
      assert (IHr : forall s, tok_match (tokens r 0) s = true <-> shell_match r s).
      { intros t. apply (IH (length r)); [cbn; rewrite app_length; cbn; lia|reflexivity]. }
      destruct s as [|d s]; [split; [discriminate|intros H; now inversion H]|].
      rewrite andb_true_iff, (set_tok_iff b d S), IHr. split.
      + intros (A & M). now constructor.
      + intros H. inversion H; subst.
        * exfalso. match goal with H : plain_name _ |- _ => apply plain_one in H; tauto end.
        * match goal with E : ?b1 ++ _ = ?b2 ++ _, S1 : set_text ?b1 |- _ =>
            assert (Eb : b1 = b2) end.
          { assert (E1 : set_length (b0 ++ "]"%char :: p) = Some (length b0)) by (apply set_length_some; eauto).
            assert (E2 : set_length (b ++ "]"%char :: r) = Some (length b)) by (apply set_length_some; eauto).
            match goal with E : b0 ++ _ = b ++ _ |- _ => rewrite E in E1; rewrite E2 in E1; injection E1 as E1;
              apply (f_equal (firstn (length b))) in E; rewrite E1 in E at 1;
              rewrite !firstn_app, !Nat.sub_diag, !firstn_all in E; cbn [firstn] in E; now rewrite !app_nil_r in E end. }
          subst b0. match goal with E : b ++ _ = b ++ _ |- _ => apply app_inv_head in E; injection E as -> end. auto.
        * exfalso. match goal with H : ~ set_opens _ |- _ => apply H end. now exists b, r.
    - rewrite tokens_bracket by exact NO. rewrite tok_match_one by discriminate.
      destruct s as [|d s]; [split; [discriminate|intros H; now inversion H]|].
      cbn [tok_ok]. rewrite andb_true_iff, Ascii.eqb_eq, IHp. split.
      + intros (<- & M). now apply sm_bracket.
      + intros H. inversion H; subst.
        * exfalso. match goal with H : plain_name _ |- _ => apply plain_one in H; tauto end.
        * elim NO. now exists b, p0.
        * auto. }
  assert (PC : plain_name [c]) by (apply plain_one; auto).
  rewrite (tokens_char c p PC). rewrite tok_match_one by discriminate.
  destruct s as [|d s]; [split; [discriminate|intros H; inversion H; subst; congruence]|].
  cbn [tok_ok]. rewrite andb_true_iff, Ascii.eqb_eq, IHp. split.
  - intros (<- & M). now constructor.
  - intros H. inversion H; subst; try congruence. auto.
Qed.

Lemma magic_false p : magic p = false <-> plain_name p.
Proof.
  unfold magic, plain_name. rewrite <- not_true_iff_false, existsb_exists. split.
  - intros H. repeat split; intros I; apply H; eexists; (split; [exact I|reflexivity]).
  - intros (H1 & H2 & H3) (c & I & E). unfold has in E. cbn in E. rewrite !orb_true_iff in E.
    destruct E as [E|[E|[E|E]]]; [..|discriminate]; apply Ascii.eqb_eq in E; subst; contradiction.
Qed.
Lemma magic_true p : magic p = true <-> ~ plain_name p.
Proof. rewrite <- magic_false. destruct (magic p); split; congruence. Qed.
Lemma hidden_iff p : hidden p = true <-> starts_dot p.
Proof.
  unfold hidden, starts_dot. destruct p as [|c p]; [split; [discriminate|intros (r & E); discriminate]|].
  rewrite Ascii.eqb_eq. split; [intros ->; now exists p|intros (r & E); now injection E].
Qed.

Lemma part_match_iff p s : part_match p s = true <-> one_part p s.
Proof.
  unfold part_match, one_part. destruct (magic p) eqn:M.
  - apply magic_true in M. rewrite andb_true_iff, orb_true_iff, negb_true_iff, shell_match_iff, <- !hidden_iff.
    destruct (hidden s), (hidden p); intuition congruence.
  - apply magic_false in M. rewrite text_eqb_eq. intuition congruence.
Qed.

(** ** paths *)

Lemma parts_last s : ~ In "/"%char s -> parts s = [s].
Proof.
  induction s as [|c s IH]; [reflexivity|]. intros H. cbn [parts].
  destruct (Ascii.eqb_spec c "/") as [->|_]; [elim H; now left|].
  rewrite IH; [reflexivity|]. intros I. apply H. now right.
Qed.
Lemma parts_slash s t : ~ In "/"%char s -> parts (s ++ "/"%char :: t) = s :: parts t.
Proof.
  induction s as [|c s IH]; [reflexivity|]. intros H. cbn [parts app].
  destruct (Ascii.eqb_spec c "/") as [->|_]; [elim H; now left|].
  rewrite IH; [reflexivity|]. intros I. apply H. now right.
Qed.
Lemma slash_cases (s : text) : ~ In "/"%char s \/ exists a b, s = a ++ "/"%char :: b /\ ~ In "/"%char a.
Proof.
  induction s as [|c s IH]; [left; intros []|].
  destruct (Ascii.ascii_dec c "/") as [->|NE]; [right; exists [], s; split; [reflexivity|intros []]|].
  destruct IH as [H|(a & b & -> & H)].
  - left. intros [E|I]; [now apply NE|now apply H].
  - right. exists (c :: a), b. split; [reflexivity|]. intros [E|I]; [now apply NE|now apply H].
Qed.
Lemma parts_nonempty s : parts s <> [].
Proof. destruct s as [|c s]; [discriminate|]. cbn [parts]. destruct (Ascii.eqb c "/"); [discriminate|]. destruct (parts s); discriminate. Qed.

Lemma glob_match_iff p s : glob_match p s = true <-> file_match p s.
Proof.
  unfold glob_match. remember (length p) as n eqn:L. revert p s L.
  induction n as [n IH] using lt_wf_ind. intros p s ->.
  destruct (slash_cases p) as [NP|(p1 & p2 & -> & NP)].
  - rewrite (parts_last p NP). destruct (slash_cases s) as [NS|(s1 & s2 & -> & NS)].
    + rewrite (parts_last s NS). cbn [all2]. rewrite andb_true_r, part_match_iff. split.
      * intros H. now constructor.
      * intros H. inversion H; subst; [assumption|]. elim NP. apply in_elt.
    + rewrite (parts_slash s1 s2 NS). cbn [all2]. destruct (parts s2) as [|x l] eqn:E; [now elim (parts_nonempty s2)|].
      cbn [all2]. rewrite andb_false_r. split; [discriminate|]. intros H. inversion H; subst.
      * elim H1. apply in_elt.
      * elim NP. apply in_elt.
  - rewrite (parts_slash p1 p2 NP). destruct (slash_cases s) as [NS|(s1 & s2 & -> & NS)].
    + rewrite (parts_last s NS). cbn [all2]. destruct (parts p2) as [|x l] eqn:E; [now elim (parts_nonempty p2)|].
      cbn [all2]. rewrite andb_false_r. split; [discriminate|]. intros H. inversion H; subst.
      * elim H0. apply in_elt.
      * elim NS. apply in_elt.
    + rewrite (parts_slash s1 s2 NS). cbn [all2]. rewrite andb_true_iff, part_match_iff.
      rewrite (IH (length p2)); [|rewrite app_length; cbn; lia|reflexivity]. split.
      * intros (A & B). now constructor.
      * intros H. inversion H as [? ? A B C|a b a' b' A B C D E1 E2]; subst; [elim A; apply in_elt|].
        assert (Q : forall x y x' y' : text, ~ In "/"%char x -> ~ In "/"%char x' ->
                    x ++ "/"%char :: y = x' ++ "/"%char :: y' -> x = x' /\ y = y').
        { intros x y x' y' NX NX' EE. apply (f_equal parts) in EE.
          rewrite (parts_slash x y NX), (parts_slash x' y' NX') in EE. injection EE as -> EE. split; [reflexivity|].
          revert y' EE. clear. induction y as [|c y IH]; intros y' E.
          - destruct y' as [|d y']; [reflexivity|]. cbn [parts] in E. destruct (Ascii.eqb d "/").
            + injection E as E. symmetry in E. now elim (parts_nonempty y').
            + destruct (parts y'); discriminate.
          - destruct y' as [|d y'].
            + cbn [parts] in E. destruct (Ascii.eqb c "/").
              * injection E as E. now elim (parts_nonempty y).
              * destruct (parts y); discriminate.
            + cbn [parts] in E. destruct (Ascii.eqb_spec c "/") as [->|NC], (Ascii.eqb_spec d "/") as [->|ND].
              * injection E as E. f_equal. now apply IH.
              * destruct (parts y'); discriminate.
              * destruct (parts y); discriminate.
              * destruct (parts y) as [|h t] eqn:E1; [now elim (parts_nonempty y)|].
                destruct (parts y') as [|h' t'] eqn:E2; [now elim (parts_nonempty y')|].
                injection E as -> -> ->. f_equal. apply IH. now rewrite E2. }
        destruct (Q _ _ _ _ A NP E1) as (-> & ->). destruct (Q _ _ _ _ B NS E2) as (-> & ->). auto.
Qed.

(** ** patterns made of characters, [0-9] and stars *)

Inductive item := IC (c : ascii) | ID | IS.
Definition show (i : item) : text :=
  match i with IC c => [c] | ID => lit "[0-9]" | IS => ["*"%char] end.
Definition render (l : list item) : text := flat_map show l.
Definition tok_of (i : item) : tok :=
  match i with IC c => TLit c | ID => TSet false [("0", "9")]%char | IS => TStar end.
Definition item_ok (i : item) : Prop := match i with IC c => plain_name [c] | _ => True end.

Inductive im : list item -> text -> Prop :=
| im_nil : im [] []
| im_char : forall c l s, im l s -> im (IC c :: l) (c :: s)
| im_digit : forall c l s, 48 <= nat_of_ascii c <= 57 -> im l s -> im (ID :: l) (c :: s)
| im_star : forall u l s, ~ In "/"%char u -> im l s -> im (IS :: l) (u ++ s).

(** A star is not the first of a part. *)
Fixpoint stars_ok (first : bool) (l : list item) : Prop :=
  match l with
  | [] => True
  | IC c :: r => stars_ok (Ascii.eqb c "/") r
  | ID :: r => stars_ok false r
  | IS :: r => first = false /\ stars_ok false r
  end.

Lemma tokens_render l : Forall item_ok l -> tokens (render l) 0 = map tok_of l.
Proof.
  induction 1 as [|i l H _ IH]; [reflexivity|]. unfold render in *. cbn [flat_map map]. rewrite <- IH. destruct i as [c| |].
  - cbn [show app]. now rewrite tokens_char.
  - cbn [show]. change (lit "[0-9]" ++ flat_map show l) with ("["%char :: lit "0-9" ++ "]"%char :: flat_map show l).
    rewrite tokens_set; [reflexivity|]. exists "0"%char, (lit "-9"). split.
    + cbn. intros [E|[E|[]]]; discriminate.
    + left. split; [reflexivity|discriminate].
  - reflexivity.
Qed.

Lemma digit_range c : in_range c ("0", "9")%char = true <-> 48 <= nat_of_ascii c <= 57.
Proof. rewrite in_range_iff. reflexivity. Qed.

Lemma tok_match_items l s : ~ In "/"%char s -> tok_match (map tok_of l) s = true <-> im l s.
Proof.
  revert s. induction l as [|i l IH]; intros s NS.
  - cbn. split; [destruct s; [constructor|discriminate]|]. intros H. now inversion H.
  - cbn [map]. destruct i as [c| |].
    + cbn [tok_of]. rewrite tok_match_one by discriminate.
      destruct s as [|d s]; [split; [discriminate|intros H; inversion H]|].
      cbn [tok_ok]. rewrite andb_true_iff, Ascii.eqb_eq, IH by (intros I; apply NS; now right). split.
      * intros (-> & H). now constructor.
      * intros H. inversion H; subst. auto.
    + cbn [tok_of]. rewrite tok_match_one by discriminate.
      destruct s as [|d s]; [split; [discriminate|intros H; inversion H]|].
      cbn [tok_ok existsb]. rewrite xorb_false_l, orb_false_r, andb_true_iff, digit_range, IH by (intros I; apply NS; now right). split.
      * intros (D & H). now constructor.
      * intros H. inversion H; subst. auto.
    + cbn [tok_of]. rewrite tok_match_star. split.
      * intros (u & v & -> & H). rewrite in_app_iff in NS. constructor; [tauto|]. apply IH; tauto.
      * intros H. inversion H; subst. rewrite in_app_iff in NS. exists u, s0. split; [reflexivity|]. apply IH; tauto.
Qed.

Lemma im_app l1 l2 s : im (l1 ++ l2) s <-> exists a b, s = a ++ b /\ im l1 a /\ im l2 b.
Proof.
  revert s. induction l1 as [|i l1 IH]; intros s; cbn [app].
  - split; [intros H; exists [], s; repeat split; [constructor|exact H]|].
    intros (a & b & -> & H & H2). inversion H; subst. exact H2.
  - split.
    + intros H. inversion H as [|c l s' HM|c l s' HD HM|u l s' HU HM]; subst; apply IH in HM;
        destruct HM as (a & b & -> & A & B).
      * exists (c :: a), b. repeat split; [now constructor|exact B].
      * exists (c :: a), b. repeat split; [now constructor|exact B].
      * exists (u ++ a), b.
        repeat split; [now rewrite app_assoc|now constructor|exact B].
    + intros (a & b & -> & A & B). inversion A; subst; cbn [app].
      * constructor. apply IH. eauto.
      * constructor; [assumption|]. apply IH. eauto.
      * rewrite <- app_assoc. constructor; [assumption|]. apply IH. eauto.
Qed.

Lemma im_chars t s : im (map IC t) s <-> s = t.
Proof.
  revert s. induction t as [|c t IH]; intros s; cbn [map].
  - split; [intros H; now inversion H|intros ->; constructor].
  - split; [intros H; inversion H; subst; f_equal; now apply IH|intros ->; constructor; now apply IH].
Qed.
Lemma im_digits n s : im (repeat ID n) s <-> length s = n /\ is_decimal s.
Proof.
  revert s. induction n as [|n IH]; intros s; cbn [repeat].
  - split; [intros H; inversion H; subst; split; [reflexivity|constructor]|].
    intros (L & _). destruct s; [constructor|discriminate].
  - split.
    + intros H. inversion H as [| |c l s' HD HM|]; subst. apply IH in HM. destruct HM as (L & D). split; [cbn; lia|now constructor].
    + intros (L & D). destruct s as [|c s]; [discriminate|]. inversion D; subst. constructor; [assumption|].
      apply IH. cbn in L. split; [lia|assumption].
Qed.

Lemma no_slash_match l s : ~ In (IC "/") l -> im l s -> ~ In "/"%char s.
Proof.
  intros N M. revert N. induction M; intros NI.
  - intros [].
  - intros [->|I]; [apply NI; now left|]. apply IHM; [|exact I]. intros J. apply NI. now right.
  - intros [->|I]; [cbn in H; lia|]. apply IHM; [|exact I]. intros J. apply NI. now right.
  - rewrite in_app_iff. intros [I|I]; [now apply H|]. apply IHM; [|exact I]. intros J. apply NI. now right.
Qed.

Lemma plain_app a b : plain_name (a ++ b) <-> plain_name a /\ plain_name b.
Proof. unfold plain_name. rewrite !in_app_iff. tauto. Qed.
Lemma plain_cons c b : plain_name (c :: b) <-> plain_name [c] /\ plain_name b.
Proof. apply (plain_app [c] b). Qed.
Lemma plain_nil : plain_name [].
Proof. repeat split; intros []. Qed.
Lemma chars_ok t : plain_name t -> Forall item_ok (map IC t).
Proof.
  induction t as [|c t IH]; intros P; [constructor|]. apply plain_cons in P. constructor; [apply P|apply IH, P].
Qed.
Lemma plain_render_chars l : plain_name (render l) -> exists t, l = map IC t.
Proof.
  induction l as [|i l IH]; intros P; [now exists []|]. unfold render in P. cbn [flat_map] in P. apply plain_app in P.
  destruct P as (P1 & P2). destruct (IH P2) as (t & ->). destruct i as [c| |].
  - now exists (c :: t).
  - destruct P1 as (_ & _ & P). elim P. now left.
  - destruct P1 as (P & _). elim P. now left.
Qed.
Lemma render_chars t : render (map IC t) = t.
Proof. induction t as [|c t IH]; [reflexivity|]. cbn. f_equal. exact IH. Qed.
Lemma render_app a b : render (a ++ b) = render a ++ render b.
Proof. apply flat_map_app. Qed.

Lemma part_items l s : Forall item_ok l -> stars_ok true l -> ~ In "/"%char s ->
  part_match (render l) s = true <-> im l s.
Proof.
  intros OK ST NS. unfold part_match. destruct (magic (render l)) eqn:M.
  - rewrite andb_true_iff, tokens_render, tok_match_items by assumption. split; [tauto|]. intros H. split; [|exact H].
    rewrite orb_true_iff, negb_true_iff. destruct H.
    + right. reflexivity.
    + cbn. destruct (Ascii.eqb c "."); auto.
    + right. cbn. apply Ascii.eqb_neq. intros ->. cbn in H. lia.
    + cbn in ST. destruct ST. discriminate.
  - apply magic_false in M. destruct (plain_render_chars l M) as (t & ->).
    rewrite text_eqb_eq, im_chars, render_chars. intuition congruence.
Qed.

Lemma render_slash l : ~ In (IC "/") l -> ~ In "/"%char (render l).
Proof.
  intros H I. unfold render in I. apply in_flat_map in I. destruct I as (i & I & J). destruct i as [c| |]; cbn in J.
  - destruct J as [->|[]]. contradiction.
  - repeat (destruct J as [J|J]; [discriminate|]). contradiction.
  - destruct J as [J|[]]. discriminate.
Qed.
Lemma item_slash_cases l : ~ In (IC "/") l \/ exists a b, l = a ++ IC "/" :: b /\ ~ In (IC "/") a.
Proof.
  induction l as [|i l IH]; [left; intros []|].
  assert (D : i = IC "/" \/ i <> IC "/").
  { destruct i as [c| |]; [|right; discriminate..]. destruct (Ascii.ascii_dec c "/") as [->|NE]; [now left|right; congruence]. }
  destruct D as [->|NE]; [right; exists [], l; split; [reflexivity|intros []]|].
  destruct IH as [H|(a & b & -> & H)].
  - left. intros [E|I]; [now apply NE|now apply H].
  - right. exists (i :: a), b. split; [reflexivity|]. intros [E|I]; [now apply NE|now apply H].
Qed.
Lemma stars_app f a b : stars_ok f (a ++ IC "/" :: b) -> stars_ok f a /\ stars_ok true b.
Proof.
  revert f. induction a as [|i a IH]; intros f; cbn [app stars_ok].
  - change (Ascii.eqb "/" "/") with true. tauto.
  - destruct i as [c| |]; [apply IH|apply IH|]. intros (H1 & H2). apply IH in H2. tauto.
Qed.

Lemma glob_items l s : Forall item_ok l -> stars_ok true l -> glob_match (render l) s = true <-> im l s.
Proof.
  unfold glob_match. remember (length l) as n eqn:L. revert l s L.
  induction n as [n IH] using lt_wf_ind. intros l s -> OK ST.
  destruct (item_slash_cases l) as [NP|(l1 & l2 & -> & NP)].
  - rewrite (parts_last (render l)) by now apply render_slash.
    destruct (slash_cases s) as [NS|(s1 & s2 & -> & NS)].
    + rewrite (parts_last s NS). cbn [all2]. rewrite andb_true_r. now apply part_items.
    + rewrite (parts_slash s1 s2 NS). cbn [all2]. destruct (parts s2) as [|x r] eqn:E; [now elim (parts_nonempty s2)|].
      cbn [all2]. rewrite andb_false_r. split; [discriminate|]. intros H. apply no_slash_match in H; [|exact NP].
      elim H. apply in_elt.
  - apply Forall_app in OK. destruct OK as (OK1 & OK2). inversion OK2 as [|x y _ OK3]; subst x y.
    destruct (stars_app _ _ _ ST) as (ST1 & ST2).
    rewrite render_app. change (render (IC "/" :: l2)) with ("/"%char :: render l2).
    rewrite parts_slash by now apply render_slash.
    destruct (slash_cases s) as [NS|(s1 & s2 & -> & NS)].
    + rewrite (parts_last s NS). cbn [all2]. destruct (parts (render l2)) as [|x r] eqn:E; [now elim (parts_nonempty (render l2))|].
      cbn [all2]. rewrite andb_false_r. split; [discriminate|]. intros H. apply im_app in H.
      destruct H as (a & b & -> & _ & H). inversion H; subst. elim NS. apply in_elt.
    + rewrite (parts_slash s1 s2 NS). cbn [all2]. rewrite andb_true_iff, part_items by assumption.
      rewrite (IH (length l2)); [|rewrite app_length; cbn; lia|reflexivity|assumption|assumption]. split.
      * intros (A & B). apply im_app. exists s1, ("/"%char :: s2). repeat split; [assumption|now constructor].
      * intros H. apply im_app in H. destruct H as (a & b & E & A & B). inversion B; subst.
        assert (NA := no_slash_match _ _ NP A).
        assert (E' := f_equal parts E). rewrite (parts_slash _ _ NS), (parts_slash _ _ NA) in E'. injection E' as -> _.
        apply app_inv_head in E. injection E as ->. auto.
Qed.

(** ** the patterns of the code *)

Lemma digits_render n : digits_pat n = render (repeat ID n).
Proof. induction n as [|n IH]; [reflexivity|]. unfold digits_pat in *. cbn [repeat concat]. now rewrite IH. Qed.
Lemma stars_any t f r : (forall f, stars_ok f r) -> stars_ok f (map IC t ++ r).
Proof. intros H. revert f. induction t as [|c t IH]; intros f; cbn [map app stars_ok]; auto. Qed.
Lemma stars_digits n f r : (forall f, stars_ok f r) -> stars_ok f (repeat ID n ++ r).
Proof. intros H. revert f. induction n as [|n IH]; intros f; cbn [repeat app stars_ok]; auto. Qed.
Lemma digits_ok n : Forall item_ok (repeat ID n).
Proof. induction n; cbn; constructor; auto. exact I. Qed.

(** stem, n digits, ending *)
Lemma glob_digits stem n ending s : plain_name stem -> plain_name ending ->
  glob_match (stem ++ digits_pat n ++ ending) s = true <->
  exists ds, length ds = n /\ is_decimal ds /\ s = stem ++ ds ++ ending.
Proof.
  intros P1 P2. rewrite digits_render.
  replace (stem ++ render (repeat ID n) ++ ending) with (render (map IC stem ++ repeat ID n ++ map IC ending))
    by now rewrite !render_app, !render_chars.
  rewrite glob_items.
  - rewrite im_app. split.
    + intros (a & b & -> & A & B). apply im_app in B. destruct B as (c & d & -> & C & D).
      apply im_chars in A, D. apply im_digits in C. subst. exists c. tauto.
    + intros (ds & L & D & ->). exists stem, (ds ++ ending). repeat split; [now apply im_chars|].
      apply im_app. exists ds, ending. repeat split; [now apply im_digits|now apply im_chars].
  - repeat (apply Forall_app; split); auto using chars_ok, digits_ok.
  - apply stars_any. intros f. apply stars_digits. clear. intros f. rewrite <- (app_nil_r (map IC ending)).
    apply stars_any. now intros [].
Qed.

Lemma glob_plain stem s : plain_name stem -> glob_match stem s = true <-> s = stem.
Proof.
  intros P. pose proof (glob_digits stem 0 [] s P plain_nil) as H. cbn [digits_pat repeat concat app] in H.
  rewrite app_nil_r in H. rewrite H. split.
  - intros (ds & L & _ & ->). destruct ds; [|discriminate]. now rewrite !app_nil_r.
  - intros ->. exists []. repeat split; [constructor|]. now rewrite !app_nil_r.
Qed.

Lemma glob_tiles fname s : plain_name fname ->
  glob_match (tile_pat fname) s = true <->
  exists d e, length d = 3 /\ length e = 3 /\ is_decimal d /\ is_decimal e
    /\ s = fname ++ ["."%char] ++ d ++ ["."%char] ++ e ++ lit ".meta".
Proof.
  intros P.
  replace (tile_pat fname)
    with (render (map IC fname ++ [IC "."] ++ repeat ID 3 ++ [IC "."] ++ repeat ID 3 ++ map IC (lit ".meta"))).
  2:{ rewrite !render_app, !render_chars, <- !digits_render. unfold tile_pat. cbn [repeat concat].
      rewrite app_nil_r, <- !app_assoc. reflexivity. }
  rewrite glob_items.
  - split.
    + intros H. apply im_app in H. destruct H as (a & b & -> & A & H). apply im_app in H. destruct H as (c & d & -> & C & H).
      apply im_app in H. destruct H as (e & f & -> & E & H). apply im_app in H. destruct H as (g & h & -> & G & H).
      apply im_app in H. destruct H as (i & j & -> & I & J).
      apply im_chars in A, J. apply im_digits in E, I. apply (im_chars ["."%char]) in C, G. subst. exists e, i. tauto.
    + intros (d & e & L & L' & D & D' & ->).
      apply im_app. exists fname, (["."%char] ++ d ++ ["."%char] ++ e ++ lit ".meta"). split; [reflexivity|]. split; [now apply im_chars|].
      apply im_app. eexists ["."%char], _. split; [reflexivity|]. split; [now apply (im_chars ["."%char])|].
      apply im_app. eexists d, _. split; [reflexivity|]. split; [now apply im_digits|].
      apply im_app. eexists ["."%char], _. split; [reflexivity|]. split; [now apply (im_chars ["."%char])|].
      apply im_app. eexists e, _. split; [reflexivity|]. split; [now apply im_digits|]. now apply im_chars.
  - assert (Q : item_ok (IC ".")) by (apply plain_one; repeat split; discriminate).
    repeat (apply Forall_app; split); auto using chars_ok, digits_ok. apply chars_ok. repeat split; cbn; intuition discriminate.
  - apply stars_any. intros f. cbn. exact I.
Qed.

Lemma glob_data stem s : plain_name stem ->
  glob_match (stem ++ lit ".*.data") s = true <-> exists v, s = stem ++ ["."%char] ++ v ++ lit ".data" /\ ~ In "/"%char v.
Proof.
  intros P.
  replace (stem ++ lit ".*.data") with (render (map IC stem ++ [IC "."; IS] ++ map IC (lit ".data")))
    by now rewrite !render_app, !render_chars.
  rewrite glob_items.
  - split.
    + intros H. apply im_app in H. destruct H as (a & b & -> & A & H). apply im_app in H. destruct H as (c & d & -> & C & H).
      apply im_chars in A, H. subst. inversion C as [|c0 l s' HM| |]; subst. inversion HM as [| | |u l s'' HU HN]; subst. inversion HN; subst.
      exists u. split; [|assumption]. rewrite <- ?app_assoc. cbn [app]. now rewrite app_nil_r.
    + intros (v & -> & NV). apply im_app. exists stem, (["."%char] ++ v ++ lit ".data"). split; [reflexivity|].
      split; [now apply im_chars|]. apply im_app. exists ("."%char :: v), (lit ".data"). split; [reflexivity|].
      split; [|now apply im_chars]. constructor. rewrite <- (app_nil_r v). constructor; [assumption|constructor].
  - assert (Q : item_ok (IC ".")) by (apply plain_one; repeat split; discriminate).
    apply Forall_app. split; [now apply chars_ok|]. apply Forall_app. split.
    + constructor; [exact Q|]. constructor; [exact I|constructor].
    + apply chars_ok. repeat split; cbn; intuition discriminate.
  - apply stars_any. intros f. cbn. auto.
Qed.

(** ** whatever the pattern, its last plain characters are those of the name *)

Lemma to_bracket_app p w : ~ In "]"%char w -> to_bracket (p ++ w) = to_bracket p.
Proof.
  intros NW. induction p as [|c p IH]; cbn [app to_bracket].
  - induction w as [|c w IH]; [reflexivity|]. cbn [to_bracket]. destruct (Ascii.eqb_spec c "]") as [->|_]; [elim NW; now left|].
    rewrite IH; [reflexivity|]. intros I. apply NW. now right.
  - now rewrite IH.
Qed.
Lemma set_length_app p w : ~ In "]"%char w -> set_length (p ++ w) = set_length p.
Proof.
  intros NW. destruct p as [|c p].
  - cbn [app]. destruct (set_length w) as [n|] eqn:E; [|reflexivity]. apply set_length_some in E.
    destruct E as (b & r & -> & _). elim NW. apply in_elt.
  - cbn [app set_length]. rewrite to_bracket_app by exact NW. destruct (Ascii.eqb c "!"); [|reflexivity].
    destruct p as [|d p]; cbn [app]; [|now rewrite to_bracket_app].
    destruct w as [|d w]; [reflexivity|].
    rewrite <- (app_nil_l w), to_bracket_app; [reflexivity|]. intros I. apply NW. now right.
Qed.
Lemma to_bracket_le p n : to_bracket p = Some n -> n < length p.
Proof. intros E. apply to_bracket_some in E. destruct E as (y & r & -> & _ & <-). rewrite app_length. cbn. lia. Qed.
Lemma set_length_le p n : set_length p = Some n -> n < length p.
Proof. intros E. apply set_length_some in E. destruct E as (y & r & -> & _ & <-). rewrite app_length. cbn. lia. Qed.

Lemma tokens_plain w : plain_name w -> tokens w 0 = map TLit w.
Proof.
  induction w as [|c w IH]; intros P; [reflexivity|]. apply plain_cons in P. rewrite tokens_char by apply P.
  cbn [map]. now rewrite IH.
Qed.
Lemma tokens_app p w k : plain_name w -> ~ In "]"%char w -> k <= length p -> tokens (p ++ w) k = tokens p k ++ map TLit w.
Proof.
  intros PW NW. revert k. induction p as [|c p IH]; intros k LE.
  - assert (k = 0) by (cbn in LE; lia). subst. cbn [app]. now rewrite tokens_plain.
  - destruct k as [|k]; [|cbn [app tokens]; apply IH; cbn in LE; lia].
    cbn [app tokens]. rewrite (set_length_app p w NW). rewrite (IH 0) by lia.
    destruct (Ascii.eqb c "*"); [reflexivity|]. destruct (Ascii.eqb c "?"); [reflexivity|].
    destruct (Ascii.eqb c "["); [|reflexivity]. destruct (set_length p) as [n|] eqn:E; [|reflexivity].
    apply set_length_le in E. rewrite (IH (n + 1)) by lia. cbn [app].
    rewrite firstn_app. replace (n - length p) with 0 by lia. cbn [firstn]. now rewrite app_nil_r.
Qed.
Lemma tok_match_app ts us s : tok_match (ts ++ us) s = true -> exists a b, s = a ++ b /\ tok_match us b = true.
Proof.
  revert s. induction ts as [|t ts IH]; intros s H; [now exists [], s|].
  destruct t; cbn [app] in H.
  all: try (rewrite tok_match_one in H by discriminate; destruct s as [|d s]; [discriminate|];
            apply andb_true_iff in H; destruct H as (_ & H); destruct (IH _ H) as (a & b & -> & B); now exists (d :: a), b).
  apply tok_match_star in H. destruct H as (u & v & -> & H). destruct (IH _ H) as (a & b & -> & B).
  exists (u ++ a), b. now rewrite app_assoc.
Qed.
Lemma tok_match_lits w s : tok_match (map TLit w) s = true -> s = w.
Proof.
  revert s. induction w as [|c w IH]; intros s H; [destruct s; [reflexivity|discriminate]|].
  cbn [map] in H. rewrite tok_match_one in H by discriminate. destruct s as [|d s]; [discriminate|].
  apply andb_true_iff in H. destruct H as (E & H). apply Ascii.eqb_eq in E. subst. f_equal. auto.
Qed.
Lemma part_tail p w s : plain_name w -> ~ In "]"%char w -> part_match (p ++ w) s = true -> exists a, s = a ++ w.
Proof.
  intros PW NW. unfold part_match. destruct (magic (p ++ w)).
  - rewrite andb_true_iff. intros (_ & H). rewrite tokens_app in H by (auto; lia).
    apply tok_match_app in H. destruct H as (a & b & -> & H). apply tok_match_lits in H. subst. now exists a.
  - intros H. apply text_eqb_eq in H. subst. now exists p.
Qed.
Lemma glob_tail p w s : plain_name w -> ~ In "]"%char w -> ~ In "/"%char w -> glob_match (p ++ w) s = true ->
  exists a, s = a ++ w.
Proof.
  intros PW NW SW. unfold glob_match. remember (length p) as n eqn:L. revert p s L.
  induction n as [n IH] using lt_wf_ind. intros p s -> H.
  destruct (slash_cases p) as [NP|(p1 & p2 & -> & NP)].
  - rewrite parts_last in H by (rewrite in_app_iff; tauto).
    destruct (slash_cases s) as [NS|(s1 & s2 & -> & NS)].
    + rewrite (parts_last s NS) in H. cbn [all2] in H. rewrite andb_true_r in H. now apply part_tail in H.
    + rewrite (parts_slash s1 s2 NS) in H. cbn [all2] in H. destruct (parts s2) eqn:E; [now elim (parts_nonempty s2)|].
      now rewrite andb_false_r in H.
  - rewrite <- app_assoc in H. cbn [app] in H. rewrite parts_slash in H by exact NP.
    destruct (slash_cases s) as [NS|(s1 & s2 & -> & NS)].
    + rewrite (parts_last s NS) in H. cbn [all2] in H. destruct (parts (p2 ++ w)) eqn:E; [now elim (parts_nonempty (p2 ++ w))|].
      now rewrite andb_false_r in H.
    + rewrite (parts_slash s1 s2 NS) in H. cbn [all2] in H. apply andb_true_iff in H. destruct H as (_ & H).
      destruct (IH (length p2)) with (p := p2) (s := s2) as (a & ->); [rewrite app_length; cbn; lia|reflexivity|exact H|].
      exists (s1 ++ "/"%char :: a). now rewrite <- app_assoc.
Qed.
