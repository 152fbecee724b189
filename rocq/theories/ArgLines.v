(** A command line is accepted if and only if it is a sequence of pieces as specified. *)
From Coq Require Import Ascii String List Bool PeanoNat ZArith Lia.
Import ListNotations.
From Flocq Require Import IEEE754.Binary IEEE754.Bits.
From Verif Require Import MdsMeta MdsTextFacts ArgParse Main SpecArgs ArgFacts.
Local Open Scope nat_scope.
Local Open Scope list_scope.

(** ** Actions *)

Lemma value_takes n t r : takes_value (value_opt n (kind_of t) r) = true.
Proof. destruct t; reflexivity. Qed.

Lemma take_value ns n t r v ns' : take ns (value_opt n (kind_of t) r) (Some v) = Parsed ns' <->
  exists a, has_type t v a /\ ns' = (lit n, a) :: ns.
Proof.
  unfold take, convert. destruct t; cbn [value_opt o_kind o_dest kind_of].
  - split; [intros [= <-]; exists (AText v); split; [constructor|reflexivity]|].
    intros (a & H & ->). inversion H; subst. reflexivity.
  - destruct (int_of_text v) as [z|] eqn:E; cbn [option_map].
    + split; [intros [= <-]; exists (AInt z); split; [now constructor|reflexivity]|].
      intros (a & H & ->). inversion H as [|? y K|? y K]; subst. rewrite E in K. injection K as ->. reflexivity.
    + split; [discriminate|]. intros (a & H & ->). inversion H; subst. congruence.
  - destruct (float_arg v) as [x|] eqn:E; cbn [option_map].
    + split; [intros [= <-]; exists (AFloat x); split; [now constructor|reflexivity]|].
      intros (a & H & ->). inversion H as [|? y K|? y K]; subst. rewrite E in K. injection K as ->. reflexivity.
    + split; [discriminate|]. intros (a & H & ->). inversion H; subst. congruence.
Qed.

Lemma take_flag ns c n a : take ns (flag_opt c n) a = Parsed ((lit n, ATrue) :: ns).
Proof. reflexivity. Qed.

(** Short options take no value. *)
Lemma short_option g c o : In (["-"%char; c], o) (strings_of g) ->
  o = help_opt \/ exists n, In (c, n) (switches_of g) /\ o = flag_opt (String c "") n.
Proof.
  intros H. pose proof (strings_word _ _ _ H) as W.
  assert (ND : forall n, ["-"%char; c] <> dashed n).
  { intros n K. destruct (word_cases _ _ W) as [(c' & E & N & _)|(n' & E & N & _)].
    - injection E as <-. injection K as -> _. congruence.
    - injection E as _ <-. congruence. }
  destruct (entry_cases _ _ _ H) as [(-> & _)|[(n & t & r & _ & K & _)|(c' & n & I & [K|K] & ->)]]; auto.
  - now destruct (ND (lit n)).
  - injection K as ->. right. eauto.
  - now destruct (ND (lit n)).
Qed.

Lemma short_takes g c o : In (["-"%char; c], o) (strings_of g) -> takes_value o = false.
Proof. intros H. destruct (short_option _ _ _ H) as [-> |(n & _ & ->)]; reflexivity. Qed.

Lemma explicit_cases g e : forall o, takes_value o = false -> forall sep,
  match explicit (parser_of g) o false sep e with
  | UAll _ => False
  | URest _ => True
  | UError => True
  | UNext us o' => exists os, us ++ [(o', None)] = map (fun o => (o, None)) (o :: os) /\
      Forall2 (fun c o => In (["-"%char; c], o) (strings_of g)) e os
  end.
Proof.
  assert (H : forall n e, length e <= n -> forall o, takes_value o = false -> forall sep,
    match explicit (parser_of g) o false sep e with
    | UAll _ => False
    | URest _ => True
    | UError => True
    | UNext us o' => exists os, us ++ [(o', None)] = map (fun o => (o, None)) (o :: os) /\
        Forall2 (fun c o => In (["-"%char; c], o) (strings_of g)) e os
    end).
  2:{ intros o. eapply H. reflexivity. }
  clear e. induction n as [|n IH]; intros e Le o To sep.
  { destruct e; [|cbn in Le; lia]. cbn [explicit]. now rewrite To. }
  destruct e as [|c r]; cbn [explicit]; rewrite To; [exact I|].
  cbn [orb]. destruct (sep || is_dash c); [exact I|].
  change (option_strings (parser_of g)) with (strings_of g).
  destruct (dget (strings_of g) ["-"%char; c]) as [o'|] eqn:D; [|exact I]. apply dget_in in D.
  pose proof (short_takes _ _ _ D) as To'.
  destruct r as [|d r].
  - cbn [use_cons]. exists [o']. split; [reflexivity|]. repeat constructor. exact D.
  - destruct (Ascii.eqb d "=") eqn:Ed.
    + destruct r as [|x r]; cbn [explicit]; rewrite To'; exact I.
    + cbn [length] in Le. specialize (IH (d :: r) ltac:(cbn [length]; lia) o' To' false).
      destruct (explicit (parser_of g) o' false false (d :: r)); cbn [use_cons]; auto.
      destruct IH as (os & E & F). exists (o' :: os). split; [cbn [app]; rewrite E; reflexivity|]. now constructor.
Qed.

Lemma explicit_letters g e os : e <> [] -> Forall2 (fun c o => In (["-"%char; c], o) (strings_of g)) e os ->
  forall o, takes_value o = false ->
  exists us o', explicit (parser_of g) o false false e = UNext us o' /\ takes_value o' = false /\
    us ++ [(o', None)] = map (fun o => (o, None)) (o :: os).
Proof.
  intros N F. induction F as [|c o1 e os D F IH]; intros o To; [congruence|]. clear N.
  assert (C : c <> "-"%char).
  { pose proof (strings_word _ _ _ D) as W. destruct (word_cases _ _ W) as [(c' & E & K & _)|(n & E & K & _)].
    - now injection E as <-.
    - injection E as _ <-. congruence. }
  cbn [explicit]. rewrite To. cbn [orb]. unfold is_dash. destruct (Ascii.eqb_spec c "-") as [|_]; [contradiction|].
  change (option_strings (parser_of g)) with (strings_of g). rewrite (strings_get _ _ _ D).
  destruct e as [|d e].
  - inversion F; subst. exists [(o, None)], o1. repeat split. eapply short_takes; eauto.
  - destruct (IH ltac:(discriminate) o1 (short_takes _ _ _ D)) as (us & o' & E & T & U).
    assert (Nd : Ascii.eqb d "=" = false).
    { inversion F as [|? o2 ? ? D2 F2]; subst. pose proof (strings_word _ _ _ D2) as W. apply Ascii.eqb_neq.
      destruct (word_cases _ _ W) as [(c' & K & _ & K2 & _)|(n & K & _)].
      - now injection K as <-.
      - injection K as -> _. discriminate. }
    rewrite Nd, E. cbn [use_cons]. exists ((o, None) :: us), o'. repeat split; auto.
    cbn [app map]. f_equal. exact U.
Qed.

Lemma take_all_flags l : forall ns,
  take_all ns (map (fun c => (flag_opt (String (fst c) "") (snd c), None)) l) =
  Parsed (rev (map (fun c : ascii * string => (lit (snd c), ATrue)) l) ++ ns).
Proof.
  induction l as [|(c, n) l IH]; intros ns; [reflexivity|]. cbn [map take_all fst snd]. rewrite take_flag, IH.
  cbn [map rev fst snd]. now rewrite <- app_assoc.
Qed.

Lemma take_all_short g e os : Forall2 (fun c o => In (["-"%char; c], o) (strings_of g)) e os ->
  forall ns ns', take_all ns (map (fun o => (o, None)) os) = Parsed ns' ->
  exists names, Forall2 (fun c n => In (c, n) (switches_of g)) e names /\
    ns' = rev (map (fun n => (lit n, ATrue)) names) ++ ns.
Proof.
  induction 1 as [|c o e os D F IH]; intros ns ns' E.
  - injection E as <-. exists []. split; [constructor|reflexivity].
  - cbn [map take_all] in E. destruct (short_option _ _ _ D) as [-> |(n & I & ->)]; [discriminate|].
    rewrite take_flag in E. destruct (IH _ _ E) as (names & Fn & ->). exists (n :: names).
    split; [now constructor|]. cbn [map rev]. now rewrite <- app_assoc.
Qed.

(** ** From lines to results *)

Definition token_of (g : program) (a : text) (t : token) : Prop :=
  a <> lit "--" /\ classify (parser_of g) a = Some t.

Lemma tokens_cons g a t l ts : token_of g a t -> tokens (parser_of g) l = Some ts ->
  tokens (parser_of g) (a :: l) = Some ((a, t) :: ts).
Proof.
  intros (N & C) E. cbn [tokens]. destruct (text_eqb a (lit "--")) eqn:K.
  - apply text_eqb_eq in K. contradiction.
  - now rewrite C, E.
Qed.

Lemma stands_token g w n : stands_for g w n -> w <> lit "--".
Proof. intros S. destruct (stands_dashed _ _ _ S) as (r & -> & R & _). intros [= ->]. congruence. Qed.

Lemma switch_letter g c n : In (c, n) (switches_of g) -> c <> "-"%char /\ c <> "="%char.
Proof.
  intros H. apply letter_in, strings_word in H. destruct (word_cases _ _ H) as [(c' & E & K & K' & _)|(n' & E & K & _)].
  - now injection E as <-.
  - injection E as _ <-. congruence.
Qed.

Lemma piece_step g i gs l ts ns : sets g i gs -> tokens (parser_of g) l = Some ts ->
  exists tw, tokens (parser_of g) (written i ++ l) = Some (tw ++ ts) /\
    consume (parser_of g) (tw ++ ts) false ns = consume (parser_of g) ts false (rev gs ++ ns).
Proof.
  intros S E. destruct S as [n ty req w v a I S P V|n ty req w v a I S V|c n w I S|letters names N F]; cbn [written app].
  - apply option_in in I. pose proof (stands_option _ _ _ _ S I) as C. apply plain_iff in P as (Nv & Pv).
    exists [(w, TOption (value_opt n (kind_of ty) req)); (v, TValue)]. split.
    + apply tokens_cons; [split; [eapply stands_token; eauto|exact C]|]. apply tokens_cons; [now split|exact E].
    + cbn [app consume]. rewrite value_takes.
      rewrite (proj2 (take_value ns n ty req v _) (ex_intro _ a (conj V eq_refl))). reflexivity.
  - apply option_in in I. pose proof (stands_joined _ _ _ _ v S I) as C.
    exists [(w ++ "="%char :: v, TWith (value_opt n (kind_of ty) req) true true v)]. split.
    + apply tokens_cons; [split; [|exact C]|exact E]. destruct (stands_dashed _ _ _ S) as (r & -> & R & _).
      intros K. injection K as K. destruct r; [congruence|discriminate].
    + cbn [app consume]. destruct v as [|c v']; cbn [explicit]; rewrite value_takes; cbn [take_all];
        rewrite (proj2 (take_value ns n ty req _ _) (ex_intro _ a (conj V eq_refl))); reflexivity.
  - pose proof (switch_in _ _ _ I) as J. pose proof (stands_option _ _ _ _ S J) as C.
    exists [(w, TOption (flag_opt (String c "") n))]. split.
    + apply tokens_cons; [split; [eapply stands_token; eauto|exact C]|exact E].
    + reflexivity.
  - destruct letters as [|c letters]; [congruence|]. clear N. inversion F as [|? n ? names' I F']; subst.
    pose proof (switch_letter _ _ _ I) as (Nc & _). pose proof (letter_in _ _ _ I) as D.
    assert (Nd : "-"%char :: c :: letters <> lit "--") by (intros [= -> _]; congruence).
    destruct letters as [|d letters].
    + inversion F'; subst. exists [(["-"%char; c], TOption (flag_opt (String c "") n))]. split.
      * apply tokens_cons; [split; [exact Nd|now apply classify_exact]|exact E].
      * reflexivity.
    + assert (Nw : ~ In ("-"%char :: c :: d :: letters) (words g)).
      { intros W. destruct (word_cases _ _ W) as [(c' & K & _)|(n' & K & _)]; [discriminate|]. injection K as -> _. congruence. }
      assert (Ne : Ascii.eqb d "=" = false).
      { inversion F'; subst. apply Ascii.eqb_neq. eapply switch_letter; eauto. }
      pose (os := map (fun cn : ascii * string => flag_opt (String (fst cn) "") (snd cn)) (combine (d :: letters) names')).
      assert (Fo : Forall2 (fun c o => In (["-"%char; c], o) (strings_of g)) (d :: letters) os /\
                   map (fun cn : ascii * string => (lit (snd cn), ATrue)) (combine (d :: letters) names') =
                   map (fun n => (lit n, ATrue)) names').
      { unfold os. clear - F'. induction F' as [|c n l ns I F IH]; [split; [constructor|reflexivity]|].
        destruct IH as (A & B). cbn [combine map fst snd]. rewrite B. split; [|reflexivity].
        constructor; [now apply letter_in|exact A]. }
      destruct Fo as (Fo & Fn).
      destruct (explicit_letters g (d :: letters) os ltac:(discriminate) Fo (flag_opt (String c "") n) eq_refl)
        as (us & o' & X & T & U).
      exists [("-"%char :: c :: d :: letters, TWith (flag_opt (String c "") n) false false (d :: letters))]. split.
      * apply tokens_cons; [split; [exact Nd|]|exact E].
        rewrite (classify_short g c (d :: letters) Nc Nw), (strings_get _ _ _ D), Ne. reflexivity.
      * cbn [app consume]. rewrite X, T, U.
        replace (map (fun o => (o, None)) (flag_opt (String c "") n :: os))
          with (map (fun cn : ascii * string => (flag_opt (String (fst cn) "") (snd cn), @None text)) ((c, n) :: combine (d :: letters) names')).
        2:{ cbn [map fst snd]. f_equal. unfold os. now rewrite map_map. }
        rewrite take_all_flags. cbn [map fst snd]. rewrite Fn. reflexivity.
Qed.

Lemma pieces_run g ps gs : Forall2 (sets g) ps gs ->
  exists ts, tokens (parser_of g) (flat_map written ps) = Some ts /\
    forall ns, consume (parser_of g) ts false ns = Parsed (rev (concat gs) ++ ns, false).
Proof.
  induction 1 as [|i g1 ps gs S F IH].
  - exists []. split; reflexivity.
  - destruct IH as (ts & E & R). destruct (piece_step g i g1 _ ts [] S E) as (tw & Et & _).
    exists (tw ++ ts). split; [exact Et|]. intros ns.
    destruct (piece_step g i g1 _ ts ns S E) as (tw' & Et' & Rc).
    assert (tw' ++ ts = tw ++ ts) by (cbn [flat_map] in *; congruence).
    rewrite <- H, Rc, R. cbn [concat]. now rewrite rev_app_distr, app_assoc.
Qed.

(** ** From results to lines *)

Definition lost (t : token) : Prop := t = TUnknown \/ t = TDashes.

Lemma consume_extra p l : forall ns r, consume p l true ns = Parsed r -> snd r = true.
Proof.
  assert (H : forall n l, length l <= n -> forall ns r, consume p l true ns = Parsed r -> snd r = true).
  2:{ eapply H. reflexivity. }
  clear l. induction n as [|n IH]; intros [|(a, t) l] Ll ns r; cbn [length] in Ll; try lia; cbn [consume]; try (intros [= <-]; reflexivity).
  assert (Hl : forall ns r, consume p l true ns = Parsed r -> snd r = true) by (intros; eapply IH; eauto; lia).
  assert (Hl2 : forall x l', l = x :: l' -> forall ns r, consume p l' true ns = Parsed r -> snd r = true).
  { intros x l' -> ns' r'. apply IH. cbn in Ll. lia. }
  destruct t as [o|o td sep e| | |]; try (now apply Hl).
  - destruct (takes_value o).
    + destruct l as [|(v, []) l']; try discriminate. destruct (take ns o (Some v)); [discriminate|]. eapply Hl2; eauto.
    + destruct (take ns o None); [discriminate|]. now apply Hl.
  - destruct (explicit p o td sep e) as [us|us|us o'|]; try discriminate.
    + destruct (take_all ns us); [discriminate|]. now apply Hl.
    + destruct (take_all ns us); [discriminate|]. now apply Hl.
    + destruct (takes_value o').
      * destruct l as [|(v, []) l']; try discriminate. destruct (take_all ns _); [discriminate|]. eapply Hl2; eauto.
      * destruct (take_all ns _); [discriminate|]. now apply Hl.
Qed.

Lemma consume_lost p l : forall x ns r, (exists a t, In (a, t) l /\ lost t) ->
  consume p l x ns = Parsed r -> snd r = true.
Proof.
  assert (H : forall n l, length l <= n -> forall x ns r, (exists a t, In (a, t) l /\ lost t) ->
    consume p l x ns = Parsed r -> snd r = true).
  2:{ eapply H. reflexivity. }
  clear l. induction n as [|n IH]; intros [|(a, t) l] Ll x ns r (b & s & I & K); cbn [length] in Ll; try lia;
    try (destruct I; fail); cbn [consume].
  destruct I as [[= -> ->]|I].
  { destruct K as [-> | ->]; apply consume_extra. }
  assert (Hl : forall x ns r, consume p l x ns = Parsed r -> snd r = true).
  { intros. eapply IH; eauto; lia. }
  assert (Hl2 : forall v l', l = (v, TValue) :: l' -> forall x ns r, consume p l' x ns = Parsed r -> snd r = true).
  { intros v l' -> x' ns' r' Hc. destruct I as [[= -> <-]|I]; [destruct K; discriminate|].
    eapply IH; eauto. cbn in Ll. lia. }
  destruct t as [o|o td sep e| | |]; try (now apply Hl).
  - destruct (takes_value o).
    + destruct l as [|(v, []) l']; try discriminate. destruct (take ns o (Some v)); [discriminate|]. eapply Hl2; eauto.
    + destruct (take ns o None); [discriminate|]. now apply Hl.
  - destruct (explicit p o td sep e) as [us|us|us o'|]; try discriminate.
    + destruct (take_all ns us); [discriminate|]. now apply Hl.
    + destruct (take_all ns us); [discriminate|]. now apply Hl.
    + destruct (takes_value o').
      * destruct l as [|(v, []) l']; try discriminate. destruct (take_all ns _); [discriminate|]. eapply Hl2; eauto.
      * destruct (take_all ns _); [discriminate|]. now apply Hl.
Qed.

Lemma tokens_inv g argv : forall ts, tokens (parser_of g) argv = Some ts ->
  map fst ts = argv /\
  ((exists a, In (a, TDashes) ts) \/ Forall (fun at_ => token_of g (fst at_) (snd at_)) ts).
Proof.
  induction argv as [|a l IH]; intros ts E; cbn [tokens] in E.
  - injection E as <-. split; [reflexivity|]. right. constructor.
  - destruct (text_eqb a (lit "--")) eqn:Ea.
    + injection E as <-. split.
      * cbn [map fst]. f_equal. rewrite map_map. apply map_id.
      * left. exists a. now left.
    + destruct (classify (parser_of g) a) as [t|] eqn:C; [|discriminate].
      destruct (tokens (parser_of g) l) as [ts'|]; [|discriminate]. injection E as <-.
      destruct (IH _ eq_refl) as (M & D). split; [cbn; now rewrite M|].
      destruct D as [(b & D)|D]; [left; exists b; now right|]. right. constructor; [|exact D].
      split; [now apply text_eqb_neq|exact C].
Qed.

Lemma stands_entry g w n o : stands_for g w n -> In (dashed n, o) (strings_of g) ->
  (o = help_opt) \/
  (exists m t r, n = lit m /\ In (m, t, r) (options_of g) /\ o = value_opt m (kind_of t) r) \/
  (exists c m, n = lit m /\ In (c, m) (switches_of g) /\ o = flag_opt (String c "") m).
Proof.
  intros S I. destruct (entry_cases _ _ _ I) as [(-> & _)|[(m & t & r & J & K & ->)|(c & m & J & [K|K] & ->)]]; auto.
  - right. left. injection K as ->. eauto 8.
  - exfalso. apply strings_word in I. injection K as _ K. destruct (word_cases _ _ I) as [(c' & E & N & _)|(n' & E & N & _)].
    + injection E as <- _. congruence.
    + injection E as <-. subst n. congruence.
  - right. right. injection K as ->. eauto 8.
Qed.

Lemma consume_pieces g l : Forall (fun at_ => token_of g (fst at_) (snd at_)) l -> forall ns ns',
  consume (parser_of g) l false ns = Parsed (ns', false) ->
  exists ps gs, map fst l = flat_map written ps /\ Forall2 (sets g) ps gs /\ ns' = rev (concat gs) ++ ns.
Proof.
  assert (H : forall n l, length l <= n -> Forall (fun at_ => token_of g (fst at_) (snd at_)) l -> forall ns ns',
    consume (parser_of g) l false ns = Parsed (ns', false) ->
    exists ps gs, map fst l = flat_map written ps /\ Forall2 (sets g) ps gs /\ ns' = rev (concat gs) ++ ns).
  2:{ eapply H. reflexivity. }
  clear l. induction n as [|n IH]; intros [|(a, t) l] Ll F ns ns' E; cbn [length] in Ll; try lia.
  1,2: injection E as <-; exists [], []; repeat split; constructor.
  inversion F as [|? ? (Na & Ca) F']; subst. cbn [fst snd] in Na, Ca.
  assert (Step : forall i g1 l' ns1, sets g i g1 -> written i ++ map fst l' = a :: map fst l -> length l' <= n ->
    Forall (fun at_ => token_of g (fst at_) (snd at_)) l' -> ns1 = rev g1 ++ ns ->
    consume (parser_of g) l' false ns1 = Parsed (ns', false) ->
    exists ps gs, map fst ((a, t) :: l) = flat_map written ps /\ Forall2 (sets g) ps gs /\ ns' = rev (concat gs) ++ ns).
  { intros i g1 l' ns1 S W L' Fl -> C. destruct (IH l' L' Fl _ _ C) as (ps & gs & M & Fs & ->).
    exists (i :: ps), (g1 :: gs). split; [cbn [map fst flat_map]; rewrite <- W, M; reflexivity|].
    split; [now constructor|]. cbn [concat]. now rewrite rev_app_distr, app_assoc. }
  pose proof (classify_reading g a Na) as R. rewrite Ca in R. cbn [consume] in E.
  assert (NX : consume (parser_of g) l true ns = Parsed (ns', false) -> False).
  { intros K. apply consume_extra in K. discriminate. }
  destruct t as [o|o td sep e| | |]; try (destruct (NX E)).
  - inversion R as [m o' S I|c o' K I| | | | |r K N L W U|]; subst.
    + destruct (stands_entry _ _ _ _ S I) as [-> |[(n0 & t & r & -> & J & ->)|(c & n0 & -> & J & ->)]].
      * discriminate E.
      * rewrite value_takes in E. destruct l as [|(v, []) l']; try discriminate E.
        destruct (take ns _ (Some v)) as [|ns1] eqn:T; [discriminate|]. apply take_value in T as (x & V & ->).
        inversion F' as [|? ? Pv F2]; subst. cbn [fst snd] in Pv.
        eapply (Step (Apart a v) [(lit n0, x)] l'); eauto.
        -- econstructor; eauto. now apply plain_iff.
        -- cbn [length] in Ll. lia.
      * cbn [takes_value flag_opt o_kind] in E. rewrite take_flag in E.
        eapply (Step (Switch a) [(lit n0, ATrue)] l); eauto; [econstructor; eauto|lia].
    + destruct (short_option _ _ _ I) as [-> |(n0 & J & ->)]; [discriminate E|].
      cbn [takes_value flag_opt o_kind] in E. rewrite take_flag in E.
      eapply (Step (Letters [c]) [(lit n0, ATrue)] l); eauto; [|lia].
      change [(lit n0, ATrue)] with (map (fun n => (lit n, ATrue)) [n0]). constructor; [discriminate|]. repeat constructor. exact J.
    + unfold unmatched in U. destruct (_ || _); discriminate.
  - inversion R as [| |w m o' v K S I|c o' d r K N I|c o' r K I| |r K N L W U|]; subst.
    + destruct (stands_entry _ _ _ _ S I) as [-> |[(n0 & t & r & -> & J & ->)|(c & n0 & -> & J & ->)]].
      * destruct e; discriminate E.
      * assert (X : explicit (parser_of g) (value_opt n0 (kind_of t) r) true true e = UAll [(value_opt n0 (kind_of t) r, Some e)])
          by (destruct e; cbn [explicit]; now rewrite value_takes).
        rewrite X in E. cbn [take_all] in E.
        destruct (take ns _ (Some e)) as [|ns1] eqn:T; [discriminate|]. apply take_value in T as (x & V & ->).
        eapply (Step (Joined w e) [(lit n0, x)] l); eauto; [econstructor; eauto|lia].
      * destruct e; discriminate E.
    + pose proof (explicit_cases g (d :: r) o (short_takes _ _ _ I) false) as X.
      destruct (explicit (parser_of g) o false false (d :: r)) as [us|us|us o1|]; try contradiction; try discriminate E.
      * destruct (take_all ns us); [discriminate|]. apply consume_extra in E. discriminate.
      * destruct X as (os & U & Fo).
        assert (T1 : takes_value o1 = false).
        { assert (J : In (o1, @None text) (us ++ [(o1, None)])) by (apply in_or_app; right; now left).
          rewrite U in J. apply in_map_iff in J as (o2 & [= ->] & J). destruct J as [<-|J]; [eapply short_takes; eauto|].
          clear - Fo J. induction Fo as [|c o l os D Fo IHF]; [destruct J|]. destruct J as [<-|J]; [eapply short_takes; eauto|auto]. }
        rewrite T1, U in E. destruct (take_all ns _) as [|ns1] eqn:T; [discriminate|].
        destruct (take_all_short g (c :: d :: r) (o :: os) ltac:(now constructor) ns ns1 T) as (names & Fn & ->).
        refine (Step (Letters (c :: d :: r)) _ l _ _ eq_refl _ F' eq_refl E); [|lia].
        constructor; [discriminate|exact Fn].
    + pose proof (explicit_cases g e o (short_takes _ _ _ I) true) as X.
      destruct e as [|x e]; cbn [explicit] in E; rewrite (short_takes _ _ _ I) in E; discriminate E.
    + unfold unmatched in U. destruct (_ || _); discriminate.
Qed.

Lemma required_given g ns :
  forallb (fun o => negb (o_required o) || given ns o) (parser_of g) = true <->
  forall n t, In (n, t, true) (options_of g) -> In (lit n) (map fst ns).
Proof.
  assert (T : parser_of g = help_opt :: map (fun o : string * vtype * bool => let '(n, t, r) := o in value_opt n (kind_of t) r) (options_of g) ++
    map (fun s : ascii * string => flag_opt (String (fst s) "") (snd s)) (switches_of g)) by (destruct g; reflexivity).
  assert (Gv : forall o, given ns o = true <-> In (o_dest o) (map fst ns)).
  { intros o. unfold given. destruct (dget ns (o_dest o)) eqn:D.
    - apply dget_in in D. split; [intros _; now apply (in_map fst) in D|reflexivity].
    - apply dget_none in D. split; [discriminate|contradiction]. }
  rewrite T, forallb_forall. split.
  - intros H n t I. specialize (H (value_opt n (kind_of t) true)).
    apply (proj1 (Gv (value_opt n (kind_of t) true))).
    assert (J : In (value_opt n (kind_of t) true) (help_opt :: map (fun o : string * vtype * bool =>
      let '(n, t, r) := o in value_opt n (kind_of t) r) (options_of g) ++
      map (fun s : ascii * string => flag_opt (String (fst s) "") (snd s)) (switches_of g))).
    { right. apply in_or_app. left. apply in_map_iff. now exists (n, t, true). }
    exact (H J).
  - intros H o [<-|I]; [reflexivity|]. apply in_app_or in I as [I|I].
    + apply in_map_iff in I as (((n & t) & []) & <- & I); [|reflexivity]. cbn [o_required value_opt negb orb]. apply Gv.
      eapply H; eauto.
    + apply in_map_iff in I as (s & <- & I). reflexivity.
Qed.

Theorem parse_args_line g argv ns :
  parse_args (parser_of g) argv = Parsed ns <-> exists given, line g argv given /\ ns = rev given.
Proof.
  unfold parse_args, line. split.
  - intros E. destruct (tokens (parser_of g) argv) as [ts|] eqn:Et; [|discriminate].
    destruct (consume (parser_of g) ts false []) as [|(ns1, x)] eqn:C; [discriminate|].
    destruct (forallb _ _) eqn:Rq; [|discriminate]. destruct x; [discriminate|]. injection E as ->.
    destruct (tokens_inv _ _ _ Et) as (M & [(a & D)|F]).
    + apply consume_lost in C; [discriminate|]. exists a, TDashes. split; [exact D|now right].
    + destruct (consume_pieces g ts F [] ns C) as (ps & gs & P & S & ->). rewrite app_nil_r in *.
      exists (concat gs). split; [|reflexivity]. exists ps, gs. rewrite <- M. repeat split; auto.
      intros n t I. rewrite required_given in Rq. specialize (Rq n t I). rewrite map_rev in Rq. now apply in_rev in Rq.
  - intros (given_ & (ps & gs & -> & S & -> & Rq) & ->). destruct (pieces_run g ps gs S) as (ts & Et & Rn).
    rewrite Et, Rn. rewrite app_nil_r.
    replace (forallb _ _) with true; [reflexivity|]. symmetry. apply required_given.
    intros n t I. rewrite map_rev, <- in_rev. eauto.
Qed.
