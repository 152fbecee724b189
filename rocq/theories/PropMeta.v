(** Properties C81-C82: what meta files and numbers mean. *)
From Coq Require Import Ascii String List Bool PeanoNat NArith ZArith Reals Lia Lra.
Import ListNotations.
From Flocq Require Import Core IEEE754.Binary IEEE754.Bits.
From Verif Require Import Prelude MdsMeta Mds SpecMds MdsTextFacts MdsParseFacts MdsScanFacts SpecMeta MetaFacts
  Float64 PyFloat PyFloatFacts SpecTimes SpecNumber ArgParse Main SpecArgs NumberFacts Samples PropMds MdsFacts.
Local Open Scope nat_scope.
Local Open Scope list_scope.

(** ** C81: meta files *)

Lemma dget_dset_all {F} (es : list (text * list (value F))) : forall d k,
  dget (dset_all d es) k = match last_value es k with Some v => Some v | None => dget d k end.
Proof.
  assert (A : forall (l m : list (text * list (value F))) k, dget (l ++ m) k = match dget l k with Some v => Some v | None => dget m k end).
  { induction l as [|[k' v] l IH]; intros m k; [reflexivity|]. cbn [app dget]. destruct (text_eqb k k'); [reflexivity|apply IH]. }
  unfold last_value. induction es as [|[k' v] es IH]; intros d k; [reflexivity|]. cbn [rev]. rewrite A.
  unfold dset_all in IH |- *. cbn [fold_left fst snd]. rewrite IH. destruct (dget (rev es) k); [reflexivity|].
  cbn [dget]. rewrite dget_dset. destruct (text_eqb k k') eqn:E; reflexivity.
Qed.

Lemma dset_keys {A} (d : list (text * A)) k v : forall x, In x (map fst (dset d k v)) <-> x = k \/ In x (map fst d).
Proof.
  induction d as [|[k' v'] d IH]; intros x; cbn [dset].
  - cbn. intuition.
  - destruct (text_eqb k k') eqn:E.
    + apply text_eqb_eq in E. subst. cbn. intuition.
    + cbn [map fst In]. rewrite IH. intuition.
Qed.

Lemma dset_nodup {A} (d : list (text * A)) k v : NoDup (map fst d) -> NoDup (map fst (dset d k v)).
Proof.
  induction d as [|[k' v'] d IH]; intros N; cbn [dset].
  - repeat constructor. intros [].
  - cbn [map fst] in N. inversion N as [|? ? NI N']; subst. destruct (text_eqb k k') eqn:E.
    + cbn [map fst]. now constructor.
    + cbn [map fst]. constructor; [|now apply IH]. intros I. apply dset_keys in I. destruct I as [->|I]; [|contradiction].
      now rewrite text_eqb_refl in E.
Qed.

Lemma dset_all_nodup {F} (es : list (text * list (value F))) : forall d, NoDup (map fst d) -> NoDup (map fst (dset_all d es)).
Proof.
  induction es as [|[k v] es IH]; intros d N; [exact N|]. unfold dset_all in *. cbn [fold_left fst snd]. now apply IH, dset_nodup.
Qed.

(** A meta file is read as what it says: a dictionary in which a key given twice has the last
    value. *)
Theorem C81_reads_what_it_says :
  forall t es, meta_file float_text t es ->
  exists d, parsemeta float_arg t = Ok d /\ NoDup (map fst d) /\ forall k, dget d k = last_value es k.
Proof.
  intros t es M. exists (dset_all [] es). split; [|split].
  - apply (parsemeta_iff float_arg float_text float_text_iff). now exists es.
  - apply dset_all_nodup. constructor.
  - intros k. rewrite dget_dset_all. now destruct (last_value es k).
Qed.

Lemma closing_err v e : closing_of v = Err e -> e = ParseError \/ e = IndexError.
Proof.
  destruct v as [|c v]; cbn [closing_of]; [intros [= <-]; now right|]. destruct (Ascii.eqb c "["); [discriminate|].
  destruct (Ascii.eqb c "{"); [discriminate|]. intros [= <-]. now left.
Qed.
Lemma gather_err c ls : forall t e, gather c t ls = Err e -> e = ParseError.
Proof.
  induction ls as [|l ls IH]; intros t e; cbn [gather]; destruct (has c t); try discriminate; [now intros [= <-]|apply IH].
Qed.
Lemma parse1_err {F} (fo : text -> option F) s e : parse1 fo s = Err e ->
  e = ParseError \/ e = ValueError "could not convert string to float".
Proof.
  unfold parse1. destruct (quoted s); [discriminate|]. destruct (_ || _ || _).
  - destruct (fo s); [discriminate|]. intros [= <-]. now right.
  - destruct (int_of_text s); [discriminate|]. intros [= <-]. now left.
Qed.
Lemma mapM_err {A B} (f : A -> res B) (P : exn -> Prop) l : (forall x e, f x = Err e -> P e) -> forall e, mapM f l = Err e -> P e.
Proof.
  intros H. induction l as [|x l IH]; intros e; cbn [mapM]; [discriminate|].
  destruct (f x) as [y|e'] eqn:E; cbn [rbind]; [|intros [= <-]; now apply (H x)].
  destruct (mapM f l) as [ys|e'] eqn:E'; cbn [rbind]; [discriminate|]. intros [= <-]. now apply IH.
Qed.

Definition parse_failure (e : exn) : Prop :=
  e = ParseError \/ e = IndexError \/ e = ValueError "could not convert string to float".

Lemma entry_err {F} (fo : text -> option F) o c w e : entry_value fo o c w = Err e -> parse_failure e.
Proof.
  unfold entry_value, parse_failure. destruct (negb _); [intros [= <-]; now left|]. destruct (Ascii.eqb o "["); [|discriminate].
  intros H. apply (mapM_err _ parse_failure) in H; [exact H|]. intros x e' X. apply parse1_err in X. unfold parse_failure. tauto.
Qed.

Lemma parse_loop_err {F} (fo : text -> option F) k : forall ls d e, parse_loop fo k ls d = Err e -> parse_failure e.
Proof.
  induction k as [|k IH]; intros ls d e; [discriminate|]. destruct ls as [|l ls]; [discriminate|]. cbn [parse_loop].
  destruct (forallb is_space (strip_comments l)); [apply IH|].
  destruct (match_line (strip_comments l)) as [[key val]|]; [|intros [= <-]; now left].
  destruct (closing_of val) as [c|e'] eqn:CO; cbn [rbind]; [|intros [= <-]; apply closing_err in CO; unfold parse_failure; tauto].
  destruct (gather c val ls) as [[w ls']|e'] eqn:G; cbn [rbind]; [|intros [= <-]; apply gather_err in G; now left].
  destruct (entry_value fo (hd " "%char w) c w) as [vs|e'] eqn:V; cbn [rbind]; [|intros [= <-]; now apply entry_err in V].
  apply IH.
Qed.

(** Everything else is refused. *)
Theorem C81_refuses_everything_else :
  forall t, ~ (exists es, meta_file float_text t es) ->
  exists e, parsemeta float_arg t = Err e /\ parse_failure e.
Proof.
  intros t N. destruct (parsemeta float_arg t) as [d|e] eqn:E.
  - apply (parsemeta_iff float_arg float_text float_text_iff) in E. destruct E as (es & M & _). elim N. now exists es.
  - exists e. split; [reflexivity|]. now apply parse_loop_err in E.
Qed.

Lemma values_unique o inner vs : values float_text o inner vs -> forall vs', values float_text o inner vs' -> vs' = vs.
Proof.
  intros V vs' V'.
  assert (CL : exists c, closes o c) by (destruct V; [exists "]"%char; now left|exists "}"%char; now right]). destruct CL as (c & CL).
  assert (E : entry_value float_arg o c (o :: inner ++ [c; ";"%char]) = Ok vs).
  { apply (entry_value_iff float_arg float_text float_text_iff); [exact CL|]. now exists inner. }
  assert (E' : entry_value float_arg o c (o :: inner ++ [c; ";"%char]) = Ok vs').
  { apply (entry_value_iff float_arg float_text float_text_iff); [exact CL|]. now exists inner. }
  congruence.
Qed.

Lemma entries_unique ls es : entries float_text ls es -> forall es', entries float_text ls es' -> es' = es.
Proof.
  induction 1 as [|l u ls es S W E IH|l u ls key o c val inner ls' vs es S H C J V E IH]; intros es' E'.
  - now inversion E'.
  - inversion E' as [|? u' ? ? S' W' E''|? u' ? key o c val inner ls' vs es'' S' H' C' J' V' E'']; subst; [now apply IH|].
    apply strip_comments_iff in S, S'. rewrite S in S'. subst u'. now apply head_not_white in H'.
  - inversion E' as [|? u' ? ? S' W' E''|? u' ? key' o' c' val' inner' ls'' vs' es'' S' H' C' J' V' E'']; subst;
      apply strip_comments_iff in S, S'; rewrite S in S'; subst u'.
    + now apply head_not_white in H.
    + apply head_line_iff in H, H'. rewrite H in H'. injection H' as <- <- <-.
      assert (c' = c) as ->.
      { destruct C as [(-> & ->)|(-> & ->)], C' as [(X & ->)|(X & ->)]; congruence. }
      apply joined_iff in J, J'. rewrite J in J'. injection J' as EI <-. apply app_inv_tail in EI. subst inner'.
      rewrite (values_unique o inner vs V vs' V'). f_equal. now apply IH.
Qed.

(** A text says one thing only. *)
Theorem C81_one_meaning :
  forall t es es', meta_file float_text t es -> meta_file float_text t es' -> es' = es.
Proof.
  intros t es es' (ls & T & E) (ls' & T' & E'). apply text_lines_fun in T, T'. rewrite T in T'. subst ls'.
  now apply (entries_unique ls).
Qed.

(** Comments make no difference anywhere, not even to which error is raised. *)
Theorem C81_comments_ignored :
  forall t t' ls ls', text_lines t ls -> text_lines t' ls' ->
  Forall2 (fun l l' => exists u, strips l u /\ strips l' u) ls ls' ->
  parsemeta float_arg t = parsemeta float_arg t'.
Proof.
  intros t t' ls ls' T T' S. apply text_lines_fun in T, T'. unfold parsemeta. rewrite T, T'. clear T T'.
  assert (SE : Forall2 (fun l l' => strip_comments l = strip_comments l') ls ls').
  { induction S as [|l l' ms ms' (u & U & U') S IH]; constructor; [|exact IH]. apply strip_comments_iff in U, U'. congruence. }
  clear S. assert (LE : length ls' = length ls) by (clear -SE; induction SE; cbn; congruence). rewrite LE. clear LE.
  assert (G : forall ls ls', Forall2 (fun l l' => strip_comments l = strip_comments l') ls ls' -> forall c w,
    match gather c w ls, gather c w ls' with
    | Ok (v, r), Ok (v', r') => v = v' /\ Forall2 (fun l l' => strip_comments l = strip_comments l') r r'
    | Err e, Err e' => e = e'
    | _, _ => False
    end).
  { induction 1 as [|l l' ms ms' E F IH]; intros c w; cbn [gather]; destruct (has c w); auto.
    rewrite E. apply IH. }
  generalize (length ls) at 1 2. intros k. generalize (@nil (text * list (value binary64))). revert ls ls' SE.
  induction k as [|k IH]; intros ls ls' SE d; [reflexivity|]. destruct SE as [|l l' ms ms' E F]; [reflexivity|]. cbn [parse_loop].
  rewrite E. destruct (forallb is_space (strip_comments l')); [now apply IH|].
  destruct (match_line (strip_comments l')) as [[key val]|]; [|reflexivity].
  destruct (closing_of val) as [c|e]; cbn [rbind]; [|reflexivity]. pose proof (G ms ms' F c val) as X.
  destruct (gather c val ms) as [[v r]|e], (gather c val ms') as [[v' r']|e']; try contradiction; cbn [rbind].
  - destruct X as (-> & X). destruct (entry_value float_arg (hd " "%char v') c v'); cbn [rbind]; [now apply IH|reflexivity].
  - now rewrite X.
Qed.

Lemma item_nonempty v : ~ item_value float_text [] v.
Proof.
  intros H. apply (parse1_iff float_arg float_text float_text_iff) in H. discriminate H.
Qed.

Lemma past_item s : Forall (fun c => ~ separator c) s -> forall x p r, s ++ x = p ++ " "%char :: r -> exists p', x = p' ++ " "%char :: r.
Proof.
  induction 1 as [|c s N NS IH]; intros x p r E; [now exists p|]. destruct p as [|d p]; cbn [app] in E.
  - injection E as -> _. elim N. now left.
  - injection E as _ E. now apply (IH x p r).
Qed.

Lemma comma_item q l : separated (","%char :: q) l -> In [] l.
Proof.
  intros S. inversion S as [s' N'|s' c' b' t' l' N' SC' B' NF' S' E]; subst.
  - inversion N' as [|? ? X]; subst. elim X. now right.
  - destruct s' as [|y s']; [now left|]. cbn [app] in E. injection E as -> _. inversion N' as [|? ? X]; subst. elim X. now right.
Qed.

Lemma past_blanks b : blank_text b -> forall t p q, b ++ t = p ++ " "%char :: ","%char :: q ->
  t = ","%char :: q \/ exists p', t = p' ++ " "%char :: ","%char :: q.
Proof.
  induction 1 as [|c b <- B IH]; intros t p q E; [right; now exists p|]. destruct p as [|d p]; cbn [app] in E.
  - injection E as E. destruct b as [|d b]; [now left|]. inversion B; subst. discriminate E.
  - injection E as _ E. now apply (IH t p).
Qed.

Lemma blank_comma_item core items : separated core items -> forall p q, core = p ++ " "%char :: ","%char :: q -> In [] items.
Proof.
  induction 1 as [s N|s c b t l N SC B NF S IH]; intros p q E.
  - rewrite <- (app_nil_r s) in E. apply past_item in E; [|exact N]. destruct E as (p' & E). destruct p'; discriminate E.
  - right. apply past_item in E; [|exact N]. destruct E as (p' & E). destruct p' as [|d p']; cbn [app] in E.
    + injection E as _ E. destruct b as [|d b]; [|inversion B; subst; discriminate E]. cbn [app] in E. subst t. now apply comma_item in S.
    + injection E as _ E. apply past_blanks in E; [|exact B]. destruct E as [-> |(p3 & E)]; [now apply comma_item in S|].
      now apply (IH p3 q).
Qed.

(** The comment in mds.py:124 says that the values in brackets are separated by commas.  But a
    list in which a blank stands before a comma is refused, wherever it is. *)
Theorem C81_blank_before_comma :
  forall p q, not_first separator p -> p <> [] -> not_last separator q -> q <> [] ->
  ~ exists vs, values float_text "["%char (p ++ " "%char :: ","%char :: q) vs.
Proof.
  intros p q PF PN QL QN (vs & V). inversion V as [inner core items vs' W S F|]; subst.
  assert (core = p ++ " "%char :: ","%char :: q) as ->.
  { apply (within_strip _ _ is_separator) in W. rewrite <- W. apply (within_strip _ _ is_separator).
    exists [], []. rewrite app_nil_r. repeat split; try constructor.
    - apply not_first_app; [exact PF|]. intros E. now elim PN.
    - replace (p ++ " "%char :: ","%char :: q) with ((p ++ [" "%char; ","%char]) ++ q) by (now rewrite <- app_assoc).
      intros c r E. destruct q as [|d q _] using rev_ind; [now elim QN|]. rewrite app_assoc in E. apply app_inj_tail in E.
      destruct E as (_ & <-). now apply (QL d q). }
  pose proof (blank_comma_item _ _ S p q eq_refl) as I. apply in_split in I. destruct I as (l1 & l2 & ->).
  apply Forall2_app_inv_l in F. destruct F as (v1 & v2 & _ & F & _). inversion F as [|? ? ? ? X]; subst. now apply item_nonempty in X.
Qed.

Theorem C81_commas_separate_refuted :
  ~ forall a b : Z, exists d, parsemeta float_arg (lit "k = [ " ++ int_text a ++ lit " , " ++ int_text b ++ lit " ];") = Ok d.
Proof.
  intros H. destruct (H 1 2)%Z as (d & E).
  assert (X : parsemeta float_arg (lit "k = [ 1 , 2 ];") = Err ParseError) by (vm_compute; reflexivity).
  change (lit "k = [ 1 , 2 ];") with (lit "k = [ " ++ int_text 1 ++ lit " , " ++ int_text 2 ++ lit " ];") in X.
  rewrite X in E. discriminate E.
Qed.

(** Nor does every file that cannot be parsed raise ParseError (mds.py:21): one that ends after
    an equals sign does not. *)
Theorem C81_parse_error_refuted :
  ~ forall t e, parsemeta float_arg t = Err e -> e = ParseError \/ exists m, e = ValueError m.
Proof.
  intros H. destruct (H (lit "nDims =") IndexError) as [E|(m & E)]; [vm_compute; reflexivity| |]; discriminate E.
Qed.

(** ** C82: numbers *)

(** int() *)
Theorem C82_integers : forall t z, int_of_text t = Some z <-> integer_text t z.
Proof. exact integer_text_iff. Qed.

(** Integers written out, as in the meta files of wrmds, are read back. *)
Theorem C82_written_integers : forall z, integer_text (int_text z) z.
Proof. intros z. apply integer_text_iff. apply int_of_int_text. Qed.

(** float() *)
Theorem C82_doubles : forall t x, float_arg t = Some x <-> float_text t x.
Proof. exact float_text_iff. Qed.

(** So the values on a command line are these. *)
Theorem C82_command_line_values : forall v a,
  (has_type An_integer v a <-> exists z, a = AInt z /\ integer_text v z) /\
  (has_type A_double v a <-> exists x, a = AFloat x /\ float_text v x).
Proof.
  intros v a. split; split.
  - intros H. inversion H as [|? z E|]; subst. exists z. split; [reflexivity|now apply integer_text_iff].
  - intros (z & -> & E). constructor. now apply integer_text_iff.
  - intros H. inversion H as [| |? x E]; subst. exists x. split; [reflexivity|now apply float_text_iff].
  - intros (x & -> & E). constructor. now apply float_text_iff.
Qed.

(** An integer is read by float() as the nearest double. *)
Theorem C82_integers_as_doubles : forall t z, integer_text t z ->
  exists x neg, float_text t x /\ nearest_double neg (IZR (Z.abs z)) x /\ z = (if neg then - Z.abs z else Z.abs z)%Z.
Proof.
  intros t z (a & sg & neg & body & ds & b & -> & A & B & S & SP & ->).
  pose proof (spelled_digits _ _ SP) as (DD & NE). pose proof (decimal_nonneg ds DD) as NN.
  assert (EA : Z.abs (if neg then - decimal_value ds else decimal_value ds) = decimal_value ds) by (destruct neg; lia).
  rewrite EA. pose proof (of_digits_nearest neg (decimal_value ds) 0 NN) as N. cbn [bpow] in N. rewrite Rmult_1_r in N.
  exists (of_digits neg (decimal_value ds) 0), neg. split; [|split; [exact N|destruct neg; lia]].
  exists a, sg, neg, body, b. repeat split; try assumption. right. right. exists (decimal_value ds), 0%Z. split.
  - exists body, ds, [], [], [], 0%Z. rewrite !app_nil_r. repeat split; [now right|now left|exact NE|now left].
  - cbn [bpow]. rewrite Rmult_1_r. exact N.
Qed.

Lemma number_as_double : forall t n k (neg : bool) x, number_text spelled t n k ->
  float_text ((if neg then ["-"%char] else []) ++ t) x -> nearest_double neg (IZR n * bpow radix10 k) x.
Proof.
  intros t n k neg x N X.
  assert (NN : (0 <= n)%Z).
  { destruct (number_drop t n k N) as (t' & (i & is & f & fs & e & ek & _ & I & F & _ & _ & -> & _) & _).
    apply decimal_nonneg. apply maybe_plain in I. apply Forall_app. split; [apply I|].
    destruct F as [(_ & ->)|(g & _ & G)]; [apply Forall_nil|]. now apply maybe_plain in G. }
  assert (Y : float_text ((if neg then ["-"%char] else []) ++ t) (of_digits neg n k)).
  { exists [], (if neg then ["-"%char] else []), neg, t, []. rewrite app_nil_r.
    split; [reflexivity|]. split; [constructor|]. split; [constructor|]. split; [destruct neg; constructor|]. right. right. exists n, k. split; [exact N|].
    now apply of_digits_nearest. }
  apply float_text_iff in X, Y. rewrite X in Y. injection Y as ->. now apply of_digits_nearest.
Qed.

(** Shifting the point by the exponent makes no difference: adding zeros before the exponent,
    or changing both, gives the same double. *)
Theorem C82_same_number_same_double : forall t t' n k n' k' (neg : bool) x x',
  number_text spelled t n k -> number_text spelled t' n' k' ->
  (IZR n * bpow radix10 k = IZR n' * bpow radix10 k')%R ->
  float_text ((if neg then ["-"%char] else []) ++ t) x -> float_text ((if neg then ["-"%char] else []) ++ t') x' -> x = x'.
Proof.
  intros t t' n k n' k' neg x x' N N' E X X'. apply (number_as_double t n k) in X; [|exact N]. apply (number_as_double t' n' k') in X'; [|exact N'].
  rewrite E in X. exact (nearest_unique _ _ _ _ X X').
Qed.

(** ** Cases *)

Definition shown_value (v : value binary64) : Z + Z + text :=
  match v with Vint z => inl (inl z) | Vfloat x => inl (inr (bits_of_b64 x)) | Vstr s => inr s end.
Definition shown_meta (t : text) : res (list (text * list (Z + Z + text))) :=
  match parsemeta float_arg t with
  | Ok d => Ok (map (fun kv => (fst kv, map shown_value (snd kv))) d)
  | Err e => Err e
  end.

(** Comments, a list over several lines, a key given twice, quotes in strings. *)
Definition ex_meta : text :=
  lit " nDims = [   1 ]; // old" ++ [newline] ++ [newline] ++
  lit " dimList = [ /* x */" ++ [newline] ++ lit "    90,  1,   90, // first" ++ [newline] ++ lit "  1_5, 1 15" ++ [newline] ++ lit " ];" ++ [newline] ++
  lit "nDims=[2];" ++ [newline] ++
  lit "mixed = [ 'it''s' 2.5e0 -3 ];" ++ [newline] ++
  lit " fldList = { 'Eta   ' 'U''V' };".

Example C81_case :
  shown_meta ex_meta = Ok
   [(lit "nDims", [inl (inl 2%Z)]);
    (lit "dimList", map (fun z => inl (inl z)) [90; 1; 90; 15; 1; 15]%Z);
    (lit "mixed", [inr (lit "it's"); inl (inr 4612811918334230528%Z); inl (inl (-3)%Z)]);
    (lit "fldList", [inr (lit "Eta"); inr (lit "U''V")])] /\
  exists es, meta_file float_text ex_meta es /\ last_value es (lit "nDims") = Some [Vint 2%Z].
Proof.
  split; [vm_compute; reflexivity|].
  destruct (parsemeta float_arg ex_meta) as [d|e] eqn:E.
  - assert (G : dget d (lit "nDims") = Some [Vint 2%Z]).
    { assert (X : match parsemeta float_arg ex_meta with Ok d => dget d (lit "nDims") | Err _ => None end = Some [Vint 2%Z])
        by (vm_compute; reflexivity).
      rewrite E in X. exact X. }
    pose proof (proj1 (parsemeta_iff float_arg float_text float_text_iff ex_meta d) E) as (es & M & D). exists es.
    split; [exact M|]. destruct (C81_reads_what_it_says ex_meta es M) as (d' & E' & _ & L).
    rewrite E in E'. injection E' as <-. now rewrite <- L.
  - assert (X : match parsemeta float_arg ex_meta with Ok _ => true | Err _ => false end = true) by (vm_compute; reflexivity).
    rewrite E in X. discriminate X.
Qed.

(** Refused: a blank before a comma; text after the closing bracket; no brackets. *)
Example C81_refused_case :
  Forall (fun t => shown_meta t = Err ParseError) [lit "a = [ 1 , 2 ];"; lit "a = [ 1 ] ;"; lit "a = 1;"; lit "a = [ 1"; lit "a b = [1];"] /\
  not_first separator (lit "1") /\ not_last separator (lit "2").
Proof.
  split; [repeat constructor|]. split.
  - intros c r [= <- <-] [X|X]; discriminate X.
  - intros c r E [-> | ->]; apply (f_equal (@rev _)) in E; rewrite rev_app_distr in E; discriminate E.
Qed.

(** Signs, underscores, exponents; rounding up to infinity and down to zero; texts that are
    no numbers. *)
Example C82_case :
  map (fun t => option_map bits_of_b64 (float_arg t))
    (map lit [" +1_0.5_0e-1 "; "-.5E1"; "1e309"; "-1e-400"; "InFiNiTy"; "0.1"; "1__0"; "1e"; "."; "_1"; "+-1"])%string
  = [Some 4607407598781385933; Some 13840687554816376832; Some 9218868437227405312; Some 9223372036854775808;
     Some 9218868437227405312; Some 4591870180066957722; None; None; None; None; None]%Z /\
  map int_of_text (map lit ["-0_12 "; "1_"; "--1"; "+ 1"; "1.0"])%string = [Some (-12)%Z; None; None; None; None] /\
  exists x, float_text (lit "-1e-400") x /\ nearest_double true (IZR 1 * bpow radix10 (-400)) x.
Proof.
  split; [vm_compute; reflexivity|]. split; [vm_compute; reflexivity|].
  assert (N : number_text spelled (lit "1e-400") 1 (-400)).
  { exists (lit "1"), (lit "1"), [], [], (lit "e-400"), (-400)%Z.
    split; [reflexivity|]. split; [right; apply sp_one; unfold digit; cbn; lia|]. split; [now left|]. split; [discriminate|].
    split; [|split; reflexivity]. right.
    exists "e"%char, (lit "-"), true, (lit "400"), (lit "400"). repeat split; [now left|constructor|].
    apply sp_next; [unfold digit; cbn; lia|]. apply sp_next; [unfold digit; cbn; lia|]. apply sp_one. unfold digit; cbn; lia. }
  pose proof (of_digits_nearest true 1 (-400) ltac:(lia)) as D. revert D. generalize (of_digits true 1 (-400)). intros x D.
  exists x. split; [|exact D]. exists [], (lit "-"), true, (lit "1e-400"), [].
  split; [reflexivity|]. split; [constructor|]. split; [constructor|]. split; [constructor|].
  right. right. now exists 1%Z, (-400)%Z.
Qed.
