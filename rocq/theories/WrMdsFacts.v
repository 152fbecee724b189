(** Facts about wrmds with times, deltat and dimlist. *)
From Coq Require Import Ascii String List Bool PeanoNat NArith ZArith Init.Byte Lia.
Import ListNotations.
From Verif Require Import Prelude PreludeFacts Num GridIO MdsMeta Mds SpecMds
  MdsTextFacts MdsParseFacts SpecGlob GlobFacts MdsScanFacts MdsFacts RdMds RdMdsAgree FmtE PyFloat WrMds.
Local Open Scope nat_scope.
Local Open Scope list_scope.

Ltac no_nl := let I := fresh in intros I; repeat (destruct I as [I|I]; [discriminate I|]); destruct I.

(** * Without the options *)

Lemma meta_text_plain {F} (T : timeops F) n dims dp nrec itr fields sim :
  meta_text_full T n dims dp nrec itr None fields sim = meta_text n dims dp nrec itr fields sim.
Proof. reflexivity. Qed.

Lemma wrmds_full_plain {F} (T : timeops F) C8 C4 fs fbase arr itr dp ndims nrecords fields sim mf :
  wrmds_full T C8 C4 fs fbase arr itr dp ndims nrecords TimesNone fields sim mf None None
  = wrmds C8 C4 fs fbase arr itr dp ndims nrecords fields sim mf.
Proof. reflexivity. Qed.

(** * The timeInterval entry *)

Section Parse.
Context {F : Type}.
Variable float_of : text -> option F.

(** Characters of a formatted number. *)
Definition num_char (c : ascii) : bool :=
  is_digit c || existsb (Ascii.eqb c) ["."; "E"; "+"; "-"; "I"; "N"; "F"; "A"]%char.

Lemma num_char_not c : num_char c = true ->
  blank_or_comma c = false /\ plain_char c = true /\ c <> newline /\ c <> "]"%char /\ c <> quote.
Proof.
  intros H. repeat split; try (intros ->; discriminate H).
  - unfold blank_or_comma. apply orb_false_iff. split; apply Ascii.eqb_neq; intros ->; discriminate H.
  - unfold plain_char. apply negb_true_iff, orb_false_iff; split; [apply orb_false_iff; split|];
      apply Ascii.eqb_neq; intros ->; discriminate H.
Qed.

Lemma split_tok tok : forall cur b t, forallb num_char tok = true -> tok <> [] ->
  split_items cur b (tok ++ t) = split_items (rev tok ++ cur) false t.
Proof.
  induction tok as [|c tok IH]; intros cur b t H E; [now elim E|].
  cbn [forallb] in H. apply andb_prop in H. destruct H as [Hc H].
  destruct (num_char_not c Hc) as (S & _). unfold blank_or_comma in S. apply orb_false_iff in S.
  destruct S as [S1 S2]. cbn [app split_items]. rewrite S1, S2. cbn [andb orb].
  destruct tok as [|c' tok'].
  - reflexivity.
  - rewrite IH by (auto; discriminate). cbn [rev]. now rewrite <- !app_assoc.
Qed.

(** Tokens, each after some blanks. *)
Definition tokens (l : list (nat * text)) : text := flat_map (fun nt => repeat " "%char (fst nt) ++ snd nt) l.
Definition tokens_ok (l : list (nat * text)) : Prop :=
  Forall (fun nt => forallb num_char (snd nt) = true /\ snd nt <> []) l.

Lemma split_tokens l : forall tok, tokens_ok ((0, tok) :: l) -> Forall (fun nt => 1 <= fst nt) l ->
  forall b, split_items [] b (tok ++ tokens l) = tok :: map snd l.
Proof.
  induction l as [|[n t] l IH]; intros tok O P b.
  - inversion O as [|? ? [H E] _]; subst. cbn [tokens flat_map map snd] in *.
    rewrite split_tok by assumption. cbn [split_items]. now rewrite app_nil_r, rev_involutive.
  - inversion O as [|? ? [H E] O']; subst. inversion P as [|? ? P1 P2]; subst. cbn [fst snd] in *.
    rewrite split_tok by assumption. rewrite app_nil_r. cbn [tokens flat_map fst snd map].
    destruct n as [|n]; [lia|]. cbn [repeat app split_items Ascii.eqb Bool.eqb andb orb].
    rewrite rev_involutive. f_equal. rewrite <- app_assoc, split_blanks.
    apply (IH t); [|assumption].
    inversion O' as [|? ? Q O'']; subst. constructor; assumption.
Qed.

Lemma tokens_last l : forall n tok, tokens_ok ((n, tok) :: l) ->
  exists r c, tokens ((n, tok) :: l) = r ++ [c] /\ num_char c = true.
Proof.
  induction l as [|[n' t'] l IH]; intros n tok O; inversion O as [|? ? [H E] O']; subst; cbn [snd] in *.
  - cbn [tokens flat_map fst snd]. rewrite app_nil_r.
    destruct (exists_last E) as (r & c & ->). exists (repeat " "%char n ++ r), c. split; [now rewrite app_assoc|].
    rewrite forallb_app in H. apply andb_prop in H. destruct H as [_ H]. cbn in H. now rewrite andb_true_r in H.
  - destruct (IH n' t' O') as (r & c & EQ & C). cbn [tokens flat_map fst snd] in *.
    exists ((repeat " "%char n ++ tok) ++ r), c. split; [|assumption]. rewrite EQ. now rewrite !app_assoc.
Qed.

Lemma value_tokens n tok l k : tokens_ok ((n, tok) :: l) -> Forall (fun nt => 1 <= fst nt) l ->
  entry_value float_of "[" "]" ("["%char :: (tokens ((n, tok) :: l) ++ repeat " "%char k) ++ lit "];")
  = mapM (parse1 float_of) (tok :: map snd l).
Proof.
  intros O P. unfold entry_value. rewrite skip_tail by reflexivity. change (lit "];") with ["]"%char; ";"%char] at 1.
  rewrite text_eqb_refl. cbn [negb]. rewrite inner_of by reflexivity.
  change (fun c => Ascii.eqb c " " || Ascii.eqb c ",") with blank_or_comma.
  assert (ST : strip blank_or_comma (tokens ((n, tok) :: l) ++ repeat " "%char k) = tok ++ tokens l).
  { unfold strip. cbn [tokens flat_map fst snd]. rewrite <- !app_assoc, lstrip_all by (now apply forallb_repeat).
    fold (tokens l).
    assert (LS : lstrip blank_or_comma (tok ++ tokens l ++ repeat " "%char k) = (tok ++ tokens l) ++ repeat " "%char k).
    { inversion O as [|? ? [H E] _]; subst. cbn [snd] in *. destruct tok as [|c tok]; [now elim E|].
      cbn [forallb] in H. apply andb_prop in H. cbn [app]. rewrite lstrip_stop by (now apply num_char_not).
      now rewrite <- app_assoc. }
    rewrite LS, rstrip_all by (now apply forallb_repeat).
    assert (O0 : tokens_ok ((0, tok) :: l)) by (inversion O; subst; constructor; assumption).
    destruct (tokens_last l 0 tok O0) as (r & c & EQ & C). cbn [tokens flat_map fst snd repeat app] in EQ.
    fold (tokens l) in EQ. rewrite EQ. apply rstrip_stop. now apply num_char_not. }
  rewrite ST. cbn [Ascii.eqb Bool.eqb]. rewrite split_tokens; [reflexivity | | assumption].
  inversion O; subst; constructor; assumption.
Qed.

Definition ti_char (c : ascii) : bool := num_char c || Ascii.eqb c " ".

Lemma tokens_chars l : tokens_ok l -> forallb ti_char (tokens l) = true.
Proof.
  intros O. unfold tokens. induction O as [|[n t] l [H _] O IH]; [reflexivity|].
  cbn [flat_map fst snd] in *. rewrite !forallb_app, IH, forallb_repeat by reflexivity. rewrite andb_true_r. cbn [andb].
  eapply forallb_imp; [|exact H]. intros a A. unfold ti_char. now rewrite A.
Qed.

Lemma ti_char_facts c : ti_char c = true -> plain_char c = true /\ c <> newline /\ c <> "]"%char.
Proof.
  unfold ti_char. intros H. apply orb_prop in H. destruct H as [H|H].
  - apply num_char_not in H. tauto.
  - apply Ascii.eqb_eq in H. subst c. repeat split; discriminate.
Qed.

(** One entry of tokens. *)
Lemma parse_tokens_line n tok l rest d : tokens_ok ((n, tok) :: l) -> Forall (fun nt => 1 <= fst nt) l ->
  parse float_of (lines_of (lit " timeInterval = [" ++ tokens ((n, tok) :: l) ++ lit " ];" ++ newline :: rest)) d
  = (vs <- mapM (parse1 float_of) (tok :: map snd l) ;;
     parse float_of (lines_of rest) (dset d (lit "timeInterval") vs)).
Proof.
  intros O P. set (T := tokens ((n, tok) :: l)) in *.
  pose proof (tokens_chars _ O) as TC. fold T in TC.
  assert (TN : forall c, In c T -> c <> newline /\ c <> "]"%char).
  { intros c I. rewrite forallb_forall in TC. apply TC, ti_char_facts in I. tauto. }
  replace (lit " timeInterval = [" ++ T ++ lit " ];" ++ newline :: rest)
    with ((lit " timeInterval = [" ++ T ++ lit " ];") ++ newline :: rest) by (now rewrite <- !app_assoc).
  rewrite lines_of_line.
  2:{ apply (no_newline_entry (F:=F) float_of " timeInterval = [" T " ];"); [no_nl | intros I; now apply TN in I | no_nl]. }
  set (val := lit "[" ++ T ++ lit " ];").
  replace ((lit " timeInterval = [" ++ T ++ lit " ];") ++ [newline])
    with (entry_line (lit "timeInterval") val)
    by (unfold entry_line, val; rewrite <- !app_assoc; reflexivity).
  rewrite parse_entry_any with (key := lit "timeInterval") (val := val) (cl := "]"%char) (whole := val) (rest' := lines_of rest).
  - unfold val. cbn [hd lit list_ascii_of_string app].
    replace (T ++ [" "%char; "]"%char; ";"%char]) with ((T ++ repeat " "%char 1) ++ lit "];")
      by (rewrite <- app_assoc; reflexivity).
    unfold T. rewrite value_tokens by assumption. reflexivity.
  - apply strip_comments_plain. unfold entry_line, val. rewrite !forallb_app.
    rewrite (forallb_imp ti_char plain_char T) by (assumption || (intros a A; now apply ti_char_facts)).
    reflexivity.
  - eapply match_entry_line with (c := "["%char) (e := ";"%char); try reflexivity; try discriminate.
    + exists (lit "[" ++ T ++ lit " ]"). unfold val. rewrite <- !app_assoc. reflexivity.
    + unfold val. rewrite !in_app_iff. intros [I|[I|I]].
      * revert I. no_nl.
      * now apply TN in I.
      * revert I. no_nl.
  - apply entry_line_not_blank.
  - reflexivity.
  - assert (HH : has "]" val = true).
    { apply has_in. unfold val. rewrite !in_app_iff. right; right. now right; left. }
    destruct (lines_of rest) as [|r0 rest0]; cbn [gather]; rewrite HH; reflexivity.
Qed.

End Parse.

(** * Written and read back *)

Section Written.
Context {F : Type} (N : numops F) (T : timeops F).
Variables (C8 C4 : codec F).
Hypotheses (E8 : forall x, length (enc C8 x) = 8) (E4 : forall x, length (enc C4 x) = 4).
Variable float_of : text -> option F.
(** The formatted number without the blanks before it. *)
Variable tok : F -> text.
Hypothesis format_tok : forall x, t_format T x = repeat " "%char (length (t_format T x) - length (tok x)) ++ tok x.

(** Times that are written separately. *)
Definition times_apart (l : list F) : Prop :=
  l <> [] /\ Forall (fun x => forallb num_char (tok x) = true /\ tok x <> []) l /\
  Forall (fun x => length (tok x) < length (t_format T x)) (tl l).

(** Times that can be written and parsed, with the values they come back as. *)
Definition times_ok (times : option (list F)) (vs : option (list (value F))) : Prop :=
  match times, vs with
  | None, None => True
  | Some l, Some vs => times_apart l /\ mapM (parse1 float_of) (map tok l) = Ok vs
  | _, _ => False
  end.

Definition written_meta_full (ndims : nat) (dims : list nat) (dataprec : text) (nrec : nat)
    (itr : option Z) (vs : option (list (value F))) (fields : option (list text)) (simulation : option text) : metadict F :=
  head_meta ndims dims dataprec nrec simulation
  ++ match itr with Some i => [(lit "timeStepNumber", [Vint i])] | None => [] end
  ++ match vs with Some l => [(lit "timeInterval", l)] | None => [] end
  ++ match fields with
     | Some fs => [(lit "nFlds", [Vint (Z.of_nat (length fs))]);
                   (lit "fldList", map (fun f => Vstr (rstrip is_space f)) fs)]
     | None => []
     end.

Lemma format_tokens l : flat_map (t_format T) l
  = tokens (map (fun x => (length (t_format T x) - length (tok x), tok x)) l).
Proof.
  unfold tokens. induction l as [|x l IH]; [reflexivity|]. cbn [flat_map map fst snd]. rewrite <- IH.
  f_equal. apply format_tok.
Qed.

Lemma parse_times_line l rest d : times_apart l ->
  parse float_of (lines_of ((lit " timeInterval = [" ++ flat_map (t_format T) l ++ lit " ];" ++ [newline]) ++ rest)) d
  = (vs <- mapM (parse1 float_of) (map tok l) ;; parse float_of (lines_of rest) (dset d (lit "timeInterval") vs)).
Proof.
  intros (NE & OK & LN). destruct l as [|x l]; [now elim NE|]. rewrite format_tokens. cbn [map tl] in *.
  rewrite <- !app_assoc. change ([newline] ++ rest) with (newline :: rest).
  rewrite parse_tokens_line.
  - rewrite map_map. cbn [snd]. reflexivity.
  - inversion OK; subst. constructor; [assumption|].
    apply Forall_forall. intros nt I. apply in_map_iff in I. destruct I as (y & <- & I). cbn [snd].
    rewrite Forall_forall in H2. now apply H2.
  - apply Forall_forall. intros nt I. apply in_map_iff in I. destruct I as (y & <- & I). cbn [fst].
    rewrite Forall_forall in LN. apply LN in I. lia.
Qed.

Lemma parse_tail_times times vs rest d : times_ok times vs ->
  parse float_of (lines_of (match times with
         | Some l => lit " timeInterval = [" ++ flat_map (t_format T) l ++ lit " ];" ++ [newline]
         | None => []
         end ++ rest)) d
  = parse float_of (lines_of rest) (match vs with Some l => dset d (lit "timeInterval") l | None => d end).
Proof.
  destruct times as [l|], vs as [vs|]; cbn [times_ok]; try contradiction; [|reflexivity].
  intros (AP & M). rewrite parse_times_line by assumption. now rewrite M.
Qed.

Lemma meta_text_full_parses ndims dims dataprec nrec itr times vs fields simulation :
  dims <> [] -> (dataprec = lit "float64" \/ dataprec = lit "float32") ->
  sim_ok simulation -> fields_ok fields -> times_ok times vs ->
  exists t, meta_text_full T ndims dims dataprec nrec itr times fields simulation = Ok t
    /\ parsemeta float_of t = Ok (written_meta_full ndims dims dataprec nrec itr vs fields simulation).
Proof.
  intros D P S H TO. unfold meta_text_full.
  assert (W : exists w, dim_width dims = Ok w).
  { destruct dims; [now elim D | eexists; reflexivity]. }
  destruct W as (w & ->). cbn [rbind].
  eexists. split; [reflexivity|].
  change (parsemeta float_of ?t) with (parse float_of (lines_of t) []).
  rewrite meta_head_parses by assumption.
  rewrite parse_tail_itr, (parse_tail_times _ _ _ _ TO), parse_tail_fields by assumption.
  f_equal. unfold written_meta_full, head_meta. destruct simulation, itr, fields, vs; reflexivity.
Qed.

(** What is left when the entries of the file are removed. *)
Definition kept_meta (ndims : nat) (dims : list nat) (dataprec : text) (nrec : nat)
    (fields : option (list text)) (simulation : option text) : metadict F :=
  match simulation with Some s => [(lit "simulation", [Vstr (rstrip is_space s)])] | None => [] end
  ++ [(lit "nDims", [Vint (Z.of_nat ndims)]);
      (lit "dataprec", [Vstr dataprec]);
      (lit "nrecords", [Vint (Z.of_nat nrec)])]
  ++ match fields with
     | Some fs => [(lit "nFlds", [Vint (Z.of_nat (length fs))]);
                   (lit "fldList", map (fun f => Vstr (rstrip is_space f)) fs)]
     | None => []
     end
  ++ [(lit "dimList", map (fun d => Vint (Z.of_nat d)) dims)].

Lemma readmeta_written_full t n L dataprec nrec itr vs fields sim :
  parsemeta float_of t = Ok (written_meta_full n (rev L) dataprec nrec itr vs fields sim) ->
  readmeta_full float_of t
  = Ok (mk_filemeta (mk_tilemeta (map Z.of_nat L) (map (fun _ => 0%Z) L) (map Z.of_nat L)
          (kept_meta n (rev L) dataprec nrec fields sim) false)
          (option_map (fun i => [Vint i]) itr) vs None) /\
  readmeta float_of t = Ok (mk_tilemeta (map Z.of_nat L) (map (fun _ => 0%Z) L) (map Z.of_nat L)
          (kept_meta n (rev L) dataprec nrec fields sim) false).
Proof.
  intros P.
  assert (RM : readmeta float_of t = Ok (mk_tilemeta (map Z.of_nat L) (map (fun _ => 0%Z) L) (map Z.of_nat L)
          (kept_meta n (rev L) dataprec nrec fields sim) false)).
  { unfold readmeta. rewrite P. cbn [rbind].
    assert (G : dget (written_meta_full n (rev L) dataprec nrec itr vs fields sim) (lit "dimList") = Some (dim_values (rev L)))
      by (destruct sim, itr, fields, vs; reflexivity).
    rewrite G, dim_values_ints, mapM_as_int. cbn [rbind].
    rewrite rev_dim_ints, rev_involutive, every3_0, every3_1, every3_2.
    rewrite !map_map. cbn [Z.sub]. rewrite <- map_rev, map_map.
    destruct sim, itr, fields, vs; reflexivity. }
  split; [|exact RM]. unfold readmeta_full. rewrite RM, P. cbn [rbind].
  destruct sim, itr, fields, vs; reflexivity.
Qed.

(** The dictionary rdmds returns for a written file. *)
Definition returned_dict (ndims : nat) (dims : list nat) (dataprec : text) (nrec : nat)
    (itr : option Z) (vs : option (list (value F))) (fields : option (list text)) (simulation : option text)
    : list (text * mentry (F:=F)) :=
  match simulation with Some s => [(lit "simulation", Vals [Vstr (rstrip is_space s)])] | None => [] end
  ++ [(lit "ndims", Vals [Vint (Z.of_nat ndims)]);
      (lit "dataprec", Vals [Vstr dataprec]);
      (lit "nrecords", Vals [Vint (Z.of_nat nrec)])]
  ++ match fields with
     | Some fs => [(lit "nflds", Vals [Vint (Z.of_nat (length fs))]);
                   (lit "fldlist", Vals (map (fun f => Vstr (rstrip is_space f)) fs))]
     | None => []
     end
  ++ [(lit "dimlist", Vals (map (fun d => Vint (Z.of_nat d)) dims))]
  ++ match itr with Some i => [(lit "timestepnumber", Vals [Vint i])] | None => [] end
  ++ match vs with Some l => [(lit "timeinterval", Lists [l])] | None => [] end.

Lemma meta_result_written n L dataprec nrec itr vs fields sim s :
  s_meta s = kept_meta n L dataprec nrec fields sim ->
  meta_result (mk_rdacc (Some s) (match option_map (fun i => [Vint i]) itr with Some l => l | None => [] end)
                 (match vs with Some l => [l] | None => [] end))
  = returned_dict n L dataprec nrec itr vs fields sim.
Proof.
  intros E. unfold meta_result. cbn [a_state a_steps a_intervals]. rewrite E.
  destruct sim, itr, fields, vs; reflexivity.
Qed.

Definition first_itr (itr : option Z) : Z := match itr with Some i => i | None => (-1)%Z end.

Theorem wrmds_full_read fs fbase (a : nd F) itr dataprec ndims nrecords times fields sim mf deltat dimlist
    o p n itr' times' vs :
  plain_name fbase -> NoDup (names fs) -> ~ has_tile (names fs) (base_name fbase itr') ->
  typeprefix mf = Some o -> typesuffix dataprec = Some p ->
  ndims_of (shape a) ndims nrecords = Ok n -> 2 <= n <= length (shape a) ->
  match nrecords with Some r => r = size (lead_dims (shape a) n) | None => True end ->
  1 <= size (lead_dims (shape a) n) -> sim_ok sim -> fields_ok fields ->
  let L := skipn (length (shape a) - n) (shape a) in
  let nrec := size (lead_dims (shape a) n) in
  match dimlist with Some l => l = map Z.of_nat (rev L) | None => True end ->
  step_and_times T itr (times_list times) deltat = Ok (itr', times') -> times_ok times' vs ->
  exists fs' t, let base := base_name fbase itr' in
    wrmds_full T C8 C4 fs fbase a itr dataprec ndims nrecords times fields sim mf deltat dimlist = (fs', Ok tt) /\
    fs' = write_file (write_file fs (base ++ lit ".meta") (text_bytes t))
            (base ++ lit ".data") (flat_map (enc_item C8 C4 p o) (ravel a)) /\
    meta_text_full T n (rev L) dataprec nrec itr' times' fields sim = Ok t /\
    dget fs' (base ++ lit ".meta") = Some (text_bytes t) /\
    dget fs' (base ++ lit ".data") = Some (flat_map (enc_item C8 C4 p o) (ravel a)) /\
    parsemeta float_of t = Ok (written_meta_full n (rev L) dataprec nrec itr' vs fields sim) /\
    exists b, rdmds_full N C8 C4 float_of fs' fbase (itarg_of (iters_of itr')) mf (rd_default N)
       = (fs', Ok (b, [first_itr itr'], returned_dict n (rev L) dataprec nrec itr' vs fields sim)) /\
       shape b = filter (fun d => 1 <? d) [nrec] ++ L /\
       ravel b = map (fun x => dec_item C8 C4 p o (enc_item C8 C4 p o x)) (ravel a).
Proof.
  intros PF ND NT TP TS NDIM NB NR NP S FO L nrec DL ST TO.
  unfold wrmds_full. rewrite TP, TS, NDIM. fold L. fold nrec.
  replace (match nrecords with Some r => negb (r =? nrec) | None => false end) with false
    by (destruct nrecords as [r|]; [rewrite NR; unfold nrec; rewrite Nat.eqb_refl; reflexivity | reflexivity]).
  replace (match dimlist with Some l => _ | None => false end) with false
    by (destruct dimlist as [l|]; [destruct (list_eq_dec Z.eq_dec l (map Z.of_nat (rev L))); [reflexivity | contradiction] | reflexivity]).
  rewrite ST.
  change (match itr' with Some i => fbase ++ ["."%char] ++ fmt_0d 10 i | None => fbase end)
    with (base_name fbase itr').
  assert (LL : length L = n) by (unfold L; rewrite skipn_length; lia).
  assert (RL : rev L <> []).
  { intros E. apply (f_equal (@length _)) in E. rewrite rev_length, LL in E. cbn in E. lia. }
  assert (DP : dataprec = lit "float64" \/ dataprec = lit "float32").
  { apply typesuffix_spec in TS. destruct p; auto. }
  destruct (meta_text_full_parses n (rev L) dataprec nrec itr' times' vs fields sim RL DP S FO TO) as (t & MT & PT).
  rewrite MT.
  destruct (readmeta_written_full t n L dataprec nrec itr' vs fields sim PT) as (RF & RM).
  destruct (read_written N C8 C4 float_of E8 E4 fs fbase a itr' dataprec mf o p n t _ PF ND NT TP TS NB NP RM)
    as (MF & GM & GD & b & RD & SB & RB).
  { destruct sim, fields; reflexivity. }
  { destruct sim, fields; reflexivity. }
  set (fs2 := write_file _ _ _) in *.
  exists fs2, t. split; [reflexivity|]. split; [reflexivity|]. split; [reflexivity|]. split; [exact GM|]. split; [exact GD|].
  split; [exact PT|].
  destruct (rdmds_one N C8 C4 float_of fs2 fbase (iters_of itr') mf b (first_itr itr') (base_name fbase itr')
              (base_name fbase itr' ++ lit ".meta") (text_bytes t)
              (mk_filemeta (mk_tilemeta (map Z.of_nat L) (map (fun _ => 0%Z) L) (map Z.of_nat L)
                (kept_meta n (rev L) dataprec nrec fields sim) false)
                (option_map (fun i => [Vint i]) itr') vs None) RD) as (b' & s & SM & EQ & FULL).
  { destruct itr'; reflexivity. }
  { destruct itr'; reflexivity. }
  { exact MF. }
  { exact GM. }
  { rewrite byte_text_bytes. exact RF. }
  cbn [fm_tile tm_meta fm_step fm_interval] in SM, FULL.
  rewrite (meta_result_written n (rev L) dataprec nrec itr' vs fields sim s SM) in FULL.
  exists b'. split; [exact FULL|]. split; [now rewrite (proj1 EQ)|].
  now rewrite (ravel_eq b' b EQ).
Qed.

(** * Times that cannot be read back *)

Lemma parse_no_times rest d :
  parse float_of (lines_of ((lit " timeInterval = [" ++ [] ++ lit " ];" ++ [newline]) ++ rest)) d = Err ParseError.
Proof.
  replace ((lit " timeInterval = [" ++ [] ++ lit " ];" ++ [newline]) ++ rest)
    with (lit " timeInterval = [ ];" ++ newline :: rest) by reflexivity.
  rewrite lines_of_line by no_nl.
  rewrite parse_entry_any with (key := lit "timeInterval") (val := lit "[ ];") (cl := "]"%char) (whole := lit "[ ];") (rest' := lines_of rest);
    try reflexivity.
  destruct (lines_of rest); reflexivity.
Qed.

Definition times_bad (l : list F) (e : exn) : Prop :=
  (l = [] /\ e = ParseError) \/ (times_apart l /\ mapM (parse1 float_of) (map tok l) = Err e) \/
  (exists n tk g, flat_map (t_format T) l = tokens ((n, tk) :: g) /\ tokens_ok ((n, tk) :: g) /\
     Forall (fun nt => 1 <= fst nt) g /\ mapM (parse1 float_of) (tk :: map snd g) = Err e).

Lemma meta_text_full_unparsable ndims dims dataprec nrec itr l e fields simulation :
  dims <> [] -> (dataprec = lit "float64" \/ dataprec = lit "float32") -> sim_ok simulation -> times_bad l e ->
  exists t, meta_text_full T ndims dims dataprec nrec itr (Some l) fields simulation = Ok t /\ parsemeta float_of t = Err e.
Proof.
  intros D P S B. unfold meta_text_full.
  assert (W : exists w, dim_width dims = Ok w).
  { destruct dims; [now elim D | eexists; reflexivity]. }
  destruct W as (w & ->). cbn [rbind].
  eexists. split; [reflexivity|].
  change (parsemeta float_of ?t) with (parse float_of (lines_of t) []).
  rewrite meta_head_parses by assumption. rewrite parse_tail_itr.
  destruct B as [(-> & ->)|[(AP & M)|(n & tk & g & FM & TO & P1 & M)]]; [apply parse_no_times| |].
  - rewrite parse_times_line by assumption. now rewrite M.
  - rewrite FM, <- !app_assoc. change ([newline] ++ ?r) with (newline :: r).
    rewrite parse_tokens_line by assumption. now rewrite M.
Qed.

Theorem wrmds_full_unreadable fs fbase (a : nd F) itr dataprec ndims nrecords times fields sim mf deltat dimlist
    o p n itr' l e ro :
  plain_name fbase -> NoDup (names fs) -> ~ has_tile (names fs) (base_name fbase itr') ->
  typeprefix mf = Some o -> typesuffix dataprec = Some p ->
  ndims_of (shape a) ndims nrecords = Ok n -> 1 <= n <= length (shape a) ->
  match nrecords with Some r => r = size (lead_dims (shape a) n) | None => True end -> sim_ok sim ->
  let L := skipn (length (shape a) - n) (shape a) in
  match dimlist with Some l => l = map Z.of_nat (rev L) | None => True end ->
  step_and_times T itr (times_list times) deltat = Ok (itr', Some l) -> times_bad l e ->
  exists fs',
    wrmds_full T C8 C4 fs fbase a itr dataprec ndims nrecords times fields sim mf deltat dimlist = (fs', Ok tt) /\
    rdmds_full N C8 C4 float_of fs' fbase (itarg_of (iters_of itr')) mf ro = (fs', Err e).
Proof.
  intros PF ND NT TP TS NDIM NB NR S L DL ST TB.
  unfold wrmds_full. rewrite TP, TS, NDIM. fold L. set (nrec := size (lead_dims (shape a) n)) in *.
  replace (match nrecords with Some r => negb (r =? nrec) | None => false end) with false
    by (destruct nrecords as [r|]; [rewrite NR, Nat.eqb_refl; reflexivity | reflexivity]).
  replace (match dimlist with Some l => _ | None => false end) with false
    by (destruct dimlist as [dl|]; [destruct (list_eq_dec Z.eq_dec dl (map Z.of_nat (rev L))); [reflexivity | contradiction] | reflexivity]).
  rewrite ST.
  change (match itr' with Some i => fbase ++ ["."%char] ++ fmt_0d 10 i | None => fbase end)
    with (base_name fbase itr').
  assert (RL : rev L <> []).
  { intros E. apply (f_equal (@length _)) in E. unfold L in E. rewrite rev_length, skipn_length in E. cbn [length] in E. lia. }
  assert (DP : dataprec = lit "float64" \/ dataprec = lit "float32").
  { apply typesuffix_spec in TS. destruct p; auto. }
  destruct (meta_text_full_unparsable n (rev L) dataprec nrec itr' l e fields sim RL DP S TB) as (t & MT & PT).
  rewrite MT. eexists. split; [reflexivity|].
  destruct (written_files fs fbase itr' t (flat_map (enc_item C8 C4 p o) (ravel a)) PF ND NT) as (_ & MF & GM & _).
  set (fs2 := write_file _ _ _) in *.
  unfold rdmds_full. rewrite TP.
  assert (IL : itr_list fs2 fbase (itarg_of (iters_of itr')) = Ok [first_itr itr']) by (destruct itr'; reflexivity).
  rewrite IL. cbn [length seq combine foldD]. unfold iter_body. cbn [fst snd a_state].
  replace (if adds (itarg_of (iters_of itr')) then fbase ++ ["."%char] ++ fmt_0d 10 (first_itr itr') else fbase)
    with (base_name fbase itr') by (destruct itr'; reflexivity).
  rewrite MF. cbn [foldD]. unfold tiles_body, read_tile_full. rewrite GM, byte_text_bytes.
  unfold readmeta_full, readmeta. rewrite PT. reflexivity.
Qed.

(** * Times written without a blank between them *)

Definition pad_of (x : F) : nat := length (t_format T x) - length (tok x).

Fixpoint groups (l : list F) : list (nat * text) :=
  match l with
  | [] => []
  | x :: r => match groups r with
              | (0, tk) :: g => (pad_of x, tok x ++ tk) :: g
              | g => (pad_of x, tok x) :: g
              end
  end.

Lemma groups_tokens l : flat_map (t_format T) l = tokens (groups l).
Proof.
  induction l as [|x l IH]; [reflexivity|]. cbn [flat_map groups]. rewrite format_tok. fold (pad_of x). rewrite IH.
  destruct (groups l) as [|[[|n] tk] g]; cbn [tokens flat_map fst snd repeat app]; now rewrite <- !app_assoc.
Qed.

Lemma groups_ok l : Forall (fun x => forallb num_char (tok x) = true /\ tok x <> []) l -> tokens_ok (groups l).
Proof.
  intros H. induction H as [|x l (C & NE) H IH]; [constructor|]. cbn [groups].
  destruct (groups l) as [|[[|n] tk] g]; constructor; try assumption; cbn [snd]; auto.
  - inversion IH as [|? ? (C' & _) _]; subst. cbn [snd] in C'. rewrite forallb_app, C, C'. split; [reflexivity|].
    intros E. apply app_eq_nil in E. now apply NE.
  - now inversion IH.
Qed.

Lemma groups_apart l : Forall (fun nt => 1 <= fst nt) (tl (groups l)).
Proof.
  induction l as [|x l IH]; [constructor|]. cbn [groups].
  destruct (groups l) as [|[[|n] tk] g]; cbn [tl] in *; auto. constructor; [cbn; lia | assumption].
Qed.

Lemma groups_parse e l : forall x,
  Forall (fun x => exists v, parse1 float_of (tok x) = Ok v) (x :: l) ->
  (forall x' y r, In x' (x :: l) -> In y l -> pad_of y = 0 -> parse1 float_of (tok x' ++ tok y ++ r) = Err e) ->
  exists tk g, groups (x :: l) = (pad_of x, tok x ++ tk) :: g /\
    (tk = [] \/ exists y r, In y l /\ pad_of y = 0 /\ tk = tok y ++ r) /\
    ((exists vs, mapM (parse1 float_of) (map snd g) = Ok vs) \/ mapM (parse1 float_of) (map snd g) = Err e) /\
    (Exists (fun y => pad_of y = 0) l ->
       (exists y r, In y l /\ pad_of y = 0 /\ tk = tok y ++ r) \/ mapM (parse1 float_of) (map snd g) = Err e).
Proof.
  induction l as [|y l IH]; intros x OK BAD.
  - exists [], []. cbn [groups]. rewrite app_nil_r. split; [reflexivity|]. split; [now left|]. split; [left; exists []; reflexivity|].
    intros H. inversion H.
  - inversion OK as [|? ? _ OK']; subst.
    destruct (IH y OK') as (tk & g & E & T1 & M & X).
    { intros x' y' r I1 I2. apply BAD; right; assumption. }
    change (groups (x :: y :: l)) with (match groups (y :: l) with
              | (0, tk) :: g => (pad_of x, tok x ++ tk) :: g
              | g => (pad_of x, tok x) :: g
              end). rewrite E. destruct (pad_of y) as [|n] eqn:PY.
    + exists (tok y ++ tk), g. split; [reflexivity|]. split; [right; exists y, tk; cbn; auto|]. split; [exact M|].
      intros _. left. exists y, tk. cbn. auto.
    + exists [], ((S n, tok y ++ tk) :: g). rewrite app_nil_r. split; [reflexivity|]. split; [now left|].
      assert (HD : (exists y' r, In y' l /\ pad_of y' = 0 /\ tk = tok y' ++ r) ->
                   parse1 float_of (tok y ++ tk) = Err e).
      { intros (y' & r & I & P0 & ->). apply BAD; [right; left; reflexivity | right; exact I | exact P0]. }
      assert (HV : (exists v, parse1 float_of (tok y ++ tk) = Ok v) \/ parse1 float_of (tok y ++ tk) = Err e).
      { destruct T1 as [->|T1]; [left; rewrite app_nil_r; now inversion OK' | right; now apply HD]. }
      cbn [map snd mapM]. split.
      * destruct HV as [(v & ->)| ->]; [|right; reflexivity]. cbn [rbind].
        destruct M as [(vs & ->)| ->]; [left; exists (v :: vs); reflexivity | right; reflexivity].
      * intros H. right. inversion H as [? ? P0|? ? H']; subst; [congruence|].
        destruct (X H') as [Y|Y]; [rewrite HD by assumption; reflexivity|].
        destruct HV as [(v & ->)| ->]; [|reflexivity]. cbn [rbind]. now rewrite Y.
Qed.

Lemma times_crowded l e :
  Forall (fun x => forallb num_char (tok x) = true /\ tok x <> []) l ->
  Forall (fun x => exists v, parse1 float_of (tok x) = Ok v) l ->
  (forall x y r, In x l -> In y l -> pad_of y = 0 -> parse1 float_of (tok x ++ tok y ++ r) = Err e) ->
  Exists (fun y => pad_of y = 0) (tl l) -> times_bad l e.
Proof.
  intros TO OK BAD EX. right. right. destruct l as [|x l]; [inversion EX|].
  destruct (groups_parse e l x OK) as (tk & g & E & T1 & M & X).
  { intros x' y r I1 I2. apply BAD; [exact I1 | right; exact I2]. }
  exists (pad_of x), (tok x ++ tk), g. rewrite groups_tokens, E. split; [reflexivity|].
  pose proof (groups_ok _ TO) as G1. pose proof (groups_apart (x :: l)) as G2. rewrite E in G1, G2.
  split; [exact G1|]. split; [exact G2|]. cbn [mapM]. cbn [tl] in EX.
  destruct (X EX) as [(y & r & I & P0 & ->)|Y].
  - rewrite BAD; [reflexivity | now left | now right | exact P0].
  - destruct T1 as [->|(y & r & I & P0 & ->)].
    + rewrite app_nil_r. inversion OK as [|? ? (v & V) _]; subst. rewrite V. cbn [rbind]. change (mapM (parse1 float_of) (map snd g) = Err e) in Y. unfold text in *. now rewrite Y.
    + rewrite BAD; [reflexivity | now left | now right | exact P0].
Qed.

End Written.
