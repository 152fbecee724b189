(** Property C95: what rdmds returns and reports, and the warnings of wrmds. *)
From Coq Require Import Ascii String List Bool PeanoNat ZArith Init.Byte Sorting.Sorted Lia.
From Flocq Require Import IEEE754.Binary IEEE754.Bits.
Import ListNotations.
From Verif Require Import Prelude PreludeFacts Num Mat MatFacts Fields GridIO Float64 Float64Facts
  Float32 Float32Facts SpecGrid GridIOFacts GridIOProofs MdsMeta Mds SpecMds MdsTextFacts MdsParseFacts
  SpecGlob GlobFacts MdsScanFacts MdsFacts GetObcsFacts RdMds SpecRdMds TileTextFacts RdMdsFacts RdMdsProofs RdMdsCalls
  SpecMapTile MapTileProofs Samples WrMds PropWrMds PropMds PropRdMds PropMapTile PropGlob AgreeFacts PyFloatFacts SpecSeries SeriesNames MdsSays.
Local Open Scope nat_scope.
Local Open Scope list_scope.

Definition rdmdsV64 (L : libm) (fo : text -> option binary64) := rdmdsV (b64ops L) b64codec b32codec fo.
Definition wrmdsV64 := wrmdsV b64times b64codec b32codec.

(** ** Lines and results *)
Section Facts.
Context {F : Type} (N : numops F).
Variables (C8 C4 : codec F).
Variable float_of : text -> option F.

Lemma itersV_result v fname additrs o od nits : forall l s,
  snd (itersV N C8 C4 float_of v fname additrs o od nits l s) =
  foldD (iter_body N C8 C4 float_of fname additrs o od nits) l s.
Proof.
  induction l as [|ii l IH]; intros s; [reflexivity|]. cbn [itersV foldD].
  destruct (iter_body N C8 C4 float_of fname additrs o od nits s ii) as (fs & [s'|e]); [|reflexivity].
  rewrite <- IH. destruct (itersV N C8 C4 float_of v fname additrs o od nits l s'). reflexivity.
Qed.

Definition answer_of (returnmeta : bool) (x : nd F * list Z * list (text * mentry (F:=F))) : answer (F:=F) :=
  let '(arr, itrs, meta) := x in if returnmeta then ArrayItsMeta arr itrs meta else Array arr.

Lemma rdmdsV_result rm v fs fname it mf o :
  snd (rdmdsV N C8 C4 float_of rm v fs fname it mf o) =
  (let '(fs', r) := rdmds_full N C8 C4 float_of fs fname it mf o in (fs', x <- r ;; Ok (answer_of rm x))).
Proof.
  unfold rdmdsV, rdmds_full. destruct (itr_list fs fname it) as [itrs|e]; [|reflexivity].
  destruct (typeprefix mf) as [od|]; [|reflexivity].
  rewrite <- (itersV_result v).
  destruct (itersV N C8 C4 float_of v fname (adds it) o od (length itrs) _ _) as (ms & [fs1 [[fs2 acc]|e]]); cbn [snd]; [|reflexivity].
  f_equal. destruct (match a_state acc with None => _ | Some s => _ end) as [a|e]; reflexivity.
Qed.

(** Reading changes no names. *)
Lemma read_data_names fs o od st d w ov : names (fst (read_data N C8 C4 fs o od st d w ov)) = names fs.
Proof.
  unfold read_data. destruct (_ || _); [|reflexivity]. destruct (ov_any ov); [|reflexivity].
  destruct (o_memmap o); [|reflexivity]. unfold memmap.
  destruct (dget fs d) as [bs|] eqn:D; [|reflexivity].
  destruct (_ =? 0); [reflexivity|]. destruct (_ <? _); [|reflexivity]. cbn [fst]. now apply (names_set _ _ bs).
Qed.

Lemma tiles_names o od nits iit : forall l s fs1 r, 
  foldD (tiles_body N C8 C4 float_of o od nits iit) l s = (fs1, Ok r) -> names (fst r) = names (fst s).
Proof.
  induction l as [|m l IH]; intros [fs [st fm]] fs1 r H; cbn [foldD] in H; [now injection H as _ <-|].
  unfold tiles_body at 1, read_tile_full in H.
  destruct (dget fs m) as [bs|]; [|discriminate H]. cbv zeta in H.
  match type of H with context [match ?p with Ok _ => _ | Err _ => _ end] =>
    match p with context [readmeta_full] => destruct p as [[[[fm' st1] ov] w]|e] end end; [|discriminate H].
  match type of H with context [read_data N C8 C4 fs o od st1 ?d w ov] =>
    pose proof (read_data_names fs o od st1 d w ov) as K; destruct (read_data N C8 C4 fs o od st1 d w ov) as (fs' & [a|e]) end;
    cbn [rbind] in H; [|discriminate H].
  apply IH in H. cbn [fst] in *. congruence.
Qed.

Lemma iter_names fname additrs o od nits s ii fs1 s' :
  iter_body N C8 C4 float_of fname additrs o od nits s ii = (fs1, Ok s') -> names (fst s') = names (fst s).
Proof.
  destruct s as (fs & acc). unfold iter_body. destruct (metafiles_of fs _) as [mfs|e]; [|discriminate].
  destruct (foldD (tiles_body N C8 C4 float_of o od nits (fst ii)) mfs (fs, (a_state acc, None)))
    as (fs2 & [[fs3 [st fm]]|e]) eqn:E; [|discriminate].
  intros [= _ <-]. apply tiles_names in E. exact E.
Qed.

Lemma metafiles_names fs fs' base : names fs' = names fs -> metafiles_of fs' base = metafiles_of fs base.
Proof. intros K. unfold metafiles_of, glob. now rewrite K. Qed.

(** the lines of the loop: the first meta files of the first iterations *)
Lemma itersV_lines fname additrs o od nits fs : forall l s, names (fst s) = names fs ->
  let x := itersV N C8 C4 float_of true fname additrs o od nits l s in
  exists n, n <= length l /\
    Forall2 (fun ii m => exists r, metafiles_of fs (base_of fname additrs (snd ii)) = Ok (m :: r)) (firstn n l) (fst x) /\
    (forall r, snd (snd x) = Ok r -> n = length l) /\
    (forall ii, nth_error l n = Some ii -> forall e, snd (snd x) = Err e ->
       metafiles_of fs (base_of fname additrs (snd ii)) = Err OSError /\ e = OSError \/ 1 <= n).
Proof.
  induction l as [|ii l IH]; intros s Hs; cbn [itersV].
  { exists 0. cbn [firstn fst snd length]. split; [lia|]. split; [constructor|]. split; [reflexivity|]. intros ii H. destruct ii; discriminate H. }
  assert (Hm : metafiles_of (fst s) (base_of fname additrs (snd ii)) = metafiles_of fs (base_of fname additrs (snd ii)))
    by now apply metafiles_names.
  unfold iter_says. match goal with |- context [metafiles_of (fst s) ?b] => change b with (base_of fname additrs (snd ii)) end.
  destruct (iter_body N C8 C4 float_of fname additrs o od nits s ii) as (fs1 & [s'|e]) eqn:E.
  - destruct (metafiles_of (fst s) (base_of fname additrs (snd ii))) as [[|m r]|e] eqn:M.
    + exfalso. pose proof (metafiles_found (fst s) (base_of fname additrs (snd ii))) as K. rewrite M in K. now apply (proj1 K).
    + pose proof (iter_names _ _ _ _ _ _ _ _ _ E) as Hn. specialize (IH s' ltac:(congruence)). cbv zeta in IH.
      destruct (itersV N C8 C4 float_of true fname additrs o od nits l s') as (ms & x). cbn [fst snd] in *.
      destruct IH as (n & Hl & F2 & OKn & Er). exists (S n). cbn [length firstn app]. split; [lia|].
      split; [constructor; [exists r; congruence|exact F2]|]. split; [intros; f_equal; eauto|]. intros; right; lia.
    + exfalso. destruct s as (fs0 & acc). unfold iter_body in E.
      cbn [fst] in M. match type of E with context [metafiles_of fs0 ?b] => change b with (base_of fname additrs (snd ii)) in E end.
      rewrite M in E. discriminate E.
  - destruct (metafiles_of (fst s) (base_of fname additrs (snd ii))) as [[|m r]|e'] eqn:M; cbn [fst snd].
    + exfalso. pose proof (metafiles_found (fst s) (base_of fname additrs (snd ii))) as K. rewrite M in K. now apply (proj1 K).
    + exists 1. cbn [length firstn]. split; [lia|]. split; [constructor; [exists r; congruence|constructor]|].
      split; [discriminate|]. intros; right; lia.
    + exists 0. cbn [length firstn]. split; [lia|]. split; [constructor|]. split; [discriminate|].
      cbn [nth_error]. intros ii' [= <-] e0 [= <-]. left.
      pose proof (metafiles_found (fst s) (base_of fname additrs (snd ii))) as K. rewrite M in K. destruct K as (-> & _).
      split; [congruence|]. destruct s as (fs0 & acc). unfold iter_body in E.
      cbn [fst] in M. match type of E with context [metafiles_of fs0 ?b] => change b with (base_of fname additrs (snd ii)) in E end.
      rewrite M in E. congruence.
Qed.
End Facts.

(** ** C95: verbose and returnmeta *)

(** Reports change nothing, and there are none unless asked for.  With returnmeta the result is
    the array, the iterations and the dictionary; without, it is the array alone. *)
Theorem C95_reports_change_nothing :
  forall (L : libm) fo rm v fs fname it mf o,
  let x := rdmdsV64 L fo rm v fs fname it mf o in
  let full := rdmds64_full L fo fs fname it mf o in
  (v = false -> fst x = []) /\
  fst (snd x) = fst full /\
  match snd full with
  | Ok (a, itrs, meta) => snd (snd x) = Ok (if rm then ArrayItsMeta a itrs meta else Array a)
  | Err e => snd (snd x) = Err e
  end.
Proof.
  intros L fo rm v fs fname it mf o. cbv zeta. split.
  - intros ->. unfold rdmdsV64, rdmdsV. destruct (itr_list fs fname it) as [itrs|e]; [|reflexivity].
    destruct (typeprefix mf) as [od|]; [|reflexivity].
    match goal with |- context [itersV ?N ?a ?b ?c false ?d ?e ?f ?g ?h ?l ?s] =>
      assert (K : forall l0 s0, fst (itersV N a b c false d e f g h l0 s0) = []) end.
    { clear. intros l0. induction l0 as [|ii l0 IH]; intros s0; [reflexivity|]. cbn [itersV].
      destruct (iter_body _ _ _ _ _ _ _ _ _ s0 ii) as (fs1 & [s'|e]); [|reflexivity].
      specialize (IH s'). destruct (itersV _ _ _ _ false _ _ _ _ _ l0 s') as (ms & x). exact IH. }
    match goal with |- context [itersV ?N ?a ?b ?c false ?d ?e ?f ?g ?h ?l ?s] => specialize (K l s);
      destruct (itersV N a b c false d e f g h l s) as (ms & x) end.
    cbn [fst] in *. now rewrite K.
  - pose proof (rdmdsV_result (b64ops L) b64codec b32codec fo rm v fs fname it mf o) as E.
    unfold rdmdsV64, rdmds64_full. rewrite E. clear E.
    destruct (rdmds_full (b64ops L) b64codec b32codec fo fs fname it mf o) as (fs' & [[[a itrs] meta]|e]); cbn [fst snd rbind answer_of];
      (split; [reflexivity|]); [destruct rm|]; reflexivity.
Qed.

(** The description promises the iterations when all or the last are asked for
    ([T,its = rdmds('T',numpy.Inf)]).  They are not returned. *)
Definition as_described (it : itarg) (x : res (answer (F:=binary64))) : Prop :=
  match it, x with
  | (ItNaN | ItInf), Ok r => exists a itrs, r = ArrayIts a itrs
  | _, Ok r => exists a, r = Array a
  | _, Err _ => True
  end.

Theorem C95_iterations_returned_refuted :
  (forall (L : libm) fo v fs fname it mf o r, snd (snd (rdmdsV64 L fo false v fs fname it mf o)) = Ok r -> exists a, r = Array a) /\
  ~ (forall (L : libm) fo v fs fname it mf o, as_described it (snd (snd (rdmdsV64 L fo false v fs fname it mf o)))).
Proof.
  assert (A : forall (L : libm) fo v fs fname it mf o r, snd (snd (rdmdsV64 L fo false v fs fname it mf o)) = Ok r -> exists a, r = Array a).
  { intros L fo v fs fname it mf o r H. destruct (C95_reports_change_nothing L fo false v fs fname it mf o) as (_ & _ & K).
    destruct (snd (rdmds64_full L fo fs fname it mf o)) as [[[a itrs] meta]|e]; rewrite H in K; [|discriminate K].
    injection K as ->. now exists a. }
  split; [exact A|]. intros D.
  specialize (D ex_libm ex_float_of false [] (lit "T") ItInf (lit "b") (rd_default (b64ops ex_libm))).
  destruct (snd (snd (rdmdsV64 ex_libm ex_float_of false false [] (lit "T") ItInf (lit "b") (rd_default (b64ops ex_libm))))) as [r|e] eqn:E.
  - destruct (A _ _ _ _ _ _ _ _ _ E) as (a & ->). destruct D as (b & itrs & X). discriminate X.
  - assert (K : match snd (snd (rdmdsV64 ex_libm ex_float_of false false [] (lit "T") ItInf (lit "b") (rd_default (b64ops ex_libm))))
                with Ok _ => true | Err _ => false end = true) by (vm_compute; reflexivity).
    rewrite E in K. discriminate K.
Qed.

(** ** The reports *)

(** m is the first meta file of [base] in the order of the directory *)
Definition first_metafile (l : list text) (base m : text) : Prop :=
  is_metafile l base m /\ exists l1 l2, l = l1 ++ m :: l2 /\ forall s, In s l1 -> ~ is_metafile l base s.

Lemma filter_head {A} (f : A -> bool) l m r : filter f l = m :: r ->
  exists l1 l2, l = l1 ++ m :: l2 /\ f m = true /\ forall s, In s l1 -> f s = false.
Proof.
  induction l as [|a l IH]; cbn [filter]; [discriminate|]. destruct (f a) eqn:E.
  - intros [= -> _]. exists [], l. repeat split; auto. intros s [].
  - intros H. destruct (IH H) as (l1 & l2 & -> & Fm & K). exists (a :: l1), l2. repeat split; auto.
    intros s [<-|I]; auto.
Qed.

Lemma metafiles_first fs base m r : metafiles_of fs base = Ok (m :: r) -> first_metafile (names fs) base m.
Proof.
  intros H. pose proof (metafiles_found fs base) as K. rewrite H in K. destruct K as (_ & K).
  pose proof (proj1 (K m) (or_introl eq_refl)) as IM. split; [exact IM|].
  unfold metafiles_of in H. rewrite tile_pattern_pat in H.
  assert (G : forall p s, In s (names fs) -> glob_match p s = false -> ~ file_match p s).
  { intros p s I N M. apply glob_match_iff in M. congruence. }
  destruct (glob fs (tile_pattern base)) as [|a l] eqn:E1.
  - destruct (glob fs (base ++ lit ".meta")) as [|a l] eqn:E2; [discriminate H|]. injection H as -> ->.
    destruct (filter_head _ _ _ _ E2) as (l1 & l2 & EN & Fm & N). exists l1, l2. split; [exact EN|].
    intros s I (J & [M|(_ & M)]).
    + pose proof (proj2 (C87_names_found fs (tile_pattern base) s) (conj J M)) as X. rewrite E1 in X. destruct X.
    + apply (G (base ++ lit ".meta") s J); auto.
  - injection H as -> ->. destruct (filter_head _ _ _ _ E1) as (l1 & l2 & EN & Fm & N). exists l1, l2. split; [exact EN|].
    intros s I (J & [M|(X & _)]).
    + apply (G (tile_pattern base) s J); auto.
    + destruct IM as (Im & _). apply (X m Im). now apply glob_match_iff.
Qed.

(** With verbose: first what was found when files were looked for, then for one iteration after
    the other the first of its meta files, as far as the reading gets; all of them if it
    succeeds.  An unknown machineformat is noticed before the first. *)
Theorem C95_reports :
  forall (L : libm) fo rm fs fname it mf o itrs, itr_list fs fname it = Ok itrs ->
  let x := rdmdsV64 L fo rm true fs fname it mf o in
  exists ms n, fst x = scan_says fs fname it ++ ms /\ n <= length itrs /\
    Forall2 (fun z m => first_metafile (names fs) (file_base fname it z) m) (firstn n itrs) ms /\
    (typeprefix mf = None -> n = 0) /\
    (forall r, snd (snd x) = Ok r -> n = length itrs) /\
    (n = 0 -> forall z rest e, itrs = z :: rest -> typeprefix mf <> None -> snd (snd x) = Err e ->
       e = OSError /\ forall s, ~ is_metafile (names fs) (file_base fname it z) s).
Proof.
  intros L fo rm fs fname it mf o itrs EI. cbv zeta. unfold rdmdsV64, rdmdsV. rewrite EI.
  destruct (typeprefix mf) as [od|].
  2:{ exists [], 0. cbn [fst snd firstn]. rewrite app_nil_r. split; [reflexivity|]. split; [lia|]. split; [constructor|].
      split; [reflexivity|]. split; [discriminate|]. intros _ z rest e _ X. now elim X. }
  pose proof (itersV_lines (b64ops L) b64codec b32codec fo fname (adds it) o od (length itrs) fs
    (combine (seq 0 (length itrs)) itrs) (fs, mk_rdacc None [] []) eq_refl) as K. cbv zeta in K.
  destruct (itersV _ _ _ _ true _ _ _ _ _ _ _) as (ms & fs1 & r). cbn [fst snd] in *.
  destruct K as (n & Hn & F2 & OKn & Er).
  assert (LC : length (combine (seq 0 (length itrs)) itrs) = length itrs) by (rewrite combine_length, seq_length; lia).
  assert (SN : map snd (combine (seq 0 (length itrs)) itrs) = itrs).
  { clear. generalize 0. induction itrs as [|z l IH]; intros k; [reflexivity|]. cbn [length seq combine map snd]. now rewrite IH. }
  rewrite LC in *. exists ms, n. split; [reflexivity|]. split; [exact Hn|]. split.
  { rewrite <- SN at 1. rewrite firstn_map. clear - F2. induction F2 as [|ii m l ms' H _ IH]; cbn [map]; constructor; auto.
    destruct H as (r & H). rewrite file_base_of. now apply (metafiles_first fs _ m r). }
  split; [discriminate|]. split.
  { intros a. destruct r as [[fs' acc]|e]; [|discriminate]. intros _. now apply (OKn (fs', acc)). }
  intros -> z rest e -> _. destruct r as [[fs' acc]|e'].
  { specialize (OKn _ eq_refl). discriminate OKn. }
  intros [= <-]. cbn [length seq combine] in Er. destruct (Er (0, z) eq_refl e' eq_refl) as [(M & E)|X]; [|lia].
  split; [exact E|]. cbn [snd] in M. rewrite file_base_of. pose proof (metafiles_found fs (base_of fname (adds it) z)) as MF.
  rewrite M in MF. apply MF.
Qed.

(** ** What was found *)

(** The numeral of a number that is not negative: digits, the first of them not 0 unless it is
    the only one. *)
Definition numeral (z : Z) (s : text) : Prop :=
  is_decimal s /\ decimal_value s = z /\ (s = ["0"%char] \/ exists c r, s = c :: r /\ c <> "0"%char).

Lemma int_numeral z : (0 <= z)%Z -> numeral z (int_text z).
Proof.
  intros P. rewrite int_text_nonneg by exact P. destruct (SeriesNames.dec_text_decimal (Z.to_N z)) as (D & V).
  split; [exact D|]. split; [rewrite V; lia|]. destruct (Z.eq_dec z 0) as [->|NZ]; [left; reflexivity|right].
  apply SeriesNames.dec_text_head. lia.
Qed.

Lemma first_tiles_or_not fs fname : plain_name fname ->
  (exists n, has_iteration (names fs) fname (lit ".001.001.meta") n) \/
  ~ (exists n, has_iteration (names fs) fname (lit ".001.001.meta") n).
Proof.
  intros P. assert (P1 : plain_name (fname ++ ["."%char])) by (apply plain_app; split; [exact P|apply dot_plain]).
  pose proof (fun s => glob_digits (fname ++ ["."%char]) 10 (lit ".001.001.meta") s P1 tile_plain) as G.
  destruct (existsb (glob_match ((fname ++ ["."%char]) ++ digits_pat 10 ++ lit ".001.001.meta")) (names fs)) eqn:E.
  - left. apply existsb_exists in E. destruct E as (s & I & M). apply G in M. destruct M as (ds & LD & D & ->).
    exists (decimal_value ds), ds. repeat split; auto. rewrite <- app_assoc in I. exact I.
  - right. intros (n & ds & LD & D & V & I). apply Bool.not_true_iff_false in E. apply E. apply existsb_exists.
    exists (fname ++ ["."%char] ++ ds ++ lit ".001.001.meta"). split; [exact I|]. apply G. exists ds. rewrite <- app_assoc. auto.
Qed.

Lemma scan_is_disk fs fname : plain_name fname -> NoDup (names fs) ->
  exists r, scanforfiles fs fname = Ok r /\ StronglySorted Z.lt r /\ (forall z, In z r <-> on_disk (names fs) fname z).
Proof.
  intros P N. destruct (scan_spec fs fname P N) as (r & E & S & H1 & H2). exists r. split; [exact E|]. split; [exact S|].
  intros z. unfold on_disk. destruct (first_tiles_or_not fs fname P) as [T|T].
  - rewrite (H1 T). split; [tauto|]. intros [H|(NT & _)]; tauto.
  - rewrite (H2 T). split; [tauto|]. intros [H|(NT & H)]; [|exact H]. elim T. now exists z.
Qed.

Lemma on_disk_nonneg l fname z : on_disk l fname z -> (0 <= z)%Z.
Proof. intros [(ds & _ & D & <- & _)|(_ & ds & _ & D & <- & _)]; apply decimal_bound in D; lia. Qed.

(** The iterations looked for: the line names how many there are, and all of them in order, or
    the highest. *)
Theorem C95_found :
  forall fs fname, plain_name fname -> NoDup (names fs) ->
  exists zs k, StronglySorted Z.lt zs /\ (forall z, In z zs <-> on_disk (names fs) fname z) /\ numeral (Z.of_nat (length zs)) k /\
  (exists ts, Forall2 numeral zs ts /\
     scan_says fs fname ItNaN = [lit "Reading " ++ k ++ lit " time levels: " ++ flat_map (fun t => " "%char :: t) ts]) /\
  (zs = [] -> scan_says fs fname ItInf = [lit "Found 0 time levels for " ++ fname]) /\
  (zs <> [] -> exists z t, on_disk (names fs) fname z /\ (forall y, on_disk (names fs) fname y -> (y <= z)%Z) /\ numeral z t /\
     scan_says fs fname ItInf = [lit "Found " ++ k ++ lit " time levels, reading " ++ t]).
Proof.
  intros fs fname P N. destruct (scan_is_disk fs fname P N) as (r & E & S & D). exists r, (int_text (Z.of_nat (length r))).
  split; [exact S|]. split; [exact D|]. split; [apply int_numeral; lia|].
  assert (NN : forall z, In z r -> (0 <= z)%Z) by (intros z I; eapply on_disk_nonneg; apply D, I).
  split; [|split].
  - exists (map int_text r). split.
    { clear - NN. induction r as [|z r IH]; constructor; [apply int_numeral, NN; now left|apply IH; intros; apply NN; now right]. }
    unfold scan_says. rewrite E. f_equal. unfold count_text. rewrite flat_map_concat_map, map_map.
    assert (W : forall l w, words (w :: l) = w ++ concat (map (fun t => " "%char :: t) l)).
    { induction l as [|t l IH]; intros w; [cbn [words map concat]; now rewrite app_nil_r|].
      change (words (w :: t :: l)) with (w ++ [" "%char] ++ words (t :: l)). rewrite IH. reflexivity. }
    rewrite W, map_map, <- !app_assoc. reflexivity.
  - intros ->. unfold scan_says. rewrite E. reflexivity.
  - intros NE. unfold scan_says. rewrite E. destruct (rev r) as [|x l] eqn:R.
    { elim NE. apply (f_equal (@rev Z)) in R. now rewrite rev_involutive in R. }
    assert (RR : r = rev l ++ [x]) by (rewrite <- (rev_involutive r), R; reflexivity).
    assert (IX : In x r) by (rewrite RR; apply in_app_iff; right; now left).
    exists x, (int_text x). split; [now apply D|]. split.
    { intros y Dy. apply D in Dy. rewrite RR in S, Dy. clear - S Dy. induction (rev l) as [|a k IH]; cbn [app] in *.
      - destruct Dy as [<-|[]]. lia.
      - apply StronglySorted_inv in S. destruct S as (S & A). rewrite Forall_forall in A. destruct Dy as [<-|I]; [|now apply IH].
        specialize (A x ltac:(apply in_app_iff; right; now left)). lia. }
    split; [now apply int_numeral, NN|]. unfold count_text. cbn [words]. rewrite <- !app_assoc. reflexivity.
Qed.

(** Nothing else is announced before the files. *)
Theorem C95_nothing_looked_for :
  forall fs fname it, it <> ItNaN -> it <> ItInf -> scan_says fs fname it = [].
Proof. intros fs fname [] H1 H2; first [reflexivity | now elim H1 | now elim H2]. Qed.

(** The highest is asked for and there is none: one line, an empty array and no error. *)
Theorem C95_nothing_found :
  forall (L : libm) fo rm fs fname mf o, plain_name fname -> NoDup (names fs) -> typeprefix mf <> None ->
  (forall z, ~ on_disk (names fs) fname z) ->
  let x := rdmdsV64 L fo rm true fs fname ItInf mf o in
  fst x = [lit "Found 0 time levels for " ++ fname] /\
  exists a, snd x = (fs, Ok (if rm then ArrayItsMeta a [] [] else Array a)) /\ shape a = [0].
Proof.
  intros L fo rm fs fname mf o P N OD NO x. destruct (scan_is_disk fs fname P N) as (r & E & S & D).
  assert (r = []) as -> by (destruct r as [|z r]; [reflexivity|]; elim (NO z); apply D; now left).
  subst x. unfold rdmdsV64, rdmdsV. cbn [itr_list scan_says]. rewrite E. cbn [rbind rev].
  destruct (typeprefix mf) as [od|]; [|now elim OD]. cbn [length seq combine itersV fst snd a_state app].
  split; [reflexivity|]. eexists. split; [destruct rm; reflexivity|reflexivity].
Qed.

(** ** The warnings of wrmds *)

(** The arguments pass the checks: n dimensions are those of a record. *)
Definition passes (a : nd binary64) (dp : text) (ndims nrecords : option nat) (mf : text) (dimlist : option (list Z)) (n : nat) : Prop :=
  typeprefix mf <> None /\ typesuffix dp <> None /\ ndims_of (shape a) ndims nrecords = Ok n /\
  (forall r, nrecords = Some r -> r = size (lead_dims (shape a) n)) /\
  (forall l, dimlist = Some l -> l = map Z.of_nat (rev (skipn (length (shape a) - n) (shape a)))).

Lemma passes_or a dp ndims nrecords mf dimlist itr times deltat :
  (exists n, passes a dp ndims nrecords mf dimlist n /\
     wrmds_says a itr dp ndims nrecords times mf deltat dimlist =
       (if n + 1 <? length (shape a) then [folding_line] else []) ++
       match deltat, itr, times_list times with Some _, Some _, Some _ => [deltat_line] | _, _, _ => [] end) \/
  (wrmds_says a itr dp ndims nrecords times mf deltat dimlist = [] /\ (forall n, ~ passes a dp ndims nrecords mf dimlist n) /\
   forall fs fbase fields sim, exists e, write64 fs fbase a itr dp ndims nrecords times fields sim mf deltat dimlist = (fs, Err e)).
Proof.
  unfold wrmds_says, write64, wrmds_full64, wrmds_full, passes.
  destruct (typeprefix mf) as [o|]. 2:{ right. split; [reflexivity|]. split; [intros n (X & _); now elim X|]. intros. eauto. }
  destruct (typesuffix dp) as [p|]. 2:{ right. split; [reflexivity|]. split; [intros n (_ & X & _); now elim X|]. intros. eauto. }
  destruct (ndims_of (shape a) ndims nrecords) as [n|e]. 2:{ right. split; [reflexivity|]. split; [intros n (_ & _ & X & _); discriminate X|]. intros. eauto. }
  cbv zeta. set (nrec := size (lead_dims (shape a) n)). set (dims := rev (skipn (length (shape a) - n) (shape a))).
  destruct (match nrecords with Some r => negb (r =? nrec) | None => false end) eqn:B1.
  { right. split; [reflexivity|]. split; [|intros; eauto]. intros m (_ & _ & [= <-] & X & _). destruct nrecords as [r|]; [|discriminate B1].
    rewrite (X r eq_refl), Nat.eqb_refl in B1. discriminate B1. }
  destruct (match dimlist with Some l => _ | None => false end) eqn:B2.
  { right. split; [reflexivity|]. split; [|intros; eauto]. intros m (_ & _ & [= <-] & _ & X). destruct dimlist as [l|]; [|discriminate B2].
    destruct (list_eq_dec Z.eq_dec l (map Z.of_nat dims)) as [Q|Q]; [discriminate B2|]. now elim Q; apply X. }
  left. exists n. split; [|reflexivity]. split; [discriminate|]. split; [discriminate|]. split; [reflexivity|]. split.
  - intros r ->. apply negb_false_iff, Nat.eqb_eq in B1. exact B1.
  - intros l ->. destruct (list_eq_dec Z.eq_dec l (map Z.of_nat dims)) as [Q|Q]; [exact Q|discriminate B2].
Qed.

(** A file is written only by a call that passes the checks; then there is a warning exactly
    when more than one dimension is folded into the records, and exactly when a deltat is given
    with both the iteration and the times.  A call that does not pass warns of nothing. *)
Theorem C95_warnings :
  forall fs fbase a itr dp ndims nrecords times fields sim mf deltat dimlist,
  let x := wrmdsV64 fs fbase a itr dp ndims nrecords times fields sim mf deltat dimlist in
  snd x = write64 fs fbase a itr dp ndims nrecords times fields sim mf deltat dimlist /\
  (forall n, passes a dp ndims nrecords mf dimlist n -> exists l1 l2, fst x = l1 ++ l2 /\
     l1 = (if n + 1 <? length (shape a) then [lit "Warning: folding several dimensions into record dimension."] else []) /\
     (deltat <> None /\ itr <> None /\ times <> TimesNone /\ l2 = [lit "Warning: discarding deltat."] \/
      (deltat = None \/ itr = None \/ times = TimesNone) /\ l2 = [])) /\
  ((forall n, ~ passes a dp ndims nrecords mf dimlist n) -> fst x = [] /\ exists e, snd x = (fs, Err e)).
Proof.
  intros fs fbase a itr dp ndims nrecords times fields sim mf deltat dimlist. cbv zeta. unfold wrmdsV64, wrmdsV. cbn [fst snd].
  split; [reflexivity|].
  destruct (passes_or a dp ndims nrecords mf dimlist itr times deltat) as [(n & Q & ->)|(-> & NP & W)].
  - split; [|intros X; elim (X n Q)]. intros m Qm.
    assert (m = n) as -> by (destruct Q as (_ & _ & Q & _), Qm as (_ & _ & Qm & _); congruence).
    eexists _, _. split; [reflexivity|]. split; [reflexivity|].
    destruct deltat as [dt|]; [|now right; auto]. destruct itr as [i|]; [|now right; auto].
    destruct times as [|t|l]; [now right; auto| |]; left; repeat split; discriminate.
  - split; [intros n Q; elim (NP n Q)|]. intros _. split; [reflexivity|]. apply W.
Qed.

(** Without ndims and nrecords: from five dimensions on. *)
Theorem C95_folding_by_default :
  forall fs fbase a dp fields sim mf, typeprefix mf <> None -> typesuffix dp <> None ->
  fst (wrmdsV64 fs fbase a None dp None None TimesNone fields sim mf None None)
  = if 5 <=? length (shape a) then [lit "Warning: folding several dimensions into record dimension."] else [].
Proof.
  intros fs fbase a dp fields sim mf O P. destruct (C95_warnings fs fbase a None dp None None TimesNone fields sim mf None None) as (_ & W & _).
  destruct (W (Nat.min 3 (length (shape a)))) as (l1 & l2 & -> & -> & [(X & _)|(_ & ->)]); [| now elim X|].
  { repeat split; auto; discriminate. }
  rewrite app_nil_r. destruct (Nat.leb_spec 5 (length (shape a))) as [H|H], (Nat.ltb_spec (Nat.min 3 (length (shape a)) + 1) (length (shape a)));
    first [reflexivity | lia].
Qed.

(** ** Cases *)
Definition said {A} (x : list text * A) : list string := map string_of_list_ascii (fst x).
Definition answered (x : list text * (directory * res (answer (F:=binary64)))) : option (list nat * option (list Z)) :=
  match snd (snd x) with
  | Ok (Array a) => Some (shape a, None)
  | Ok (ArrayIts a l) => Some (shape a, Some l)
  | Ok (ArrayItsMeta a l _) => Some (shape a, Some l)
  | Err _ => None
  end.
Definition ex_says (rm : bool) (it : itarg) (mf : string) := rdmdsV64 ex_libm ex_float_of rm true ex_tiles (lit "T") it (lit mf) ex_opts.

(** Two iterations on disk, the later one first in the directory; all, the last, one that is
    missing, and an unknown machineformat. *)
Example C95_case :
  plain_name (lit "T") /\ NoDup (names ex_tiles) /\
  itr_list ex_tiles (lit "T") ItNaN = Ok [7; 30]%Z /\
  (said (ex_says false ItNaN "l"), answered (ex_says false ItNaN "l"))
  = (["Reading 2 time levels:  7 30"; "T.0000000007.001.001.meta"; "T.0000000030.001.001.meta"]%string, Some ([2; 2; 2; 1; 2], None)) /\
  (said (ex_says true ItInf "l"), answered (ex_says true ItInf "l"))
  = (["Found 2 time levels, reading 30"; "T.0000000030.001.001.meta"]%string, Some ([2; 2; 1; 2], Some [30%Z])) /\
  (said (ex_says true (ItList [7; 8; 30]%Z) "l"), answered (ex_says true (ItList [7; 8; 30]%Z) "l"))
  = (["T.0000000007.001.001.meta"]%string, None) /\
  (said (ex_says true ItInf "x"), answered (ex_says true ItInf "x")) = (["Found 2 time levels, reading 30"]%string, None).
Proof.
  split; [apply PropRdMds.C65_case|]. split; [apply PropRdMds.C65_case|].
  repeat split; vm_compute; reflexivity.
Qed.

Example C95_nothing_found_case :
  said (rdmdsV64 ex_libm ex_float_of true true ex_tiles (lit "S") ItInf (lit "l") ex_opts) = ["Found 0 time levels for S"]%string /\
  answered (rdmdsV64 ex_libm ex_float_of true true ex_tiles (lit "S") ItInf (lit "l") ex_opts) = Some ([0], Some []).
Proof. split; vm_compute; reflexivity. Qed.

(** Five dimensions; deltat with an iteration and a time. *)
Definition ex_five (sh : list nat) : nd binary64 := mk_nd sh (fun _ => b64_half).
Example C95_warnings_case :
  passes (ex_five [2; 1; 1; 2; 2]) (lit "float64") (Some 2) (Some 2) (lit "b") (Some [2; 2]%Z) 2 /\
  (let x := wrmdsV64 [] (lit "T") (ex_five [2; 1; 1; 2; 2]) (Some 5%Z) (lit "float64") (Some 2) (Some 2) (TimesOne b64_half) None None
     (lit "b") (Some b64_half) (Some [2; 2]%Z) in
   (said x, map string_of_list_ascii (names (fst (snd x))))) =
  (["Warning: folding several dimensions into record dimension."; "Warning: discarding deltat."]%string,
   ["T.0000000005.meta"; "T.0000000005.data"]%string) /\
  said (wrmdsV64 [] (lit "T") (ex_five [2; 1; 1; 2; 2]) None (lit "float64") None None TimesNone None None (lit "b") None None)
  = ["Warning: folding several dimensions into record dimension."]%string /\
  said (wrmdsV64 [] (lit "T") (ex_five [2; 1; 2; 2]) None (lit "float64") None None TimesNone None None (lit "b") None None) = [] /\
  (forall n, ~ passes (ex_five [2; 1; 1; 2; 2]) (lit "float64") (Some 2) (Some 3) (lit "b") None n).
Proof.
  split; [|split; [vm_compute; reflexivity|split; [vm_compute; reflexivity|split; [vm_compute; reflexivity|]]]].
  - split; [discriminate|]. split; [discriminate|]. split; [reflexivity|]. split; intros ? [= <-]; reflexivity.
  - intros n (_ & _ & [= <-] & X & _). specialize (X 3 eq_refl). discriminate X.
Qed.
