(** Properties C79-C80: the files of an iteration, and series of iterations. *)
From Coq Require Import Ascii String List Bool PeanoNat NArith ZArith Init.Byte Sorting.Sorted Lia.
From Flocq Require Import IEEE754.Binary IEEE754.Bits.
Import ListNotations.
From Verif Require Import Prelude PreludeFacts Num Float64 Float64Facts Float32 Float32Facts GridIO GridIOProofs
  MdsMeta Mds SpecMds MdsTextFacts MdsParseFacts SpecGlob GlobFacts
  MdsScanFacts MdsFacts RdMds SpecRdMds RdMdsFacts RdMdsProofs RdMdsCalls Samples PropMds PropRdMds
  FmtE FmtEFacts PyFloat WrTimesFacts WrMds WrMdsFacts PropWrMds SpecSeries SeriesNames SeriesFrame SeriesFacts.
Local Open Scope nat_scope.
Local Open Scope list_scope.

(** ** C79: the files of an iteration *)

(** Each iteration number has one text, and no two have the same. *)
Theorem C79_one_name_each :
  forall z, (exists t, iteration_text z t /\ forall t', iteration_text z t' -> t' = t) /\
  forall z' t, iteration_text z t -> iteration_text z' t -> z' = z.
Proof.
  intros z. split.
  - exists (fmt_0d 10 z). split; [apply fmt_iteration|]. intros t'. apply iteration_text_iff.
  - intros z' t T T'. now apply (iteration_inj z' z t).
Qed.

Lemma wrmds_touches fs fbase (a : nd binary64) itr dp ndims nrecords times fields sim mf deltat dimlist z fs' r :
  itr = Some z -> write64 fs fbase a itr dp ndims nrecords times fields sim mf deltat dimlist = (fs', r) ->
  (fs' = fs /\ exists e, r = Err e) \/
  (exists m, fs' = write_file fs (fbase ++ ["."%char] ++ fmt_0d 10 z ++ lit ".meta") m /\ exists e, r = Err e) \/
  (exists m d, fs' = write_file (write_file fs (fbase ++ ["."%char] ++ fmt_0d 10 z ++ lit ".meta") m)
                       (fbase ++ ["."%char] ++ fmt_0d 10 z ++ lit ".data") d /\ r = Ok tt).
Proof.
  intros -> H. unfold write64, wrmds_full64, wrmds_full in H.
  destruct (typeprefix mf) as [o|]; [|left; injection H as <- <-; eauto].
  destruct (typesuffix dp) as [p|]; [|left; injection H as <- <-; eauto].
  destruct (ndims_of (shape a) ndims nrecords) as [n|e]; [|left; injection H as <- <-; eauto].
  destruct (match nrecords with Some r0 => _ | None => false end); [left; injection H as <- <-; eauto|].
  destruct (match dimlist with Some l => _ | None => false end); [left; injection H as <- <-; eauto|].
  assert (ST : match step_and_times b64times (Some z) (times_list times) deltat with Ok (i, _) => i = Some z | Err _ => True end).
  { unfold step_and_times. destruct deltat; [destruct (times_list times)|]; reflexivity. }
  destruct (step_and_times b64times (Some z) (times_list times) deltat) as [[i ts]|e]; [|left; injection H as <- <-; eauto]. subst i.
  destruct (meta_text_full _ _ _ _ _ _ _ _ _) as [t|e].
  - right. right. apply (f_equal fst) in H as H1. apply (f_equal snd) in H as H2. cbn [fst snd] in H1, H2. rewrite <- !app_assoc in H1.
    eexists _, _. split; [symmetry; exact H1 | now symmetry].
  - right. left. apply (f_equal fst) in H as H1. apply (f_equal snd) in H as H2. cbn [fst snd] in H1, H2. rewrite <- !app_assoc in H1.
    eexists. split; [symmetry; exact H1 | now exists e].
Qed.

(** wrmds writes the two files with the iteration in their names and no other. *)
Theorem C79_writes_these_files :
  forall fs fbase (a : nd binary64) z dp ndims nrecords times fields sim mf deltat dimlist fs' r t,
  write64 fs fbase a (Some z) dp ndims nrecords times fields sim mf deltat dimlist = (fs', r) -> iteration_text z t ->
  (r = Ok tt -> (exists m, dget fs' (fbase ++ ["."%char] ++ t ++ lit ".meta") = Some m) /\
                (exists d, dget fs' (fbase ++ ["."%char] ++ t ++ lit ".data") = Some d)) /\
  forall k, k <> fbase ++ ["."%char] ++ t ++ lit ".meta" -> k <> fbase ++ ["."%char] ++ t ++ lit ".data" ->
    dget fs' k = dget fs k.
Proof.
  intros fs fbase a z dp ndims nrecords times fields sim mf deltat dimlist fs' r t W T. apply iteration_text_iff in T. subst t.
  apply (wrmds_touches fs fbase a (Some z) dp ndims nrecords times fields sim mf deltat dimlist z fs' r eq_refl) in W.
  assert (MD : fbase ++ ["."%char] ++ fmt_0d 10 z ++ lit ".meta" <> fbase ++ ["."%char] ++ fmt_0d 10 z ++ lit ".data").
  { intros X. do 3 apply app_inv_head in X. discriminate X. }
  destruct W as [(-> & e & ->)|[(m & -> & e & ->)|(m & d & -> & ->)]].
  - split; [discriminate|reflexivity].
  - split; [discriminate|]. intros k K _. unfold write_file. now rewrite dget_dset_ne.
  - split.
    + intros _. unfold write_file. rewrite !dget_dset, !text_eqb_refl. apply text_eqb_neq in MD. unfold text in *. rewrite MD. eauto.
    + intros k K K'. unfold write_file. now rewrite !dget_dset_ne.
Qed.

(** rdmds reads the files of the iterations asked for, and no other: any other file may be
    changed, added or emptied.  With iterations to be found on disk, a file that is not a meta
    file. *)
Theorem C79_reads_these_files :
  forall (L : libm) fo fs fname it mf o k bs, plain_name fname ->
  match given it with
  | Some l => forall z b, In z l -> base_for fname it z b -> ~ file_of b k
  | None => (forall q, k <> q ++ lit ".meta") /\ forall z b, base_for fname it z b -> ~ file_of b k
  end ->
  snd (rdmds64_full L fo (write_file fs k bs) fname it mf o) = snd (rdmds64_full L fo fs fname it mf o) /\
  forall n, n <> k ->
    dget (fst (rdmds64_full L fo (write_file fs k bs) fname it mf o)) n = dget (fst (rdmds64_full L fo fs fname it mf o)) n.
Proof.
  intros L fo fs fname it mf o k bs PF H. unfold rdmds64_full.
  destruct (rdmds_agree (b64ops L) b64codec b32codec fo k fs (write_file fs k bs) fname it mf o) as (R & A & _).
  - exact PF.
  - destruct (given it); [left; discriminate|right; apply H].
  - intros itrs z E I. destruct (given it) as [l|] eqn:G.
    + apply (H z); [|now apply base_for_iff]. destruct it; cbn in E, G; try discriminate G; congruence.
    + apply (proj2 H z). now apply base_for_iff.
  - apply agree_write.
  - split; [exact R|exact A].
Qed.

(** The iterations of a field do not depend on each other: writing one leaves what is read of
    the others as it was. *)
Definition reads_iteration (it : itarg) (z : Z) : Prop :=
  match it with
  | ItNone => False
  | ItOne y => y = z /\ y <> (-1)%Z
  | ItList l => In z l
  | ItNaN | ItInf => True
  end.

Lemma not_read fbase it l y z b t e : given it = Some l -> ~ reads_iteration it z -> In y l -> base_for fbase it y b ->
  iteration_text z t -> e = lit ".meta" \/ e = lit ".data" -> ~ file_of b (fbase ++ ["."%char] ++ t ++ e).
Proof.
  intros G NR I B T HE.
  assert (C : b = fbase \/ exists t', iteration_text y t' /\ b = fbase ++ ["."%char] ++ t' /\ (y = z -> reads_iteration it z)).
  { destruct it as [|x|l'| |]; cbn [given] in G; try discriminate G; injection G as <-; cbn [base_for reads_iteration] in *.
    - now left.
    - destruct I as [->|[]]. assert (X : y = (-1)%Z \/ y <> (-1)%Z) by lia. destruct X as [->|X]; [now left|right].
      assert (B' : exists t', iteration_text y t' /\ b = fbase ++ ["."%char] ++ t') by (destruct y as [|q|q]; try exact B; destruct q; try exact B; now elim X).
      destruct B' as (t' & T' & ->). exists t'. auto.
    - right. destruct B as (t' & T' & ->). exists t'. split; [exact T'|]. split; [reflexivity|]. now intros <-. }
  destruct C as [->|(t' & T' & -> & C)].
  - now apply (no_iteration fbase z).
  - apply (other_iteration fbase y z t' t e T' T); [|exact HE]. intros E. apply NR. now apply C.
Qed.

Theorem C79_iterations_independent :
  forall (L : libm) fo fs fbase (a : nd binary64) z dp ndims nrecords times fields sim mf deltat dimlist fs' r it mf' o, plain_name fbase ->
  write64 fs fbase a (Some z) dp ndims nrecords times fields sim mf deltat dimlist = (fs', r) -> ~ reads_iteration it z ->
  snd (rdmds64_full L fo fs' fbase it mf' o) = snd (rdmds64_full L fo fs fbase it mf' o).
Proof.
  intros L fo fs fbase a z dp ndims nrecords times fields sim mf deltat dimlist fs' r it mf' o PF W NR.
  apply (wrmds_touches fs fbase a (Some z) dp ndims nrecords times fields sim mf deltat dimlist z fs' r eq_refl) in W.
  assert (ONE : forall d e c, e = lit ".meta" \/ e = lit ".data" ->
    snd (rdmds64_full L fo (write_file d (fbase ++ ["."%char] ++ fmt_0d 10 z ++ e) c) fbase it mf' o) = snd (rdmds64_full L fo d fbase it mf' o)).
  { intros d e c HE. apply C79_reads_these_files; [exact PF|]. destruct (given it) as [l|] eqn:G.
    - intros y b I B. eapply not_read; eauto. apply fmt_iteration.
    - destruct it; try discriminate G; now elim NR. }
  destruct W as [(-> & _)|[(m & -> & _)|(m & d & -> & _)]]; [reflexivity| |].
  - apply ONE. now left.
  - rewrite ONE by (now right). apply ONE. now left.
Qed.

(** ** C80: a series of iterations *)

Definition write_all64 := write_series b64times b64codec b32codec.

(** Names with an iteration in them. *)
Definition numbered (it : itarg) : Prop := match it with ItNone | ItOne (-1)%Z => False | _ => True end.
Lemma numbered_adds it : numbered it -> adds it = true.
Proof. destruct it as [|y| | |]; cbn; try tauto. destruct y as [|q|q]; try reflexivity. destruct q; try reflexivity. tauto. Qed.

(** Every array of the series has n dimensions behind its records. *)
Definition series_fits (ndims : option nat) (n : nat) (l : list (Z * nd binary64)) : Prop :=
  Forall (fun za => n <= length (shape (snd za)) /\
    (ndims = Some n \/ ndims = None /\ n = Nat.min 3 (length (shape (snd za))))) l.

Lemma series_fits_ok ndims n l : series_fits ndims n l -> Forall (fun za => fits ndims n (snd za)) l.
Proof.
  apply Forall_impl. intros [z a] (H1 & H2). cbn [snd] in *. split; [|exact H1].
  destruct H2 as [->|(-> & ->)]; reflexivity.
Qed.

Lemma flat_map_nth {X} (f : Z -> list X) l : flat_map (fun i => f (nth i l 0%Z)) (seq 0 (length l)) = flat_map f l.
Proof. rewrite <- (map_nth_seq l 0%Z) at 2. now rewrite flat_map_map. Qed.

Lemma numbered_base fbase it z t : numbered it -> iteration_text z t -> base_of fbase (adds it) z = fbase ++ ["."%char] ++ t.
Proof. intros NB T. apply iteration_text_iff in T. subst t. unfold base_of. now rewrite numbered_adds. Qed.

Lemma series_tiles (l : list (Z * nd binary64)) fs fs' fbase z : (forall k, In k (names fs') <-> In k (names fs) \/
       exists z, In z (map fst l) /\ (k = base_name fbase (Some z) ++ lit ".meta" \/ k = base_name fbase (Some z) ++ lit ".data")) ->
  ~ has_tile (names fs) (fbase ++ ["."%char] ++ fmt_0d 10 z) -> ~ has_tile (names fs') (fbase ++ ["."%char] ++ fmt_0d 10 z).
Proof.
  intros NM NT (d & e & L1 & L2 & D1 & D2 & I). apply NM in I. destruct I as [I|(z' & _ & K)].
  { apply NT. exists d, e. auto. }
  assert (TN : tile_name (["."%char] ++ d ++ ["."%char] ++ e)) by (exists d, e; auto).
  assert (X : exists e', (e' = lit ".meta" \/ e' = lit ".data") /\
    fmt_0d 10 z ++ (["."%char] ++ d ++ ["."%char] ++ e) ++ lit ".meta" = fmt_0d 10 z' ++ e').
  { cbn [base_name] in K. destruct K as [K|K]; rewrite <- !app_assoc in K; do 2 apply app_inv_head in K;
      eexists; (split; [|rewrite <- !app_assoc; exact K]); auto. }
  destruct X as (e' & HE & X). rewrite app_assoc in X. apply app_eq_tail in X; [|destruct HE as [-> | ->]; reflexivity].
  destruct X as (X & _). apply (iteration_no_point z' (fmt_0d 10 z')); [apply fmt_iteration|]. rewrite <- X.
  apply in_app_iff. right. now left.
Qed.

Theorem C80_series_read_back :
  forall (L : libm) fs fbase dp p mf od ndims l lead ny nx,
  plain_name fbase -> NoDup (names fs) -> byte_order mf od -> prec_name dp p -> series_fits ndims (length lead + 2) l ->
  exists fs', write_all64 fs fbase dp mf ndims l = (fs', Ok tt) /\
  forall it itrs o nrec (recs : Z -> list nat) (arrs : Z -> nd binary64),
    numbered it -> asked_for (names fs') fbase it itrs -> itrs <> [] ->
    (forall z, In z itrs -> latest l z = Some (arrs z) /\ shape (arrs z) = recs z ++ lead ++ [ny; nx] /\ size (recs z) = nrec) ->
    (forall z t, In z itrs -> iteration_text z t -> ~ has_tile (names fs) (fbase ++ ["."%char] ++ t)) ->
    let td := one_file lead ny nx nrec p in
    options_ok o td -> shape_ok o td (it_is_list it) (length itrs) ->
    exists arr, rdmds64_full L py_float fs' fbase it mf o = (fs', Ok (arr, itrs, returned_meta td itrs)) /\
      shape arr = result_shape o td (it_is_list it) (length itrs) /\
      ravel arr = flat_map (fun z => map (element o td (fun g => stored p (item (recs z) (arrs z) g)))
                                       (product (wanted_recs o nrec :: wanted o td))) itrs.
Proof.
  intros L fs fbase dp p mf od ndims l lead ny nx PF ND BO PN SF.
  pose proof (byte_order_prefix mf od BO) as TP. pose proof (prec_name_suffix dp p PN) as TS.
  destruct (series_written b64times b64codec b32codec fbase dp mf ndims od p (length lead + 2) TP TS ltac:(lia) l fs
    (series_fits_ok _ _ _ SF) ND) as (fs' & W & ND' & LT & KEEP & NM).
  exists fs'. split; [exact W|]. intros it itrs o nrec recs arrs NB AF NE SH NT td OK SO.
  apply (asked_ok fs' fbase it itrs PF ND') in AF.
  assert (LN : length lead + 2 = length (lead ++ [ny; nx])) by (rewrite app_length; reflexivity). rewrite LN in LT.
  destruct (series_read (b64ops L) b64codec b32codec (enc_len b64_codec_laws) b32_enc_len py_float lead ny nx nrec p od o OK
    fs' fbase it mf itrs (fun i g => kept b64codec b32codec p od (item (recs (nth i itrs 0%Z)) (arrs (nth i itrs 0%Z)) g)) PF AF TP NE)
    as (arr & R & SA & RA).
  - intros i z E. pose proof (nth_error_In _ _ E) as I. destruct (SH z I) as (EL & ES & ER).
    rewrite (nth_error_nth itrs i 0%Z E). rewrite (numbered_base fbase it z (fmt_0d 10 z) NB (fmt_iteration z)). split.
    + exact (written_left b64times b64codec b32codec py_float e12_text b64_format_tok lead ny nx nrec p od dp PN fs' fbase z (arrs z) (recs z)
        ES ER (LT z (arrs z) EL)).
    + apply (series_tiles l fs fs' fbase z NM). exact (NT z _ I (fmt_iteration z)).
  - exact SO.
  - exists arr. split; [exact R|]. split; [exact SA|]. rewrite RA. change (td_nrec td) with nrec.
    rewrite <- (flat_map_nth (fun z => map (element o td (fun g => stored p (item (recs z) (arrs z) g)))
                                       (product (wanted_recs o nrec :: wanted o td)))).
    apply flat_map_ext. intros i. apply map_ext. intros g. unfold element. destruct g; [reflexivity|]. now rewrite kept_stored.
Qed.

(** With the default options: the arrays one after the other, as they are stored. *)
Lemma zeros_inside l : forall idx, valid_idx l idx -> in_tile (map (fun _ => 0) l) l idx = true.
Proof.
  induction l as [|n l IH]; intros idx V; inversion V; subst; [reflexivity|]. cbn [map in_tile].
  rewrite IH by assumption. rewrite (proj2 (Nat.ltb_lt _ _)) by lia. reflexivity.
Qed.

Lemma default_elements (L : libm) lead ny nx nrec p recs (a : nd binary64) : let td := one_file lead ny nx nrec p in
  shape a = recs ++ lead ++ [ny; nx] -> size recs = nrec ->
  map (element (rd_default (b64ops L)) td (fun g => stored p (item recs a g)))
    (product (wanted_recs (rd_default (b64ops L)) nrec :: wanted (rd_default (b64ops L)) td)) = map (stored p) (ravel a).
Proof.
  intros td SH SZ. rewrite <- (content_one lead ny nx nrec p a recs SH SZ), content_map.
  unfold wanted, rd_default. cbn [wanted_recs o_rec o_lev o_region combine map app length skipn].
  change (td_lead td) with lead. change (td_ny td) with ny. change (td_nx td) with nx.
  replace (map (seq 0) lead ++ [seq 0 ny; seq 0 nx]) with (map (seq 0) (lead ++ [ny; nx])) by (now rewrite map_app).
  change (seq 0 nrec :: map (seq 0) (lead ++ [ny; nx])) with (map (seq 0) (nrec :: lead ++ [ny; nx])).
  rewrite all_idx_product. cbn [all_idx]. rewrite map_flat_map. unfold tile_content. change (td_ext td) with (lead ++ [ny; nx]).
  change (td_nrec td) with nrec. apply flat_map_ext. intros r. rewrite map_map. apply map_ext_in. intros idx I. apply in_all_idx in I.
  cbn [element]. change (td_tiles td) with [(@nil ascii, map (fun _ => 0) (lead ++ [ny; nx]))]. change (td_ext td) with (lead ++ [ny; nx]).
  cbn [existsb snd]. rewrite zeros_inside by exact I. cbn [orb]. now rewrite add_zero by (now apply valid_length).
Qed.

Lemma default_shape (L : libm) lead ny nx nrec p b k : let td := one_file lead ny nx nrec p in k <> 0 -> nrec <> 0 ->
  options_ok (rd_default (b64ops L)) td /\ shape_ok (rd_default (b64ops L)) td b k /\
  result_shape (rd_default (b64ops L)) td b k = filter (fun d => 1 <? d) [k; nrec] ++ lead ++ [ny; nx].
Proof.
  intros td K R. split; [|split].
  - unfold options_ok, rd_default. cbn [recs_ok o_rec o_lev o_region o_memmap length combine]. split; [exact I|]. split; [lia|].
    split; [constructor|]. split; [exact I|]. discriminate.
  - unfold shape_ok, rd_default. cbn [o_squeeze o_lev wanted_recs o_rec]. change (td_nrec td) with nrec. split; [lia|]. split; [|constructor].
    destruct nrec; [now elim R|discriminate].
  - unfold result_shape. cbn [rd_default o_squeeze o_lev length firstn skipn map wanted_recs o_rec]. rewrite seq_length.
    f_equal. apply (length_wanted_all (b64ops L) td).
Qed.

(** Two arrays of n dimensions that are stacked: those of the records, if there are several. *)
Theorem C80_whole_series :
  forall (L : libm) fs fbase dp p mf od ndims l lead ny nx,
  plain_name fbase -> NoDup (names fs) -> byte_order mf od -> prec_name dp p -> series_fits ndims (length lead + 2) l ->
  exists fs', write_all64 fs fbase dp mf ndims l = (fs', Ok tt) /\
  forall zs nrec (arrs : Z -> nd binary64), zs <> [] -> nrec <> 0 ->
    (forall z, In z zs -> latest l z = Some (arrs z) /\
       exists recs, shape (arrs z) = recs ++ lead ++ [ny; nx] /\ size recs = nrec) ->
    (forall z t, In z zs -> iteration_text z t -> ~ has_tile (names fs) (fbase ++ ["."%char] ++ t)) ->
    exists arr meta, rdmds64_full L py_float fs' fbase (ItList zs) mf (rd_default (b64ops L)) = (fs', Ok (arr, zs, meta)) /\
      shape arr = filter (fun d => 1 <? d) [length zs; nrec] ++ lead ++ [ny; nx] /\
      ravel arr = flat_map (fun z => map (stored p) (ravel (arrs z))) zs.
Proof.
  intros L fs fbase dp p mf od ndims l lead ny nx PF ND BO PN SF.
  destruct (C80_series_read_back L fs fbase dp p mf od ndims l lead ny nx PF ND BO PN SF) as (fs' & W & RD).
  exists fs'. split; [exact W|]. intros zs nrec arrs NE RN SH NT.
  set (recs := fun z => firstn (length (shape (arrs z)) - length (lead ++ [ny; nx])) (shape (arrs z))).
  assert (SH' : forall z, In z zs -> latest l z = Some (arrs z) /\ shape (arrs z) = recs z ++ lead ++ [ny; nx] /\ size (recs z) = nrec).
  { intros z I. destruct (SH z I) as (E & r & S & Q). split; [exact E|].
    assert (R : recs z = r).
    { unfold recs. rewrite S, (app_length r), Nat.add_sub, firstn_app, firstn_all, Nat.sub_diag. cbn [firstn]. apply app_nil_r. }
    rewrite R. now split. }
  destruct (default_shape L lead ny nx nrec p true (length zs)) as (OK & SO & RS); [destruct zs; [now elim NE|discriminate]|exact RN|].
  destruct (RD (ItList zs) zs (rd_default (b64ops L)) nrec recs arrs Logic.I eq_refl NE SH' NT OK SO) as (arr & R & SA & RA).
  exists arr. eexists. split; [exact R|]. split; [rewrite SA; exact RS|]. rewrite RA.
  rewrite !flat_map_concat_map. f_equal. apply map_ext_in. intros z I. destruct (SH' z I) as (_ & S & Q). now apply default_elements.
Qed.

(** NaN stands for all iterations, Inf for the last one.  rdmds looks for names with ten digits:
    it finds the iterations from 0 to 9999999999. *)
Definition found (z : Z) : Prop := (0 <= z < 10 ^ 10)%Z.

Lemma found_text z t : iteration_text z t -> (found z <-> length t = 10 /\ is_decimal t).
Proof.
  intros T. pose proof T as (ds & E & D & V & LN & M). unfold found. destruct (Z.ltb_spec z 0) as [NG|NN]; cbn [app] in E; subst t.
  - split; [lia|]. intros (_ & D'). exfalso. inversion D' as [|? ? X _]; subst. cbv in X. lia.
  - rewrite Z.abs_eq in V by exact NN. split.
    + intros B. split; [|exact D]. destruct (Nat.eq_dec (length ds) 10) as [Q|Q]; [exact Q|exfalso].
      destruct (M ltac:(lia)) as (c & r & EE & C). pose proof (leading_digit ds c r EE D C) as X. rewrite V in X.
      assert (10 ^ 10 <= 10 ^ (Z.of_nat (length ds) - 1))%Z by (apply Z.pow_le_mono_r; lia). lia.
    + intros (LL & _). pose proof (decimal_bound ds D) as B. rewrite LL, V in B. exact B.
Qed.

Lemma series_on_disk (l : list (Z * nd binary64)) fs fs' fbase : (forall k, In k (names fs') <-> In k (names fs) \/
       exists z, In z (map fst l) /\ (k = base_name fbase (Some z) ++ lit ".meta" \/ k = base_name fbase (Some z) ++ lit ".data")) ->
  (forall z, ~ has_iteration (names fs) fbase (lit ".001.001.meta") z) ->
  forall z, on_disk (names fs') fbase z <-> has_iteration (names fs) fbase (lit ".meta") z \/ In z (map fst l) /\ found z.
Proof.
  intros NM NT.
  assert (NT' : forall z, ~ has_iteration (names fs') fbase (lit ".001.001.meta") z).
  { intros z (ds & LD & D & V & I). apply NM in I. destruct I as [I|(z' & _ & K)].
    { apply (NT z). exists ds. auto. }
    assert (X : exists e', (e' = lit ".meta" \/ e' = lit ".data") /\ (ds ++ lit ".001.001") ++ lit ".meta" = fmt_0d 10 z' ++ e').
    { cbn [base_name] in K. destruct K as [K|K]; rewrite <- !app_assoc in K; do 2 apply app_inv_head in K;
        eexists; (split; [|rewrite <- app_assoc; exact K]); auto. }
    destruct X as (e' & HE & X). apply app_eq_tail in X; [|destruct HE as [-> | ->]; reflexivity]. destruct X as (X & _).
    apply (iteration_no_point z' (fmt_0d 10 z')); [apply fmt_iteration|]. rewrite <- X. apply in_app_iff. right. now left. }
  intros z. unfold on_disk. split.
  - intros [H|(_ & ds & LD & D & V & I)]; [now elim (NT' z)|]. apply NM in I. destruct I as [I|(z' & I & K)].
    { left. exists ds. auto. }
    right. assert (X : ds ++ lit ".meta" = fmt_0d 10 z' ++ lit ".meta").
    { cbn [base_name] in K. destruct K as [K|K]; rewrite <- !app_assoc in K; do 2 apply app_inv_head in K; [exact K|exfalso].
      apply app_eq_tail in K; [|reflexivity]. destruct K as (_ & K). discriminate K. }
    apply app_inv_tail in X. pose proof (fmt_iteration z') as T. rewrite <- X in T. pose proof (proj2 (found_text z' ds T) (conj LD D)) as FD.
    assert (z' = z) as ->; [|now split]. destruct T as (es & E & _ & V' & _). unfold found in FD.
    replace (z' <? 0)%Z with false in E by (symmetry; apply Z.ltb_ge; lia). cbn [app] in E. subst es. lia.
  - intros H. right. split; [intros (y & Y); now apply (NT' y)|]. destruct H as [(ds & LD & D & V & I)|(I & FD)].
    + exists ds. split; [exact LD|]. split; [exact D|]. split; [exact V|]. apply NM. now left.
    + pose proof (fmt_iteration z) as T. destruct (proj1 (found_text z _ T) FD) as (LD & D). exists (fmt_0d 10 z). split; [exact LD|]. split; [exact D|].
      split.
      * destruct T as (es & E & _ & V' & _). unfold found in FD. replace (z <? 0)%Z with false in E by (symmetry; apply Z.ltb_ge; lia).
        cbn [app] in E. rewrite E, V'. lia.
      * apply NM. right. exists z. split; [exact I|]. left. cbn [base_name]. now rewrite <- !app_assoc.
Qed.

Definition stacked (L : libm) (fs' : directory) fbase mf it itrs (shp : list nat) (vals : list binary64) : Prop :=
  exists arr meta, rdmds64_full L py_float fs' fbase it mf (rd_default (b64ops L)) = (fs', Ok (arr, itrs, meta)) /\
    shape arr = shp /\ ravel arr = vals.

Theorem C80_all_and_last :
  forall (L : libm) fs fbase dp p mf od ndims l lead ny nx nrec (arrs : Z -> nd binary64),
  plain_name fbase -> NoDup (names fs) -> byte_order mf od -> prec_name dp p -> series_fits ndims (length lead + 2) l -> nrec <> 0 ->
  (forall z, ~ has_iteration (names fs) fbase (lit ".001.001.meta") z /\ ~ has_iteration (names fs) fbase (lit ".meta") z) ->
  (forall z, In z (map fst l) -> latest l z = Some (arrs z) /\
     exists recs, shape (arrs z) = recs ++ lead ++ [ny; nx] /\ size recs = nrec) ->
  (forall z t, In z (map fst l) -> iteration_text z t -> ~ has_tile (names fs) (fbase ++ ["."%char] ++ t)) ->
  exists fs', write_all64 fs fbase dp mf ndims l = (fs', Ok tt) /\
  (forall itrs, itrs <> [] -> StronglySorted Z.lt itrs -> (forall z, In z itrs <-> In z (map fst l) /\ found z) ->
     stacked L fs' fbase mf ItNaN itrs (filter (fun d => 1 <? d) [length itrs; nrec] ++ lead ++ [ny; nx])
       (flat_map (fun z => map (stored p) (ravel (arrs z))) itrs)) /\
  (forall z, In z (map fst l) -> found z -> (forall y, In y (map fst l) -> found y -> (y <= z)%Z) ->
     stacked L fs' fbase mf ItInf [z] (filter (fun d => 1 <? d) [nrec] ++ lead ++ [ny; nx])
       (map (stored p) (ravel (arrs z)))).
Proof.
  intros L fs fbase dp p mf od ndims l lead ny nx nrec arrs PF ND BO PN SF RN NI SH NT.
  destruct (series_written b64times b64codec b32codec fbase dp mf ndims od p (length lead + 2) (byte_order_prefix mf od BO)
    (prec_name_suffix dp p PN) ltac:(lia) l fs (series_fits_ok _ _ _ SF) ND) as (fs0 & W0 & _ & _ & _ & NM).
  destruct (C80_series_read_back L fs fbase dp p mf od ndims l lead ny nx PF ND BO PN SF) as (fs' & W & RD).
  assert (fs0 = fs') as -> by (unfold write_all64 in W; congruence). clear W0. exists fs'. split; [exact W|].
  pose proof (series_on_disk l fs fs' fbase NM (fun z => proj1 (NI z))) as OD.
  assert (OD' : forall z, on_disk (names fs') fbase z <-> In z (map fst l) /\ found z).
  { intros z. rewrite OD. split; [intros [H|H]; [now elim (proj2 (NI z))|exact H] | now right]. }
  set (recs := fun z => firstn (length (shape (arrs z)) - length (lead ++ [ny; nx])) (shape (arrs z))).
  assert (SH' : forall z, In z (map fst l) -> latest l z = Some (arrs z) /\ shape (arrs z) = recs z ++ lead ++ [ny; nx] /\ size (recs z) = nrec).
  { intros z I. destruct (SH z I) as (E & r & S & Q). split; [exact E|].
    assert (R : recs z = r).
    { unfold recs. rewrite S, (app_length r), Nat.add_sub, firstn_app, firstn_all, Nat.sub_diag. cbn [firstn]. apply app_nil_r. }
    rewrite R. now split. }
  split.
  - intros itrs NE SS IN.
    destruct (default_shape L lead ny nx nrec p true (length itrs)) as (OK & SO & RS); [destruct itrs; [now elim NE|discriminate]|exact RN|].
    destruct (RD ItNaN itrs (rd_default (b64ops L)) nrec recs arrs Logic.I) as (arr & R & SA & RA); auto.
    + split; [exact SS|]. intros z. rewrite OD'. apply IN.
    + intros z I. apply SH'. now apply IN.
    + intros z t I T. apply (NT z t); [now apply IN|exact T].
    + exists arr. eexists. split; [exact R|]. split; [rewrite SA; exact RS|]. rewrite RA.
      rewrite !flat_map_concat_map. f_equal. apply map_ext_in. intros z I. apply IN in I. destruct (SH' z (proj1 I)) as (_ & S & Q).
      now apply default_elements.
  - intros z I FD MAX.
    destruct (default_shape L lead ny nx nrec p false 1) as (OK & SO & RS); [discriminate|exact RN|].
    destruct (RD ItInf [z] (rd_default (b64ops L)) nrec recs arrs Logic.I) as (arr & R & SA & RA); auto.
    + exists z. split; [reflexivity|]. split; [now apply OD'|]. intros y Y. apply OD' in Y. now apply MAX.
    + discriminate.
    + intros y [<-|[]]. now apply SH'.
    + intros y t [<-|[]] T. now apply (NT z t).
    + exists arr. eexists. split; [exact R|]. split; [rewrite SA; exact RS|]. rewrite RA. cbn [flat_map]. rewrite app_nil_r.
      destruct (SH' z I) as (_ & S & Q). now apply default_elements.
Qed.

(** "NaN reads all iterations that were written" is false: a negative one is not found, nor is
    one of more than ten digits. *)
Theorem C80_every_iteration_found_refuted :
  ~ (forall (L : libm) l fs', write_all64 [] (lit "T") (lit "float64") (lit "b") None l = (fs', Ok tt) -> l <> [] ->
     exists arr itrs meta, rdmds64_full L py_float fs' (lit "T") ItNaN (lit "b") (rd_default (b64ops L)) = (fs', Ok (arr, itrs, meta)) /\
       forall z, In z (map fst l) -> In z itrs).
Proof.
  intros H. specialize (H ex_libm [((-5)%Z, ex_nd [2; 2]); (10000000000%Z, ex_nd [2; 2])]).
  destruct (H _ eq_refl ltac:(discriminate)) as (arr & itrs & meta & E & IN).
  apply (f_equal (fun r => outcome r)) in E. unfold outcome at 2 in E. cbn [snd] in E.
  assert (X : match outcome (rdmds64_full ex_libm py_float
    (fst (write_all64 [] (lit "T") (lit "float64") (lit "b") None [((-5)%Z, ex_nd [2; 2]); (10000000000%Z, ex_nd [2; 2])]))
    (lit "T") ItNaN (lit "b") (rd_default (b64ops ex_libm))) with Some (_, l) => l = [] | None => False end) by (vm_compute; reflexivity).
  cbn [fst] in X. match type of E with ?a = _ => match type of X with match ?b with _ => _ end => change b with a in X end end.
  rewrite E in X. specialize (IN (-5)%Z (or_introl eq_refl)). rewrite X in IN. exact IN.
Qed.

(** "What was written as iteration z is read as iteration z" is false of -1: rdmds takes -1 for
    no iteration. *)
Theorem C80_minus_one_refuted :
  ~ (forall (L : libm) z (a : nd binary64) fs', write64 [] (lit "T") a (Some z) (lit "float64") None None TimesNone None None (lit "b") None None
       = (fs', Ok tt) ->
     exists r, snd (rdmds64_full L py_float fs' (lit "T") (ItOne z) (lit "b") (rd_default (b64ops L))) = Ok r).
Proof.
  intros H. specialize (H ex_libm (-1)%Z (ex_nd [2; 2])). destruct (H _ eq_refl) as (r & E).
  assert (X : failure (snd (rdmds64_full ex_libm py_float (fst (write64 [] (lit "T") (ex_nd [2; 2]) (Some (-1)%Z) (lit "float64") None None TimesNone None None (lit "b") None None))
    (lit "T") (ItOne (-1)) (lit "b") (rd_default (b64ops ex_libm)))) = Some OSError) by (vm_compute; reflexivity).
  cbn [fst] in X. apply (f_equal failure) in E. match type of E with ?a = _ => match type of X with ?b = _ => change b with a in X end end.
  rewrite X in E. discriminate E.
Qed.

(** ** Cases *)

(** The names of the iterations 7, -7 and twelve digits. *)
Example C79_names_case :
  iteration_text 7 (lit "0000000007") /\ iteration_text (-7) (lit "-000000007") /\ iteration_text 123456789012 (lit "123456789012").
Proof. repeat split; apply iteration_text_iff; vm_compute; reflexivity. Qed.

(** Three iterations, the second one rewritten. *)
Definition ex_arr (k : nat) : nd binary64 := mk_nd [2; 3] (fun idx => ex_dbl (k * 10 + offset [2; 3] idx)).
Definition ex_series : list (Z * nd binary64) := [(30%Z, ex_arr 1); (7%Z, ex_arr 2); (30%Z, ex_arr 3); ((-2)%Z, ex_arr 4)].
Definition ex_arrs (z : Z) : nd binary64 := match latest ex_series z with Some a => a | None => ex_arr 0 end.
Definition ex_series_dir : directory := fst (write_all64 [] (lit "T") (lit "float64") (lit "b") None ex_series).

Lemma nothing_iterated fbase e z : ~ has_iteration (names []) fbase e z.
Proof. intros (ds & _ & _ & _ & []). Qed.

Example C79_case :
  map (fun f => string_of_list_ascii (fst f)) ex_series_dir
  = ["T.0000000030.meta"; "T.0000000030.data"; "T.0000000007.meta"; "T.0000000007.data"; "T.-000000002.meta"; "T.-000000002.data"]%string /\
  ~ reads_iteration (ItList [7; -2]%Z) 30 /\
  (forall z b, In z [7%Z] -> base_for (lit "T") (ItList [7%Z]) z b -> ~ file_of b (lit "T.0000000070.meta")).
Proof.
  split; [vm_compute; reflexivity|]. split; [intros [H|[H|[]]]; discriminate H|].
  intros z b [<-|[]] B. refine (not_read (lit "T") (ItList [7%Z]) [7%Z] 7 70 b (lit "0000000070") (lit ".meta") eq_refl _ (or_introl eq_refl) B _ (or_introl eq_refl)).
  - intros [H|[]]. discriminate H.
  - apply iteration_text_iff. vm_compute. reflexivity.
Qed.

Definition all_bits (k : nat) : list Z := bits_at (map (fun i => k * 10 + i) (seq 0 6)).

Example C80_case :
  series_fits None (length (@nil nat) + 2) ex_series /\
  (forall z, In z (map fst ex_series) -> latest ex_series z = Some (ex_arrs z) /\
     exists recs, shape (ex_arrs z) = recs ++ [] ++ [2; 3] /\ size recs = 1) /\
  (forall t, ~ has_tile (names []) (lit "T" ++ ["."%char] ++ t)) /\
  outcome (rdmds64_full ex_libm py_float ex_series_dir (lit "T") (ItList [7; -2; 30]%Z) (lit "b") (rd_default (b64ops ex_libm)))
  = Some ([3; 2; 3], all_bits 2 ++ all_bits 4 ++ all_bits 3, [7; -2; 30]%Z) /\
  (forall z, In z [7; 30]%Z <-> In z (map fst ex_series) /\ found z) /\ StronglySorted Z.lt [7; 30]%Z /\
  outcome (rdmds64_full ex_libm py_float ex_series_dir (lit "T") ItNaN (lit "b") (rd_default (b64ops ex_libm)))
  = Some ([2; 2; 3], all_bits 2 ++ all_bits 3, [7; 30]%Z) /\
  outcome (rdmds64_full ex_libm py_float ex_series_dir (lit "T") ItInf (lit "b") (rd_default (b64ops ex_libm)))
  = Some ([2; 3], all_bits 3, [30]%Z).
Proof.
  split; [repeat (apply Forall_cons; [split; [cbn; lia | right; split; reflexivity]|]); apply Forall_nil|]. split.
  { intros z [<-|[<-|[<-|[<-|[]]]]]; (split; [reflexivity|]; exists []; split; reflexivity). }
  split; [intros t (d & e & _ & _ & _ & _ & [])|]. split; [vm_compute; reflexivity|]. split.
  { intros z. unfold found, ex_series. cbn [In map fst]. lia. }
  split; [repeat constructor; lia|]. split; vm_compute; reflexivity.
Qed.
