(** Properties C71-C73: wrmds with the meta data of another file, with times, and with a time
    step. *)
From Coq Require Import Ascii String List Bool PeanoNat NArith ZArith Init.Byte Reals Lia Lra.
From Flocq Require Import Core IEEE754.BinarySingleNaN IEEE754.Binary IEEE754.Bits.
Import ListNotations.
From Verif Require Import Prelude PreludeFacts Num Mat MatFacts Fields GridIO Float64 Float64Facts
  Float32 Float32Facts SpecGrid GridIOFacts GridIOProofs MdsMeta Mds SpecMds MdsTextFacts MdsParseFacts
  SpecGlob GlobFacts MdsScanFacts MdsFacts RdMds SpecRdMds RdMdsAgree Samples PropMds PropRdMds
  FmtE FmtEFacts PyFloat PyFloatFacts FloorDivFacts SpecTimes TimeFacts WrMds WrMdsFacts WrTimesFacts.
Local Open Scope nat_scope.
Local Open Scope list_scope.

(** The functions at binary64. *)
Definition write64 := wrmds_full64 b64codec b32codec.
Definition write_kw64 := wrmds_kw b64times b64codec b32codec.
Definition read64 (L : libm) (fs : directory) (fbase : text) (itr : option Z) (mf : text) :=
  rdmds64_full L py_float fs fbase (match itr with Some i => ItList [i] | None => ItNone end) mf (rd_default (b64ops L)).

(** ** What can be written *)

Definition prec_name (dataprec : text) (p : prec) : Prop := dataprec = prec_text p.
Lemma prec_name_suffix dp p : prec_name dp p -> typesuffix dp = Some p.
Proof. intros ->. destruct p; vm_compute; reflexivity. Qed.

(** An array of n dimensions, the last of all; the leading ones are records. *)
Definition inner_dims (a : nd binary64) (n : nat) : list nat := skipn (length (shape a) - n) (shape a).
Definition records (a : nd binary64) (n : nat) : nat := size (firstn (length (shape a) - n) (shape a)).

Definition writable (fs : directory) (base mf : text) (dp : text) (p : prec) (a : nd binary64) (n : nat)
    (ndims nrecords : option nat) (fields : option (list text)) (sim : option text) (dimlist : option (list Z)) : Prop :=
  plain_name base /\ NoDup (names fs) /\ ~ has_tile (names fs) base /\ known_order mf /\ prec_name dp p /\
  2 <= n <= length (shape a) /\ 1 <= records a n /\
  (ndims = Some n \/ ndims = None /\ nrecords = None /\ n = Nat.min 3 (length (shape a))) /\
  (nrecords = None \/ nrecords = Some (records a n)) /\
  (dimlist = None \/ dimlist = Some (map Z.of_nat (rev (inner_dims a n)))) /\
  sim_ok sim /\ fields_ok fields.

(** The array as read back: records come first unless there is one. *)
Definition reads_as (p : prec) (a : nd binary64) (n : nat) (b : nd binary64) : Prop :=
  shape b = (if records a n =? 1 then [] else [records a n]) ++ inner_dims a n /\
  ravel b = map (stored p) (ravel a).

Lemma lead_records a n : 2 <= n -> size (lead_dims (shape a) n) = records a n.
Proof. intros H. unfold lead_dims, records. destruct n; [lia | reflexivity]. Qed.

Lemma stem_plain fbase itr : plain_name (stem fbase itr) -> plain_name fbase.
Proof. destruct itr; [|auto]. unfold stem. rewrite plain_app. tauto. Qed.

Lemma written_core L fs fbase (a : nd binary64) n p itr dp ndims nrecords times fields sim mf deltat dimlist itr' times' vs :
  writable fs (stem fbase itr') mf dp p a n ndims nrecords fields sim dimlist ->
  step_and_times b64times itr (times_list times) deltat = Ok (itr', times') ->
  times_ok b64times py_float e12_text times' vs ->
  exists fs' t o, let base := stem fbase itr' in
    write64 fs fbase a itr dp ndims nrecords times fields sim mf deltat dimlist = (fs', Ok tt) /\
    typeprefix mf = Some o /\
    meta_text_full b64times n (rev (inner_dims a n)) dp (records a n) itr' times' fields sim = Ok t /\
    dget fs' (base ++ lit ".meta") = Some (text_bytes t) /\
    dget fs' (base ++ lit ".data") = Some (flat_map (enc_item b64codec b32codec p o) (ravel a)) /\
    exists b, read64 L fs' fbase itr' mf
       = (fs', Ok (b, [first_itr itr'], returned_dict n (rev (inner_dims a n)) dp (records a n) itr' vs fields sim)) /\
       reads_as p a n b.
Proof.
  intros (PB & ND & NT & KO & PN & NB & RB & NDIM & NR & DL & SO & FO) ST TO. apply stem_plain in PB.
  destruct (known_order_prefix mf KO) as (o & O). pose proof (prec_name_suffix dp p PN) as TS.
  destruct (wrmds_full_read (b64ops L) b64times b64codec b32codec (enc_len b64_codec_laws) b32_enc_len
    py_float e12_text b64_format_tok fs fbase a itr dp ndims nrecords times fields sim mf deltat dimlist
    o p n itr' times' vs) as (fs' & t & W & E & MT & GM & GD & PM & b & R & SB & RB2); auto.
  - destruct NDIM as [->|(-> & -> & ->)]; reflexivity.
  - rewrite lead_records by lia. destruct NR as [->| ->]; [exact I | reflexivity].
  - rewrite lead_records by lia. exact RB.
  - destruct DL as [->| ->]; [exact I | reflexivity].
  - rewrite lead_records in * by lia. exists fs', t, o. cbv zeta. change (stem fbase itr') with (base_name fbase itr').
    split; [exact W|]. split; [exact O|]. split; [exact MT|]. split; [exact GM|]. split; [exact GD|].
    exists b. split.
    { unfold read64, rdmds64_full. destruct itr'; exact R. }
    split.
    + rewrite SB. cbn [filter]. destruct (Nat.eqb_spec (records a n) 1) as [->|X]; [reflexivity|].
      replace (1 <? records a n) with true by (symmetry; apply Nat.ltb_lt; lia). reflexivity.
    + rewrite RB2. apply map_ext. intros x. destruct p; [apply single_stored | apply double_kept].
Qed.

(** ** C71: wrmds(fbase, arr, **meta) *)

(** The simulation's name does not end in white space. *)
Definition trimmed (sim : option text) : Prop :=
  match sim with Some s => forall r c, s = r ++ [c] -> is_space c = false | None => True end.
Lemma trimmed_same s : trimmed (Some s) -> rstrip is_space s = s.
Proof.
  cbn [trimmed]. intros H. destruct s as [|c s] using rev_ind; [reflexivity|]. apply rstrip_stop. now apply (H s).
Qed.

Lemma mapM_ints (l : list nat) :
  mapM (as_int (F:=binary64)) (map (fun d => Vint (Z.of_nat d)) l) = Ok (map Z.of_nat l).
Proof. induction l as [|d l IH]; [reflexivity|]. cbn [map mapM as_int rbind]. rewrite IH. reflexivity. Qed.

Lemma kw_written fs fbase b mf n dims dp nrec sim : trimmed sim ->
  write_kw64 fs fbase b None mf (returned_dict n dims dp nrec None None None sim)
  = write64 fs fbase b None dp (Some n) (Some nrec) TimesNone None sim mf None (Some (map Z.of_nat dims)).
Proof.
  intros TR. set (M := returned_dict n dims dp nrec None None None sim).
  assert (K : forallb (fun kv => existsb (text_eqb (fst kv)) kw_names) M = true) by (unfold M; destruct sim; vm_compute; reflexivity).
  assert (D1 : dget M (lit "dataprec") = Some (Vals [Vstr dp])) by (unfold M; destruct sim; reflexivity).
  assert (D2 : dget M (lit "ndims") = Some (Vals [Vint (Z.of_nat n)])) by (unfold M; destruct sim; reflexivity).
  assert (D3 : dget M (lit "nrecords") = Some (Vals [Vint (Z.of_nat nrec)])) by (unfold M; destruct sim; reflexivity).
  assert (D4 : dget M (lit "simulation") = match sim with Some s => Some (Vals [Vstr s]) | None => None end).
  { unfold M. destruct sim as [s|]; [|reflexivity]. rewrite <- (trimmed_same s TR) at 2. reflexivity. }
  assert (D5 : dget M (lit "dimlist") = Some (Vals (map (fun d => Vint (Z.of_nat d)) dims))) by (unfold M; destruct sim; reflexivity).
  assert (Z0 : forall k, (Z.of_nat k <? 0)%Z = false) by (intros k; apply Z.ltb_ge; lia).
  unfold write_kw64, wrmds_kw, unpack1. rewrite K, D1, D2, D3, D4, D5, mapM_ints. clearbody M.
  destruct sim; cbn [negb rbind kw_text kw_nat as_int]; rewrite !Z0; cbn [rbind]; rewrite !Nat2Z.id; reflexivity.
Qed.

Lemma narrow_twice x : narrow (widen (narrow x)) = narrow x.
Proof.
  destruct (is_nan 24 128 (narrow x)) eqn:N; [|now apply narrow_widen].
  destruct x as [s|s|s pl P|s m e P]; try discriminate N; [reflexivity|exfalso]. cbn [narrow] in N.
  pose proof (Binary.binary_normalize_correct 24 128 eq_refl eq_refl mode_NE (cond_Zopp s (Zpos m)) e s) as C.
  destruct (Rlt_bool _ _).
  - destruct C as (_ & C & _). destruct (Binary.binary_normalize _ _ _ _ _ _ _ _); discriminate.
  - destruct (Binary.binary_normalize _ _ _ _ _ _ _ _); try discriminate N. discriminate C.
Qed.

Lemma stored_again p o x : enc_item b64codec b32codec p o (stored p x) = enc_item b64codec b32codec p o x.
Proof.
  destruct p; [|reflexivity]. unfold stored. destruct o; cbn [enc_item codec_of b32codec enc]; now rewrite narrow_twice.
Qed.

(** What is written without iteration, times and fields. *)
Lemma write_plain fs fbase (b : nd binary64) n nrec inner p dp sim mf o :
  typeprefix mf = Some o -> prec_name dp p -> shape b = (if nrec =? 1 then [] else [nrec]) ++ inner ->
  length inner = n -> 2 <= n ->
  exists t, meta_text_full b64times n (rev inner) dp nrec None None None sim = Ok t /\
    write64 fs fbase b None dp (Some n) (Some nrec) TimesNone None sim mf None (Some (map Z.of_nat (rev inner)))
    = (write_file (write_file fs (fbase ++ lit ".meta") (text_bytes t)) (fbase ++ lit ".data")
         (flat_map (enc_item b64codec b32codec p o) (ravel b)), Ok tt).
Proof.
  intros O PN SB LI N2. apply prec_name_suffix in PN.
  assert (W : exists w, dim_width (rev inner) = Ok w).
  { destruct (rev inner) eqn:E; [|eexists; reflexivity]. apply (f_equal (@length _)) in E. rewrite rev_length in E. cbn in E. lia. }
  destruct W as (w & W).
  assert (LS : length (shape b) - n = length (if nrec =? 1 then [] else [nrec])).
  { rewrite SB, app_length. lia. }
  assert (SK : skipn (length (shape b) - n) (shape b) = inner).
  { rewrite LS, SB, skipn_app, skipn_all, Nat.sub_diag. reflexivity. }
  assert (RC : size (lead_dims (shape b) n) = nrec).
  { unfold lead_dims. destruct n; [lia|]. rewrite LS, SB, firstn_app, firstn_all, Nat.sub_diag. cbn [firstn]. rewrite app_nil_r.
    destruct (Nat.eqb_spec nrec 1) as [->|X]; [reflexivity|]. cbn. lia. }
  unfold write64, wrmds_full64, wrmds_full. rewrite O, PN. cbn [ndims_of]. rewrite SK, RC, Nat.eqb_refl. cbn [negb].
  destruct (list_eq_dec Z.eq_dec (map Z.of_nat (rev inner)) (map Z.of_nat (rev inner))) as [_|X]; [|now elim X].
  cbn [step_and_times times_list]. unfold meta_text_full. rewrite W. cbn [rbind]. eexists. split; reflexivity.
Qed.

Lemma meta_not_data (f : text) : f ++ lit ".meta" <> f ++ lit ".data".
Proof. intros E. apply app_inv_head in E. discriminate E. Qed.

Lemma two_files fs (f : text) m d : let fs' := write_file (write_file fs (f ++ lit ".meta") m) (f ++ lit ".data") d in
  dget fs' (f ++ lit ".meta") = Some m /\ dget fs' (f ++ lit ".data") = Some d /\
  forall name, name <> f ++ lit ".meta" -> name <> f ++ lit ".data" -> dget fs' name = dget fs name.
Proof.
  cbv zeta. unfold write_file. rewrite !dget_dset. pose proof (meta_not_data f) as ND.
  assert (E1 : text_eqb (f ++ lit ".meta") (f ++ lit ".data") = false) by now apply text_eqb_neq.
  rewrite E1, !text_eqb_refl. split; [reflexivity|]. split; [reflexivity|].
  intros name A B. rewrite !dget_dset. apply text_eqb_neq in A, B. unfold text in *. now rewrite A, B.
Qed.

(** A file without iteration, times and fields is copied byte by byte. *)
Theorem C71_copied_files :
  forall (L : libm) fs fbase fbase2 (a : nd binary64) n p dp ndims nrecords sim mf dimlist,
  writable fs fbase mf dp p a n ndims nrecords None sim dimlist -> trimmed sim ->
  exists fs' m d b meta,
    write64 fs fbase a None dp ndims nrecords TimesNone None sim mf None dimlist = (fs', Ok tt) /\
    dget fs' (fbase ++ lit ".meta") = Some m /\ dget fs' (fbase ++ lit ".data") = Some d /\
    read64 L fs' fbase None mf = (fs', Ok (b, [(-1)%Z], meta)) /\ reads_as p a n b /\
    exists fs'', write_kw64 fs' fbase2 b None mf meta = (fs'', Ok tt) /\
      dget fs'' (fbase2 ++ lit ".meta") = Some m /\ dget fs'' (fbase2 ++ lit ".data") = Some d /\
      forall name, name <> fbase2 ++ lit ".meta" -> name <> fbase2 ++ lit ".data" -> dget fs'' name = dget fs' name.
Proof.
  intros L fs fbase fbase2 a n p dp ndims nrecords sim mf dimlist WR TR.
  destruct (written_core L fs fbase a n p None dp ndims nrecords TimesNone None sim mf None dimlist None None None WR eq_refl I)
    as (fs' & t & o & W & O & MT & GM & GD & b & R & SB & RB). cbn [stem] in GM, GD.
  exists fs', (text_bytes t), (flat_map (enc_item b64codec b32codec p o) (ravel a)), b. eexists.
  split; [exact W|]. split; [exact GM|]. split; [exact GD|]. split; [exact R|]. split; [split; assumption|].
  rewrite kw_written by assumption.
  destruct WR as (_ & _ & _ & _ & PN & NB & _).
  destruct (write_plain fs' fbase2 b n (records a n) (inner_dims a n) p dp sim mf o O PN SB) as (t' & MT' & E).
  { unfold inner_dims. rewrite skipn_length. lia. }
  { lia. }
  rewrite MT in MT'. injection MT' as <-. rewrite E. eexists. split; [reflexivity|].
  destruct (two_files fs' fbase2 (text_bytes t) (flat_map (enc_item b64codec b32codec p o) (ravel b))) as (G1 & G2 & G3).
  split; [exact G1|]. split; [|exact G3]. rewrite G2. f_equal. rewrite RB, flat_map_concat_map, map_map, <- flat_map_concat_map.
  apply flat_map_ext. intros x. apply stored_again.
Qed.

(** Tiles are gathered into one file, which reads the same. *)
Lemma stored_twice p x : stored p (stored p x) = stored p x.
Proof. destruct p; [|reflexivity]. unfold stored. now rewrite narrow_twice. Qed.

Lemma length_wanted_all {F} (N : numops F) td : map (@length nat) (wanted (rd_default N) td) = td_dims td.
Proof.
  unfold wanted, rd_default, td_dims. cbn [o_lev o_region combine map app length skipn].
  rewrite map_app, map_map. cbn [map]. rewrite !seq_length. f_equal.
  rewrite (map_ext _ (fun x => x)) by (intros; apply seq_length). apply map_id.
Qed.

Lemma filter_one k : filter (fun d => 1 <? d) [k] = if k <=? 1 then [] else [k].
Proof. cbn [filter]. destruct (Nat.ltb_spec 1 k), (Nat.leb_spec k 1); try lia; reflexivity. Qed.

Theorem C71_tiles_gathered :
  forall (L : libm) fs fname fbase2 mf od td (A : list nat -> binary64),
  plain_name fname -> plain_name fbase2 -> NoDup (names fs) -> byte_order mf od -> tiles_fit (rd_default (b64ops L)) td -> 1 <= td_nrec td ->
  encoded_files b64codec b32codec fs fname od td None A -> listed (names fs) fname td ->
  ~ has_tile (names fs) fbase2 ->
  exists b meta fs' b',
    read64 L fs fname None mf = (fs, Ok (b, [(-1)%Z], meta)) /\
    write_kw64 fs fbase2 b None mf meta = (fs', Ok tt) /\
    read64 L fs' fbase2 None mf = (fs', Ok (b', [(-1)%Z], meta)) /\ nd_eq b' b /\
    exists m, meta_text (length (td_dims td)) (rev (td_dims td)) (prec_text (td_prec td)) (td_nrec td) None None None = Ok m /\
      dget fs' (fbase2 ++ lit ".meta") = Some (text_bytes m).
Proof.
  intros L fs fname fbase2 mf od td A PF PB ND BO TF NR EF LI NT.
  destruct (C65_stored_tiles_read_back L py_float fs fname ItNone mf od td (rd_default (b64ops L)) [(-1)%Z] (fun _ => None) (fun _ => A))
    as (b & R & SB & RB).
  - exact PF.
  - exact ND.
  - exact BO.
  - unfold options_ok, rd_default. cbn. repeat split; try lia; try constructor; try discriminate.
  - exact TF.
  - reflexivity.
  - discriminate.
  - intros i z H. destruct i as [|i]; [|destruct i; discriminate H]. injection H as <-. split; assumption.
  - cbn. split; [lia|]. split; [|constructor]. destruct (td_nrec td); [lia | discriminate].
  - set (n := length (td_dims td)).
    assert (N2 : 2 <= n) by (unfold n, td_dims; rewrite app_length; cbn; lia).
    assert (SH : shape b = (if td_nrec td =? 1 then [] else [td_nrec td]) ++ td_dims td).
    { rewrite SB. unfold result_shape. change (o_squeeze (rd_default (b64ops L))) with true.
      change (o_lev (rd_default (b64ops L))) with (@nil levarg). cbn [length firstn map skipn wanted_recs rd_default o_rec].
      rewrite seq_length. change (mk_rdopts RecAll [] None (nzero (b64ops L)) false true) with (rd_default (b64ops L)).
      rewrite length_wanted_all. f_equal. cbn [filter]. change (1 <? 1) with false. cbv iota.
      destruct (Nat.ltb_spec 1 (td_nrec td)), (Nat.eqb_spec (td_nrec td) 1); try lia; reflexivity. }
    assert (LN : length (shape b) - n = length (if td_nrec td =? 1 then [] else [td_nrec td])).
    { rewrite SH, app_length. unfold n. lia. }
    assert (IN : inner_dims b n = td_dims td).
    { unfold inner_dims. rewrite LN, SH, skipn_app, skipn_all, Nat.sub_diag. reflexivity. }
    assert (RC : records b n = td_nrec td).
    { unfold records. rewrite LN, SH, firstn_app, firstn_all, Nat.sub_diag. cbn [firstn]. rewrite app_nil_r.
      destruct (Nat.eqb_spec (td_nrec td) 1) as [->|X]; [reflexivity|]. cbn. lia. }
    assert (ME : returned_meta (F:=binary64) td (PropRdMds.steps_of (fun _ => None) (length [(-1)%Z]))
       = returned_dict n (rev (td_dims td)) (prec_text (td_prec td)) (td_nrec td) (None : option Z) None None None) by reflexivity.
    assert (WR : writable fs (stem fbase2 None) mf (prec_text (td_prec td)) (td_prec td) b n (Some n) (Some (td_nrec td)) None None
                   (Some (map Z.of_nat (rev (td_dims td))))).
    { unfold writable. split; [exact PB|]. split; [exact ND|]. split; [exact NT|]. split.
      { revert BO. unfold byte_order, known_order. cbn [In]. intros H.
        repeat (destruct H as [H|H]; [injection H as <- <-; tauto|]). destruct H. }
      split; [reflexivity|]. rewrite RC, IN. split.
      { rewrite SH, app_length. fold n. lia. }
      split; [exact NR|]. split; [now left|]. split; [now right|]. split; [now right|]. split; exact I. }
    destruct (written_core L fs fbase2 b n (td_prec td) None (prec_text (td_prec td)) (Some n) (Some (td_nrec td)) TimesNone None None
                mf None (Some (map Z.of_nat (rev (td_dims td)))) None None None WR eq_refl I)
      as (fs' & t & o & W & O & MT & GM & GD & b' & R' & SB' & RB').
    rewrite IN, RC in *. exists b. eexists. exists fs', b'.
    split; [exact R|]. rewrite ME. split; [rewrite kw_written by exact I; exact W|]. split; [exact R'|]. split.
    + apply (ravel_nd_eq (b64ops L)); [now rewrite SB', SH|].
      rewrite RB', RB. cbn [length seq flat_map]. rewrite app_nil_r, map_map. apply map_ext. intros g.
      unfold element. destruct g as [|r g]; [|destruct (existsb _ _); [apply stored_twice|]];
        destruct (td_prec td); reflexivity.
    + exists t. split; [exact MT | exact GM].
Qed.

(** ** C72: times *)

(** The times given. *)
Definition given_times (t : timesarg binary64) : list binary64 :=
  match t with TimesNone => [] | TimesOne x => [x] | TimesList l => l end.

(** A time with a blank before it, unless it is negative with an exponent of three digits. *)
Definition fits (t : binary64) : Prop := Bsign 53 1024 t = false \/ usual (B2R 53 1024 t).
Definition crowded (t : binary64) : Prop := Bsign 53 1024 t = true /\ unusual (B2R 53 1024 t).

Definition good_times (l : list binary64) : Prop :=
  l <> [] /\ Forall (fun t => is_finite 53 1024 t = true) l /\ Forall fits (tl l).

(** What is read instead of x: the double nearest to a number of thirteen digits nearest to x. *)
Definition comes_back (x y : binary64) : Prop :=
  (is_finite 53 1024 y = true /\ Bsign 53 1024 y = Bsign 53 1024 x /\
   Rabs (B2R 53 1024 y - B2R 53 1024 x) <= bpow radix10 (-12) * Rabs (B2R 53 1024 x) /\
   (B2R 53 1024 x <> 0 -> exists q k, nearest13 (Rabs (B2R 53 1024 x)) q k /\
      let d := round radix2 (FLT_exp (-1074) 53) ZnearestE (decimal q k) in
      B2R 53 1024 y = if Bsign 53 1024 x then - d else d) /\
   (digits_at_most_13 (B2R 53 1024 x) -> y = x))%R.

Lemma good_times_ok l : good_times l -> exists ys, Forall2 comes_back l ys /\
  times_ok b64times py_float e12_text (Some l) (Some (map (@Vfloat _) ys)).
Proof.
  intros (NE & F & FT). destruct (parse_all l F) as (ys & M & TB). exists ys. split; [exact TB|].
  split; [|exact M]. apply apart; [exact NE|].
  assert (F' : Forall (fun t => is_finite 53 1024 t = true) (tl l)) by (destruct F; [constructor | assumption]).
  clear - F' FT. revert F' FT. generalize (tl l). intros m F' FT. induction F'; inversion FT; subst; constructor; auto.
  now apply fits_length.
Qed.

Lemma given_list times : given_times times <> [] -> times_list times = Some (given_times times).
Proof. destruct times; [intros H; now elim H | reflexivity | reflexivity]. Qed.

(** A number is right-aligned in twenty columns. *)
Definition column (x : binary64) (s : text) : Prop :=
  exists w, s = repeat " "%char (20 - length w) ++ w /\ written_as (B2R 53 1024 x) (Bsign 53 1024 x) w.

Lemma columns l : Forall (fun t => is_finite 53 1024 t = true) l -> Forall2 column l (map fmt_e12 l).
Proof.
  intros H. induction H as [|x l F H IH]; [constructor|]. cbn [map]. constructor; [|exact IH].
  exists (e12_text x). split; [reflexivity|]. now apply e12_written_as.
Qed.

Lemma within_app (s r x : text) : (exists b a, r = b ++ x ++ a) -> exists b a, s ++ r = b ++ x ++ a.
Proof. intros (b & a & ->). exists (s ++ b), a. now rewrite <- app_assoc. Qed.
Lemma within_here (x r : text) : exists b a, x ++ r = b ++ x ++ a.
Proof. now exists [], r. Qed.

Theorem C72_times_read_back :
  forall (L : libm) fs fbase (a : nd binary64) n p itr dp ndims nrecords times fields sim mf dimlist,
  writable fs (stem fbase itr) mf dp p a n ndims nrecords fields sim dimlist ->
  good_times (given_times times) ->
  exists fs' before cols after,
    write64 fs fbase a itr dp ndims nrecords times fields sim mf None dimlist = (fs', Ok tt) /\
    dget fs' (stem fbase itr ++ lit ".meta")
      = Some (text_bytes (before ++ lit " timeInterval = [" ++ concat cols ++ lit " ];" ++ newline :: after)) /\
    Forall2 column (given_times times) cols /\
    exists b meta ys, read64 L fs' fbase itr mf = (fs', Ok (b, [match itr with Some i => i | None => (-1)%Z end], meta)) /\
      reads_as p a n b /\
      dget meta (lit "timeinterval") = Some (Lists [map (@Vfloat _) ys]) /\
      dget meta (lit "timestepnumber") = option_map (fun i => Vals [Vint i]) itr /\
      Forall2 comes_back (given_times times) ys.
Proof.
  intros L fs fbase a n p itr dp ndims nrecords times fields sim mf dimlist WR GT.
  destruct (good_times_ok _ GT) as (ys & CB & TO). pose proof GT as (NE & FI & _). pose proof (given_list times NE) as TL.
  destruct (written_core L fs fbase a n p itr dp ndims nrecords times fields sim mf None dimlist itr (Some (given_times times))
              (Some (map (@Vfloat _) ys)) WR) as (fs' & t & o & W & O & MT & GM & GD & b & R & RA).
  { cbn [step_and_times]. now rewrite TL. }
  { exact TO. }
  assert (TX : exists before after, t = before ++ lit " timeInterval = [" ++ concat (map fmt_e12 (given_times times)) ++ lit " ];" ++ newline :: after).
  { clear - MT. unfold meta_text_full in MT. destruct (dim_width _) as [w|]; [|discriminate MT]. cbn [rbind] in MT.
    match type of MT with Ok ?x = Ok _ => assert (x = t) as <- by congruence end.
    rewrite flat_map_concat_map. set (Y := concat _).
    match goal with |- exists b a, ?t = _ =>
      assert (IN : exists b a, t = b ++ (lit " timeInterval = [" ++ Y ++ lit " ];" ++ [newline]) ++ a) end.
    { set (X := lit " timeInterval = [" ++ Y ++ lit " ];" ++ [newline]).
      repeat first [apply within_here | apply within_app]. }
    destruct IN as (bf & af & ->). exists bf, af. rewrite <- !app_assoc. reflexivity. }
  destruct TX as (before & after & ->).
  exists fs', before, (map fmt_e12 (given_times times)), after. split; [exact W|]. split; [exact GM|]. split; [now apply columns|].
  exists b. eexists. exists ys. split; [exact R|]. split; [exact RA|].
  split; [destruct sim, fields, itr; reflexivity|]. split; [destruct sim, fields, itr; reflexivity | exact CB].
Qed.

Lemma unreadable_core L fs fbase (a : nd binary64) n p itr dp ndims nrecords times fields sim mf dimlist l e :
  writable fs (stem fbase itr) mf dp p a n ndims nrecords fields sim dimlist ->
  times_list times = Some l -> times_bad b64times py_float e12_text l e ->
  exists fs',
    write64 fs fbase a itr dp ndims nrecords times fields sim mf None dimlist = (fs', Ok tt) /\
    forall ro, rdmds64_full L py_float fs' fbase (match itr with Some i => ItList [i] | None => ItNone end) mf ro = (fs', Err e).
Proof.
  intros (PB & ND & NT & KO & PN & NB & RB & NDIM & NR & DL & SO & FO) TL TB. apply stem_plain in PB.
  destruct (known_order_prefix mf KO) as (o & O). pose proof (prec_name_suffix dp p PN) as TS.
  assert (H : forall ro, exists fs',
    write64 fs fbase a itr dp ndims nrecords times fields sim mf None dimlist = (fs', Ok tt) /\
    rdmds64_full L py_float fs' fbase (match itr with Some i => ItList [i] | None => ItNone end) mf ro = (fs', Err e)).
  { intros ro.
    destruct (wrmds_full_unreadable (b64ops L) b64times b64codec b32codec
      py_float e12_text b64_format_tok fs fbase a itr dp ndims nrecords times fields sim mf None dimlist
      o p n itr l e ro) as (fs' & W & R); auto.
    - destruct NDIM as [->|(-> & -> & ->)]; reflexivity.
    - lia.
    - rewrite lead_records by lia. destruct NR as [->| ->]; [exact I | reflexivity].
    - destruct DL as [->| ->]; [exact I | reflexivity].
    - cbn [step_and_times]. now rewrite TL.
    - exists fs'. split; [exact W|]. unfold rdmds64_full. destruct itr; exact R. }
  destruct (H (rd_default (b64ops L))) as (fs' & W & _). exists fs'. split; [exact W|].
  intros ro. destruct (H ro) as (fs2 & W2 & R). rewrite W in W2. injection W2 as <-. exact R.
Qed.

(** A time that is not finite, or an empty list: the file is written but cannot be read. *)
Theorem C72_unreadable_times :
  forall (L : libm) fs fbase (a : nd binary64) n p itr dp ndims nrecords times fields sim mf dimlist,
  writable fs (stem fbase itr) mf dp p a n ndims nrecords fields sim dimlist ->
  times = TimesList [] \/
  (Exists (fun t => is_finite 53 1024 t = false) (given_times times) /\
   Forall (fun t => is_finite 53 1024 t = true -> fits t) (tl (given_times times))) ->
  exists fs',
    write64 fs fbase a itr dp ndims nrecords times fields sim mf None dimlist = (fs', Ok tt) /\
    forall ro, rdmds64_full L py_float fs' fbase (match itr with Some i => ItList [i] | None => ItNone end) mf ro
      = (fs', Err ParseError).
Proof.
  intros L fs fbase a n p itr dp ndims nrecords times fields sim mf dimlist WR [->|(X & FT)].
  - eapply unreadable_core; [exact WR | reflexivity | now left].
  - assert (NE : given_times times <> []) by (intros E; rewrite E in X; inversion X).
    eapply unreadable_core; [exact WR | now apply given_list |]. right. left. split; [|now apply parse_some_infinite].
    apply apart; [exact NE|]. eapply Forall_impl; [|exact FT]. intros x H. cbn beta in H.
    destruct (is_finite 53 1024 x) eqn:F; [now apply fits_length, H|].
    destruct x as [s|s|s pl P|s m e P]; try discriminate F; [destruct s|]; cbn; lia.
Qed.

(** A negative time with an exponent of three digits that is not the first: no blank is left
    before it, and the file cannot be read. *)
Theorem C72_crowded_times :
  forall (L : libm) fs fbase (a : nd binary64) n p itr dp ndims nrecords times fields sim mf dimlist,
  writable fs (stem fbase itr) mf dp p a n ndims nrecords fields sim dimlist ->
  Forall (fun t => is_finite 53 1024 t = true) (given_times times) -> Exists crowded (tl (given_times times)) ->
  exists fs',
    write64 fs fbase a itr dp ndims nrecords times fields sim mf None dimlist = (fs', Ok tt) /\
    forall ro, rdmds64_full L py_float fs' fbase (match itr with Some i => ItList [i] | None => ItNone end) mf ro
      = (fs', Err (ValueError "could not convert string to float")).
Proof.
  intros L fs fbase a n p itr dp ndims nrecords times fields sim mf dimlist WR F X.
  assert (NE : given_times times <> []) by (intros E; rewrite E in X; inversion X).
  eapply unreadable_core; [exact WR | now apply given_list | now apply crowded_bad].
Qed.

(** The description of wrmds says that meta data of an existing file can be passed on.  A file
    with an iteration number, times or fields has entries wrmds does not take. *)
Theorem C71_meta_with_more_refuted :
  forall (L : libm) fs fbase (a : nd binary64) n p itr dp ndims nrecords times fields sim mf dimlist,
  writable fs (stem fbase itr) mf dp p a n ndims nrecords fields sim dimlist ->
  times = TimesNone \/ good_times (given_times times) ->
  itr <> None \/ times <> TimesNone \/ fields <> None ->
  exists fs' b its meta,
    write64 fs fbase a itr dp ndims nrecords times fields sim mf None dimlist = (fs', Ok tt) /\
    read64 L fs' fbase itr mf = (fs', Ok (b, its, meta)) /\
    forall fbase2 b2 itr2 mf2, write_kw64 fs' fbase2 b2 itr2 mf2 meta = (fs', Err TypeError).
Proof.
  intros L fs fbase a n p itr dp ndims nrecords times fields sim mf dimlist WR GT MORE.
  assert (TO : exists vs, times_ok b64times py_float e12_text (times_list times) vs /\ (vs = None -> times = TimesNone)).
  { destruct GT as [->|GT]; [exists None; split; [exact I | reflexivity]|].
    destruct (good_times_ok _ GT) as (ys & _ & TO). eexists. rewrite given_list by apply GT. split; [exact TO | discriminate]. }
  destruct TO as (vs & TO & VN).
  destruct (written_core L fs fbase a n p itr dp ndims nrecords times fields sim mf None dimlist itr (times_list times) vs WR eq_refl TO)
    as (fs' & t & o & W & _ & _ & _ & _ & b & R & _).
  exists fs', b. eexists. eexists. split; [exact W|]. split; [exact R|].
  intros fbase2 b2 itr2 mf2. unfold write_kw64, wrmds_kw.
  assert (K : forallb (fun kv => existsb (text_eqb (fst kv)) kw_names)
    (returned_dict n (rev (inner_dims a n)) dp (records a n) itr vs fields sim) = false).
  { destruct itr; [|destruct vs; [|destruct fields; [|exfalso; destruct MORE as [M|[M|M]]; try (now elim M); elim M; now apply VN]]];
      destruct sim; vm_compute; repeat match goal with |- context[match ?x with _ => _ end] => destruct x end; reflexivity. }
  now rewrite K.
Qed.

(** ** C73: deltat *)

Lemma same_steps fs fbase a i1 i2 dp ndims nrecords t1 t2 fields sim mf d1 d2 dimlist :
  step_and_times b64times i1 (times_list t1) d1 = step_and_times b64times i2 (times_list t2) d2 ->
  write64 fs fbase a i1 dp ndims nrecords t1 fields sim mf d1 dimlist
  = write64 fs fbase a i2 dp ndims nrecords t2 fields sim mf d2 dimlist.
Proof. intros E. unfold write64, wrmds_full64, wrmds_full. now rewrite E. Qed.

(** Times without an iteration number: as if that of the last time had been given, which is
    rounded down to a whole number of steps. *)
Theorem C73_step_of_last_time :
  forall fs fbase a dp ndims nrecords times fields sim mf dimlist earlier t dt,
  given_times times = earlier ++ [t] ->
  is_finite 53 1024 t = true -> is_finite 53 1024 dt = true -> (0 < B2R 53 1024 dt)%R ->
  (Rabs (B2R 53 1024 t) <= IZR (2 ^ 49) * B2R 53 1024 dt)%R ->
  write64 fs fbase a None dp ndims nrecords times fields sim mf (Some dt) dimlist
  = write64 fs fbase a (Some (Zfloor (B2R 53 1024 t / B2R 53 1024 dt))) dp ndims nrecords times fields sim mf None dimlist.
Proof.
  intros fs fbase a dp ndims nrecords times fields sim mf dimlist earlier t dt GT FT FD P B.
  apply same_steps. rewrite given_list by (rewrite GT; intros E; apply app_eq_nil in E; destruct E; discriminate).
  cbn [step_and_times]. unfold steps_of. rewrite GT, rev_app_distr. cbn [rev app t_steps b64times].
  rewrite floordiv_is_floor by assumption. reflexivity.
Qed.

(** An iteration number without times: as if deltat*itr, rounded to a double, had been given. *)
Theorem C73_time_of_step :
  forall fs fbase a dp ndims nrecords fields sim mf dimlist i dt,
  exists t,
    write64 fs fbase a (Some i) dp ndims nrecords TimesNone fields sim mf (Some dt) dimlist
    = write64 fs fbase a (Some i) dp ndims nrecords (TimesOne t) fields sim mf None dimlist /\
    (is_finite 53 1024 dt = true -> (Z.abs i < 2 ^ 53)%Z -> is_finite 53 1024 t = true ->
     B2R 53 1024 t = round radix2 (FLT_exp (-1074) 53) ZnearestE (B2R 53 1024 dt * IZR i)).
Proof.
  intros fs fbase a dp ndims nrecords fields sim mf dimlist i dt.
  exists (b64_mult mode_NE dt (b64_of_Z i)). split; [now apply same_steps|].
  intros FD B FT. destruct (b64_of_Z_exact i B) as (V & F). rewrite mult_finite by assumption. now rewrite V.
Qed.

(** Both are given: deltat is not used. *)
Theorem C73_both_given :
  forall fs fbase a dp ndims nrecords times fields sim mf dimlist i dt, times <> TimesNone ->
  write64 fs fbase a (Some i) dp ndims nrecords times fields sim mf (Some dt) dimlist
  = write64 fs fbase a (Some i) dp ndims nrecords times fields sim mf None dimlist.
Proof.
  intros fs fbase a dp ndims nrecords times fields sim mf dimlist i dt H. apply same_steps.
  destruct times; [now elim H | reflexivity | reflexivity].
Qed.

(** Neither is given, or nothing can be computed: nothing is written. *)
Theorem C73_nothing_to_compute_from :
  forall fs fbase a n p dp ndims nrecords times fields sim mf dimlist dt e,
  writable fs fbase mf dp p a n ndims nrecords fields sim dimlist ->
  (times = TimesNone /\ e = TypeError) \/ (times = TimesList [] /\ e = IndexError) \/
  (given_times times <> [] /\ dt = B754_zero 53 1024 (Bsign 53 1024 dt) /\ e = RuntimeError "float floor division by zero") ->
  write64 fs fbase a None dp ndims nrecords times fields sim mf (Some dt) dimlist = (fs, Err e).
Proof.
  intros fs fbase a n p dp ndims nrecords times fields sim mf dimlist dt e
    (PB & ND & NT & KO & PN & NB & RB & NDIM & NR & DL & SO & FO) C.
  destruct (known_order_prefix mf KO) as (o & O). pose proof (prec_name_suffix dp p PN) as TS.
  assert (ST : step_and_times b64times None (times_list times) (Some dt) = Err e).
  { destruct C as [(-> & ->)|[(-> & ->)|(NE & Z & ->)]]; [reflexivity | reflexivity |].
    rewrite given_list by exact NE. cbn [step_and_times]. unfold steps_of.
    destruct (rev (given_times times)) as [|t r] eqn:E.
    - apply (f_equal (@rev _)) in E. rewrite rev_involutive in E. now elim NE.
    - rewrite Z. destruct t, (Bsign 53 1024 dt); reflexivity. }
  unfold write64, wrmds_full64, wrmds_full. rewrite O, TS.
  assert (N : ndims_of (shape a) ndims nrecords = Ok n) by (destruct NDIM as [->|(-> & -> & ->)]; reflexivity).
  rewrite N, lead_records by lia. fold (inner_dims a n).
  replace (match nrecords with Some r => negb (r =? records a n) | None => false end) with false
    by (destruct NR as [->| ->]; [reflexivity | now rewrite Nat.eqb_refl]).
  replace (match dimlist with Some l => _ | None => false end) with false
    by (destruct DL as [->| ->]; [reflexivity |
        destruct (list_eq_dec Z.eq_dec (map Z.of_nat (rev (inner_dims a n))) (map Z.of_nat (rev (inner_dims a n)))) as [_|X]; [reflexivity | now elim X]]).
  now rewrite ST.
Qed.

(** From a step to its time and back: the same step if the time was not rounded down, the one
    before if it was. *)
Theorem C73_there_and_back :
  forall fs fbase a dp ndims nrecords fields sim mf dimlist k dt t,
  is_finite 53 1024 dt = true -> (0 < B2R 53 1024 dt)%R -> (0 <= k < 2 ^ 49)%Z ->
  t = b64_mult mode_NE dt (b64_of_Z k) -> is_finite 53 1024 t = true ->
  write64 fs fbase a (Some k) dp ndims nrecords TimesNone fields sim mf (Some dt) dimlist
  = write64 fs fbase a (Some k) dp ndims nrecords (TimesOne t) fields sim mf None dimlist /\
  ((B2R 53 1024 dt * IZR k <= B2R 53 1024 t)%R ->
   write64 fs fbase a None dp ndims nrecords (TimesOne t) fields sim mf (Some dt) dimlist
   = write64 fs fbase a (Some k) dp ndims nrecords (TimesOne t) fields sim mf None dimlist) /\
  ((B2R 53 1024 t < B2R 53 1024 dt * IZR k)%R ->
   write64 fs fbase a None dp ndims nrecords (TimesOne t) fields sim mf (Some dt) dimlist
   = write64 fs fbase a (Some (k - 1)%Z) dp ndims nrecords (TimesOne t) fields sim mf None dimlist).
Proof.
  intros fs fbase a dp ndims nrecords fields sim mf dimlist k dt t FD P K -> FT.
  pose proof (step_of_time_of_step dt k FD P K FT) as S. split; [now apply same_steps|].
  split; intros C; apply same_steps; cbn [step_and_times times_list]; unfold steps_of; cbn [rev app t_steps b64times]; rewrite S.
  - rewrite Rle_bool_true by exact C. reflexivity.
  - rewrite Rle_bool_false by exact C. reflexivity.
Qed.

(** Steps of a whole number of time units: nothing is lost. *)
Theorem C73_whole_time_units :
  forall fs fbase a dp ndims nrecords fields sim mf dimlist k d dt,
  is_finite 53 1024 dt = true -> B2R 53 1024 dt = IZR d -> (0 < d)%Z -> (0 <= k < 2 ^ 49)%Z -> (d * k <= 2 ^ 53)%Z ->
  exists t, B2R 53 1024 t = IZR (d * k) /\
    write64 fs fbase a (Some k) dp ndims nrecords TimesNone fields sim mf (Some dt) dimlist
    = write64 fs fbase a (Some k) dp ndims nrecords (TimesOne t) fields sim mf None dimlist /\
    write64 fs fbase a None dp ndims nrecords (TimesOne t) fields sim mf (Some dt) dimlist
    = write64 fs fbase a (Some k) dp ndims nrecords (TimesOne t) fields sim mf None dimlist.
Proof.
  intros fs fbase a dp ndims nrecords fields sim mf dimlist k d dt FD VD D K DK.
  destruct (b64_of_Z_exact k ltac:(lia)) as (VK & FK).
  assert (G : generic_format radix2 fexp64 (IZR (d * k))).
  { change fexp64 with (FLT_exp (-1074) 53). destruct (Z.eq_dec (d * k) (2 ^ 53)) as [E|NE].
    - rewrite E. change (IZR (2 ^ 53)) with (IZR (Zpower radix2 53)). rewrite IZR_Zpower by lia.
      apply generic_format_bpow. unfold FLT_exp. lia.
    - apply generic_format_FLT. exists (Float radix2 (d * k) 0); cbn [Fnum Fexp]; [|change (Z.abs (d * k) < 2 ^ 53)%Z; rewrite Z.abs_eq by nia; lia|lia].
      unfold F2R. cbn. ring. }
  pose proof (Binary.Bmult_correct 53 1024 eq_refl eq_refl binop_nan_pl64 mode_NE dt (b64_of_Z k)) as M.
  cbn [round_mode] in M. rewrite VD, VK, <- mult_IZR in M.
  change (SpecFloat.fexp 53 1024) with fexp64 in M. rewrite (round_generic radix2 fexp64 _ _ G) in M.
  rewrite Rlt_bool_true in M.
  2:{ rewrite <- abs_IZR, <- IZR_Zpower by lia. apply IZR_lt. apply Z.le_lt_trans with (2 ^ 53)%Z; [nia|]. vm_compute. reflexivity. }
  destruct M as (V & F & _). rewrite FD, FK in F. cbn [andb] in F.
  destruct (C73_there_and_back fs fbase a dp ndims nrecords fields sim mf dimlist k dt _ FD
    ltac:(rewrite VD; now apply IZR_lt) K eq_refl F) as (E1 & E2 & _).
  exists (b64_mult mode_NE dt (b64_of_Z k)). split; [exact V|]. split; [exact E1|]. apply E2.
  unfold b64_mult. rewrite V, VD, <- mult_IZR. apply Rle_refl.
Qed.

(** It is lost otherwise: step 5 of 0.1 is at 0.5, which is step 4. *)
Definition b64_tenth : binary64 := B754_finite 53 1024 false 7205759403792794 (-56) eq_refl.

Theorem C73_step_lost_refuted :
  exists dt k t,
    is_finite 53 1024 dt = true /\ (0 < B2R 53 1024 dt)%R /\ (0 <= k < 2 ^ 49)%Z /\
    is_finite 53 1024 t = true /\
    forall fs fbase a dp ndims nrecords fields sim mf dimlist,
    write64 fs fbase a (Some k) dp ndims nrecords TimesNone fields sim mf (Some dt) dimlist
    = write64 fs fbase a (Some k) dp ndims nrecords (TimesOne t) fields sim mf None dimlist /\
    write64 fs fbase a None dp ndims nrecords (TimesOne t) fields sim mf (Some dt) dimlist
    = write64 fs fbase a (Some (k - 1)%Z) dp ndims nrecords (TimesOne t) fields sim mf None dimlist.
Proof.
  exists b64_tenth, 5%Z, (b64_mult mode_NE b64_tenth (b64_of_Z 5)).
  split; [reflexivity|]. split; [apply F2R_gt_0; reflexivity|]. split; [lia|]. split; [vm_compute; reflexivity|].
  intros fs fbase a dp ndims nrecords fields sim mf dimlist. split; [now apply same_steps|]. apply same_steps.
  assert (Q : b64_floordiv (b64_mult mode_NE b64_tenth (b64_of_Z 5)) b64_tenth = Whole_number 4) by (vm_compute; reflexivity).
  cbn [step_and_times times_list]. unfold steps_of. cbn [rev app t_steps b64times]. now rewrite Q.
Qed.

(** *** Cases *)

Lemma nothing_there base : ~ has_tile (names []) base.
Proof. intros (d & e & _ & _ & _ & _ & []). Qed.

Lemma ex_writable base mf p a n fields sim : plain_name base -> known_order mf -> 2 <= n <= length (shape a) -> 1 <= records a n ->
  sim_ok sim -> fields_ok fields -> writable [] base mf (prec_text p) p a n (Some n) None fields sim None.
Proof.
  intros P KO N R S F. unfold writable. split; [exact P|]. split; [constructor|]. split; [apply nothing_there|]. split; [exact KO|].
  split; [reflexivity|]. split; [exact N|]. split; [exact R|]. split; [now left|]. split; [now left|]. split; [now left|].
  split; assumption.
Qed.

Definition file_texts (fs : directory) : list (string * string) :=
  map (fun f => (string_of_list_ascii (fst f), string_of_list_ascii (map ascii_of_byte (snd f)))) fs.
Definition metas (fs : directory) : list (string * string) :=
  filter (fun f => text_eqb (skipn (length (list_ascii_of_string (fst f)) - 5) (list_ascii_of_string (fst f))) (lit ".meta")) (file_texts fs).

(** Three records of 2 x 2 singles. *)
Definition ex_copy : directory :=
  fst (write64 [] (lit "T") (ex_nd [3; 2; 2]) None (lit "float32") (Some 2) None TimesNone None (Some (lit "my run")) (lit "b") None None).
Definition ex_copied : directory :=
  match read64 ex_libm ex_copy (lit "T") None (lit "b") with
  | (fs', Ok (b, _, meta)) => fst (write_kw64 fs' (lit "U") b None (lit "b") meta)
  | (fs', Err _) => fs'
  end.

Example C71_case :
  writable [] (lit "T") (lit "b") (lit "float32") Single (ex_nd [3; 2; 2]) 2 (Some 2) None None (Some (lit "my run")) None /\
  trimmed (Some (lit "my run")) /\
  map (fun f => string_of_list_ascii (fst f)) ex_copied = ["T.meta"; "T.data"; "U.meta"; "U.data"]%string /\
  dget ex_copied (lit "U.meta") = dget ex_copied (lit "T.meta") /\
  dget ex_copied (lit "U.data") = dget ex_copied (lit "T.data") /\
  option_map (@length byte) (dget ex_copied (lit "U.data")) = Some 48.
Proof.
  split.
  { apply (ex_writable (lit "T") (lit "b") Single); [now apply magic_false | right; left; reflexivity | cbn; lia | cbn; lia | | exact I].
    cbn. repeat split; intros H; cbn in H; intuition discriminate. }
  split.
  { cbn [trimmed]. intros r c E. apply (f_equal (@rev ascii)) in E. rewrite rev_app_distr in E. cbn in E. injection E as <- _. reflexivity. }
  split; [vm_compute; reflexivity|]. split; [vm_compute; reflexivity|]. split; vm_compute; reflexivity.
Qed.

(** Two tiles of a field are gathered into one file. *)
Definition ex_tiled : directory := store_tiles ex_td Little (lit "T") None (ex_A 0).
Definition ex_gathered : directory :=
  match read64 ex_libm ex_tiled (lit "T") None (lit "l") with
  | (fs', Ok (b, _, meta)) => fst (write_kw64 fs' (lit "U") b None (lit "l") meta)
  | (fs', Err _) => fs'
  end.
Example C71_tiles_case :
  (plain_name (lit "T") /\ plain_name (lit "U") /\ NoDup (names ex_tiled) /\ byte_order (lit "l") Little /\ tiles_fit (rd_default (b64ops ex_libm)) ex_td /\
   encoded_files b64codec b32codec ex_tiled (lit "T") Little ex_td None (ex_A 0) /\
   listed (names ex_tiled) (lit "T") ex_td /\ ~ has_tile (names ex_tiled) (lit "U")) /\
  outcome (read64 ex_libm ex_gathered (lit "U") None (lit "l")) = outcome (read64 ex_libm ex_tiled (lit "T") None (lit "l")) /\
  option_map (@length byte) (dget ex_gathered (lit "U.data")) = Some 256.
Proof.
  split; [|split; vm_compute; reflexivity].
  split; [now apply magic_false|]. split; [now apply magic_false|].
  split; [vm_compute; repeat constructor; cbn; intuition discriminate|].
  split; [cbn; tauto|].
  split; [unfold tiles_fit, tile_inside, whole_levels; repeat constructor; cbn; lia|].
  split.
  { intros name lo IT. destruct IT as [E|[E|[]]]; injection E as <- <-; vm_compute; split; reflexivity. }
  split.
  { apply stored_tiles_listed; [discriminate | repeat constructor; cbn; intuition discriminate | |].
    - repeat constructor; [exists (lit "001"), (lit "001") | exists (lit "002"), (lit "001")];
        repeat split; try reflexivity; repeat constructor.
    - vm_compute. auto. }
  intros (d & e & _ & _ & _ & _ & IN).
  assert (H : forallb (fun s => match s with "U"%char :: _ => false | _ => true end) (names ex_tiled) = true) by (vm_compute; reflexivity).
  rewrite forallb_forall in H. apply H in IN. discriminate IN.
Qed.

(** A file with an iteration number cannot be copied that way. *)
Example C71_refuted_case :
  let fs := fst (write64 [] (lit "T") (ex_nd [2; 3]) (Some 7%Z) (lit "float64") None None TimesNone None None (lit "b") None None) in
  match read64 ex_libm fs (lit "T") (Some 7%Z) (lit "b") with
  | (fs', Ok (b, _, meta)) => failure (snd (write_kw64 fs' (lit "U") b (Some 8%Z) (lit "b") meta))
  | _ => None
  end = Some TypeError.
Proof. vm_compute. reflexivity. Qed.

(** Times 1/3 and -5/2. *)
Definition b64_third : binary64 := B754_finite 53 1024 false 6004799503160661 (-54) eq_refl.
Definition b64_minus_5_2 : binary64 := B754_finite 53 1024 true 5629499534213120 (-51) eq_refl.

Lemma usual_between x : (1 <= Rabs x <= 10)%R -> usual x.
Proof.
  intros H. right. unfold least_usual, most_usual. split.
  - apply Rlt_le_trans with 1%R; [|apply H]. apply Rlt_le_trans with (IZR (10 ^ 13) * bpow radix10 (-13))%R.
    + apply Rlt_le_trans with (IZR (10 ^ 13) * bpow radix10 (-112))%R.
      * apply Rmult_lt_compat_r; [apply bpow_gt_0 | lra].
      * apply Rmult_le_compat_l; [apply IZR_le; lia | apply bpow_le; lia].
    + rewrite <- ten_nat, <- bpow_plus by lia. apply Rle_refl.
  - apply Rle_lt_trans with 10%R; [apply H|].
    assert (1 <= bpow radix10 87)%R by (change 1%R with (bpow radix10 0); apply bpow_le; lia).
    assert (100 < IZR (10 ^ 13) - / 2)%R by (assert (1000 <= IZR (10 ^ 13))%R by (apply IZR_le; lia); lra). nra.
Qed.

Definition times_read (r : directory * res (nd binary64 * list Z * list (text * mentry (F:=binary64)))) : option (list (option Z)) :=
  match snd r with
  | Ok (_, _, meta) => match dget meta (lit "timeinterval") with
                       | Some (Lists [l]) => Some (map (fun v => match v with Vfloat x => Some (bits_of_b64 x) | _ => None end) l)
                       | _ => None
                       end
  | Err _ => None
  end.

Definition ex_times_dir (l : list binary64) : directory :=
  fst (write64 [] (lit "T") (ex_nd [2; 3]) (Some 7%Z) (lit "float64") None None (TimesList l) None None (lit "b") None None).

Example C72_case :
  writable [] (stem (lit "T") (Some 7%Z)) (lit "b") (lit "float64") Double (ex_nd [2; 3]) 2 None None None None None /\
  good_times [b64_third; b64_minus_5_2] /\
  metas (ex_times_dir [b64_third; b64_minus_5_2]) = [("T.0000000007.meta",
" nDims = [   2 ];
 dimList = [
     3,    1,    3,
     2,    1,    2
 ];
 dataprec = [ 'float64' ];
 nrecords = [     1 ];
 timeStepNumber = [          7 ];
 timeInterval = [  3.333333333333E-01 -2.500000000000E+00 ];
")]%string /\
  times_read (read64 ex_libm (ex_times_dir [b64_third; b64_minus_5_2]) (lit "T") (Some 7%Z) (lit "b"))
  = Some [Some (bits_of_b64 (B754_finite 53 1024 false 6004799503160061 (-54) eq_refl)); Some (bits_of_b64 b64_minus_5_2)] /\
  digits_at_most_13 (B2R 53 1024 b64_minus_5_2).
Proof.
  split.
  { unfold writable. split; [now apply magic_false|]. split; [constructor|]. split; [apply nothing_there|]. split; [right; left; reflexivity|]. split; [reflexivity|].
    cbn. repeat split; auto. }
  assert (V : B2R 53 1024 b64_minus_5_2 = (-5 / 2)%R).
  { unfold b64_minus_5_2, B2R, F2R. cbn [cond_Zopp Fnum Fexp Z.opp].
    change (bpow radix2 (-51)) with (/ IZR (2 ^ 51))%R. change (-5629499534213120)%Z with (-5 * 2 ^ 50)%Z.
    change (2 ^ 51)%Z with (2 * 2 ^ 50)%Z. rewrite !(mult_IZR _ (2 ^ 50)). field. apply IZR_neq. discriminate. }
  split.
  { split; [discriminate|]. split; [repeat constructor|]. cbn [tl]. constructor; [|constructor]. right. apply usual_between.
    rewrite V. unfold Rabs. destruct (Rcase_abs _); lra. }
  split; [vm_compute; reflexivity|]. split; [vm_compute; reflexivity|].
  exists (-25)%Z, (-1)%Z. split; [vm_compute; reflexivity|]. rewrite V. change (bpow radix10 (-1)) with (/ 10)%R. lra.
Qed.

(** Not a number; infinite; no time at all; a time next to a blank and one without. *)
Definition of_text (s : string) : binary64 := match py_float (lit s) with Some x => x | None => b64_nan end.

Example C72_unreadable_case :
  let outcome_of l := failure (snd (read64 ex_libm (ex_times_dir l) (lit "T") (Some 7%Z) (lit "b"))) in
  outcome_of [b64_nan] = Some ParseError /\ outcome_of [b64_third; B754_infinity 53 1024 true] = Some ParseError /\
  outcome_of [] = Some ParseError /\
  outcome_of [of_text "1"; of_text "-1e-100"] = Some (ValueError "could not convert string to float") /\
  outcome_of [of_text "1"; of_text "1e-100"] = None /\ outcome_of [of_text "-1e-100"; of_text "1"] = None.
Proof. vm_compute. repeat split; reflexivity. Qed.

Example C72_crowded_case : exists t, is_finite 53 1024 t = true /\ crowded t.
Proof.
  exists (B754_finite 53 1024 true 4503599627370496 300 eq_refl). split; [reflexivity|]. split; [reflexivity|].
  assert (V : B2R 53 1024 (B754_finite 53 1024 true 4503599627370496 300 eq_refl) = (- IZR (2 ^ 352))%R).
  { unfold B2R, F2R. cbn [cond_Zopp Fnum Fexp Z.opp]. rewrite <- IZR_Zpower by lia. rewrite <- mult_IZR, <- opp_IZR. apply f_equal. vm_compute. reflexivity. }
  rewrite V. assert (P : (0 < IZR (2 ^ 352))%R) by (apply IZR_lt; vm_compute; reflexivity). split; [lra|]. right.
  rewrite Rabs_Ropp, Rabs_pos_eq by lra. unfold most_usual. rewrite ten_nat by lia.
  apply Rlt_trans with (IZR (10 ^ 13) * IZR (10 ^ 87))%R.
  - apply Rmult_lt_compat_r; [apply IZR_lt; vm_compute; reflexivity | lra].
  - rewrite <- mult_IZR. apply IZR_lt. vm_compute. reflexivity.
Qed.

(** Times 1800 and 3600 with steps of 1000: iteration 3. *)
Example C73_case :
  given_times (TimesList [b64_of_Z 1800; b64_of_Z 3600]) = [b64_of_Z 1800] ++ [b64_of_Z 3600] /\
  B2R 53 1024 (b64_of_Z 3600) = 3600%R /\ B2R 53 1024 (b64_of_Z 1000) = 1000%R /\ Zfloor (3600 / 1000) = 3%Z /\
  map (fun f => string_of_list_ascii (fst f))
    (fst (write64 [] (lit "T") (ex_nd [2; 3]) None (lit "float64") None None (TimesList [b64_of_Z 1800; b64_of_Z 3600]) None None
            (lit "b") (Some (b64_of_Z 1000)) None))
  = ["T.0000000003.meta"; "T.0000000003.data"]%string /\
  failure (snd (write64 [] (lit "T") (ex_nd [2; 3]) None (lit "float64") None None TimesNone None None
            (lit "b") (Some (b64_of_Z 1000)) None)) = Some TypeError.
Proof.
  split; [reflexivity|]. split; [apply b64_of_Z_exact; lia|]. split; [apply b64_of_Z_exact; lia|].
  split; [apply Zfloor_imp; rewrite plus_IZR; lra|]. split; vm_compute; reflexivity.
Qed.
