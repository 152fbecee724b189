(** rdmds of tile files. *)
From Coq Require Import Ascii String List Bool PeanoNat NArith ZArith Init.Byte Lia.
Import ListNotations.
From Verif Require Import Prelude PreludeFacts Num GridIO MdsMeta Mds SpecMds
  MdsTextFacts MdsParseFacts SpecGlob GlobFacts MdsScanFacts MdsFacts RdMds SpecRdMds TileTextFacts RdMdsFacts.
Local Open Scope nat_scope.
Local Open Scope list_scope.
Local Arguments Nat.mul : simpl never.

(** * The meta data of a tile *)

Definition ints3 (l : list (Z * Z * Z)) : list Z := flat_map (fun t => let '(d, lo, hi) := t in [hi; lo; d]) l.

Lemma every3_ints3_0 l : every3 (ints3 l) = map snd l.
Proof. induction l as [|[[d lo] hi] l IH]; [reflexivity|]. cbn [ints3 flat_map app every3 map snd]. f_equal. exact IH. Qed.
Lemma every3_ints3_1 l : every3 (skipn 1 (ints3 l)) = map (fun t => snd (fst t)) l.
Proof.
  induction l as [|[[d lo] hi] l IH]; [reflexivity|]. cbn [ints3 flat_map app skipn map snd fst].
  fold (ints3 l). destruct l as [|[[d' lo'] hi'] l]; [reflexivity|].
  cbn [ints3 flat_map app every3 skipn map snd fst] in *. f_equal. exact IH.
Qed.
Lemma every3_ints3_2 l : every3 (skipn 2 (ints3 l)) = map (fun t => fst (fst t)) l.
Proof.
  induction l as [|[[d lo] hi] l IH]; [reflexivity|]. cbn [ints3 flat_map app skipn map snd fst].
  fold (ints3 l). destruct l as [|[[d' lo'] hi'] l]; [reflexivity|].
  cbn [ints3 flat_map app every3 skipn map snd fst] in *. f_equal. exact IH.
Qed.

Section Meta.
Context {F : Type} (N : numops F).
Variable float_of : text -> option F.

Lemma tile_values_ints l : tile_values (F:=F) l = map Vint (flat_map (fun t => let '(d, lo, hi) := t in [d; lo; hi]) l).
Proof. unfold tile_values. rewrite map_flat_map. apply flat_map_ext. intros [[d lo] hi]. reflexivity. Qed.

Lemma rev_ints3 l : rev (flat_map (fun t : Z * Z * Z => let '(d, lo, hi) := t in [d; lo; hi]) (rev l)) = ints3 l.
Proof.
  induction l as [|[[d lo] hi] l IH]; [reflexivity|]. cbn [rev]. rewrite flat_map_app, rev_app_distr, IH.
  reflexivity.
Qed.

(** The entries common to the tiles. *)
Definition common_meta (td : tiled) : metadict F :=
  [(lit "nDims", [Vint (Z.of_nat (length (td_dims td)))]);
   (lit "dataprec", [Vstr (prec_text (td_prec td))]);
   (lit "nrecords", [Vint (Z.of_nat (td_nrec td))]);
   (lit "dimList", map Vint (rev (map Z.of_nat (td_dims td))))].

Lemma combine3 (a b c : list nat) : length b = length a -> length c = length a ->
  map (fun q => snd (fst q)) (combine (combine a b) c) = b /\ map (fun q => fst (fst q)) (combine (combine a b) c) = a
  /\ combine (map (fun q => snd (fst q)) (combine (combine a b) c)) (map snd (combine (combine a b) c)) = combine b c.
Proof.
  revert b c. induction a as [|x a IH]; intros [|y b] [|z c] E1 E2; try discriminate E1; try discriminate E2; [auto|].
  cbn [combine map fst snd]. destruct (IH b c) as (H1 & H2 & H3); [now injection E1 | now injection E2|].
  rewrite H1, H2 in *. rewrite H3. auto.
Qed.

Lemma readmeta_mapped td step lo m : length lo = length (td_dims td) -> length (td_ext td) = length (td_dims td) ->
  readmeta_full float_of (tile_text (mk_tile_head (rev (tile_bounds td lo)) (td_prec td) (td_nrec td) m step))
  = Ok (mk_filemeta (mk_tilemeta (map Z.of_nat (td_dims td)) (map Z.of_nat lo)
          (map (fun p => Z.of_nat (fst p) + Z.of_nat (snd p))%Z (combine lo (td_ext td))) (common_meta td)
          (match m with Some _ => true | None => false end))
        (option_map (fun z => [Vint z]) step) None (option_map (fun ab => [Vint (fst ab); Vint (snd ab)]) m)).
Proof.
  intros L1 L2. set (hd := mk_tile_head _ _ _ m step).
  assert (D : td_dims td <> []) by (unfold td_dims; destruct (td_lead td); discriminate).
  assert (BL : length (tile_bounds td lo) = length (td_dims td)).
  { unfold tile_bounds. rewrite map_length, !combine_length. lia. }
  assert (P : parsemeta float_of (tile_text hd) = Ok (tile_dict hd)).
  { apply tile_text_parses. unfold hd. cbn [th_dims]. intros E. apply D.
    apply (f_equal (@length _)) in E. rewrite rev_length, BL in E. now destruct (td_dims td). }
  destruct (combine3 (td_dims td) lo (td_ext td) L1 L2) as (H1 & H2 & H3).
  assert (B1 : map (fun t => (snd (fst t) - 1)%Z) (tile_bounds td lo) = map Z.of_nat lo).
  { unfold tile_bounds. rewrite map_map. rewrite <- H1 at 2. rewrite map_map. apply map_ext.
    intros [[d l] n]. cbn [fst snd]. lia. }
  assert (B2 : map snd (tile_bounds td lo) = map (fun p => Z.of_nat (fst p) + Z.of_nat (snd p))%Z (combine lo (td_ext td))).
  { unfold tile_bounds. rewrite map_map. rewrite <- H3.
    generalize (combine (combine (td_dims td) lo) (td_ext td)). clear. intros l.
    induction l as [|[[d x] n] l IH]; [reflexivity|]. cbn [map combine fst snd]. now rewrite IH. }
  assert (B0 : map (fun t => fst (fst t)) (tile_bounds td lo) = map Z.of_nat (td_dims td)).
  { unfold tile_bounds. rewrite map_map. rewrite <- H2 at 2. rewrite map_map. apply map_ext.
    intros [[d l] n]. reflexivity. }
  unfold readmeta_full, readmeta. rewrite P. cbn [rbind].
  assert (G : dget (tile_dict (F:=F) hd) (lit "dimList") = Some (tile_values (rev (tile_bounds td lo))))
    by (unfold hd; destruct step, m as [[a b]|]; reflexivity).
  rewrite G, tile_values_ints, mapM_as_int. cbn [rbind]. rewrite rev_ints3.
  rewrite every3_ints3_0, every3_ints3_1, every3_ints3_2, map_map, B0, B1, B2.
  assert (LN : Z.of_nat (length (th_dims hd)) = Z.of_nat (length (td_dims td)))
    by (unfold hd; cbn [th_dims]; now rewrite rev_length, BL).
  f_equal. f_equal; [|unfold hd; destruct step, m as [[a b]|]; reflexivity..].
  f_equal; [|unfold hd; destruct step, m as [[a b]|]; reflexivity].
  unfold tile_dict. rewrite LN. unfold common_meta, hd. destruct step, m as [[a b]|]; reflexivity.
Qed.

Lemma readmeta_tile td step lo : tile_inside td lo ->
  readmeta_full float_of (tile_text (tile_heading td step lo))
  = Ok (mk_filemeta (mk_tilemeta (map Z.of_nat (td_dims td)) (map Z.of_nat lo)
          (map (fun p => Z.of_nat (fst p) + Z.of_nat (snd p))%Z (combine lo (td_ext td))) (common_meta td) false)
        (option_map (fun z => [Vint z]) step) None None).
Proof. intros (L1 & L2 & _). apply (readmeta_mapped td step lo None L1 L2). Qed.

(** The tiles' common entries compare equal. *)
Lemma values_eqb_ints l : values_eqb N (map Vint l) (map Vint l) = true.
Proof. induction l as [|z l IH]; [reflexivity|]. cbn [map values_eqb value_eqb]. now rewrite Z.eqb_refl, IH. Qed.

Lemma common_meta_eqb td : meta_eqb N (common_meta td) (common_meta td) = true.
Proof.
  unfold meta_eqb. rewrite Nat.eqb_refl. cbn [andb]. unfold common_meta. cbn [forallb fst].
  change (dget ?d (lit "nDims")) with (Some [Vint (F:=F) (Z.of_nat (length (td_dims td)))]).
  change (dget ?d (lit "dataprec")) with (Some [Vstr (F:=F) (prec_text (td_prec td))]).
  change (dget ?d (lit "nrecords")) with (Some [Vint (F:=F) (Z.of_nat (td_nrec td))]).
  change (dget ?d (lit "dimList")) with (Some (map (Vint (F:=F)) (rev (map Z.of_nat (td_dims td))))).
  cbn [snd values_eqb value_eqb]. rewrite !Z.eqb_refl, text_eqb_refl, values_eqb_ints. reflexivity.
Qed.

End Meta.

(** * One tile *)
Section Read.
Context {F : Type} (N : numops F).
Variables (C8 C4 : codec F).
Variable float_of : text -> option F.
Variables (od : order) (td : tiled) (o : rdopts F).
Hypothesis OK : options_ok o td.
Hypothesis IN : Forall (fun t => tile_inside td (snd t) /\ whole_levels td (length (o_lev o)) (snd t)) (td_tiles td).

Notation W := (wanted o td).
Notation nlev := (length (o_lev o)).
Notation recsN := (wanted_recs o (td_nrec td)).
Notation ext := (td_ext td).

Definition start (nits : nat) : rdstate (F:=F) :=
  mk_rdstate (mk_nd (nits :: length recsN :: map (@length nat) W) (fun _ => o_fill o))
    (td_prec td) ext (td_nrec td) (recsZ td o) (regw td o) (common_meta td).

Lemma recsZ_length : length (recsZ td o) = length recsN.
Proof. rewrite (recs_index td o), map_length. reflexivity. Qed.

Lemma from_end_wrap n z : from_end (Some (Z.of_nat n)) z = Ok (wrap n z).
Proof. unfold from_end, wrap. destruct (z <? 0)%Z; reflexivity. Qed.

Lemma full_region_ok : full_region (o_region o) (map Z.of_nat (td_dims td)) = Ok (regw td o).
Proof.
  unfold full_region, td_dims. rewrite map_app. cbn [map]. rewrite rev_last2. cbn [nth_error].
  unfold regw. destruct (o_region o) as [r|]; [|reflexivity]. rewrite !from_end_wrap. reflexivity.
Qed.

Lemma extents_of lo : length lo = length ext ->
  mapM extent (map (fun b => (snd b - fst b)%Z)
    (combine (map Z.of_nat lo) (map (fun p => Z.of_nat (fst p) + Z.of_nat (snd p))%Z (combine lo ext)))) = Ok ext.
Proof.
  generalize ext. induction lo as [|l lo IH]; intros [|e ex] E; try discriminate E; [reflexivity|].
  cbn [map combine fst snd]. cbn [mapM]. unfold extent at 1.
  rewrite (proj2 (Z.ltb_ge _ _)) by lia. cbn [rbind].
  replace (Z.to_nat (Z.of_nat l + Z.of_nat e - Z.of_nat l)) with e by lia.
  rewrite IH by (now injection E). reflexivity.
Qed.

Lemma extent_nat z : (0 <= z)%Z -> extent z = Ok (Z.to_nat z).
Proof. intros H. unfold extent. now rewrite (proj2 (Z.ltb_ge _ _)) by lia. Qed.

Lemma init_lengths nits lo m : length lo = length (td_dims td) -> length ext = length (td_dims td) ->
  init_full o nits (mk_tilemeta (map Z.of_nat (td_dims td)) (map Z.of_nat lo)
          (map (fun p => Z.of_nat (fst p) + Z.of_nat (snd p))%Z (combine lo ext)) (common_meta td) m)
  = Ok (start nits).
Proof.
  intros L1 L2. unfold init_full. cbn [tm_gdims tm_i0s tm_ies tm_meta].
  change (dget (common_meta td) (lit "dataprec")) with (Some [Vstr (F:=F) (prec_text (td_prec td))]).
  change (single (common_meta td) (lit "dataprec")) with (Ok (Vstr (F:=F) (prec_text (td_prec td)))).
  cbn [rbind].
  assert (TS : typesuffix (prec_text (td_prec td)) = Some (td_prec td)) by (destruct (td_prec td); reflexivity).
  rewrite TS. cbn [rbind]. rewrite extents_of by lia. cbn [rbind].
  assert (EN : match ext with [] => true | _ => false end = false).
  { unfold td_dims in L2. rewrite app_length in L2. cbn [length] in L2. destruct ext; [cbn in L2; lia|reflexivity]. }
  rewrite EN.
  change (single (common_meta td) (lit "nrecords")) with (Ok (Vint (F:=F) (Z.of_nat (td_nrec td)))).
  cbn [rbind as_int]. rewrite extent_nat, Nat2Z.id by lia. cbn [rbind]. rewrite full_region_ok. cbn [rbind].
  destruct (regw_ok td o OK) as (RY & RX). destruct OK as (_ & LV & _).
  rewrite map_length. rewrite (proj2 (Nat.ltb_ge _ _)) by (unfold td_dims; rewrite app_length; cbn [length]; lia).
  rewrite firstn_map, skipn_map.
  assert (LD : firstn (length (td_dims td) - 2) (td_dims td) = td_lead td).
  { unfold td_dims. rewrite app_length. replace (length (td_lead td) + length [td_ny td; td_nx td] - 2) with (length (td_lead td) + 0) by (cbn; lia).
    rewrite firstn_app_2. cbn [firstn]. apply app_nil_r. }
  rewrite LD, mapM_extent. cbn [rbind]. rewrite !extent_nat by lia. cbn [rbind].
  f_equal. unfold start. f_equal. f_equal. f_equal. fold (recsZ td o). rewrite recsZ_length. f_equal.
  rewrite (wanted_split td o OK). rewrite !map_app. f_equal; [|f_equal].
  - unfold level_axes. rewrite map_map.
    assert (G : forall (levs : list levarg) gl, length gl = length levs ->
       map (fun l => length (lev_list l)) levs
       = map (fun x => length (map (index_of (snd x)) (levels_of (fst x)))) (combine levs gl)).
    { induction levs as [|l levs IH]; intros [|g gl] E; try discriminate E; [reflexivity|].
      cbn [map combine fst snd]. rewrite map_length, <- IH by (now injection E). reflexivity. }
    apply G. apply (lead_levels td o OK).
  - rewrite map_map. rewrite (map_ext _ (fun n => n)) by (intros; apply seq_length). now rewrite map_id.
  - unfold rows, cols. cbn [map]. now rewrite !seq_length.
Qed.

Lemma init_ok nits lo m : tile_inside td lo ->
  init_full o nits (mk_tilemeta (map Z.of_nat (td_dims td)) (map Z.of_nat lo)
          (map (fun p => Z.of_nat (fst p) + Z.of_nat (snd p))%Z (combine lo ext)) (common_meta td) m)
  = Ok (start nits).
Proof. intros (L1 & L2 & _). now apply init_lengths. Qed.

(** The state of the loop: everything but the array is fixed. *)
Definition with_arr (nits : nat) (arr : nd F) : rdstate (F:=F) :=
  mk_rdstate arr (td_prec td) ext (td_nrec td) (recsZ td o) (regw td o) (common_meta td).
Definition arr_of (nits : nat) (st : option (rdstate (F:=F))) : nd F :=
  match st with Some s => s_arr s | None => s_arr (start nits) end.
Definition good (nits : nat) (st : option (rdstate (F:=F))) : Prop :=
  match st with
  | None => True
  | Some s => s = with_arr nits (s_arr s) /\ shape (s_arr s) = nits :: length recsN :: map (@length nat) W
  end.

Definition file_meta (step : option Z) (lo : list nat) : filemeta (F:=F) :=
  mk_filemeta (mk_tilemeta (map Z.of_nat (td_dims td)) (map Z.of_nat lo)
          (map (fun p => Z.of_nat (fst p) + Z.of_nat (snd p))%Z (combine lo ext)) (common_meta td) false)
        (option_map (fun z => [Vint z]) step) None None.

Lemma read_tile_at nits iit fs q step A name lo st fm t bs : In (name, lo) (td_tiles td) ->
  dget fs (q ++ lit ".meta") = Some (text_bytes t) -> readmeta_full float_of t = Ok (file_meta step lo) ->
  dget fs (q ++ lit ".data") = Some bs -> readable C8 C4 od td o A lo bs -> good nits st ->
  exists arr', read_tile_full N C8 C4 float_of o od nits iit (fs, st, fm) (q ++ lit ".meta")
     = (fs, Ok (fs, Some (with_arr nits arr'), Some (file_meta step lo)))
   /\ shape arr' = nits :: length recsN :: map (@length nat) W
   /\ forall idx, valid_idx (shape arr') idx -> at_ arr' idx = updated td o A lo iit (arr_of nits st) idx.
Proof.
  intros I DM RM DD RB G.
  rewrite Forall_forall in IN. destruct (IN _ I) as (LI & LW). cbn [snd] in LI, LW.
  unfold read_tile_full. rewrite DM, byte_text_bytes, RM. unfold file_meta. cbn [rbind fm_tile tm_meta].
  set (st1 := match st with None => init_full _ _ _ | Some s => _ end).
  assert (E1 : st1 = Ok (with_arr nits (arr_of nits st))).
  { unfold st1. destruct st as [s|]; cbn [good arr_of] in *.
    - destruct G as (-> & _). cbn [s_meta with_arr]. now rewrite common_meta_eqb.
    - rewrite init_ok by exact LI. reflexivity. }
  rewrite E1. clear E1 st1. cbn [rbind fm_map tm_i0s tm_ies].
  assert (SHP : shape (arr_of nits st) = nits :: length recsN :: map (@length nat) W)
    by (destruct st as [s|]; [apply G|reflexivity]).
  set (arr := arr_of nits st) in *. clearbody arr.
  destruct (tile_plan td o OK lo LI LW) as (ov & PL & _).
  fold (zbounds lo ext).
  assert (OV : match o_region o with None => Ok (mk_overlap (zbounds lo ext) None true)
               | Some _ => region_overlap (s_region (with_arr nits arr)) (zbounds lo ext) end = Ok ov) by exact PL.
  destruct (read_data_ok N C8 C4 od td o OK A lo LI LW bs RB nits iit (with_arr nits arr) ov fs
     (q ++ lit ".data")) as (w & arr' & SV & RD & SH & AT); [repeat split; assumption | exact PL | exact DD |].
  cbn [s_arr with_arr] in *.
  replace (match o_region o with None => Ok (mk_overlap (zbounds lo ext) None true)
           | Some _ => region_overlap (s_region (with_arr nits arr)) (zbounds lo ext) end) with (Ok ov).
  destruct (o_region o); cbn [rbind]; rewrite SV; cbn [rbind];
    rewrite data_name, RD; cbn [rbind]; exists arr';
    (split; [reflexivity|split; [congruence|]]; intros idx V; apply AT; congruence).
Qed.

Lemma read_tile_meta nits iit fs base step A name lo st fm t bs : In (name, lo) (td_tiles td) ->
  dget fs (base ++ name ++ lit ".meta") = Some (text_bytes t) -> readmeta_full float_of t = Ok (file_meta step lo) ->
  dget fs (base ++ name ++ lit ".data") = Some bs -> readable C8 C4 od td o A lo bs -> good nits st ->
  exists arr', read_tile_full N C8 C4 float_of o od nits iit (fs, st, fm) (base ++ name ++ lit ".meta")
     = (fs, Ok (fs, Some (with_arr nits arr'), Some (file_meta step lo)))
   /\ shape arr' = nits :: length recsN :: map (@length nat) W
   /\ forall idx, valid_idx (shape arr') idx -> at_ arr' idx = updated td o A lo iit (arr_of nits st) idx.
Proof. rewrite !(app_assoc base). intros. eapply read_tile_at; eauto. Qed.

Lemma read_tile_ok nits iit fs base step A name lo st fm : In (name, lo) (td_tiles td) ->
  tile_files C8 C4 fs base od td o step A -> good nits st ->
  exists arr', read_tile_full N C8 C4 float_of o od nits iit (fs, st, fm) (base ++ name ++ lit ".meta")
     = (fs, Ok (fs, Some (with_arr nits arr'), Some (file_meta step lo)))
   /\ shape arr' = nits :: length recsN :: map (@length nat) W
   /\ forall idx, valid_idx (shape arr') idx -> at_ arr' idx = updated td o A lo iit (arr_of nits st) idx.
Proof.
  intros I TF G. destruct (TF name lo I) as (DM & bs & DD & RB).
  apply read_tile_meta with (t := tile_text (tile_heading td step lo)) (bs := bs); auto.
  rewrite Forall_forall in IN. destruct (IN _ I) as (LI & _). unfold file_meta. now apply readmeta_tile.
Qed.

End Read.

(** * Loops *)

(** The name of an iteration. *)
Definition base_of (fname : text) (additrs : bool) (z : Z) : text :=
  if additrs then fname ++ ["."%char] ++ fmt_0d 10 z else fname.

Lemma base_of_plain fname additrs z : plain_name fname -> plain_name (base_of fname additrs z).
Proof. intros P. destruct additrs; [now apply numbered_plain|exact P]. Qed.

(** The meta files of an iteration. *)
Lemma listing_ok td fs base : plain_name base ->
  (forall name lo, In (name, lo) (td_tiles td) -> exists c, dget fs (base ++ name ++ lit ".meta") = Some c) ->
  listed (names fs) base td ->
  exists l, metafiles_of fs base = Ok (map (fun t => base ++ fst t ++ lit ".meta") l)
    /\ l <> [] /\ (forall t, In t l <-> In t (td_tiles td)).
Proof.
  intros PB TF [(NE & ND & FN & CL) | (UN & NT)].
  - unfold metafiles_of, glob.
    assert (G : forall ns, (forall s, In s ns -> In s (names fs)) -> exists l, filter (glob_match (tile_pat base)) ns = map (fun t => base ++ fst t ++ lit ".meta") l
       /\ (forall t, In t l <-> In t (td_tiles td) /\ In (base ++ fst t ++ lit ".meta") ns)).
    { induction ns as [|s ns IH]; intros SUB.
      - exists []. split; [reflexivity|]. intros t. cbn. tauto.
      - destruct IH as (l & E & H); [intros; apply SUB; now right|]. cbn [filter].
        destruct (glob_match (tile_pat base) s) eqn:M.
        + apply (glob_tiles base s PB) in M. destruct M as (d & e & L & L' & D & D' & ->).
          assert (T : tile_name (["."%char] ++ d ++ ["."%char] ++ e)) by (exists d, e; auto 6).
          pose proof (CL _ T) as C. rewrite <- !app_assoc in C. specialize (C (SUB _ (or_introl eq_refl))).
          apply in_map_iff in C. destruct C as ([nm lo] & EN & IT). cbn [fst] in EN. subst nm.
          exists ((["."%char] ++ d ++ ["."%char] ++ e, lo) :: l). cbn [map fst]. rewrite <- !app_assoc. split; [now rewrite E|].
          intros t. cbn [In]. rewrite H. split.
          * intros [<-|(J & K)]; [|auto]. cbn [fst]. rewrite <- !app_assoc. auto.
          * intros (J & [K|K]); [|auto]. left. destruct t as [nm lo']. cbn [fst] in K.
            apply app_inv_head in K.
            assert (K' : (["."%char] ++ d ++ ["."%char] ++ e) ++ lit ".meta" = nm ++ lit ".meta") by (rewrite <- !app_assoc; exact K).
            apply app_inv_tail in K'. subst nm. f_equal.
            revert ND IT J. generalize (td_tiles td). clear. intros tl ND. revert lo lo'. generalize (["."%char] ++ d ++ ["."%char] ++ e) as n.
            intros n lo lo'. induction tl as [|[a b] tl IH]; [intros []|]. cbn [map fst] in ND. inversion ND as [|? ? NI ND']; subst.
            intros [J1|J1] [J2|J2].
            -- congruence.
            -- injection J1 as -> ->. exfalso. apply NI. change n with (fst (n, lo')). now apply in_map.
            -- injection J2 as -> ->. exfalso. apply NI. change n with (fst (n, lo)). now apply in_map.
            -- now apply IH.
        + exists l. split; [exact E|]. intros t. rewrite H. cbn [In]. split; [intros (J & K); auto|].
          intros (J & [K|K]); [|auto]. exfalso.
          rewrite Forall_forall in FN. specialize (FN (fst t) (in_map fst _ _ J)).
          destruct FN as (d & e & L & L' & D & D' & EN).
          assert (glob_match (tile_pat base) s = true); [|congruence]. apply (glob_tiles base s PB). exists d, e. repeat split; auto.
          rewrite K, EN. now rewrite <- !app_assoc. }
    destruct (G (names fs) (fun _ H => H)) as (l & E & H).
    assert (ALL : forall t, In t l <-> In t (td_tiles td)).
    { intros [nm lo]. rewrite H. split; [tauto|]. intros J. split; [exact J|]. cbn [fst].
      destruct (TF _ _ J) as (c & DM). clear - DM. unfold names. induction fs as [|[k v] fs IH]; [discriminate DM|].
      cbn [dget] in DM. destruct (text_eqb (base ++ nm ++ lit ".meta") k) eqn:Q.
      - left. apply text_eqb_eq in Q. now subst.
      - right. now apply IH. }
    exists l. rewrite E. destruct l as [|t l].
    + exfalso. destruct (td_tiles td) as [|t tl]; [now elim NE|]. destruct (proj2 (ALL t)); now left.
    + split; [reflexivity|]. split; [discriminate|exact ALL].
  - unfold metafiles_of. rewrite (no_tile_glob fs base PB NT), (glob_eq fs _ (meta_name_plain base PB)).
    destruct (td_tiles td) as [|[nm lo] [|]] eqn:ET; try discriminate UN. cbn [map fst] in UN. injection UN as ->.
    destruct (TF [] lo) as (c & DM); [try rewrite ET; now left|]. cbn [app] in DM.
    assert (G : forall ns, exists k, filter (text_eqb (base ++ lit ".meta")) ns = repeat (base ++ lit ".meta") k
              /\ (In (base ++ lit ".meta") ns -> 0 < k)).
    { induction ns as [|s ns (k & E & K)]; [exists 0; split; [reflexivity | intros []]|].
      cbn [filter]. destruct (text_eqb (base ++ lit ".meta") s) eqn:Q.
      - apply text_eqb_eq in Q. subst s. exists (S k). rewrite E. split; [reflexivity | lia].
      - exists k. split; [exact E|]. intros [J|J]; [|auto]. subst s. now rewrite text_eqb_refl in Q. }
    destruct (G (names fs)) as (k & E & K).
    assert (KP : 0 < k).
    { apply K. clear - DM. unfold names. induction fs as [|[a v] fs IH]; [discriminate DM|].
      cbn [dget] in DM. destruct (text_eqb (base ++ lit ".meta") a) eqn:Q.
      - left. apply text_eqb_eq in Q. now subst.
      - right. now apply IH. }
    exists (repeat ([], lo) k). rewrite E. destruct k as [|k]; [lia|]. cbn [repeat].
    split; [|split; [discriminate|]].
    + f_equal. cbn [map fst app]. f_equal. clear. induction k as [|k IH]; [reflexivity|]. cbn [repeat map fst app]. now rewrite <- IH.
    + intros t. split.
      * intros [<-|J]; [now left|]. apply repeat_spec in J. subst. now left.
      * intros [<-|[]]. now left.
Qed.

(** Over tiles of any kind: all that matters is which elements a tile has. *)
Section Loop.
Context {F : Type} (N : numops F).
Variables (C8 C4 : codec F).
Variable float_of : text -> option F.
Variables (od : order) (td : tiled) (o : rdopts F).
Hypothesis OK : options_ok o td.
Variable covers : text * list nat -> list nat -> bool.
Context {P : Type}.
Variable mname : P -> text * list nat -> text.
Variable files : directory -> P -> option Z -> (list nat -> F) -> Prop.
Variable fmeta : option Z -> text * list nat -> filemeta (F:=F).

Notation W := (wanted o td).
Notation nlev := (length (o_lev o)).
Notation recsN := (wanted_recs o (td_nrec td)).
Notation ext := (td_ext td).
Notation with_arr := (with_arr td o).
Notation arr_of := (arr_of td o).
Notation good := (good td o).
Notation start := (start td o).

Definition put (A : list nat -> F) (t : text * list nat) (iit : nat) (arr : nd F) (idx : list nat) : F :=
  match idx with
  | i :: r :: k => if (i =? iit) && covers t (pick W k) then A (nth r recsN 0 :: pick W k) else at_ arr idx
  | _ => at_ arr idx
  end.

Hypothesis fmeta_step : forall step t, fm_step (fmeta step t) = option_map (fun z => [Vint z]) step.
Hypothesis fmeta_interval : forall step t, fm_interval (fmeta step t) = None.
Hypothesis read_ok : forall nits iit fs pl step A name lo st fm, In (name, lo) (td_tiles td) ->
  files fs pl step A -> good nits st ->
  exists arr', read_tile_full N C8 C4 float_of o od nits iit (fs, st, fm) (mname pl (name, lo))
     = (fs, Ok (fs, Some (with_arr nits arr'), Some (fmeta step (name, lo))))
   /\ shape arr' = nits :: length recsN :: map (@length nat) W
   /\ forall idx, valid_idx (shape arr') idx -> at_ arr' idx = put A (name, lo) iit (arr_of nits st) idx.

(** All tiles of an iteration. *)
Definition filled (iit : nat) (A : list nat -> F) (los : list (text * list nat)) (arr : nd F) (idx : list nat) : F :=
  match idx with
  | i :: r :: t => if (i =? iit) && existsb (fun lo => covers lo (pick W t)) los
                   then A (nth r recsN 0 :: pick W t) else at_ arr idx
  | _ => at_ arr idx
  end.

Lemma tiles_ok nits iit fs pl step A : files fs pl step A ->
  forall l st fm, Forall (fun t => In t (td_tiles td)) l -> good nits st ->
  exists st' fm', foldD (tiles_body N C8 C4 float_of o od nits iit) (map (mname pl) l) (fs, (st, fm))
     = (fs, Ok (fs, (st', fm')))
   /\ good nits st' /\ (l <> [] -> exists s t, st' = Some s /\ fm' = Some (fmeta step t))
   /\ (l = [] -> st' = st /\ fm' = fm)
   /\ forall idx, valid_idx (nits :: length recsN :: map (@length nat) W) idx ->
        at_ (arr_of nits st') idx = filled iit A l (arr_of nits st) idx.
Proof.
  intros TF. induction l as [|[name lo] l IH]; intros st fm FL G.
  - exists st, fm. cbn [map foldD fst]. split; [reflexivity|]. split; [exact G|].
    split; [congruence|]. split; [auto|]. intros idx V. apply valid2 in V. destruct V as (i & r & t & -> & _).
    cbn [filled map existsb]. now rewrite andb_false_r.
  - inversion FL as [|? ? I FL']; subst. cbn [map foldD fst snd]. unfold tiles_body at 1.
    destruct (read_ok nits iit fs pl step A name lo st fm I TF G) as (arr' & RT & SH & AT).
    rewrite RT.
    destruct (IH (Some (with_arr nits arr')) (Some (fmeta step (name, lo))) FL') as (st' & fm' & FD & G' & NE & EM & AT').
    { split; [reflexivity|exact SH]. }
    exists st', fm'. split; [exact FD|]. split; [exact G'|]. split.
    { intros _. destruct l as [|t l]; [|apply NE; discriminate].
      destruct (EM eq_refl) as (-> & ->). eauto. }
    split; [discriminate|]. intros idx V. rewrite AT' by exact V. cbn [arr_of with_arr s_arr].
    apply valid2 in V as V2. destruct V2 as (i & r & t & -> & _ & _ & _). cbn [filled existsb].
    rewrite AT by (now rewrite SH). cbn [put].
    destruct (i =? iit); cbn [andb]; [|reflexivity].
    destruct (covers (name, lo) (pick W t)); cbn [orb]; [|reflexivity].
    destruct (existsb _ l); reflexivity.
Qed.

(** All iterations. *)
Definition stepped (step : nat -> option Z) (ii : nat * Z) : list (value F) :=
  match step (fst ii) with Some z => [Vint z] | None => [] end.

Lemma existsb_same {X} (f : X -> bool) l l' : (forall t, In t l <-> In t l') -> existsb f l = existsb f l'.
Proof.
  intros H. apply eq_true_iff_eq. rewrite !existsb_exists. split; intros (x & I & E); exists x; split; auto; now apply H.
Qed.

(** The reader looks for the files of one iteration and finds those of all tiles. *)
Definition found (fs : directory) (base : text) (pl : P) : Prop :=
  exists l, metafiles_of fs base = Ok (map (mname pl) l)
    /\ l <> [] /\ (forall t, In t l <-> In t (td_tiles td)).

Lemma iters_ok nits fs fname additrs pls step (A : nat -> list nat -> F) : forall is acc,
  Forall (fun ii => files fs (pls (fst ii)) (step (fst ii)) (A (fst ii))
                    /\ found fs (base_of fname additrs (snd ii)) (pls (fst ii))) is ->
  good nits (a_state acc) -> a_intervals acc = [] ->
  exists acc', foldD (iter_body N C8 C4 float_of fname additrs o od nits) is (fs, acc) = (fs, Ok (fs, acc'))
    /\ good nits (a_state acc') /\ (is <> [] -> a_state acc' <> None)
    /\ a_steps acc' = a_steps acc ++ flat_map (stepped step) is /\ a_intervals acc' = []
    /\ forall i r t, valid_idx (nits :: length recsN :: map (@length nat) W) (i :: r :: t) ->
         at_ (arr_of nits (a_state acc')) (i :: r :: t)
         = if existsb (fun ii => fst ii =? i) is && existsb (fun t' => covers t' (pick W t)) (td_tiles td)
           then A i (nth r recsN 0 :: pick W t) else at_ (arr_of nits (a_state acc)) (i :: r :: t).
Proof.
  induction is as [|[i0 z] is IH]; intros acc FA G AI.
  - exists acc. cbn [foldD fst flat_map]. rewrite app_nil_r. repeat split; auto.
  - inversion FA as [|? ? (TF & LS) FA']; subst. cbn [fst snd] in TF, LS.
    cbn [foldD]. unfold iter_body at 1. cbv zeta. cbn [fst snd].
    match goal with |- context [metafiles_of fs ?b] => change b with (base_of fname additrs z) end.
    destruct LS as (l & ML & NE & SAME).
    rewrite ML.
    destruct (tiles_ok nits i0 fs (pls i0) (step i0) (A i0) TF l (a_state acc) None) as (st' & fm' & FD & G' & SM & _ & AT).
    { apply Forall_forall. intros t I. now apply SAME. }
    { exact G. }
    rewrite FD. destruct (SM NE) as (s & lo & ES & EF).
    match goal with |- context [foldD _ is (fs, ?a)] => set (acc1 := a) end.
    destruct (IH acc1 FA') as (acc' & FD' & G2 & NN & ST & AI' & AT'); [exact G' | |].
    { unfold acc1. cbn [a_intervals]. rewrite AI, EF, fmeta_interval. reflexivity. }
    exists acc'. split; [exact FD'|]. split; [exact G2|]. split.
    { intros _. destruct is as [|x is]; [|apply NN; discriminate].
      cbn [foldD fst] in FD'. injection FD' as <-. unfold acc1. cbn [a_state]. rewrite ES. discriminate. }
    split.
    { rewrite ST. unfold acc1. cbn [a_steps flat_map]. rewrite EF, <- app_assoc. f_equal. rewrite fmeta_step. unfold stepped at 2. cbn [fst]. destruct (step i0); reflexivity. }
    split; [exact AI'|]. intros i r t V. rewrite AT' by exact V. unfold acc1. cbn [a_state]. rewrite AT by exact V.
    cbn [filled existsb fst].
    assert (EX : existsb (fun t' => covers t' (pick W t)) l
               = existsb (fun t' => covers t' (pick W t)) (td_tiles td)) by (apply existsb_same, SAME).
    match goal with |- context [(i =? i0) && ?e] => replace e with (existsb (fun t' => covers t' (pick W t)) (td_tiles td)) by (symmetry; exact EX) end.
    destruct (existsb (fun t' => covers t' (pick W t)) (td_tiles td)); rewrite ?andb_true_r, ?andb_false_r; [|reflexivity].
    rewrite (Nat.eqb_sym i0 i). destruct (Nat.eqb_spec i i0) as [->|]; cbn [orb].
    + destruct (existsb _ is); reflexivity.
    + reflexivity.
Qed.

Lemma flat_map_ext_in' {X Y} (f g : X -> list Y) l : (forall x, In x l -> f x = g x) -> flat_map f l = flat_map g l.
Proof. intros H. rewrite !flat_map_concat_map. f_equal. now apply map_ext_in. Qed.

(** * The final shape *)
Lemma size_filter l : Forall (fun d => 0 < d) l -> size (filter (fun d => 1 <? d) l) = size l.
Proof.
  induction 1 as [|d l D _ IH]; [reflexivity|]. cbn [filter]. change (size (d :: l)) with (d * size l).
  destruct (Nat.ltb_spec 1 d); [change (size (d :: filter (fun d => 1 <? d) l)) with (d * size (filter (fun d => 1 <? d) l))|];
    rewrite IH; nia.
Qed.

Lemma size_keepers l : forall ks, length ks = length l -> Forall (fun dk => snd dk = false -> fst dk = 1) (combine l ks) ->
  size (map fst (filter snd (combine l ks))) = size l.
Proof.
  induction l as [|d l IH]; intros [|k ks] E H; try discriminate E; [reflexivity|].
  inversion H as [|? ? D H']; subst. cbn [combine filter fst snd] in *. change (size (d :: l)) with (d * size l).
  specialize (IH ks ltac:(now injection E) H').
  destruct k; cbn [map fst]; [|rewrite (D eq_refl), IH; lia].
  change (size (d :: map fst (filter snd (combine l ks)))) with (d * size (map fst (filter snd (combine l ks)))). now rewrite IH.
Qed.

Lemma level_lengths levs : forall gl : list nat, length gl = length levs ->
  map (@length nat) (level_axes levs gl) = map (fun l => length (levels_of l)) levs.
Proof.
  unfold level_axes. induction levs as [|l levs IH]; intros [|g gl] E; try discriminate E; [reflexivity|].
  cbn [combine map fst snd]. rewrite map_length, IH by (now injection E). reflexivity.
Qed.

Lemma drop_ok itlist nits arr : shape arr = nits :: length recsN :: map (@length nat) W -> shape_ok o td itlist nits ->
  exists a, drop_dims N o itlist arr = Ok a /\ shape a = result_shape o td itlist nits /\ ravel a = ravel arr.
Proof.
  intros SH DK. unfold drop_dims. rewrite SH.
  assert (LA : length (level_axes (o_lev o) (firstn nlev (td_lead td))) = nlev).
  { unfold level_axes. rewrite map_length, combine_length, (lead_levels td o OK). lia. }
  assert (W1 : firstn nlev W = level_axes (o_lev o) (firstn nlev (td_lead td))).
  { rewrite (wanted_split td o OK). rewrite <- LA at 1. rewrite firstn_app, firstn_all, Nat.sub_diag. apply app_nil_r. }
  assert (LL := level_lengths (o_lev o) _ (lead_levels td o OK)).
  cbn [Nat.add firstn skipn]. rewrite firstn_map, skipn_map, W1, LL.
  set (kd := if o_squeeze o then _ else _).
  assert (KD : kd ++ map (@length nat) (skipn nlev W) = result_shape o td itlist nits
            /\ size kd = nits * (length recsN * size (map (@length nat) (firstn nlev W)))).
  { unfold kd, result_shape. unfold shape_ok in DK. rewrite W1, LL. destruct (o_squeeze o).
    - split; [reflexivity|]. rewrite size_filter; [reflexivity|].
      destruct DK as (D1 & D2 & D3). constructor; [exact D1|]. constructor; [destruct recsN; [now elim D2|cbn; lia]|].
      apply Forall_forall. intros d D. apply in_map_iff in D. destruct D as (l & <- & L). rewrite Forall_forall in D3.
      specialize (D3 l L). destruct (levels_of l); [now elim D3|cbn; lia].
    - split.
      + f_equal. cbn [combine filter snd fst].
        assert (R1 : forall l, o_rec o = RecList l -> length recsN = length l).
        { intros l E. unfold wanted_recs. rewrite E. apply map_length. }
        assert (LK : map fst (filter snd (combine (map (fun l => length (levels_of l)) (o_lev o))
             (map (fun l => match l with LevList _ => true | LevOne _ => false end) (o_lev o))))
           = flat_map (fun l => match l with LevList zs => [length zs] | LevOne _ => [] end) (o_lev o)).
        { clear. induction (o_lev o) as [|l levs IH]; [reflexivity|]. cbn [map combine filter snd flat_map].
          destruct l; cbn [filter snd map fst app]; now rewrite IH. }
        destruct itlist; destruct (o_rec o) as [| |rl] eqn:ER; cbn [map fst filter snd app]; rewrite LK; try reflexivity;
          now rewrite (R1 rl eq_refl).
      + rewrite size_keepers; [reflexivity | cbn [length]; now rewrite !map_length |].
        destruct DK as (D1 & D2). cbn [combine]. constructor; [cbn [fst snd]; auto|]. constructor.
        * cbn [fst snd]. unfold wanted_recs. destruct (o_rec o); intros; try discriminate; [rewrite seq_length; auto | reflexivity].
        * apply Forall_forall. intros dk I.
          assert (G : forall levs : list levarg, In dk (combine (map (fun l => length (levels_of l)) levs)
             (map (fun l => match l with LevList _ => true | LevOne _ => false end) levs)) -> snd dk = false -> fst dk = 1).
          { induction levs as [|l levs IH]; intros J; [destruct J|]. cbn [map combine] in J. destruct J as [<-|J]; [|auto].
            destruct l; cbn [fst snd]; [reflexivity | discriminate]. }
          eapply G; eauto. }
  clearbody kd. destruct KD as (KD & KS). rewrite KD. unfold reshape.
  assert (LR : length (ravel arr) = size (result_shape o td itlist nits)).
  { unfold ravel. rewrite map_length, all_idx_length, SH, <- KD, size_app, KS.
    change (size (nits :: length recsN :: map (@length nat) W)) with (nits * (length recsN * size (map (@length nat) W))).
    rewrite <- (firstn_skipn nlev W) at 1. rewrite map_app, size_app. lia. }
  rewrite LR, Nat.eqb_refl. eexists. split; [reflexivity|]. split; [reflexivity|].
  unfold ravel at 1. cbn [shape at_]. now apply ravel_reshape.
Qed.

(** * Everything together *)
(** The element with record and index [g]. *)
Definition element_by (A : list nat -> F) (g : list nat) : F :=
  match g with
  | r :: idx => if existsb (fun t => covers t idx) (td_tiles td) then A g else o_fill o
  | [] => o_fill o
  end.

Theorem rdmds_loop_at fs fname it mf itrs pls step (A : nat -> list nat -> F) :
  itr_list fs fname it = Ok itrs -> typeprefix mf = Some od -> itrs <> [] ->
  (forall i z, nth_error itrs i = Some z ->
     files fs (pls i) (step i) (A i) /\ found fs (base_of fname (adds it) z) (pls i)) ->
  shape_ok o td (it_is_list it) (length itrs) ->
  exists arr steps,
    rdmds_full N C8 C4 float_of fs fname it mf o
    = (fs, Ok (arr, itrs, meta_result (mk_rdacc (Some (start (length itrs))) steps [])))
    /\ steps = flat_map (fun i => match step i with Some z => [Vint z] | None => [] end) (seq 0 (length itrs))
    /\ shape arr = result_shape o td (it_is_list it) (length itrs)
    /\ ravel arr = flat_map (fun i => map (element_by (A i)) (product (recsN :: W)))
                     (seq 0 (length itrs)).
Proof.
  intros IT TP NE FI DK. unfold rdmds_full. rewrite IT, TP.
  set (nits := length itrs) in *. set (is := combine (seq 0 nits) itrs).
  assert (IS : map fst is = seq 0 nits).
  { unfold is, nits. clear. generalize 0. induction itrs as [|z l IH]; intros k; [reflexivity|]. cbn [length seq combine map fst]. now rewrite IH. }
  assert (FA : Forall (fun ii => files fs (pls (fst ii)) (step (fst ii)) (A (fst ii))
                    /\ found fs (base_of fname (adds it) (snd ii)) (pls (fst ii))) is).
  { apply Forall_forall. intros [i z] I. cbn [fst snd]. apply FI.
    assert (G : forall l k, In (i, z) (combine (seq k (length l)) l) -> nth_error l (i - k) = Some z /\ k <= i).
    { clear. induction l as [|x l IH]; intros k; [intros []|]. cbn [length seq combine]. intros [E|J].
      - injection E as -> ->. now rewrite Nat.sub_diag.
      - destruct (IH (S k) J) as (E & K). split; [|lia]. replace (i - k) with (S (i - S k)) by lia. exact E. }
    unfold is, nits in I. apply G in I. now rewrite Nat.sub_0_r in I. }
  destruct (iters_ok nits fs fname (adds it) pls step A is (mk_rdacc None [] []) FA I eq_refl) as (acc & FD & GD & NN & ST & AI & AT).
  rewrite FD.
  assert (SN : a_state acc <> None).
  { apply NN. intros E. rewrite E in IS. destruct itrs; [now elim NE|discriminate IS]. }
  destruct (a_state acc) as [s|] eqn:ES; [|now elim SN]. destruct GD as (GS & SH).
  destruct (drop_ok (it_is_list it) nits (s_arr s) SH DK) as (a & DR & SA & RA).
  rewrite DR. cbn [rbind]. exists a, (a_steps acc). split.
  - f_equal. f_equal. f_equal. unfold meta_result. rewrite ES, AI. cbn [a_state a_steps a_intervals]. rewrite GS. reflexivity.
  - split; [|split; [exact SA|]].
    + rewrite ST. cbn [a_steps app]. rewrite <- IS, flat_map_map. reflexivity.
    + rewrite RA. unfold ravel. rewrite SH. cbn [all_idx]. rewrite map_flat_map.
      apply flat_map_ext_in'. intros i I. cbn [product]. rewrite product_pick.
      transitivity (map (element_by (A i))
        (flat_map (fun x => map (cons x) (map (pick W) (all_idx (map (@length nat) W))))
           (map (fun k => nth k recsN 0) (seq 0 (length recsN))))); [|now rewrite map_nth_seq].
      rewrite flat_map_map, map_map, !map_flat_map. apply flat_map_ext_in'. intros r R.
      rewrite !map_map. apply map_ext_in. intros t T.
      apply in_seq in I. apply in_seq in R. apply in_all_idx in T.
      specialize (AT i r t ltac:(constructor; [lia|]; constructor; [lia|exact T])). cbn [arr_of] in AT. rewrite AT.
      assert (EX : existsb (fun ii => fst ii =? i) is = true).
      { apply existsb_exists. assert (J : In i (map fst is)) by (rewrite IS; apply in_seq; lia).
        apply in_map_iff in J. destruct J as (x & <- & J). exists x. split; [exact J|apply Nat.eqb_refl]. }
      rewrite EX. cbn [andb element_by a_state arr_of start s_arr at_]. reflexivity.
Qed.

End Loop.

(** Under a plain name, the files of a tile have the name of the iteration and that of the tile. *)
Theorem rdmds_loop {F} (N : numops F) C8 C4 float_of od td o : options_ok o td ->
  forall (covers : text * list nat -> list nat -> bool)
    (files : directory -> text -> option Z -> (list nat -> F) -> Prop)
    (fmeta : option Z -> text * list nat -> filemeta (F:=F)),
  (forall fs base step A name lo, files fs base step A -> In (name, lo) (td_tiles td) ->
     exists c, dget fs (base ++ name ++ lit ".meta") = Some c) ->
  (forall step t, fm_step (fmeta step t) = option_map (fun z => [Vint z]) step) ->
  (forall step t, fm_interval (fmeta step t) = None) ->
  (forall nits iit fs base step A name lo st fm, In (name, lo) (td_tiles td) ->
     files fs base step A -> good td o nits st ->
     exists arr', read_tile_full N C8 C4 float_of o od nits iit (fs, st, fm) (base ++ name ++ lit ".meta")
        = (fs, Ok (fs, Some (with_arr td o nits arr'), Some (fmeta step (name, lo))))
      /\ shape arr' = nits :: length (wanted_recs o (td_nrec td)) :: map (@length nat) (wanted o td)
      /\ forall idx, valid_idx (shape arr') idx ->
           at_ arr' idx = put td o covers A (name, lo) iit (arr_of td o nits st) idx) ->
  forall fs fname it mf itrs step (A : nat -> list nat -> F), plain_name fname ->
  itr_list fs fname it = Ok itrs -> typeprefix mf = Some od -> itrs <> [] ->
  (forall i z, nth_error itrs i = Some z ->
     files fs (base_of fname (adds it) z) (step i) (A i)
     /\ listed (names fs) (base_of fname (adds it) z) td) ->
  shape_ok o td (it_is_list it) (length itrs) ->
  exists arr steps,
    rdmds_full N C8 C4 float_of fs fname it mf o
    = (fs, Ok (arr, itrs, meta_result (mk_rdacc (Some (start td o (length itrs))) steps [])))
    /\ steps = flat_map (fun i => match step i with Some z => [Vint z] | None => [] end) (seq 0 (length itrs))
    /\ shape arr = result_shape o td (it_is_list it) (length itrs)
    /\ ravel arr = flat_map (fun i => map (element_by td o covers (A i)) (product (wanted_recs o (td_nrec td) :: wanted o td)))
                     (seq 0 (length itrs)).
Proof.
  intros OK covers files fmeta FM FS FI RO fs fname it mf itrs step A PF IT TP NE FL DK.
  apply (rdmds_loop_at N C8 C4 float_of od td o OK covers (fun base t => base ++ fst t ++ lit ".meta") files fmeta)
    with (pls := fun i => base_of fname (adds it) (nth i itrs 0%Z)); auto.
  intros i z E. rewrite (nth_error_nth _ _ _ E). destruct (FL i z E) as (TF & LS). split; [exact TF|].
  apply listing_ok; [now apply base_of_plain | | exact LS]. intros name lo I. exact (FM _ _ _ _ _ _ TF I).
Qed.

(** * Tiles in one piece *)
Theorem rdmds_tiles {F} (N : numops F) C8 C4 float_of od td o : options_ok o td ->
  Forall (fun t => tile_inside td (snd t) /\ whole_levels td (length (o_lev o)) (snd t)) (td_tiles td) ->
  forall fs fname it mf itrs step (A : nat -> list nat -> F), plain_name fname ->
  itr_list fs fname it = Ok itrs -> typeprefix mf = Some od -> itrs <> [] ->
  (forall i z, nth_error itrs i = Some z ->
     tile_files C8 C4 fs (base_of fname (adds it) z) od td o (step i) (A i)
     /\ listed (names fs) (base_of fname (adds it) z) td) ->
  shape_ok o td (it_is_list it) (length itrs) ->
  exists arr steps,
    rdmds_full N C8 C4 float_of fs fname it mf o
    = (fs, Ok (arr, itrs, meta_result (mk_rdacc (Some (start td o (length itrs))) steps [])))
    /\ steps = flat_map (fun i => match step i with Some z => [Vint z] | None => [] end) (seq 0 (length itrs))
    /\ shape arr = result_shape o td (it_is_list it) (length itrs)
    /\ ravel arr = flat_map (fun i => map (element o td (A i)) (product (wanted_recs o (td_nrec td) :: wanted o td)))
                     (seq 0 (length itrs)).
Proof.
  intros OK IN fs fname it mf itrs step A PF IT TP NE FI DK.
  apply (rdmds_loop N C8 C4 float_of od td o OK (fun t idx => in_tile (snd t) (td_ext td) idx)
    (fun fs base step A => tile_files C8 C4 fs base od td o step A) (fun step t => file_meta td step (snd t))); auto.
  - intros fs' base step' A' name lo TF I. destruct (TF name lo I) as (DM & _). eauto.
  - intros nits iit fs' base step' A' name lo st fm I TF G.
    exact (read_tile_ok N C8 C4 float_of od td o OK IN nits iit fs' base step' A' name lo st fm I TF G).
Qed.
