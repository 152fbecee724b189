(** The iterations asked for, encoded files and the returned dictionary. *)
From Coq Require Import Ascii String List Bool PeanoNat ZArith Init.Byte Sorting.Sorted Lia.
Import ListNotations.
From Verif Require Import Prelude PreludeFacts Num MdsMeta Mds SpecMds MdsTextFacts MdsParseFacts SpecGlob GlobFacts MdsScanFacts MdsFacts
  RdMds SpecRdMds TileTextFacts RdMdsFacts RdMdsProofs.
Set Implicit Arguments.
Local Open Scope nat_scope.
Local Open Scope list_scope.

(** * Iterations *)
Lemma sorted_same (l : list Z) : forall l', StronglySorted Z.lt l -> StronglySorted Z.lt l' ->
  (forall z, In z l <-> In z l') -> l = l'.
Proof.
  induction l as [|x l IH]; intros [|y l'] S S' H; [reflexivity| | |].
  - exfalso. apply (proj2 (H y)). now left.
  - exfalso. apply (proj1 (H x)). now left.
  - apply StronglySorted_inv in S. destruct S as (S & A). apply StronglySorted_inv in S'. destruct S' as (S' & A').
    rewrite Forall_forall in A, A'.
    assert (x = y).
    { destruct (proj1 (H x) (or_introl eq_refl)) as [->|I]; [reflexivity|].
      destruct (proj2 (H y) (or_introl eq_refl)) as [->|J]; [reflexivity|].
      specialize (A y J). specialize (A' x I). lia. }
    subst y. f_equal. apply IH; auto. intros z. split; intros I.
    + destruct (proj1 (H z) (or_intror I)) as [->|J]; [|exact J]. specialize (A z I). lia.
    + destruct (proj2 (H z) (or_intror I)) as [->|J]; [|exact J]. specialize (A' z I). lia.
Qed.

Lemma not_not_in (z : Z) l : ~ ~ In z l -> In z l.
Proof. intros H. destruct (in_dec Z.eq_dec z l); [assumption|now elim H]. Qed.

Lemma scan_on_disk fs fname : plain_name fname -> NoDup (names fs) ->
  exists r, scanforfiles fs fname = Ok r /\ StronglySorted Z.lt r /\
    (forall z, on_disk (names fs) fname z -> In z r) /\
    (forall z, In z r -> ~ ~ on_disk (names fs) fname z).
Proof.
  intros P N. destruct (scan_spec fs fname P N) as (r & E & S & H1 & H2). exists r. split; [exact E|]. split; [exact S|]. split.
  - intros z [T|(NT & T)]; [apply H1; [now exists z|exact T] | now apply H2].
  - intros z I C. apply C. right. split.
    + intros X. apply C. left. now apply H1.
    + apply H2; [|exact I]. intros X. apply C. left. now apply H1.
Qed.

Lemma asked_ok fs fname it itrs : plain_name fname -> NoDup (names fs) -> asked_for (names fs) fname it itrs ->
  itr_list fs fname it = Ok itrs.
Proof.
  intros P N H. destruct it; cbn [asked_for itr_list] in *; try (now subst).
  - destruct (scan_on_disk fs P N) as (r & E & S & H1 & H2). destruct H as (S' & H). rewrite E. f_equal.
    apply sorted_same; auto. intros z. rewrite H. split.
    + intros I. rewrite <- H. apply not_not_in. intros C. apply (H2 z I). intros D. apply C. now apply H.
    + apply H1.
  - destruct (scan_on_disk fs P N) as (r & E & S & H1 & H2). destruct H as (m & -> & D & M). rewrite E. cbn [rbind]. f_equal.
    assert (IM := H1 m D). destruct (rev r) as [|x l] eqn:R.
    { apply (f_equal (@rev Z)) in R. rewrite rev_involutive in R. subst r. destruct IM. }
    assert (RR : r = rev l ++ [x]) by (rewrite <- (rev_involutive r), R; reflexivity). f_equal.
    assert (LX : forall y, In y r -> (y <= x)%Z).
    { subst r. clear - S. induction (rev l) as [|a k IH]; cbn [app] in *; [intros y [<-|[]]; lia|].
      apply StronglySorted_inv in S. destruct S as (S & A). rewrite Forall_forall in A.
      intros y [<-|I]; [|now apply IH]. specialize (A x ltac:(apply in_app_iff; right; now left)). lia. }
    specialize (LX m IM). assert (x <= m)%Z; [|lia].
    destruct (Z_le_gt_dec x m) as [L|G]; [exact L|]. exfalso.
    apply (H2 x); [subst r; apply in_app_iff; right; now left|]. intros DX. specialize (M x DX). lia.
Qed.

Arguments asked_ok : clear implicits.

Lemma file_base_of fname it z : file_base fname it z = base_of fname (adds it) z.
Proof.
  unfold file_base, base_of, adds. destruct it as [|y| | |]; try reflexivity.
  destruct (Z.eqb_spec y (-1)) as [->|NE]; [reflexivity|]. cbn [negb].
  destruct y as [|p|p]; try reflexivity. destruct p; try reflexivity. now elim NE.
Qed.

(** * Encoded files *)
Section Enc.
Context {F : Type}.
Variables (C8 C4 : codec F).
Hypothesis E8 : forall x, length (enc C8 x) = 8.
Hypothesis E4 : forall x, length (enc C4 x) = 4.

Definition kept (p : prec) (od : order) (x : F) : F := dec_item C8 C4 p od (enc_item C8 C4 p od x).

Lemma skip_enc p od k : forall l, skipn (k * itemsize p) (flat_map (enc_item C8 C4 p od) l)
  = flat_map (enc_item C8 C4 p od) (skipn k l).
Proof.
  induction k as [|k IH]; intros l; [reflexivity|]. destruct l as [|x l]; [apply skipn_nil|].
  cbn [flat_map skipn]. change (S k * itemsize p) with (itemsize p + k * itemsize p).
  rewrite <- skipn_plus, skipn_app, (enc_item_len C8 C4 E8 E4), Nat.sub_diag,
    (skipn_all2 (enc_item C8 C4 p od x)) by (rewrite (enc_item_len C8 C4 E8 E4); lia). apply IH.
Qed.

Lemma encoded_decodes p od rest l : decodes C8 C4 p od (flat_map (enc_item C8 C4 p od) l ++ rest) (map (kept p od) l).
Proof.
  intros j x H. assert (J : j < length l) by (rewrite <- (map_length (kept p od)); apply nth_error_Some; congruence).
  rewrite nth_error_map in H. destruct (nth_error l j) as [y|] eqn:E; [|discriminate H]. injection H as <-.
  assert (LF := flat_enc_len C8 C4 E8 E4 p od l). split.
  - rewrite app_length, LF. nia.
  - rewrite skipn_app, LF. replace (j * itemsize p - length l * itemsize p) with 0 by nia.
    rewrite skip_enc. cbn [skipn].
    destruct (skipn j l) as [|y' l'] eqn:SK.
    { assert (length (skipn j l) = 0) by now rewrite SK. rewrite skipn_length in H. lia. }
    assert (y' = y).
    { rewrite <- (firstn_skipn j l), nth_error_app2 in E; rewrite firstn_length_le in * by lia; [|lia].
      rewrite Nat.sub_diag, SK in E. now injection E. }
    subst y'. cbn [flat_map]. rewrite <- app_assoc, firstn_app, (enc_item_len C8 C4 E8 E4), Nat.sub_diag. cbn [firstn].
    rewrite app_nil_r, firstn_all2 by (rewrite (enc_item_len C8 C4 E8 E4); lia). reflexivity.
Qed.

Lemma content_skip td (A : list nat -> F) lo k : k < td_nrec td -> exists rest,
  skipn (k * size (td_ext td)) (tile_content td A lo)
  = map (fun idx => A (k :: add_idx lo idx)) (all_idx (td_ext td)) ++ rest.
Proof.
  intros K. unfold tile_content.
  set (f := fun r => map (fun idx => A (r :: add_idx lo idx)) (all_idx (td_ext td))).
  assert (LF : forall s n, length (flat_map f (seq s n)) = n * size (td_ext td)).
  { intros s n. revert s. induction n as [|n IH]; intros s; [reflexivity|]. cbn [seq flat_map]. rewrite app_length, IH.
    unfold f. rewrite map_length, all_idx_length. reflexivity. }
  replace (td_nrec td) with (k + S (td_nrec td - k - 1)) by lia. rewrite seq_app, flat_map_app.
  rewrite skipn_app, LF, Nat.sub_diag, skipn_all2 by (rewrite LF; lia). cbn [app skipn].
  cbn [seq flat_map]. eexists. reflexivity.
Qed.

Lemma content_map td (A : list nat -> F) lo (g : F -> F) :
  map g (tile_content td A lo) = tile_content td (fun i => g (A i)) lo.
Proof.
  unfold tile_content. rewrite map_flat_map. apply flat_map_ext. intros r. apply map_map.
Qed.

Lemma encoded_readable od td (o : rdopts F) A lo : recs_ok o (td_nrec td) ->
  readable C8 C4 od td o (fun g => kept (td_prec td) od (A g)) lo
    (flat_map (enc_item C8 C4 (td_prec td) od) (tile_content td A lo)).
Proof.
  intros RO. set (p := td_prec td).
  assert (LC := flat_enc_len C8 C4 E8 E4 p od (tile_content td A lo)).
  rewrite (content_length td A lo) in LC.
  assert (W : decodes C8 C4 p od (flat_map (enc_item C8 C4 p od) (tile_content td A lo))
                (tile_content td (fun g => kept p od (A g)) lo)).
  { rewrite <- content_map. rewrite <- (app_nil_r (flat_map _ _)). apply encoded_decodes. }
  assert (P : 0 < itemsize p) by (unfold p; destruct (td_prec td); cbn; lia).
  assert (R : forall k, k < td_nrec td ->
    decodes C8 C4 p od (skipn (k * size (td_ext td) * itemsize p) (flat_map (enc_item C8 C4 p od) (tile_content td A lo)))
        (map (fun idx => kept p od (A (k :: add_idx lo idx))) (all_idx (td_ext td)))).
  { intros k K. rewrite skip_enc. destruct (content_skip td A lo K) as (rest & ->). rewrite flat_map_app.
    rewrite <- (map_map (fun idx => A (k :: add_idx lo idx)) (kept p od)). apply encoded_decodes. }
  unfold readable. fold p. destruct (o_memmap o); [exact W|].
  unfold recs_ok in RO. unfold wanted_recs. destruct (o_rec o).
  - split; [exact W|]. rewrite LC. nia.
  - intros k [<-|[]]. apply R. now apply index_of_lt.
  - intros k I. apply in_map_iff in I. destruct I as (z & <- & I). rewrite Forall_forall in RO. apply R. now apply index_of_lt, RO.
Qed.

Lemma encoded_tile_files fs base od td (o : rdopts F) step A : recs_ok o (td_nrec td) ->
  encoded_files C8 C4 fs base od td step A ->
  tile_files C8 C4 fs base od td o step (fun g => kept (td_prec td) od (A g)).
Proof.
  intros RO H name lo I. destruct (H name lo I) as (M & D). split; [exact M|]. eexists. split; [exact D|].
  now apply encoded_readable.
Qed.

(** * The dictionary *)
Lemma returned_meta_ok (td : tiled) (st : rdstate (F:=F)) steps : s_meta st = common_meta (F:=F) td ->
  meta_result (mk_rdacc (Some st) (map Vint steps) []) = returned_meta td steps.
Proof.
  intros E. unfold meta_result. cbn [a_state a_steps a_intervals]. rewrite E. unfold common_meta, returned_meta.
  rewrite <- map_rev, map_map. destruct steps as [|z l]; reflexivity.
Qed.
End Enc.

(** * Files of another size *)
Section Short.
Context {F : Type} (N : numops F).
Variables (C8 C4 : codec F).
Variable float_of : text -> option F.
Variables (od : order) (td : tiled) (o : rdopts F).
Hypothesis OK : options_ok o td.

Lemma tile_reading nits iit lo w ov : tile_inside td lo -> whole_levels td (length (o_lev o)) lo ->
  plan td o lo = Ok ov ->
  slice_view (nits :: length (wanted_recs o (td_nrec td)) :: map (@length nat) (wanted o td)) iit (ov_bounds ov) = Ok w ->
  forall fs base step name st fm,
  dget fs (base ++ name ++ lit ".meta") = Some (text_bytes (tile_text (tile_heading td step lo))) ->
  good td o nits st ->
  read_tile_full N C8 C4 float_of o od nits iit (fs, st, fm) (base ++ name ++ lit ".meta")
  = let '(fs2, r) := read_data N C8 C4 fs o od (with_arr td o nits (arr_of td o nits st)) (base ++ name ++ lit ".data") w ov in
    (fs2, arr <- r ;; Ok (fs2, Some (with_arr td o nits arr), Some (file_meta td step lo))).
Proof.
  intros LI LW PL SV fs base step name st fm DM G. unfold read_tile_full. rewrite DM, byte_text_bytes, readmeta_tile by exact LI. cbn [rbind fm_tile tm_meta].
  set (st1 := match st with None => init_full _ _ _ | Some s => _ end).
  assert (E1 : st1 = Ok (with_arr td o nits (arr_of td o nits st))).
  { unfold st1. destruct st as [s|]; cbn [good arr_of] in *.
    - destruct G as (-> & _). cbn [s_meta with_arr]. now rewrite common_meta_eqb.
    - rewrite init_ok by assumption. reflexivity. }
  rewrite E1. clear E1 st1. cbn [rbind fm_map tm_i0s tm_ies].
  assert (SHP : shape (arr_of td o nits st) = nits :: length (wanted_recs o (td_nrec td)) :: map (@length nat) (wanted o td))
    by (destruct st as [s|]; [apply G|reflexivity]).
  set (arr := arr_of td o nits st) in *. clearbody arr.
  fold (zbounds lo (td_ext td)).
  assert (OV : match o_region o with None => Ok (mk_overlap (zbounds lo (td_ext td)) None true)
               | Some _ => region_overlap (s_region (with_arr td o nits arr)) (zbounds lo (td_ext td)) end = Ok ov) by exact PL.
  cbn [s_arr with_arr]. rewrite SHP.
  destruct (o_region o); rewrite ?OV; [|injection OV as <-]; cbn [rbind ov_bounds] in *; rewrite SV; cbn [rbind];
    rewrite app_assoc, data_name, <- app_assoc; reflexivity.
Qed.

Arguments tile_reading : clear implicits.

Lemma one_match (x : text) (l : list text) : NoDup l -> In x l -> filter (text_eqb x) l = [x].
Proof.
  induction l as [|y l IH]; intros ND I; [destruct I|]. inversion ND as [|? ? NI ND']; subst. cbn [filter].
  destruct I as [->|I].
  - rewrite text_eqb_refl. f_equal. assert (G : forall k, ~ In x k -> filter (text_eqb x) k = []).
    { induction k as [|z k IHk]; intros H; [reflexivity|]. cbn [filter]. destruct (text_eqb x z) eqn:Q.
      - apply text_eqb_eq in Q. subst. elim H. now left.
      - apply IHk. intros J. apply H. now right. }
    now apply G.
  - destruct (text_eqb x y) eqn:Q; [|now apply IH]. apply text_eqb_eq in Q. subst. contradiction.
Qed.

Lemma dget_in (d : directory) k v : dget d k = Some v -> In k (names d).
Proof.
  unfold names. induction d as [|[a b] d IH]; [discriminate|]. cbn [dget map fst]. destruct (text_eqb k a) eqn:Q.
  - apply text_eqb_eq in Q. subst. now left.
  - intros H. right. now apply IH.
Qed.

(** One file, without tiles: what remains is the reading of its data. *)
Lemma one_file lo z : tile_inside td lo -> whole_levels td (length (o_lev o)) lo ->
  exists w ov, plan td o lo = Ok ov /\
    slice_view (1 :: length (wanted_recs o (td_nrec td)) :: map (@length nat) (wanted o td)) 0 (ov_bounds ov) = Ok w /\
    forall fs fname it mf step, itr_list fs fname it = Ok [z] -> typeprefix mf = Some od -> plain_name fname -> NoDup (names fs) ->
    ~ has_tile (names fs) (base_of fname (adds it) z) ->
    dget fs (base_of fname (adds it) z ++ lit ".meta") = Some (text_bytes (tile_text (tile_heading td step lo))) ->
    rdmds_full N C8 C4 float_of fs fname it mf o
    = let '(fs2, r) := read_data N C8 C4 fs o od (start td o 1) (base_of fname (adds it) z ++ lit ".data") w ov in
      (fs2, arr <- r ;; arr' <- drop_dims N o (it_is_list it) arr ;;
            Ok (arr', [z], meta_result (mk_rdacc (Some (start td o 1)) (match step with Some i => [Vint i] | None => [] end) []))).
Proof.
  intros LI LW. destruct (tile_plan td o OK lo LI LW) as (ov & PL & BL & _).
  destruct (view_ok td o 1 0 ov BL) as (w & SV & _). exists w, ov. split; [exact PL|]. split; [exact SV|].
  intros fs fname it mf step IT TP PF ND NT DM. unfold rdmds_full. rewrite IT, TP. cbn [length seq combine foldD].
  unfold iter_body at 1. cbn [snd fst]. fold (base_of fname (adds it) z). set (base := base_of fname (adds it) z) in *.
  assert (MF : metafiles_of fs base = Ok [base ++ lit ".meta"]).
  { unfold metafiles_of. rewrite (no_tile_glob fs base (base_of_plain fname (adds it) z PF) NT),
      (glob_eq fs _ (meta_name_plain base (base_of_plain fname (adds it) z PF))). rewrite one_match; [reflexivity | exact ND|].
    eapply dget_in. exact DM. }
  match goal with |- context [metafiles_of fs ?b] => change b with base end. rewrite MF. cbn [foldD a_state]. unfold tiles_body at 1.
  pose proof (tile_reading 1 0 lo w ov LI LW PL SV fs base step [] None None DM I) as RT. cbn [app arr_of] in RT.
  match type of RT with ?l = _ => match goal with |- context [read_tile_full N C8 C4 float_of o od 1 0 ?s ?m] =>
    change (read_tile_full N C8 C4 float_of o od 1 0 s m) with l end end. rewrite RT.
  change (with_arr td o 1 (s_arr (start td o 1))) with (start td o 1).
  destruct (read_data N C8 C4 fs o od (start td o 1) (base ++ lit ".data") w ov) as (fs2 & [arr|e]); [|reflexivity].
  cbn [rbind fst a_state a_steps a_intervals app file_meta fm_step fm_interval s_arr with_arr].
  destruct (drop_dims N o (it_is_list it) arr); [|reflexivity]. cbn [rbind]. destruct step; reflexivity.
Qed.

Hypothesis NOREG : o_region o = None.

(** A mapped file that is too short is lengthened, and read as if it had been long enough. *)
Lemma mapped_short fs name bs w ov lo : plan td o lo = Ok ov -> o_memmap o = true -> dget fs name = Some bs ->
  length bs < td_nrec td * size (td_ext td) * itemsize (td_prec td) ->
  let fs' := dset fs name (pad_to (td_nrec td * size (td_ext td) * itemsize (td_prec td)) bs) in
  read_data N C8 C4 fs o od (start td o 1) name w ov = read_data N C8 C4 fs' o od (start td o 1) name w ov.
Proof.
  intros PL MM D L fs'. unfold plan in PL. rewrite NOREG in PL. injection PL as <-.
  unfold read_data. rewrite MM. cbn [orb ov_any].
  set (need := td_nrec td * size (td_ext td) * itemsize (td_prec td)) in *.
  unfold memmap. cbn [start s_prec s_recshape s_nrec]. change (size (td_nrec td :: td_ext td)) with (td_nrec td * size (td_ext td)).
  fold need. unfold fs'. rewrite D, dget_dset, text_eqb_refl.
  rewrite (proj2 (Nat.eqb_neq need 0)) by lia. rewrite (proj2 (Nat.ltb_lt _ _)) by exact L.
  assert (LP : length (pad_to need bs) = need) by (unfold pad_to; rewrite app_length, repeat_length; lia).
  rewrite LP, Nat.ltb_irrefl.
  assert (PP : pad_to need (pad_to need bs) = pad_to need bs).
  { unfold pad_to at 1. rewrite LP, Nat.sub_diag. apply app_nil_r. }
  now rewrite PP.
Qed.

(** A file of another size is refused when everything is read at once without a map. *)
Lemma whole_wrong fs name bs w ov lo : plan td o lo = Ok ov -> o_memmap o = false -> o_rec o = RecAll ->
  dget fs name = Some bs -> length bs / itemsize (td_prec td) <> td_nrec td * size (td_ext td) ->
  read_data N C8 C4 fs o od (start td o 1) name w ov = (fs, Err (ValueError "cannot reshape array")).
Proof.
  intros PL MM R D L. unfold plan in PL. rewrite NOREG in PL. injection PL as <-.
  unfold read_data. rewrite MM, R. cbn [orb ov_any start s_prec s_recshape s_nrec]. rewrite D.
  unfold reshape, fromfile_as.
  assert (LI : forall n b, length (items C8 C4 n (td_prec td) od b) = n).
  { induction n as [|n IH]; intros b; [reflexivity|]. cbn [items length]. now rewrite IH. }
  rewrite LI. change (size (td_nrec td :: td_ext td)) with (td_nrec td * size (td_ext td)).
  rewrite (proj2 (Nat.eqb_neq _ _)) by exact L. reflexivity.
Qed.

End Short.
