(** Property C87: file names with wildcards. *)
From Coq Require Import Ascii String List Bool PeanoNat ZArith Init.Byte Sorting.Sorted Lia.
From Flocq Require Import IEEE754.Binary IEEE754.Bits.
Import ListNotations.
From Verif Require Import Prelude PreludeFacts Num Mat MatFacts Fields GridIO Float64 Float64Facts
  Float32 Float32Facts SpecGrid GridIOFacts GridIOProofs MdsMeta Mds SpecMds MdsTextFacts MdsParseFacts
  SpecGlob GlobFacts MdsScanFacts MdsFacts GetObcsFacts RdMds SpecRdMds TileTextFacts RdMdsFacts RdMdsProofs RdMdsCalls
  SpecMapTile MapTileProofs Samples WrMds PropWrMds PropMds PropRdMds PropMapTile.
Local Open Scope nat_scope.
Local Open Scope list_scope.

(** ** What is looked for *)

(** The names found for a pattern are those of the directory that match it. *)
Theorem C87_names_found : forall fs pattern s,
  In s (glob fs pattern) <-> In s (names fs) /\ file_match pattern s.
Proof. intros fs p s. unfold glob. rewrite filter_In, glob_match_iff. tauto. Qed.

(** The meta files of a base name, which may have wildcards: those of tiles, or else those
    without the numbers of a tile. *)
Definition tile_pattern (base : text) : text := base ++ lit ".[0-9][0-9][0-9].[0-9][0-9][0-9].meta".
Definition is_metafile (l : list text) (base : text) (s : text) : Prop :=
  In s l /\ (file_match (tile_pattern base) s \/
             (forall s', In s' l -> ~ file_match (tile_pattern base) s') /\ file_match (base ++ lit ".meta") s).

Lemma tile_pattern_pat base : tile_pat base = tile_pattern base.
Proof. reflexivity. Qed.

Lemma metafiles_found fs base :
  match metafiles_of fs base with
  | Ok l => l <> [] /\ forall s, In s l <-> is_metafile (names fs) base s
  | Err e => e = OSError /\ forall s, ~ is_metafile (names fs) base s
  end.
Proof.
  unfold metafiles_of. rewrite tile_pattern_pat.
  assert (G : forall p s, In s (glob fs p) <-> In s (names fs) /\ file_match p s) by (intros; apply C87_names_found).
  destruct (glob fs (tile_pattern base)) as [|a l] eqn:E1.
  - assert (NO : forall s, In s (names fs) -> ~ file_match (tile_pattern base) s).
    { intros s I M. (pose proof (proj2 (G (tile_pattern base) s) (conj I M)) as K; rewrite E1 in K; destruct K). }
    destruct (glob fs (base ++ lit ".meta")) as [|a l] eqn:E2.
    + split; [reflexivity|]. intros s (I & [M|(_ & M)]); [now apply (NO s)|].
      pose proof (proj2 (G (base ++ lit ".meta") s) (conj I M)) as K. rewrite E2 in K. destruct K.
    + split; [discriminate|]. intros s. rewrite <- E2, G. unfold is_metafile. split; [tauto|].
      intros (I & [M|(_ & M)]); [now elim (NO s)|tauto].
  - split; [discriminate|]. intros s. rewrite <- E1, G. unfold is_metafile. split; [tauto|].
    intros (I & [M|(N & M)]); [tauto|]. exfalso.
    pose proof (proj1 (G (tile_pattern base) a)) as K. rewrite E1 in K. destruct (K (or_introl eq_refl)) as (J & K').
    now apply (N a).
Qed.

(** ** Tiles anywhere *)

(** The files of tile [t] are [loc t].meta and [loc t].data. *)
Definition tile_files_at {F} (C8 C4 : codec F) (fs : directory) (loc : text * list nat -> text) (od : order)
    (td : tiled) (mp : tile_map) (step : option Z) (A : list nat -> F) : Prop :=
  forall t, In t (td_tiles td) ->
    dget fs (loc t ++ lit ".meta") = Some (text_bytes (tile_text (placed_heading td mp step t))) /\
    dget fs (loc t ++ lit ".data") = Some (flat_map (enc_item C8 C4 (td_prec td) od) (placed_content td mp A t)).

(** These are the meta files found, and no others are. *)
Definition found_at (fs : directory) (base : text) (loc : text * list nat -> text) (td : tiled) : Prop :=
  td_tiles td <> [] /\ NoDup (map loc (td_tiles td)) /\
  forall s, is_metafile (names fs) base s <-> exists t, In t (td_tiles td) /\ s = loc t ++ lit ".meta".

Lemma inj_nodup {A B} (f : A -> B) l : NoDup (map f l) -> forall a b, In a l -> In b l -> f a = f b -> a = b.
Proof.
  induction l as [|x l IH]; intros ND a b Ia Ib E; [destruct Ia|]. cbn [map] in ND. inversion ND as [|? ? NI ND']; subst.
  destruct Ia as [<-|Ia], Ib as [<-|Ib]; auto.
  - exfalso. apply NI. rewrite E. now apply in_map.
  - exfalso. apply NI. rewrite <- E. now apply in_map.
Qed.

Lemma found_listing fs base loc td : found_at fs base loc td ->
  RdMdsProofs.found td (fun loc t => loc t ++ lit ".meta") fs base loc.
Proof.
  intros (NE & ND & FA).
  assert (AF : forall t, In t (td_tiles td) -> is_metafile (names fs) base (loc t ++ lit ".meta")) by (intros t I; apply FA; eauto).
  pose proof (metafiles_found fs base) as H.
  destruct (metafiles_of fs base) as [l|e] eqn:ML.
  2:{ destruct (td_tiles td) as [|t tl] eqn:E; [now elim NE|]. destruct H as (_ & H). elim (H (loc t ++ lit ".meta")).
      apply AF. now left. }
  destruct H as (NL & H).
  assert (G : exists ts, l = map (fun t => loc t ++ lit ".meta") ts /\ Forall (fun t => In t (td_tiles td)) ts).
  { assert (K : forall s, In s l -> exists t, In t (td_tiles td) /\ s = loc t ++ lit ".meta") by (intros s I; apply FA; now apply H).
    clear - K. induction l as [|s l IH]; [exists []; split; [reflexivity|constructor]|].
    destruct IH as (ts & -> & F); [intros; apply K; now right|]. destruct (K s (or_introl eq_refl)) as (t & I & ->).
    exists (t :: ts). split; [reflexivity|now constructor]. }
  destruct G as (ts & -> & F). exists ts. split; [exact ML|]. split; [intros ->; now apply NL|].
  intros t. split; [rewrite Forall_forall in F; apply F|]. intros I.
  specialize (AF t I). apply H in AF. apply in_map_iff in AF. destruct AF as (t' & E & I').
  apply app_inv_tail in E. rewrite Forall_forall in F. rewrite (inj_nodup loc _ ND t t' I (F _ I') (eq_sym E)). exact I'.
Qed.

Definition given (it : itarg) (itrs : list Z) : Prop :=
  match it with
  | ItNone => itrs = [(-1)%Z]
  | ItOne z => itrs = [z]
  | ItList zs => itrs = zs
  | ItNaN | ItInf => False
  end.
Lemma given_ok fs fname it itrs : given it itrs -> itr_list fs fname it = Ok itrs.
Proof. destruct it; cbn [given itr_list]; intros H; first [now rewrite H | destruct H]. Qed.

(** Tiles without map2glob: all options. *)
Definition no_map : tile_map := fun _ => None.

Theorem C87_tiles_in_directories :
  forall (L : libm) fo fs fname it mf od td o itrs (loc : nat -> text * list nat -> text) step
    (A : nat -> list nat -> binary64),
  byte_order mf od -> options_ok o td -> tiles_fit o td -> given it itrs -> itrs <> [] ->
  (forall i z, nth_error itrs i = Some z ->
     tile_files_at b64codec b32codec fs (loc i) od td no_map (step i) (A i)
     /\ found_at fs (file_base fname it z) (loc i) td) ->
  shape_ok o td (it_is_list it) (length itrs) ->
  exists arr,
    rdmds64_full L fo fs fname it mf o = (fs, Ok (arr, itrs, returned_meta td (steps_of step (length itrs)))) /\
    shape arr = result_shape o td (it_is_list it) (length itrs) /\
    ravel arr = flat_map (fun i => map (element o td (fun g => stored (td_prec td) (A i g)))
                                     (product (wanted_recs o (td_nrec td) :: wanted o td)))
                  (seq 0 (length itrs)).
Proof.
  intros L fo fs fname it mf od td o itrs loc step A BO OK IN GI NE FI SO.
  apply byte_order_prefix in BO. apply (given_ok fs fname) in GI.
  set (keep := fun (A : list nat -> binary64) g => kept b64codec b32codec (td_prec td) od (A g)).
  destruct (rdmds_loop_at (b64ops L) b64codec b32codec fo od td o OK (fun t idx => in_tile (snd t) (td_ext td) idx)
    (fun loc t => loc t ++ lit ".meta")
    (fun fs loc step A => exists A0, tile_files_at b64codec b32codec fs loc od td no_map step A0 /\ A = keep A0)
    (fun step t => file_meta td step (snd t))) with (fs := fs) (fname := fname) (it := it) (mf := mf) (itrs := itrs)
    (pls := loc) (step := step) (A := fun i => keep (A i)) as (arr & steps & R & ST & SH & RA); auto.
  - intros nits iit fs' pl step' A' name lo st fm I (A0 & TF & ->) G. destruct (TF _ I) as (DM & DD). cbn [snd].
    apply (read_tile_at (b64ops L) b64codec b32codec fo od td o OK IN nits iit fs' (pl (name, lo)) step' (keep A0) name lo st fm
      (tile_text (tile_heading td step' lo))
      (flat_map (enc_item b64codec b32codec (td_prec td) od) (tile_content td A0 lo)) I DM); [ | exact DD | | exact G].
    + unfold tiles_fit in IN. rewrite Forall_forall in IN. destruct (IN _ I) as (LI & _). unfold file_meta. now apply readmeta_tile.
    + apply (encoded_readable b64codec b32codec (enc_len b64_codec_laws) b32_enc_len od td o A0 lo). apply OK.
  - intros i z E. destruct (FI i z E) as (TF & FO). split; [now exists (A i)|]. rewrite <- file_base_of. now apply found_listing.
  - exists arr. split; [|split; [exact SH|]].
    + unfold rdmds64_full. rewrite R. do 3 f_equal.
      replace steps with (map (Vint (F:=binary64)) (steps_of step (length itrs))); [now apply returned_meta_ok|].
      rewrite ST. unfold steps_of. rewrite map_flat_map. apply flat_map_ext. intros i. now destruct (step i).
    + rewrite RA. apply flat_map_ext. intros i. apply map_ext. intros g. unfold element_by, element, keep.
      destruct g; [reflexivity|]. now rewrite kept_stored.
Qed.

(** With map2glob: all options but a region. *)
Theorem C87_placed_tiles_in_directories :
  forall (L : libm) fo fs fname it mf od td mp o itrs (loc : nat -> text * list nat -> text) step
    (A : nat -> list nat -> binary64),
  byte_order mf od -> options_ok o td -> o_region o = None -> tiles_placed o td mp ->
  given it itrs -> itrs <> [] ->
  (forall i z, nth_error itrs i = Some z ->
     tile_files_at b64codec b32codec fs (loc i) od td mp (step i) (A i)
     /\ found_at fs (file_base fname it z) (loc i) td) ->
  shape_ok o td (it_is_list it) (length itrs) ->
  exists arr,
    rdmds64_full L fo fs fname it mf o = (fs, Ok (arr, itrs, returned_meta td (steps_of step (length itrs)))) /\
    shape arr = result_shape o td (it_is_list it) (length itrs) /\
    ravel arr = flat_map (fun i => map (placed_element o td mp (fun g => stored (td_prec td) (A i g)))
                                     (product (wanted_recs o (td_nrec td) :: wanted o td)))
                  (seq 0 (length itrs)).
Proof.
  intros L fo fs fname it mf od td mp o itrs loc step A BO OK NR IN GI NE FI SO.
  apply byte_order_prefix in BO. apply (given_ok fs fname) in GI.
  set (keep := fun (A : list nat -> binary64) g => kept b64codec b32codec (td_prec td) od (A g)).
  destruct (rdmds_loop_at (b64ops L) b64codec b32codec fo od td o OK (fun t idx => has_place td mp idx t)
    (fun loc t => loc t ++ lit ".meta")
    (fun fs loc step A => exists A0, tile_files_at b64codec b32codec fs loc od td mp step A0 /\ A = keep A0)
    (placed_meta td mp)) with (fs := fs) (fname := fname) (it := it) (mf := mf) (itrs := itrs)
    (pls := loc) (step := step) (A := fun i => keep (A i)) as (arr & steps & R & ST & SH & RA); auto.
  - intros nits iit fs' pl step' A' name lo st fm I (A0 & TF & ->) G. destruct (TF _ I) as (DM & DD).
    exact (read_placed_at (b64ops L) b64codec b32codec (enc_len b64_codec_laws) b32_enc_len fo od td mp o OK NR IN
      nits iit fs' (pl (name, lo)) step' A0 name lo st fm I DM DD G).
  - intros i z E. destruct (FI i z E) as (TF & FO). split; [now exists (A i)|]. rewrite <- file_base_of. now apply found_listing.
  - exists arr. split; [|split; [exact SH|]].
    + unfold rdmds64_full. rewrite R. do 3 f_equal.
      replace steps with (map (Vint (F:=binary64)) (steps_of step (length itrs))); [now apply returned_meta_ok|].
      rewrite ST. unfold steps_of. rewrite map_flat_map. apply flat_map_ext. intros i. now destruct (step i).
    + rewrite RA. apply flat_map_ext. intros i. apply map_ext. intros g. unfold element_by, placed_element, keep.
      destruct g; [reflexivity|]. now rewrite kept_stored.
Qed.

(** Without any file of the first iteration, reading ends with an error and nothing else. *)
Theorem C87_no_files_no_array :
  forall (L : libm) fo fs fname it mf od o z itrs,
  byte_order mf od -> given it (z :: itrs) ->
  (forall s, ~ is_metafile (names fs) (file_base fname it z) s) ->
  rdmds64_full L fo fs fname it mf o = (fs, Err OSError).
Proof.
  intros L fo fs fname it mf od o z itrs BO GI NO. apply byte_order_prefix in BO. apply (given_ok fs fname) in GI.
  unfold rdmds64_full, rdmds_full. rewrite GI, BO. cbn [length seq combine foldD]. unfold iter_body at 1. cbn [snd fst].
  rewrite file_base_of in NO. pose proof (metafiles_found fs (base_of fname (adds it) z)) as H.
  match goal with |- context [metafiles_of fs ?b] => change b with (base_of fname (adds it) z) end.
  destruct (metafiles_of fs (base_of fname (adds it) z)) as [l|e].
  - destruct H as (NE & H). destruct l as [|s l]; [now elim NE|]. elim (NO s). apply H. now left.
  - now destruct H as (-> & _).
Qed.

(** A name with a set in brackets is not read back: the pattern does not match the name. *)
Definition ex_bracket : directory :=
  fst (write64 [] (lit "T[1]") (ex_nd [2; 2]) None (lit "float64") None None TimesNone None None (lit "b") None None).
Lemma ex_bracket_none : metafiles_of ex_bracket (lit "T[1]") = Err OSError.
Proof. vm_compute. reflexivity. Qed.
Theorem C87_any_name_read_back_refuted :
  ~ forall (L : libm) fs fbase (a : nd binary64), length (shape a) = 2 -> ~ has_tile (names fs) fbase ->
    exists b itrs meta,
      snd (read64 L (fst (write64 fs fbase a None (lit "float64") None None TimesNone None None (lit "b") None None)) fbase None (lit "b"))
      = Ok (b, itrs, meta).
Proof.
  intros H. destruct (H ex_libm [] (lit "T[1]") (ex_nd [2; 2]) eq_refl) as (b & itrs & meta & E).
  { intros X. repeat destruct X as (? & X). cbn in X. destruct X. }
  fold ex_bracket in E. unfold read64 in E.
  assert (R : rdmds64_full ex_libm PyFloat.py_float ex_bracket (lit "T[1]") ItNone (lit "b") (rd_default (b64ops ex_libm)) = (ex_bracket, Err OSError)).
  { apply (C87_no_files_no_array ex_libm _ ex_bracket (lit "T[1]") ItNone (lit "b") Big _ (-1)%Z []);
      [cbn; tauto | reflexivity |].
    change (file_base (lit "T[1]") ItNone (-1)) with (lit "T[1]").
    pose proof (metafiles_found ex_bracket (lit "T[1]")) as M. rewrite ex_bracket_none in M. apply M. }
  rewrite R in E. discriminate E.
Qed.

(** With a wildcard, an iteration is found once for each directory that has it. *)
Definition ex_twice : directory := [(lit "a/T.0000000001.meta", []); (lit "b/T.0000000001.meta", [])].
Theorem C87_iterations_once_refuted :
  ~ forall fs fname r, NoDup (names fs) -> scanforfiles fs fname = Ok r -> NoDup r.
Proof.
  intros H. assert (K := H ex_twice (lit "?/T") [1; 1]%Z).
  assert (ND : NoDup [1; 1]%Z).
  { apply K; [|vm_compute; reflexivity]. cbn. repeat constructor; cbn; intuition discriminate. }
  inversion ND as [|? ? NI _]. apply NI. now left.
Qed.

(** Tiles in directories of their own; another file lies beside them. *)
Definition ex_loc (t : text * list nat) : text :=
  (if text_eqb (fst t) (lit ".001.001") then lit "run/p0/T" else lit "run/p1/T") ++ fst t.
Definition ex_dirs : directory :=
  (lit "run/q/T.001.001.meta", []) ::
  flat_map (fun t => [(ex_loc t ++ lit ".meta", text_bytes (tile_text (placed_heading ex_td no_map None t)));
                      (ex_loc t ++ lit ".data", flat_map (enc_item b64codec b32codec Double Big) (placed_content ex_td no_map (ex_A 0) t))])
    (td_tiles ex_td).
Lemma found_by_glob fs base loc td : td_tiles td <> [] -> NoDup (map loc (td_tiles td)) ->
  metafiles_of fs base = Ok (map (fun t => loc t ++ lit ".meta") (td_tiles td)) -> found_at fs base loc td.
Proof.
  intros NE ND E. split; [exact NE|]. split; [exact ND|]. intros s. pose proof (metafiles_found fs base) as M. rewrite E in M.
  destruct M as (_ & M). rewrite <- M, in_map_iff. split; intros (t & H & K); eauto.
Qed.
Example C87_case :
  byte_order (lit "b") Big /\ options_ok ex_opts ex_td /\ tiles_fit ex_opts ex_td /\ given ItNone [(-1)%Z] /\
  tile_files_at b64codec b32codec ex_dirs ex_loc Big ex_td no_map None (ex_A 0) /\
  found_at ex_dirs (file_base (lit "run/p?/T") ItNone (-1)) ex_loc ex_td /\ shape_ok ex_opts ex_td false 1 /\
  file_match (tile_pattern (lit "run/p?/T")) (lit "run/p1/T.002.001.meta") /\
  ~ file_match (tile_pattern (lit "run/p?/T")) (lit "run/q/T.001.001.meta") /\
  outcome (rdmds64_full ex_libm ex_float_of ex_dirs (lit "run/p?/T") ItNone (lit "b") ex_opts)
  = Some ([2; 2; 1; 2], bits_at [1111; 1112; 1011; 1012; 111; 112; 11; 12], [(-1)%Z]).
Proof.
  split; [cbn; tauto|]. split.
  { unfold options_ok, recs_ok, lev_ok, range_ok, index_ok. cbn.
    repeat split; try lia; try discriminate; repeat constructor; cbn; lia. }
  split; [unfold tiles_fit, tile_inside, whole_levels; repeat constructor; cbn; lia|]. split; [reflexivity|].
  split.
  { intros t [<-|[<-|[]]]; vm_compute; split; reflexivity. }
  split.
  { apply found_by_glob; [discriminate | repeat constructor; cbn; intuition discriminate | vm_compute; reflexivity]. }
  split; [cbn; split; [lia|]; split; [discriminate|]; repeat constructor; discriminate|].
  split; [apply glob_match_iff; vm_compute; reflexivity|].
  split; [rewrite <- glob_match_iff; vm_compute; discriminate|].
  vm_compute. reflexivity.
Qed.

(** Tiles with map2glob. *)
Definition ex_map_loc (t : text * list nat) : text := lit "p" ++ skipn 3 (firstn 4 (fst t)) ++ lit "/T.0000000007" ++ fst t.
Definition ex_map_dirs : directory :=
  flat_map (fun t => [(ex_map_loc t ++ lit ".meta", text_bytes (tile_text (placed_heading ex_map_td ex_map (Some 7%Z) t)));
                      (ex_map_loc t ++ lit ".data",
                       flat_map (enc_item b64codec b32codec (td_prec ex_map_td) Big) (placed_content ex_map_td ex_map (ex_A 0) t))])
    (td_tiles ex_map_td).
Example C87_placed_case :
  tile_files_at b64codec b32codec ex_map_dirs ex_map_loc Big ex_map_td ex_map (Some 7%Z) (ex_A 0) /\
  found_at ex_map_dirs (file_base (lit "p[0-9]/T") (ItOne 7%Z) 7) ex_map_loc ex_map_td /\
  outcome (rdmds64_full ex_libm ex_float_of ex_map_dirs (lit "p[0-9]/T") (ItOne 7%Z) (lit "b") (ex_map_opts None))
  = outcome (rdmds64_full ex_libm ex_float_of ex_placed (lit "T") (ItOne 7%Z) (lit "b") (ex_map_opts None)).
Proof.
  split.
  { intros t I. cbn in I. repeat destruct I as [<-|I]; try destruct I; vm_compute; split; reflexivity. }
  split; [|vm_compute; reflexivity].
  apply found_by_glob; [discriminate | repeat constructor; cbn; intuition discriminate | vm_compute; reflexivity].
Qed.
