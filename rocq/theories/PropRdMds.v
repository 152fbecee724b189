(** Properties C65-C68: rdmds with its options, on files with and without tiles. *)
From Coq Require Import Ascii String List Bool PeanoNat ZArith Init.Byte Sorting.Sorted Lia.
From Flocq Require Import IEEE754.Binary IEEE754.Bits.
Import ListNotations.
From Verif Require Import Prelude PreludeFacts Num Mat MatFacts Fields GridIO Float64 Float64Facts
  Float32 Float32Facts SpecGrid GridIOFacts GridIOProofs MdsMeta Mds SpecMds MdsTextFacts MdsParseFacts
  SpecGlob GlobFacts MdsScanFacts MdsFacts GetObcsFacts RdMds SpecRdMds TileTextFacts RdMdsFacts RdMdsProofs RdMdsCalls Samples PropMds.
Local Open Scope nat_scope.
Local Open Scope list_scope.

(** The function at binary64. *)
Definition rdmds64_full (L : libm) (fo : text -> option binary64) := rdmds_full (b64ops L) b64codec b32codec fo.

Definition byte_order (mf : text) (od : order) : Prop :=
  In (mf, od) [(lit "ieee-be", Big); (lit "b", Big); (lit ">", Big);
               (lit "ieee-le", Little); (lit "l", Little); (lit "<", Little)].
Lemma byte_order_prefix mf od : byte_order mf od -> typeprefix mf = Some od.
Proof. intros H. cbn [byte_order In] in H. repeat (destruct H as [H|H]; [injection H as <- <-; vm_compute; reflexivity|]). destruct H. Qed.

(** What a storage format keeps of a number. *)
Definition stored (p : prec) (x : binary64) : binary64 := match p with Double => x | Single => widen (narrow x) end.
Lemma kept_stored p od x : kept b64codec b32codec p od x = stored p x.
Proof. destruct p; [apply single_stored | apply double_kept]. Qed.

(** ** C65 *)

Definition tiles_fit {F} (o : rdopts F) (td : tiled) : Prop :=
  Forall (fun t => tile_inside td (snd t) /\ whole_levels td (length (o_lev o)) (snd t)) (td_tiles td).

Definition steps_of (step : nat -> option Z) (n : nat) : list Z :=
  flat_map (fun i => match step i with Some z => [z] | None => [] end) (seq 0 n).

Theorem C65_tiles_read_as_asked :
  forall (L : libm) fo fs fname it mf od td o itrs step (A : nat -> list nat -> binary64),
  plain_name fname -> NoDup (names fs) -> byte_order mf od -> options_ok o td -> tiles_fit o td ->
  asked_for (names fs) fname it itrs -> itrs <> [] ->
  (forall i z, nth_error itrs i = Some z ->
     tile_files b64codec b32codec fs (file_base fname it z) od td o (step i) (A i)
     /\ listed (names fs) (file_base fname it z) td) ->
  shape_ok o td (it_is_list it) (length itrs) ->
  exists arr,
    rdmds64_full L fo fs fname it mf o = (fs, Ok (arr, itrs, returned_meta td (steps_of step (length itrs)))) /\
    shape arr = result_shape o td (it_is_list it) (length itrs) /\
    ravel arr = flat_map (fun i => map (element o td (A i)) (product (wanted_recs o (td_nrec td) :: wanted o td)))
                  (seq 0 (length itrs)).
Proof.
  intros L fo fs fname it mf od td o itrs step A PF ND BO OK IN AF NE FI SO.
  apply byte_order_prefix in BO. apply (asked_ok fs fname it itrs PF ND) in AF.
  destruct (rdmds_tiles (b64ops L) b64codec b32codec fo od td o OK IN fs fname it mf itrs step A PF AF BO NE) as (arr & steps & R & ST & SH & RA).
  { intros i z H. rewrite <- file_base_of. now apply FI. }
  { exact SO. }
  exists arr. split; [|split; [exact SH|exact RA]]. unfold rdmds64_full. rewrite R. do 3 f_equal.
  replace steps with (map (Vint (F:=binary64)) (steps_of step (length itrs))); [now apply returned_meta_ok|].
  rewrite ST. unfold steps_of. rewrite map_flat_map. apply flat_map_ext. intros i. now destruct (step i).
Qed.

(** Files written tile by tile give the numbers as the storage format keeps them: doubles
    unchanged, singles rounded. *)
Theorem C65_stored_tiles_read_back :
  forall (L : libm) fo fs fname it mf od td o itrs step (A : nat -> list nat -> binary64),
  plain_name fname -> NoDup (names fs) -> byte_order mf od -> options_ok o td -> tiles_fit o td ->
  asked_for (names fs) fname it itrs -> itrs <> [] ->
  (forall i z, nth_error itrs i = Some z ->
     encoded_files b64codec b32codec fs (file_base fname it z) od td (step i) (A i)
     /\ listed (names fs) (file_base fname it z) td) ->
  shape_ok o td (it_is_list it) (length itrs) ->
  exists arr,
    rdmds64_full L fo fs fname it mf o = (fs, Ok (arr, itrs, returned_meta td (steps_of step (length itrs)))) /\
    shape arr = result_shape o td (it_is_list it) (length itrs) /\
    ravel arr = flat_map (fun i => map (element o td (fun g => stored (td_prec td) (A i g)))
                                     (product (wanted_recs o (td_nrec td) :: wanted o td)))
                  (seq 0 (length itrs)).
Proof.
  intros L fo fs fname it mf od td o itrs step A PF ND BO OK IN AF NE FI SO.
  destruct (C65_tiles_read_as_asked L fo fs fname it mf od td o itrs step
    (fun i g => kept b64codec b32codec (td_prec td) od (A i g)) PF ND BO OK IN AF NE) as (arr & R & SH & RA).
  - intros i z H. destruct (FI i z H) as (E & LS). split; [|exact LS].
    apply encoded_tile_files; [apply (enc_len b64_codec_laws) | apply b32_enc_len | apply OK | exact E].
  - exact SO.
  - exists arr. split; [exact R|]. split; [exact SH|]. rewrite RA. apply flat_map_ext. intros i. apply map_ext. intros g.
    unfold element. destruct g; [reflexivity|]. now rewrite kept_stored.
Qed.

(** A field of two records on 2 levels, 2 rows and 4 columns, in two tiles, at two times. *)
Definition ex_td : tiled := mk_tiled [2] 2 4 2 Double [2; 2; 2] [(lit ".001.001", [0; 0; 0]); (lit ".002.001", [0; 0; 2])].
Definition ex_A (i : nat) (g : list nat) : binary64 := ex_dbl (i * 1000 + fold_left (fun s k => s * 10 + k) g 0).
Definition store_tiles (td : tiled) (od : order) (base : text) (step : option Z) (A : list nat -> binary64) : directory :=
  flat_map (fun t => [(base ++ fst t ++ lit ".meta", text_bytes (tile_text (tile_heading td step (snd t))));
                      (base ++ fst t ++ lit ".data",
                       flat_map (enc_item b64codec b32codec (td_prec td) od) (tile_content td A (snd t)))]) (td_tiles td).
Definition ex_tiles : directory :=
  store_tiles ex_td Little (lit "T.0000000030") (Some 30%Z) (ex_A 1)
  ++ store_tiles ex_td Little (lit "T.0000000007") (Some 7%Z) (ex_A 0).
(** The last record and the first; the levels in reverse order; columns 1-2 of the rows. *)
Definition ex_opts : rdopts binary64 :=
  mk_rdopts (RecList [-1; 0]%Z) [LevList [1; 0]%Z] (Some (mk_region 1 3 (-1) 2)) b64_half false true.

Definition tile_parts (base : text) (l : list text) : list text :=
  map (fun s => firstn 8 (skipn (length base) s))
    (filter (fun s => text_eqb (firstn (length base) s) base && text_eqb (skipn (length base + 8) s) (lit ".meta")) l).
Lemma tile_parts_in base l name : tile_name name -> In (base ++ name ++ lit ".meta") l -> In name (tile_parts base l).
Proof.
  intros (d & e & LD & LE & _ & _ & ->) I.
  assert (L8 : length (["."%char] ++ d ++ ["."%char] ++ e) = 8) by (rewrite !app_length; cbn [length]; lia).
  set (name := ["."%char] ++ d ++ ["."%char] ++ e) in *. unfold tile_parts. apply in_map_iff. exists (base ++ name ++ lit ".meta").
  split.
  - rewrite skipn_app, skipn_all, Nat.sub_diag. cbn [app skipn]. rewrite firstn_app, L8, Nat.sub_diag.
    rewrite firstn_all2 by lia. apply app_nil_r.
  - apply filter_In. split; [exact I|]. apply andb_true_iff. split; apply text_eqb_eq.
    + rewrite firstn_app, firstn_all, Nat.sub_diag. apply app_nil_r.
    + rewrite app_assoc, skipn_app, skipn_all2 by (rewrite app_length; lia).
      rewrite app_length, L8, Nat.sub_diag. reflexivity.
Qed.
Lemma stored_tiles_listed base l td : td_tiles td <> [] -> NoDup (map fst (td_tiles td)) ->
  Forall tile_name (map fst (td_tiles td)) -> incl (tile_parts base l) (map fst (td_tiles td)) -> listed l base td.
Proof. intros H1 H2 H3 H4. left. split; [exact H1|]. split; [exact H2|]. split; [exact H3|]. intros n T I. apply H4. now apply tile_parts_in. Qed.

Definition outcome (r : directory * res (nd binary64 * list Z * list (text * mentry (F:=binary64))))
  : option (list nat * list Z * list Z) :=
  match snd r with Ok (a, itrs, _) => Some (shape a, map bits_of_b64 (ravel a), itrs) | Err _ => None end.
Definition bits_at (l : list nat) : list Z := map (fun k => bits_of_b64 (ex_dbl k)) l.

Example C65_case :
  (plain_name (lit "T") /\ NoDup (names ex_tiles) /\ byte_order (lit "l") Little /\ options_ok ex_opts ex_td /\ tiles_fit ex_opts ex_td /\
   asked_for (names ex_tiles) (lit "T") (ItList [7; 30]%Z) [7; 30]%Z /\
   (forall i z, nth_error [7; 30]%Z i = Some z ->
      encoded_files b64codec b32codec ex_tiles (file_base (lit "T") (ItList [7; 30]%Z) z) Little ex_td (Some z) (ex_A i)
      /\ listed (names ex_tiles) (file_base (lit "T") (ItList [7; 30]%Z) z) ex_td) /\
   shape_ok ex_opts ex_td true 2) /\
  outcome (rdmds64_full ex_libm ex_float_of ex_tiles (lit "T") ItNaN (lit "l") ex_opts)
  = Some ([2; 2; 2; 1; 2],
          bits_at [1111; 1112; 1011; 1012; 111; 112; 11; 12; 2111; 2112; 2011; 2012; 1111; 1112; 1011; 1012],
          [7; 30]%Z).
Proof.
  split; [|vm_compute; reflexivity].
  split; [now apply magic_false|]. split; [vm_compute; repeat constructor; cbn; intuition discriminate|].
  split; [cbn; tauto|].
  split; [|split; [|split; [reflexivity|split]]].
  - unfold options_ok, recs_ok, lev_ok, range_ok, index_ok. cbn.
    repeat split; try lia; try discriminate; repeat constructor; cbn; lia.
  - unfold tiles_fit, tile_inside, whole_levels. repeat constructor; cbn; lia.
  - intros i z H.
    assert (C : (i = 0 /\ z = 7%Z) \/ (i = 1 /\ z = 30%Z)).
    { destruct i as [|[|i]]; cbn in H; [left|right|destruct i; discriminate H]; injection H as <-; split; reflexivity. }
    assert (TN : Forall tile_name (map fst (td_tiles ex_td))).
    { repeat constructor; [exists (lit "001"), (lit "001") | exists (lit "002"), (lit "001")];
        repeat split; try reflexivity; repeat constructor. }
    split.
    + intros name lo IT. destruct C as [(-> & ->)|(-> & ->)]; destruct IT as [E|[E|[]]]; injection E as <- <-;
        vm_compute; split; reflexivity.
    + apply stored_tiles_listed; [discriminate | repeat constructor; cbn; intuition discriminate | exact TN|].
      destruct C as [(-> & ->)|(-> & ->)]; vm_compute; auto.
  - cbn. split; [lia|]. split; [discriminate|]. repeat constructor. discriminate.
Qed.

(** Where no tile is stored, the fill value is returned. *)
Example C65_hole_case :
  outcome (rdmds64_full ex_libm ex_float_of (skipn 2 (store_tiles ex_td Big (lit "T") None (ex_A 0))) (lit "T") ItNone (lit "b")
             (mk_rdopts (RecOne 1%Z) [LevOne 0%Z] None b64_half true false))
  = Some ([2; 4], [bits_of_b64 b64_half; bits_of_b64 b64_half] ++ bits_at [1002; 1003]
                  ++ [bits_of_b64 b64_half; bits_of_b64 b64_half] ++ bits_at [1012; 1013], [(-1)%Z]).
Proof. vm_compute. reflexivity. Qed.

(** ** C66 *)

(** One file for the whole array, read as it is. *)
Definition whole (td : tiled) : Prop :=
  td_tiles td = [([], repeat 0 (length (td_dims td)))] /\ td_ext td = td_dims td.
Definition plain {F} (o : rdopts F) : Prop := o_rec o = RecAll /\ o_lev o = [] /\ o_region o = None /\ o_squeeze o = true.
Definition total (td : tiled) : nat := td_nrec td * size (td_dims td).

Lemma names_kept {A} (fs : list (text * A)) k v v' : dget fs k = Some v -> map fst (dset fs k v') = map fst fs.
Proof.
  induction fs as [|[a b] fs IH]; [discriminate|]. cbn [dget dset]. destruct (text_eqb k a) eqn:Q.
  - apply text_eqb_eq in Q. subst. reflexivity.
  - intros D. cbn [map fst]. now rewrite IH.
Qed.

Lemma zeros_dims l n : add_idx (repeat 0 n) l = firstn n l.
Proof.
  unfold add_idx. revert n. induction l as [|x l IH]; intros [|n]; try reflexivity. cbn [repeat combine map fst snd firstn]. now rewrite IH.
Qed.

Lemma le_all l : Forall2 le l l.
Proof. induction l; constructor; [apply le_n | assumption]. Qed.

Lemma whole_fits {F} td (o : rdopts F) : whole td -> plain o -> tiles_fit o td.
Proof.
  intros (T & E) (_ & LV & _). unfold tiles_fit. rewrite T. constructor; [|constructor]. cbn [snd]. split.
  - split; [apply repeat_length|]. split; [now rewrite E|]. rewrite E, zeros_dims, firstn_all. apply le_all.
  - rewrite LV. now split.
Qed.

Lemma size_nonzero l : size l <> 0 -> Forall (fun n => n <> 0) l.
Proof.
  induction l as [|x l IH]; intros H; constructor; change (size (x :: l)) with (x * size l) in H.
  - intros ->. now apply H.
  - apply IH. intros Z. apply H. rewrite Z. lia.
Qed.

Lemma plain_options {F} td (o : rdopts F) : whole td -> plain o -> total td <> 0 -> options_ok o td.
Proof.
  intros (T & E) (R & LV & RG & _) NZ. unfold total in NZ. unfold options_ok, recs_ok. rewrite R, LV, RG. cbn [length combine].
  split; [exact I|]. split; [lia|]. split; [constructor|]. split; [exact I|]. intros _. split; [intros Z; apply NZ; rewrite Z; lia|].
  rewrite E. apply size_nonzero. intros Z. apply NZ. rewrite Z. lia.
Qed.

Lemma all_idx_product l : product (map (seq 0) l) = all_idx l.
Proof. induction l as [|n l IH]; [reflexivity|]. cbn [map product all_idx]. now rewrite IH. Qed.

Lemma plain_wanted {F} td (o : rdopts F) : plain o -> wanted_recs o (td_nrec td) :: wanted o td = map (seq 0) (td_nrec td :: td_dims td).
Proof.
  intros (R & LV & RG & _). unfold wanted_recs, wanted, td_dims. rewrite R, LV, RG. cbn [combine map app length skipn].
  f_equal. rewrite map_app. reflexivity.
Qed.

Lemma plain_shape {F} td (o : rdopts F) : plain o -> total td <> 0 ->
  shape_ok o td false 1 /\ result_shape o td false 1 = (if td_nrec td =? 1 then [] else [td_nrec td]) ++ td_dims td.
Proof.
  intros PL NZ. pose proof (plain_wanted td o PL) as PW. destruct PL as (R & LV & RG & SQ). unfold total in NZ.
  unfold shape_ok, result_shape. rewrite SQ, LV. injection PW as W1 W2. rewrite W1, W2. split.
  - split; [lia|]. split; [|constructor]. destruct (td_nrec td); [lia|discriminate].
  - cbn [length firstn skipn map filter]. rewrite seq_length.
    replace (map (@length nat) (map (seq 0) (td_dims td))) with (td_dims td).
    + destruct (Nat.eqb_spec (td_nrec td) 1) as [->|NE]; [reflexivity|].
      replace (1 <? td_nrec td) with true by (symmetry; apply Nat.ltb_lt; lia). reflexivity.
    + rewrite map_map. rewrite (map_ext _ (fun x => x)) by (intros n; apply seq_length). symmetry. apply map_id.
Qed.

Lemma valid_inside l : forall idx, valid_idx l idx -> in_tile (repeat 0 (length l)) l idx = true.
Proof.
  induction l as [|n l IH]; intros idx V; inversion V; subst; [reflexivity|]. cbn [length repeat in_tile].
  rewrite IH by assumption. rewrite (proj2 (Nat.ltb_lt _ _)) by lia. reflexivity.
Qed.

Lemma enc_zero p od : enc_item b64codec b32codec p od b64_zero = repeat x00 (itemsize p).
Proof. destruct p, od; vm_compute; reflexivity. Qed.

Lemma enc_zeros p od n : flat_map (enc_item b64codec b32codec p od) (repeat b64_zero n) = repeat x00 (n * itemsize p).
Proof.
  induction n as [|n IH]; [reflexivity|]. cbn [repeat flat_map Nat.mul]. now rewrite IH, enc_zero, repeat_app.
Qed.

(** The elements of a list as those of an array. *)
Lemma content_of_list td (l : list binary64) : whole td -> length l = total td ->
  tile_content td (fun g => nth (offset (td_nrec td :: td_dims td) g) l b64_zero) (repeat 0 (length (td_dims td))) = l.
Proof.
  intros (T & E) LL. rewrite content_all. unfold local. rewrite E.
  transitivity (map (fun idx => nth (offset (td_nrec td :: td_dims td) idx) l b64_zero) (all_idx (td_nrec td :: td_dims td)));
    [|apply ravel_reshape; exact LL].
  apply map_ext_in. intros g I. apply in_all_idx in I. inversion I as [|r n t sh LT V]; subst. cbv beta.
  rewrite zeros_dims, firstn_all2; [reflexivity|]. rewrite (valid_length _ _ V). lia.
Qed.

Lemma whole_ravel td (o : rdopts binary64) l : whole td -> plain o -> length l = total td ->
  map (element o td (fun g => stored (td_prec td) (nth (offset (td_nrec td :: td_dims td) g) l b64_zero)))
    (product (wanted_recs o (td_nrec td) :: wanted o td)) = map (stored (td_prec td)) l.
Proof.
  intros W PL LL. rewrite (plain_wanted td o PL), all_idx_product.
  transitivity (map (stored (td_prec td))
    (map (fun idx => nth (offset (td_nrec td :: td_dims td) idx) l b64_zero) (all_idx (td_nrec td :: td_dims td))));
    [|f_equal; apply ravel_reshape; exact LL].
  rewrite map_map.
  apply map_ext_in. intros g I. apply in_all_idx in I. inversion I as [|r n t sh LT V]; subst. cbn [element].
  destruct W as (T & E). rewrite T, E. cbn [existsb snd]. now rewrite valid_inside.
Qed.

Lemma stored_zero p : stored p b64_zero = b64_zero.
Proof. destruct p; [|reflexivity]. cbn [stored]. vm_compute. reflexivity. Qed.

(** A file with fewer numbers than its meta file says: a memory map lengthens it on disk with
    zeros, which are returned. *)
Theorem C66_mapping_lengthens_short_files :
  forall (L : libm) fo fs fname mf od td o step (l : list binary64),
  plain_name fname -> NoDup (names fs) -> byte_order mf od -> whole td -> plain o -> o_memmap o = true ->
  ~ has_tile (names fs) fname ->
  dget fs (fname ++ lit ".meta") = Some (text_bytes (tile_text (tile_heading td step (repeat 0 (length (td_dims td)))))) ->
  dget fs (fname ++ lit ".data") = Some (flat_map (enc_item b64codec b32codec (td_prec td) od) l) ->
  length l < total td ->
  let l' := l ++ repeat b64_zero (total td - length l) in
  exists fs' arr,
    rdmds64_full L fo fs fname ItNone mf o = (fs', Ok (arr, [(-1)%Z], returned_meta td (match step with Some z => [z] | None => [] end))) /\
    shape arr = (if td_nrec td =? 1 then [] else [td_nrec td]) ++ td_dims td /\
    ravel arr = map (stored (td_prec td)) l' /\
    dget fs' (fname ++ lit ".data") = Some (flat_map (enc_item b64codec b32codec (td_prec td) od) l') /\
    forall name, name <> fname ++ lit ".data" -> dget fs' name = dget fs name.
Proof.
  intros L fo fs fname mf od td o step l PF ND BO W PL MM NT DM DD LT l'.
  assert (NZ : total td <> 0) by lia.
  assert (OK := plain_options td o W PL NZ). assert (TF := whole_fits td o W PL).
  destruct (plain_shape td o PL NZ) as (SO & RS).
  set (need := td_nrec td * size (td_ext td) * itemsize (td_prec td)).
  set (bs := flat_map (enc_item b64codec b32codec (td_prec td) od) l) in *.
  assert (LB : length bs = length l * itemsize (td_prec td))
    by (apply flat_enc_len; [apply (enc_len b64_codec_laws) | apply b32_enc_len]).
  assert (P : 0 < itemsize (td_prec td)) by (destruct (td_prec td); cbn; lia).
  assert (NE : need = total td * itemsize (td_prec td)) by (unfold need, total; now rewrite (proj2 W)).
  assert (PAD : pad_to need bs = flat_map (enc_item b64codec b32codec (td_prec td) od) l').
  { unfold pad_to, l'. rewrite flat_map_app, enc_zeros. fold bs. f_equal. f_equal. rewrite NE, LB. nia. }
  set (fs' := dset fs (fname ++ lit ".data") (pad_to need bs)).
  assert (LL : length l' = total td) by (unfold l'; rewrite app_length, repeat_length; lia).
  assert (NM : names fs' = names fs) by (exact (names_kept fs _ _ _ DD)).
  assert (NEQ : fname ++ lit ".meta" <> fname ++ lit ".data") by (intros Q; apply app_inv_head in Q; discriminate Q).
  set (B := fun g => nth (offset (td_nrec td :: td_dims td) g) l' b64_zero).
  destruct (C65_stored_tiles_read_back L fo fs' fname ItNone mf od td o [(-1)%Z] (fun _ => step) (fun _ => B)) as (arr & R & SH & RA); auto.
  - now rewrite NM.
  - reflexivity.
  - discriminate.
  - intros i z H. destruct i as [|i]; [|destruct i; discriminate H]. injection H as <-. cbn [file_base]. split.
    + intros name lo I. rewrite (proj1 W) in I. destruct I as [E|[]]. injection E as <- <-. cbn [app]. split.
      * unfold fs'. rewrite dget_dset_other by exact NEQ. exact DM.
      * unfold fs'. rewrite dget_dset, text_eqb_refl, PAD. f_equal. f_equal. symmetry. now apply content_of_list.
    + right. rewrite (proj1 W). split; [reflexivity|]. now rewrite NM.
  - exists fs', arr. split; [|split; [|split; [|split]]].
    + assert (TF' := TF). unfold tiles_fit in TF'. rewrite (proj1 W) in TF'. inversion TF' as [|? ? (LI & LW) _]; subst. cbn [snd] in LI, LW.
      destruct (one_file (b64ops L) b64codec b32codec fo od OK (-1)%Z LI LW) as (w & ov & PLN & _ & OF).
      apply byte_order_prefix in BO.
      pose proof (OF fs fname ItNone mf step eq_refl BO PF ND NT DM) as R1.
      assert (R2 := OF fs' fname ItNone mf step eq_refl BO). rewrite NM in R2. specialize (R2 PF ND NT).
      cbn [adds base_of] in R1, R2.
      assert (DM' : dget fs' (fname ++ lit ".meta") = Some (text_bytes (tile_text (tile_heading td step (repeat 0 (length (td_dims td)))))))
        by (unfold fs'; rewrite dget_dset_other by exact NEQ; exact DM).
      specialize (R2 DM').
      assert (MS := mapped_short (b64ops L) b64codec b32codec od td o (proj1 (proj2 (proj2 PL))) fs (fname ++ lit ".data") w _ PLN MM DD).
      fold need in MS. specialize (MS ltac:(rewrite LB, NE; nia)). cbv zeta in MS. fold fs' in MS. rewrite MS in R1.
      unfold rdmds64_full in *. rewrite R1, <- R2, R. unfold steps_of. cbn [length seq flat_map]. rewrite app_nil_r. reflexivity.
    + rewrite SH. exact RS.
    + rewrite RA. cbn [length seq flat_map]. rewrite app_nil_r. now apply whole_ravel.
    + unfold fs'. rewrite dget_dset, text_eqb_refl, PAD. reflexivity.
    + intros name H. unfold fs'. now apply dget_dset_other.
Qed.

Lemma items_length p od n : forall bs, length (items b64codec b32codec n p od bs) = n.
Proof. induction n as [|n IH]; intros bs; [reflexivity|]. cbn [items length]. now rewrite IH. Qed.

(** Without a map and without rec, a file of another size is refused. *)
Theorem C66_other_sizes_refused :
  forall (L : libm) fo fs fname mf od td o step (bs : list byte),
  plain_name fname -> NoDup (names fs) -> byte_order mf od -> whole td -> plain o -> o_memmap o = false ->
  ~ has_tile (names fs) fname ->
  dget fs (fname ++ lit ".meta") = Some (text_bytes (tile_text (tile_heading td step (repeat 0 (length (td_dims td)))))) ->
  dget fs (fname ++ lit ".data") = Some bs ->
  length bs / itemsize (td_prec td) <> total td ->
  rdmds64_full L fo fs fname ItNone mf o = (fs, Err (ValueError "cannot reshape array")).
Proof.
  intros L fo fs fname mf od td o step bs PF ND BO W PL MM NT DM DD LT.
  assert (TF := whole_fits td o W PL). assert (OK : options_ok o td).
  { destruct PL as (R & LV & RG & SQ). unfold options_ok, recs_ok. rewrite R, LV, RG, MM. cbn [length combine].
    split; [exact I|]. split; [lia|]. split; [constructor|]. split; [exact I|discriminate]. }
  unfold tiles_fit in TF. rewrite (proj1 W) in TF. inversion TF as [|? ? (LI & LW) _]; subst. cbn [snd] in LI, LW.
  destruct (one_file (b64ops L) b64codec b32codec fo od OK (-1)%Z LI LW) as (w & ov & PLN & _ & OF).
  apply byte_order_prefix in BO. pose proof (OF fs fname ItNone mf step eq_refl BO PF ND NT DM) as R1. cbn [adds base_of] in R1.
  unfold rdmds64_full. rewrite R1.
  rewrite (whole_wrong (b64ops L) b64codec b32codec od td o (proj1 (proj2 (proj2 PL))) fs (fname ++ lit ".data") w _ PLN MM
     (proj1 PL) DD) by (now rewrite (proj2 W)).
  reflexivity.
Qed.

(** Reading some records takes only these to be there. *)
Definition some_records {F} (o : rdopts F) : Prop :=
  o_rec o <> RecAll /\ o_lev o = [] /\ o_region o = None /\ o_squeeze o = true /\ o_memmap o = false.

Lemma nth_skip {A} (l : list A) a j d : nth j (skipn a l) d = nth (a + j) l d.
Proof. revert l. induction a as [|a IH]; intros [|x l]; cbn [skipn Nat.add nth]; auto; now destruct j. Qed.

Lemma nth_first {A} (l : list A) n j d : j < n -> nth j (firstn n l) d = nth j l d.
Proof.
  revert n l. induction j as [|j IH]; intros [|n] [|x l] H; try lia; try reflexivity. cbn [firstn nth]. apply IH. lia.
Qed.

Lemma offset_below sh : forall idx, valid_idx sh idx -> offset sh idx < size sh.
Proof.
  intros idx V. apply in_all_idx in V. apply (in_map (offset sh)) in V. rewrite offsets in V. apply in_seq in V. lia.
Qed.

Lemma record_slice (l : list binary64) nrec dims k : S k * size dims <= length l ->
  map (fun idx => nth (offset (nrec :: dims) (k :: idx)) l b64_zero) (all_idx dims)
  = firstn (size dims) (skipn (k * size dims) l).
Proof.
  intros H. assert (LF : length (firstn (size dims) (skipn (k * size dims) l)) = size dims).
  { rewrite firstn_length, skipn_length. nia. }
  rewrite <- (ravel_reshape _ dims b64_zero LF).
  apply map_ext_in. intros idx I. apply in_all_idx in I. pose proof (offset_below _ _ I) as O.
  rewrite nth_first by exact O. rewrite nth_skip. cbn [offset]. f_equal.
Qed.

Theorem C66_only_asked_records_needed :
  forall (L : libm) fo fs fname mf od td o step (l : list binary64),
  plain_name fname -> NoDup (names fs) -> byte_order mf od -> whole td -> some_records o -> recs_ok o (td_nrec td) ->
  wanted_recs o (td_nrec td) <> [] ->
  ~ has_tile (names fs) fname ->
  dget fs (fname ++ lit ".meta") = Some (text_bytes (tile_text (tile_heading td step (repeat 0 (length (td_dims td)))))) ->
  dget fs (fname ++ lit ".data") = Some (flat_map (enc_item b64codec b32codec (td_prec td) od) l) ->
  Forall (fun k => S k * size (td_dims td) <= length l) (wanted_recs o (td_nrec td)) ->
  exists arr,
    rdmds64_full L fo fs fname ItNone mf o = (fs, Ok (arr, [(-1)%Z], returned_meta td (match step with Some z => [z] | None => [] end))) /\
    shape arr = (if length (wanted_recs o (td_nrec td)) =? 1 then [] else [length (wanted_recs o (td_nrec td))]) ++ td_dims td /\
    ravel arr = flat_map (fun k => map (stored (td_prec td)) (firstn (size (td_dims td)) (skipn (k * size (td_dims td)) l)))
                  (wanted_recs o (td_nrec td)).
Proof.
  intros L fo fs fname mf od td o step l PF ND BO W SR RO WR NT DM DD FA.
  destruct SR as (NR & LV & RG & SQ & MM). pose proof W as (T & E).
  set (B := fun g => stored (td_prec td) (nth (offset (td_nrec td :: td_dims td) g) l b64_zero)).
  assert (OK : options_ok o td).
  { unfold options_ok. rewrite LV, RG, MM. cbn [length combine].
    split; [exact RO|]. split; [lia|]. split; [constructor|]. split; [exact I|discriminate]. }
  assert (TF : tiles_fit o td).
  { unfold tiles_fit. rewrite T. constructor; [|constructor]. cbn [snd]. split; [|rewrite LV; now split].
    split; [apply repeat_length|]. split; [now rewrite E|]. rewrite E, zeros_dims, firstn_all. apply le_all. }
  assert (WD : wanted o td = map (seq 0) (td_dims td)).
  { unfold wanted, td_dims. rewrite LV, RG. cbn [combine map app length skipn]. rewrite map_app. reflexivity. }
  destruct (C65_tiles_read_as_asked L fo fs fname ItNone mf od td o [(-1)%Z] (fun _ => step) (fun _ => B)) as (arr & R & SH & RA); auto.
  - reflexivity.
  - discriminate.
  - intros i z H. destruct i as [|i]; [|destruct i; discriminate H]. injection H as <-. cbn [file_base]. split.
    + intros name lo I. rewrite T in I. destruct I as [Q|[]]. injection Q as <- <-. cbn [app]. split; [exact DM|].
      eexists. split; [exact DD|]. unfold readable. rewrite MM.
      assert (G : forall k, In k (wanted_recs o (td_nrec td)) ->
        decodes b64codec b32codec (td_prec td) od
         (skipn (k * size (td_ext td) * itemsize (td_prec td)) (flat_map (enc_item b64codec b32codec (td_prec td) od) l))
         (map (fun idx => B (k :: add_idx (repeat 0 (length (td_dims td))) idx)) (all_idx (td_ext td)))).
      { intros k K. rewrite Forall_forall in FA. specialize (FA k K). rewrite E.
        rewrite skip_enc by (first [apply (enc_len b64_codec_laws) | apply b32_enc_len]).
        rewrite <- (firstn_skipn (size (td_dims td)) (skipn (k * size (td_dims td)) l)), flat_map_app.
        replace (map (fun idx => B (k :: add_idx (repeat 0 (length (td_dims td))) idx)) (all_idx (td_dims td)))
          with (map (kept b64codec b32codec (td_prec td) od) (firstn (size (td_dims td)) (skipn (k * size (td_dims td)) l))).
        - apply encoded_decodes; [apply (enc_len b64_codec_laws) | apply b32_enc_len].
        - rewrite <- (record_slice l (td_nrec td)) by exact FA. rewrite map_map. apply map_ext_in. intros idx J. apply in_all_idx in J.
          rewrite kept_stored. unfold B. rewrite zeros_dims, firstn_all2; [reflexivity|]. rewrite (valid_length _ _ J). lia. }
      destruct (o_rec o); [now elim NR | exact G | exact G].
    + right. rewrite T. now split.
  - unfold shape_ok. rewrite SQ. split; [cbn; lia|]. split; [exact WR|]. rewrite LV. constructor.
  - exists arr. split; [|split].
    + rewrite R. unfold steps_of. cbn [length seq flat_map]. now rewrite app_nil_r.
    + rewrite SH. unfold result_shape. rewrite SQ, LV, WD. cbn [length firstn skipn map filter it_is_list].
      rewrite map_map, (map_ext _ (fun x => x)) by (intros n; apply seq_length). rewrite map_id. f_equal.
      destruct (Nat.eqb_spec (length (wanted_recs o (td_nrec td))) 1) as [->|NE]; [reflexivity|].
      replace (1 <? length (wanted_recs o (td_nrec td))) with true; [reflexivity|]. symmetry. apply Nat.ltb_lt.
      destruct (wanted_recs o (td_nrec td)) as [|? [|]]; [now elim WR | now elim NE | cbn; lia].
    + rewrite RA. cbn [length seq flat_map]. rewrite app_nil_r. cbn [product]. rewrite WD, all_idx_product, map_flat_map.
      apply flat_map_ext_in'. intros k K. rewrite Forall_forall in FA. specialize (FA k K).
      rewrite <- (record_slice l (td_nrec td)) by exact FA. rewrite !map_map. apply map_ext_in. intros idx J. apply in_all_idx in J.
      cbn [element]. rewrite T, E. cbn [existsb snd]. rewrite valid_inside by exact J. reflexivity.
Qed.

(** A record that is not wholly there is refused. *)
Theorem C66_missing_record_refused :
  forall (L : libm) fo fs fname mf od td o step (bs : list byte) z,
  plain_name fname -> NoDup (names fs) -> byte_order mf od -> whole td -> some_records o -> o_rec o = RecOne z -> index_ok (td_nrec td) z ->
  ~ has_tile (names fs) fname ->
  dget fs (fname ++ lit ".meta") = Some (text_bytes (tile_text (tile_heading td step (repeat 0 (length (td_dims td)))))) ->
  dget fs (fname ++ lit ".data") = Some bs ->
  length bs < S (index_of (td_nrec td) z) * size (td_dims td) * itemsize (td_prec td) ->
  rdmds64_full L fo fs fname ItNone mf o = (fs, Err (ValueError "cannot reshape array")).
Proof.
  intros L fo fs fname mf od td o step bs z PF ND BO W SR RZ IX NT DM DD LT.
  destruct SR as (NR & LV & RG & SQ & MM). pose proof W as (T & E).
  assert (OK : options_ok o td).
  { unfold options_ok, recs_ok. rewrite LV, RG, MM, RZ. cbn [length combine].
    split; [exact IX|]. split; [lia|]. split; [constructor|]. split; [exact I|discriminate]. }
  assert (LI : tile_inside td (repeat 0 (length (td_dims td)))).
  { split; [apply repeat_length|]. split; [now rewrite E|]. rewrite E, zeros_dims, firstn_all. apply le_all. }
  assert (LW : whole_levels td (length (o_lev o)) (repeat 0 (length (td_dims td)))) by (rewrite LV; now split).
  destruct (one_file (b64ops L) b64codec b32codec fo od OK (-1)%Z LI LW) as (w & ov & PLN & _ & OF).
  apply byte_order_prefix in BO. pose proof (OF fs fname ItNone mf step eq_refl BO PF ND NT DM) as R1. cbn [adds base_of] in R1.
  unfold rdmds64_full. rewrite R1. unfold plan in PLN. rewrite RG in PLN. injection PLN as <-.
  unfold read_data. rewrite MM, RZ. cbn [orb]. rewrite DD. unfold recsZ. cbn [start s_recs].
  unfold recsZ. rewrite RZ. cbn [read_records ov_any s_prec s_recshape s_nrec].
  assert (RR : read_record (b64ops L) b64codec b32codec bs (td_prec td) od (td_ext td) (td_nrec td) z = Err (ValueError "cannot reshape array")).
  { unfold read_record. set (k := index_of (td_nrec td) z) in *.
    assert (K : (if (z <? 0)%Z then (z + Z.of_nat (td_nrec td))%Z else z) = Z.of_nat k).
    { unfold k, index_of, wrap. unfold index_ok in IX. destruct (Z.ltb_spec z 0); lia. }
    rewrite K, E. rewrite (proj2 (Z.ltb_ge _ _)) by lia.
    replace (Z.to_nat (Z.of_nat k * Z.of_nat (size (td_dims td) * itemsize (td_prec td)))) with (k * size (td_dims td) * itemsize (td_prec td)) by nia.
    unfold reshape. rewrite items_length, skipn_length.
    assert (P : itemsize (td_prec td) <> 0) by (destruct (td_prec td); discriminate).
    assert (Q : (length bs - k * size (td_dims td) * itemsize (td_prec td)) / itemsize (td_prec td) < size (td_dims td)).
    { apply Nat.div_lt_upper_bound; [exact P|]. cbn [Nat.mul] in LT. lia. }
    rewrite Nat.min_r by lia. rewrite (proj2 (Nat.eqb_neq _ _)) by lia. reflexivity. }
  cbn [start s_prec s_recshape s_nrec]. rewrite RR. reflexivity.
Qed.

(** A file of two records of 1 x 2 numbers, of which only three numbers are there. *)
Definition ex_whole : tiled := mk_tiled [] 1 2 2 Double [1; 2] [([], [0; 0])].
Definition ex_short : directory :=
  [(lit "T.meta", text_bytes (tile_text (tile_heading ex_whole None [0; 0])));
   (lit "T.data", flat_map (enc_item b64codec b32codec Double Big) [ex_dbl 1; ex_dbl 2; ex_dbl 3])].
Definition ex_read (memmap : bool) (r : recarg) := rdmds64_full ex_libm ex_float_of ex_short (lit "T") ItNone (lit "b")
    (mk_rdopts r [] None b64_zero memmap true).
Definition sizes_after (r : directory * res (nd binary64 * list Z * list (text * mentry (F:=binary64)))) : list nat :=
  map (fun f => length (snd f)) (fst r).
Example C66_case :
  whole ex_whole /\ plain_name (lit "T") /\ NoDup (names ex_short) /\ ~ has_tile (names ex_short) (lit "T") /\
  nth 1 (sizes_after (ex_read true RecAll)) 0 = 32 /\
  outcome (ex_read true RecAll) = Some ([2; 1; 2], bits_at [1; 2; 3] ++ [0%Z], [(-1)%Z]) /\
  option_map (fun _ => tt) (outcome (ex_read false RecAll)) = None /\
  nth 1 (sizes_after (ex_read false RecAll)) 0 = 24 /\
  outcome (ex_read false (RecOne (-2)%Z)) = Some ([1; 2], bits_at [1; 2], [(-1)%Z]) /\
  outcome (ex_read false (RecOne 1%Z)) = None.
Proof.
  split; [split; reflexivity|]. split; [now apply magic_false|]. split; [repeat constructor; cbn; intuition discriminate|].
  split; [|vm_compute; repeat split; reflexivity].
  intros (d & e & Ld & Le & _ & _ & I).
  apply (in_map (@length ascii)) in I. rewrite !app_length, Ld, Le in I. vm_compute in I. intuition discriminate.
Qed.

(** ** C67 *)

(** Reading part of the files is the same as reading everything and taking the part. *)
Definition inside_array {F} (o : rdopts F) (td : tiled) : Prop :=
  match o_region o with
  | None => True
  | Some r => (wrap (td_ny td) (rje r) <= Z.of_nat (td_ny td) /\ wrap (td_nx td) (rie r) <= Z.of_nat (td_nx td))%Z
  end.

Lemma levels_valid levs : forall gl g, length levs = length gl ->
  Forall (fun ln => lev_ok (fst ln) (snd ln)) (combine levs gl) ->
  In g (product (level_axes levs gl)) -> valid_idx gl g.
Proof.
  unfold level_axes. induction levs as [|l levs IH]; intros [|n gl] g E FA I; try discriminate E.
  - destruct I as [<-|[]]. constructor.
  - cbn [combine map product fst snd] in *. apply in_flat_map in I. destruct I as (x & X & I).
    apply in_map_iff in I. destruct I as (t & <- & I). inversion FA as [|? ? LO FA']; subst. constructor.
    + apply in_map_iff in X. destruct X as (z & <- & X). destruct LO as (LO & _). cbn [fst snd] in LO. rewrite Forall_forall in LO.
      apply index_of_lt. now apply LO.
    + apply IH; auto.
Qed.

Lemma product_app a : forall b g, In g (product (a ++ b)) -> exists u v, g = u ++ v /\ In u (product a) /\ In v (product b).
Proof.
  induction a as [|x a IH]; intros b g I.
  - exists [], g. repeat split; [now left | exact I].
  - cbn [app product] in *. apply in_flat_map in I. destruct I as (y & Y & I). apply in_map_iff in I. destruct I as (t & <- & I).
    apply IH in I. destruct I as (u & v & -> & U & V). exists (y :: u), v. repeat split; [|exact V].
    apply in_flat_map. exists y. split; [exact Y|]. apply in_map_iff. now exists u.
Qed.

Lemma wanted_valid {F} (o : rdopts F) td g : options_ok o td -> inside_array o td ->
  In g (product (wanted_recs o (td_nrec td) :: wanted o td)) -> valid_idx (td_nrec td :: td_dims td) g.
Proof.
  intros OK IA I. cbn [product] in I. apply in_flat_map in I. destruct I as (r & R & I). apply in_map_iff in I. destruct I as (t & <- & I).
  pose proof OK as (RO & LE & _ & RG & _). constructor.
  - unfold wanted_recs in R. unfold recs_ok in RO. destruct (o_rec o).
    + apply in_seq in R. lia.
    + destruct R as [<-|[]]. now apply index_of_lt.
    + apply in_map_iff in R. destruct R as (z & <- & R). rewrite Forall_forall in RO. now apply index_of_lt, RO.
  - rewrite (wanted_split td o OK) in I. apply product_app in I. destruct I as (u & v & -> & U & V).
    apply product_app in V. destruct V as (v1 & v2 & -> & V1 & V2).
    apply levels_valid in U; [|symmetry; apply (lead_levels td o OK)|apply (forall_levels td o OK)].
    rewrite all_idx_product in V1. apply in_all_idx in V1.
    unfold td_dims. rewrite <- (firstn_skipn (length (o_lev o)) (td_lead td)) at 1. rewrite <- app_assoc.
    apply Forall2_app; [exact U|]. apply Forall2_app; [exact V1|].
    cbn [product] in V2. apply in_flat_map in V2. destruct V2 as (y & Y & V2). apply in_map_iff in V2. destruct V2 as (q & <- & V2).
    apply in_flat_map in V2. destruct V2 as (x & X & V2). destruct V2 as [<-|[]].
    destruct (regw_ok td o OK) as (R1 & R2). unfold rows in Y. unfold cols in X. apply in_seq in Y. apply in_seq in X.
    unfold inside_array in IA. unfold regw in *. destruct (o_region o); cbn [rj0 rje ri0 rie] in *; repeat constructor; lia.
Qed.

Theorem C67_parts_of_the_whole :
  forall (L : libm) fo fs fname it mf od td o itrs step (A : nat -> list nat -> binary64),
  plain_name fname -> NoDup (names fs) -> byte_order mf od -> options_ok o td -> tiles_fit o td -> inside_array o td -> td_nrec td <> 0 ->
  asked_for (names fs) fname it itrs -> itrs <> [] ->
  (forall i z, nth_error itrs i = Some z ->
     encoded_files b64codec b32codec fs (file_base fname it z) od td (step i) (A i)
     /\ listed (names fs) (file_base fname it z) td) ->
  shape_ok o td (it_is_list it) (length itrs) ->
  exists all part m,
    rdmds64_full L fo fs fname it mf (mk_rdopts RecAll [] None (o_fill o) false true) = (fs, Ok (all, itrs, m)) /\
    rdmds64_full L fo fs fname it mf o = (fs, Ok (part, itrs, m)) /\
    length (ravel all) = length itrs * (td_nrec td * size (td_dims td)) /\
    ravel part = map (fun g => nth (offset (length itrs :: td_nrec td :: td_dims td) g) (ravel all) (o_fill o))
                   (product (seq 0 (length itrs) :: wanted_recs o (td_nrec td) :: wanted o td)).
Proof.
  intros L fo fs fname it mf od td o itrs step A PF ND BO OK TF IA NR AF NE FI SO.
  set (d := mk_rdopts RecAll [] None (o_fill o) false true).
  assert (PD : plain d) by (repeat split).
  assert (OD : options_ok d td).
  { unfold options_ok, recs_ok. cbn. split; [exact I|]. split; [lia|]. split; [constructor|]. split; [exact I|discriminate]. }
  assert (TD : tiles_fit d td).
  { unfold tiles_fit in *. eapply Forall_impl; [|exact TF]. intros t (H & _). split; [exact H|]. cbn. now split. }
  assert (SD : shape_ok d td (it_is_list it) (length itrs)).
  { cbn. split; [destruct itrs; [now elim NE|cbn; lia]|]. split; [|constructor]. destruct (td_nrec td); [now elim NR|discriminate]. }
  destruct (C65_stored_tiles_read_back L fo fs fname it mf od td d itrs step A PF ND BO OD TD AF NE FI SD) as (all & R1 & _ & RA1).
  destruct (C65_stored_tiles_read_back L fo fs fname it mf od td o itrs step A PF ND BO OK TF AF NE FI SO) as (part & R2 & _ & RA2).
  exists all, part, (returned_meta td (steps_of step (length itrs))). split; [exact R1|]. split; [exact R2|].
  set (f := fun g => match g with i :: t => element o td (fun g => stored (td_prec td) (A i g)) t | [] => o_fill o end).
  assert (RA : ravel all = map f (all_idx (length itrs :: td_nrec td :: td_dims td))).
  { rewrite RA1, (plain_wanted td d PD), all_idx_product. change (all_idx (length itrs :: td_nrec td :: td_dims td))
      with (flat_map (fun i => map (cons i) (all_idx (td_nrec td :: td_dims td))) (seq 0 (length itrs))).
    rewrite map_flat_map. apply flat_map_ext. intros i. rewrite map_map. reflexivity. }
  split.
  - rewrite RA, map_length, all_idx_length. reflexivity.
  - rewrite RA2. change (product (seq 0 (length itrs) :: wanted_recs o (td_nrec td) :: wanted o td))
      with (flat_map (fun i => map (cons i) (product (wanted_recs o (td_nrec td) :: wanted o td))) (seq 0 (length itrs))).
    rewrite map_flat_map. apply flat_map_ext_in'. intros i I. apply in_seq in I. rewrite map_map. apply map_ext_in. intros g G.
    rewrite RA, nth_offset; [reflexivity|]. constructor; [lia|]. now apply (wanted_valid o).
Qed.

Example C67_case :
  inside_array ex_opts ex_td /\ td_nrec ex_td <> 0 /\
  outcome (rdmds64_full ex_libm ex_float_of ex_tiles (lit "T") ItNaN (lit "l") (mk_rdopts RecAll [] None b64_half false true))
  = Some ([2; 2; 2; 2; 4],
          bits_at (flat_map (fun i => flat_map (fun r => flat_map (fun k => flat_map (fun j => map (fun x =>
            i * 1000 + r * 1000 + k * 100 + j * 10 + x) (seq 0 4)) (seq 0 2)) (seq 0 2)) (seq 0 2)) (seq 0 2)), [7; 30]%Z).
Proof. split; [cbn; lia|]. split; [discriminate|]. vm_compute. reflexivity. Qed.

(** ** C68 *)

Lemma product_length (l : list (list nat)) : length (product l) = size (map (@length nat) l).
Proof.
  induction l as [|a l IH]; [reflexivity|]. cbn [map product]. change (size (length a :: map (@length nat) l)) with (length a * size (map (@length nat) l)).
  rewrite <- IH. induction a as [|x a IHa]; [reflexivity|]. cbn [flat_map length Nat.mul]. now rewrite app_length, map_length, IHa.
Qed.

(** "squeeze all that came from scalar arguments": leaving rec out counts as a scalar, so the
    records of a file with several of them cannot be returned. *)
Theorem C68_unsqueezed_records_fail :
  forall (L : libm) fo fs fname mf od td o step (A : list nat -> binary64),
  plain_name fname -> NoDup (names fs) -> byte_order mf od -> whole td ->
  o = mk_rdopts RecAll [] None (o_fill o) false false ->
  ~ has_tile (names fs) fname ->
  encoded_files b64codec b32codec fs fname od td step A ->
  td_nrec td <> 1 -> size (td_dims td) <> 0 ->
  rdmds64_full L fo fs fname ItNone mf o = (fs, Err (ValueError "cannot reshape array")).
Proof.
  intros L fo fs fname mf od td o step A PF ND BO W EO NT EF NR NZ. pose proof W as (T & E).
  assert (OK : options_ok o td).
  { rewrite EO. unfold options_ok, recs_ok. cbn. split; [exact I|]. split; [lia|]. split; [constructor|]. split; [exact I|discriminate]. }
  assert (LI : tile_inside td (repeat 0 (length (td_dims td)))).
  { split; [apply repeat_length|]. split; [now rewrite E|]. rewrite E, zeros_dims, firstn_all. apply le_all. }
  assert (LW : whole_levels td (length (o_lev o)) (repeat 0 (length (td_dims td)))) by (rewrite EO; now split).
  destruct (EF [] (repeat 0 (length (td_dims td)))) as (DM & DD); [rewrite T; now left|]. cbn [app] in DM, DD.
  destruct (one_file (b64ops L) b64codec b32codec fo od OK (-1)%Z LI LW) as (w & ov & PLN & SV & OF).
  apply byte_order_prefix in BO. pose proof (OF fs fname ItNone mf step eq_refl BO PF ND NT DM) as R1. cbn [adds base_of] in R1.
  unfold rdmds64_full. rewrite R1.
  assert (RB := encoded_readable b64codec b32codec (enc_len b64_codec_laws) b32_enc_len od td o A (repeat 0 (length (td_dims td))) ltac:(apply OK)).
  destruct (read_data_ok (b64ops L) b64codec b32codec od td o OK _ _ LI LW _ RB 1 0 (start td o 1) ov fs (fname ++ lit ".data"))
    as (w' & arr & SV' & RD & SH & _); [repeat split | exact PLN | exact DD |].
  cbn [start s_arr shape] in SV'. rewrite SV in SV'. injection SV' as <-. rewrite RD. cbn [rbind].
  assert (DR : drop_dims (b64ops L) o (it_is_list ItNone) arr = Err (ValueError "cannot reshape array")).
  { unfold drop_dims. rewrite SH. cbn [start s_arr shape].
    assert (WD : wanted o td = map (seq 0) (td_dims td)).
    { rewrite EO. unfold wanted, td_dims. cbn [o_lev o_region combine map app length skipn]. rewrite map_app. reflexivity. }
    assert (WR : wanted_recs o (td_nrec td) = seq 0 (td_nrec td)) by (rewrite EO; reflexivity).
    rewrite WD, WR, seq_length. rewrite map_map, (map_ext _ (fun x => x)) by (intros n; apply seq_length). rewrite map_id.
    rewrite EO. cbn [o_lev length Nat.add firstn skipn o_squeeze o_rec map combine filter snd it_is_list app].
    unfold reshape. unfold ravel. rewrite map_length, all_idx_length, SH. cbn [start s_arr shape]. rewrite WD, WR, seq_length.
    rewrite map_map, (map_ext _ (fun x => x)) by (intros n; apply seq_length). rewrite map_id.
    change (size (1 :: td_nrec td :: td_dims td)) with (1 * (td_nrec td * size (td_dims td))).
    rewrite (proj2 (Nat.eqb_neq _ _)) by nia. reflexivity. }
  rewrite DR. reflexivity.
Qed.

Definition ex_stack (nrec : nat) : tiled := mk_tiled [2] 1 2 nrec Double [2; 1; 2] [([], [0; 0; 0])].
Definition ex_stacked (nrec : nat) : directory := store_tiles (ex_stack nrec) Big (lit "T") None (ex_A 0).
Definition verdict (r : directory * res (nd binary64 * list Z * list (text * mentry (F:=binary64)))) : option exn := failure (snd r).

Example C68_case :
  whole (ex_stack 3) /\ plain_name (lit "T") /\ NoDup (names (ex_stacked 3)) /\
  encoded_files b64codec b32codec (ex_stacked 3) (lit "T") Big (ex_stack 3) None (ex_A 0) /\
  verdict (rdmds64_full ex_libm ex_float_of (ex_stacked 3) (lit "T") ItNone (lit "b") (mk_rdopts RecAll [] None b64_zero false false))
  = Some (ValueError "cannot reshape array") /\
  (* a single record is returned, and so are several asked for by a list *)
  option_map (fun x => fst (fst x)) (outcome (rdmds64_full ex_libm ex_float_of (ex_stacked 1) (lit "T") ItNone (lit "b") (mk_rdopts RecAll [] None b64_zero false false)))
  = Some [2; 1; 2] /\
  option_map (fun x => fst (fst x)) (outcome (rdmds64_full ex_libm ex_float_of (ex_stacked 3) (lit "T") ItNone (lit "b") (mk_rdopts (RecList [0; 1; 2]%Z) [] None b64_zero false false)))
  = Some [3; 2; 1; 2].
Proof.
  split; [split; reflexivity|]. split; [now apply magic_false|]. split; [repeat constructor; cbn; intuition discriminate|].
  split; [|vm_compute; repeat split; reflexivity].
  intros name lo [E|[]]. injection E as <- <-. split; vm_compute; reflexivity.
Qed.

(** Two hypotheses of C65 are needed: levels repeated beyond their number are refused, and so
    are levels if a tile has only some of them. *)
Example C68_more_levels_than_there_are :
  verdict (rdmds64_full ex_libm ex_float_of (ex_stacked 1) (lit "T") ItNone (lit "b")
             (mk_rdopts RecAll [LevList [0; 1; 0]%Z] None b64_zero false true))
  = Some (ValueError "could not broadcast input array").
Proof. vm_compute. reflexivity. Qed.

(** Six levels in two layers of three: levels that are there are not found. *)
Definition ex_layers : tiled := mk_tiled [6] 1 2 1 Double [3; 1; 2] [(lit ".001.001", [0; 0; 0]); (lit ".001.002", [3; 0; 0])].
Definition pick_levels (l : list Z) : rdopts binary64 := mk_rdopts RecAll [LevList l] None b64_zero false true.
Theorem C68_levels_of_layered_tiles_refuted : exists fs,
  encoded_files b64codec b32codec fs (lit "T") Big ex_layers None (ex_A 0) /\
  tiles_fit (mk_rdopts (F:=binary64) RecAll [] None b64_zero false true) ex_layers /\
  options_ok (pick_levels [5%Z]) ex_layers /\ options_ok (pick_levels [0; 1]%Z) ex_layers /\
  verdict (rdmds64_full ex_libm ex_float_of fs (lit "T") ItNone (lit "b") (pick_levels [5%Z])) = Some IndexError /\
  verdict (rdmds64_full ex_libm ex_float_of fs (lit "T") ItNone (lit "b") (pick_levels [0; 1]%Z))
  = Some (ValueError "could not broadcast input array").
Proof.
  exists (store_tiles ex_layers Big (lit "T") None (ex_A 0)). split.
  - intros name lo [E|[E|[]]]; injection E as <- <-; split; vm_compute; reflexivity.
  - split; [unfold tiles_fit, tile_inside, whole_levels; repeat constructor; cbn; lia|].
    split; [|split; [|split; vm_compute; reflexivity]];
      unfold options_ok, recs_ok, lev_ok, index_ok; cbn; repeat split; try lia; try discriminate; repeat constructor; cbn; lia.
Qed.
