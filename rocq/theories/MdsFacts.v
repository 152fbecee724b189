(** Facts about arrays, and reading back what wrmds wrote. *)
From Coq Require Import Ascii String List Bool PeanoNat NArith ZArith Init.Byte Lia.
Import ListNotations.
From Verif Require Import Prelude PreludeFacts Num Mat Fields GridIO MdsMeta Mds SpecMds SpecGlob
  MdsTextFacts MdsParseFacts GlobFacts MdsScanFacts.
Local Open Scope nat_scope.
Local Open Scope list_scope.
Local Arguments Nat.mul : simpl never.

(** * Index tuples *)

Lemma in_all_idx sh : forall idx, In idx (all_idx sh) <-> valid_idx sh idx.
Proof.
  unfold valid_idx. induction sh as [|n sh IH]; intros idx; cbn [all_idx].
  - split.
    + intros [<-|[]]. constructor.
    + intros H. inversion H. now left.
  - rewrite in_flat_map. split.
    + intros (i & I & J). apply in_seq in I. apply in_map_iff in J. destruct J as (t & <- & J).
      constructor; [lia | now apply IH].
    + intros H. inversion H; subst. exists x. split; [apply in_seq; lia|].
      apply in_map. now apply IH.
Qed.

Lemma flat_seq (s n : nat) (f : nat -> list nat) :
  (forall i, i < n -> f i = map (fun o => i * s + o) (seq 0 s)) ->
  flat_map f (seq 0 n) = seq 0 (n * s).
Proof.
  induction n as [|n IH]; intros H; [reflexivity|].
  rewrite seq_S, flat_map_app, IH by (intros; apply H; lia).
  cbn [Nat.add flat_map]. rewrite app_nil_r, H by lia.
  replace (S n * s) with (n * s + s) by lia. rewrite seq_app. f_equal.
  cbn [Nat.add]. generalize (n * s) as k. intros k.
  assert (E : forall m a, map (fun o => k + o) (seq a m) = seq (k + a) m).
  { induction m as [|m IHm]; intros a; [reflexivity|]. cbn [seq map]. f_equal.
    rewrite IHm. f_equal. lia. }
  rewrite E. f_equal. lia.
Qed.

Lemma flat_map_map {A B C} (f : B -> list C) (g : A -> B) l :
  flat_map f (map g l) = flat_map (fun x => f (g x)) l.
Proof. induction l; cbn [map flat_map]; [reflexivity | now rewrite IHl]. Qed.

Lemma map_flat_map {A B C} (f : B -> C) (g : A -> list B) l :
  map f (flat_map g l) = flat_map (fun x => map f (g x)) l.
Proof. induction l; cbn [map flat_map]; [reflexivity | now rewrite map_app, IHl]. Qed.

Lemma offsets sh : map (offset sh) (all_idx sh) = seq 0 (size sh).
Proof.
  induction sh as [|n sh IH]; [reflexivity|].
  cbn [all_idx]. change (size (n :: sh)) with (n * size sh). rewrite map_flat_map.
  apply flat_seq. intros i I. rewrite map_map. cbn [offset].
  rewrite <- (map_map (offset sh) (fun o => i * size sh + o)), IH. reflexivity.
Qed.

Lemma all_idx_length sh : length (all_idx sh) = size sh.
Proof. rewrite <- (map_length (offset sh)), offsets. apply seq_length. Qed.

Lemma nth_offset {A} (f : list nat -> A) sh idx d : valid_idx sh idx ->
  nth (offset sh idx) (map f (all_idx sh)) d = f idx.
Proof.
  intros V. apply in_all_idx in V. destruct (In_nth _ _ [] V) as (k & K & E).
  assert (O : offset sh idx = k).
  { rewrite <- E. rewrite <- (map_nth (offset sh)), offsets.
    rewrite all_idx_length in K. rewrite (nth_indep _ _ 0) by (rewrite seq_length; lia).
    now rewrite seq_nth. }
  rewrite O. rewrite (nth_indep _ d (f [])) by (now rewrite map_length).
  rewrite map_nth. congruence.
Qed.

Lemma map_nth_seq {A} (l : list A) d : map (fun k => nth k l d) (seq 0 (length l)) = l.
Proof.
  apply (nth_ext _ _ d d); [now rewrite map_length, seq_length|].
  intros k K. rewrite map_length, seq_length in K.
  rewrite (nth_indep _ d (nth 0 l d)) by (now rewrite map_length, seq_length).
  rewrite (map_nth (fun k => nth k l d)). now rewrite seq_nth.
Qed.

Lemma ravel_reshape {A} (l : list A) sh d : length l = size sh ->
  map (fun idx => nth (offset sh idx) l d) (all_idx sh) = l.
Proof.
  intros H. rewrite <- (map_map (offset sh) (fun k => nth k l d)), offsets, <- H. apply map_nth_seq.
Qed.

Lemma size_app a b : size (a ++ b) = size a * size b.
Proof.
  induction a as [|n a IH]; cbn [app]; [change (size []) with 1; lia|].
  change (size (n :: a ++ b)) with (n * size (a ++ b)). change (size (n :: a)) with (n * size a).
  rewrite IH. lia.
Qed.

(** * Files *)

Lemma byte_text_bytes t : byte_text (text_bytes t) = t.
Proof.
  unfold byte_text, text_bytes. rewrite map_map. rewrite <- (map_id t) at 2.
  apply map_ext. apply ascii_of_byte_of_ascii.
Qed.

Lemma dget_dset {A} (d : list (text * A)) k v k' :
  dget (dset d k v) k' = if text_eqb k' k then Some v else dget d k'.
Proof.
  induction d as [|[a b] d IH]; cbn [dset dget].
  - destruct (text_eqb k' k); reflexivity.
  - destruct (text_eqb k a) eqn:E; cbn [dget].
    + apply text_eqb_eq in E. subst a. destruct (text_eqb k' k); reflexivity.
    + rewrite IH. destruct (text_eqb k' a) eqn:E2; [|reflexivity].
      apply text_eqb_eq in E2. subst a.
      destruct (text_eqb k' k) eqn:E3; [|reflexivity].
      apply text_eqb_eq in E3. subst k'. now rewrite text_eqb_refl in E.
Qed.

Lemma names_dset (fs : directory) k v s : In s (names (dset fs k v)) <-> In s (names fs) \/ s = k.
Proof.
  unfold names. induction fs as [|[a b] fs IH]; cbn [dset map fst In].
  - intuition congruence.
  - destruct (text_eqb k a) eqn:E; cbn [map fst In].
    + apply text_eqb_eq in E. subst. intuition congruence.
    + rewrite IH. tauto.
Qed.

Lemma names_dset_NoDup (fs : directory) k v : NoDup (names fs) -> NoDup (names (dset fs k v)).
Proof.
  unfold names. induction fs as [|[a b] fs IH]; intros N; cbn [dset map fst].
  - repeat constructor. intros [].
  - cbn [map fst] in N. inversion N; subst. destruct (text_eqb k a) eqn:E; cbn [map fst].
    + assumption.
    + constructor; [|auto]. intros I. apply (names_dset fs k v a) in I. apply text_eqb_neq in E.
      destruct I as [I|I]; [contradiction | congruence].
Qed.

Lemma filter_eq_single (l : list text) k : NoDup l -> In k l -> filter (text_eqb k) l = [k].
Proof.
  induction 1 as [|a l A N IH]; intros I; [destruct I|]. cbn [filter].
  destruct (text_eqb k a) eqn:E.
  - apply text_eqb_eq in E. subst a. f_equal.
    destruct (filter (text_eqb k) l) as [|b r] eqn:F; [reflexivity|]. exfalso.
    assert (B : In b (filter (text_eqb k) l)) by (rewrite F; now left).
    apply filter_In in B. destruct B as (B & B2). apply text_eqb_eq in B2. subst. contradiction.
  - apply text_eqb_neq in E. apply IH. destruct I as [I|I]; [congruence | assumption].
Qed.

Section Mds.
Context {F : Type} (N : numops F) (C8 C4 : codec F) (float_of : text -> option F).
Hypothesis len8 : forall x, length (enc C8 x) = 8.
Hypothesis len4 : forall x, length (enc C4 x) = 4.

Notation enc_item := (enc_item C8 C4).
Notation dec_item := (dec_item C8 C4).

Lemma enc_item_len p o x : length (enc_item p o x) = itemsize p.
Proof. destruct p, o; cbn; rewrite ?rev_length; auto. Qed.

Lemma flat_enc_len p o l : length (flat_map (enc_item p o) l) = length l * itemsize p.
Proof. induction l as [|x l IH]; [reflexivity|]. cbn [flat_map length]. rewrite app_length, IH, enc_item_len. lia. Qed.

Lemma items_enc p o l : items C8 C4 (length l) p o (flat_map (enc_item p o) l)
  = map (fun x => dec_item p o (enc_item p o x)) l.
Proof.
  induction l as [|x l IH]; [reflexivity|]. cbn [length items flat_map map].
  rewrite firstn_app, skipn_app, enc_item_len, Nat.sub_diag.
  rewrite (firstn_all2 (enc_item p o x)), (skipn_all2 (enc_item p o x)) by (rewrite enc_item_len; lia).
  cbn [firstn skipn app]. rewrite app_nil_r. f_equal. exact IH.
Qed.

Lemma fromfile_enc p o l : fromfile_as C8 C4 p o (flat_map (enc_item p o) l)
  = map (fun x => dec_item p o (enc_item p o x)) l.
Proof.
  unfold fromfile_as. rewrite flat_enc_len, Nat.div_mul by (destruct p; discriminate). apply items_enc.
Qed.

(** * Slices *)

Lemma slice_whole n : slice_of n (0%Z, Z.of_nat n) = (0, n).
Proof.
  unfold slice_of, clip. cbn [fst snd].
  replace (Z.of_nat n <? 0)%Z with false by (symmetry; apply Z.ltb_ge; lia).
  rewrite Nat2Z.id, Nat.min_id, Nat.min_0_r. cbn [Z.ltb Z.compare]. f_equal. lia.
Qed.

Definition whole (L : list nat) : list (Z * Z) := map (fun n => (0%Z, Z.of_nat n)) L.

Lemma slices_whole L :
  map (fun nb => slice_of (fst nb) (snd nb)) (combine L (whole L)) = map (fun n => (0, n)) L.
Proof.
  induction L as [|n L IH]; [reflexivity|]. cbn [whole map combine fst snd].
  rewrite slice_whole. f_equal. exact IH.
Qed.

Lemma in_slices_whole L : forall t, valid_idx L t -> in_slices (map (fun n => (0, n)) L) t = Some t.
Proof.
  unfold valid_idx. induction L as [|n L IH]; intros t V; inversion V; subst; [reflexivity|].
  cbn [map in_slices]. rewrite IH by assumption.
  replace (0 <=? x) with true by reflexivity. cbn [Nat.add].
  replace (x <? n) with true by (symmetry; now apply Nat.ltb_lt).
  cbn [andb option_map]. do 2 f_equal. lia.
Qed.

(** A tile that covers the whole array. *)
Lemma place_whole nrec L (a tile : nd F) :
  shape a = 1 :: nrec :: L -> shape tile = nrec :: L ->
  exists b, place a 0 (whole L) tile = Ok b /\ shape b = 1 :: nrec :: L
    /\ ravel b = ravel tile.
Proof.
  intros A T. unfold place. rewrite A.
  assert (LW : length (whole L) = length L) by apply map_length.
  rewrite LW, Nat.ltb_irrefl, slices_whole, map_map. cbn [snd]. rewrite map_id, skipn_all, app_nil_r, T.
  destruct (list_eq_dec Nat.eq_dec (nrec :: L) (nrec :: L)) as [_|X]; [|now elim X].
  eexists. split; [reflexivity|]. split; [reflexivity|].
  unfold ravel. cbn [shape at_]. rewrite T.
  change (all_idx (1 :: nrec :: L)) with (map (cons 0) (all_idx (nrec :: L)) ++ []).
  rewrite app_nil_r, map_map. apply map_ext_in. intros idx I. apply in_all_idx in I.
  unfold valid_idx in I. inversion I; subst. cbn [Nat.eqb].
  now rewrite in_slices_whole.
Qed.

(** * Dimensions in the meta file *)

Lemma mapM_as_int l : mapM (as_int (F:=F)) (map Vint l) = Ok l.
Proof. induction l as [|z l IH]; [reflexivity|]. cbn [map mapM as_int rbind]. now rewrite IH. Qed.

Definition dim_ints (dims : list nat) : list Z := flat_map (fun d => [Z.of_nat d; 1%Z; Z.of_nat d]) dims.

Lemma dim_values_ints dims : dim_values (F:=F) dims = map Vint (dim_ints dims).
Proof. unfold dim_values, dim_ints. rewrite map_flat_map. reflexivity. Qed.

Lemma rev_dim_ints dims : rev (dim_ints dims) = dim_ints (rev dims).
Proof.
  unfold dim_ints. induction dims as [|d dims IH]; [reflexivity|].
  cbn [flat_map rev]. rewrite flat_map_app, rev_app_distr, IH. reflexivity.
Qed.

Lemma every3_cons3 {A} (a b c : A) l : every3 (a :: b :: c :: l) = a :: every3 l.
Proof. reflexivity. Qed.

Lemma every3_0 L : every3 (dim_ints L) = map Z.of_nat L.
Proof. induction L as [|d L IH]; [reflexivity|]. change (dim_ints (d :: L)) with (Z.of_nat d :: 1%Z :: Z.of_nat d :: dim_ints L).
  rewrite every3_cons3, IH. reflexivity. Qed.
Lemma every3_1 L : every3 (skipn 1 (dim_ints L)) = map (fun _ => 1%Z) L.
Proof.
  induction L as [|d L IH]; [reflexivity|].
  change (skipn 1 (dim_ints (d :: L))) with (1%Z :: Z.of_nat d :: dim_ints L).
  destruct L as [|e L]; [reflexivity|].
  change (dim_ints (e :: L)) with (Z.of_nat e :: skipn 1 (dim_ints (e :: L))).
  rewrite every3_cons3, IH. reflexivity.
Qed.
Lemma every3_2 L : every3 (skipn 2 (dim_ints L)) = map Z.of_nat L.
Proof.
  induction L as [|d L IH]; [reflexivity|].
  change (skipn 2 (dim_ints (d :: L))) with (Z.of_nat d :: dim_ints L).
  destruct L as [|e L]; [reflexivity|].
  change (dim_ints (e :: L)) with (Z.of_nat e :: 1%Z :: skipn 2 (dim_ints (e :: L))).
  rewrite every3_cons3, IH. reflexivity.
Qed.

Lemma mapM_extent L : mapM extent (map Z.of_nat L) = Ok L.
Proof.
  induction L as [|n L IH]; [reflexivity|]. cbn [map mapM]. unfold extent at 1.
  replace (Z.of_nat n <? 0)%Z with false by (symmetry; apply Z.ltb_ge; lia).
  cbn [rbind]. rewrite Nat2Z.id, IH. reflexivity.
Qed.

(** * The round trip *)

Lemma meta_not_tile fname d e : length d = 3 -> length e = 3 ->
  fname ++ lit ".meta" <> fname ++ ["."%char] ++ d ++ ["."%char] ++ e ++ lit ".meta".
Proof.
  intros D E H. apply (f_equal (@length _)) in H. rewrite !app_length, D, E in H. cbn in H. lia.
Qed.

Lemma data_not_tile fname d e : length d = 3 -> length e = 3 ->
  fname ++ lit ".data" <> fname ++ ["."%char] ++ d ++ ["."%char] ++ e ++ lit ".meta".
Proof.
  intros D E H. apply (f_equal (@length _)) in H. rewrite !app_length, D, E in H. cbn in H. lia.
Qed.

Lemma meta_not_data base : base ++ lit ".meta" <> base ++ lit ".data".
Proof. intros H. apply app_inv_head in H. discriminate H. Qed.

Lemma data_name base : firstn (length (base ++ lit ".meta") - 4) (base ++ lit ".meta") ++ lit "data"
  = base ++ lit ".data".
Proof.
  rewrite app_length. replace (length base + length (lit ".meta") - 4) with (length base + 1) by (cbn; lia).
  rewrite firstn_app_2. cbn [lit list_ascii_of_string firstn]. rewrite <- app_assoc. reflexivity.
Qed.

(** The meta data as rdmds keeps it. *)
Definition sim_ok (s : option text) := match s with Some s => quotable s | None => True end.
Definition fields_ok (fs : option (list text)) :=
  match fs with Some fs => Forall field_ok fs /\ fs <> [] | None => True end.

Lemma readmeta_written t n L dataprec nrec itr fields sim :
  parsemeta float_of t = Ok (written_meta n (rev L) dataprec nrec itr fields sim) ->
  exists m, readmeta float_of t = Ok (mk_tilemeta (map Z.of_nat L) (map (fun _ => 0%Z) L) (map Z.of_nat L) m false)
    /\ dget m (lit "dataprec") = Some [Vstr dataprec]
    /\ dget m (lit "nrecords") = Some [Vint (Z.of_nat nrec)].
Proof.
  intros P. unfold readmeta. rewrite P. cbn [rbind].
  assert (G : dget (written_meta (F:=F) n (rev L) dataprec nrec itr fields sim) (lit "dimList") = Some (dim_values (rev L)))
    by (destruct sim, itr, fields; reflexivity).
  rewrite G, dim_values_ints, mapM_as_int. cbn [rbind].
  rewrite rev_dim_ints, rev_involutive, every3_0, every3_1, every3_2.
  eexists. split; [|split].
  - f_equal. f_equal.
    + now rewrite map_map.
    + destruct sim, itr, fields; reflexivity.
  - destruct sim, itr, fields; reflexivity.
  - destruct sim, itr, fields; reflexivity.
Qed.

Lemma whole_combine L : combine (map (fun _ => 0%Z) L) (map Z.of_nat L) = whole L.
Proof. induction L as [|n L IH]; [reflexivity|]. cbn [map combine whole]. f_equal. exact IH. Qed.

Lemma typesuffix_spec s p : typesuffix s = Some p ->
  s = match p with Double => lit "float64" | Single => lit "float32" end.
Proof.
  unfold typesuffix. destruct (text_eqb s (lit "float32")) eqn:E1.
  - intros [= <-]. now apply text_eqb_eq.
  - destruct (text_eqb s (lit "float64")) eqn:E2; [|discriminate]. intros [= <-]. now apply text_eqb_eq.
Qed.

(** The file name wrmds uses and rdmds looks for. *)
Definition base_name (fbase : text) (itr : option Z) : text :=
  match itr with Some i => fbase ++ ["."%char] ++ fmt_0d 10 i | None => fbase end.
Definition iters_of (itr : option Z) : iterations :=
  match itr with Some i => Iters [i] | None => NoIter end.

(** The files are found. *)
Lemma base_name_plain fbase itr : plain_name fbase -> plain_name (base_name fbase itr).
Proof. intros P. destruct itr; [now apply numbered_plain|exact P]. Qed.
Lemma written_files fs fbase itr t data : plain_name fbase -> NoDup (names fs) -> ~ has_tile (names fs) (base_name fbase itr) ->
  let base := base_name fbase itr in
  let fs2 := write_file (write_file fs (base ++ lit ".meta") (text_bytes t)) (base ++ lit ".data") data in
  NoDup (names fs2) /\ metafiles_of fs2 base = Ok [base ++ lit ".meta"] /\
  dget fs2 (base ++ lit ".meta") = Some (text_bytes t) /\ dget fs2 (base ++ lit ".data") = Some data.
Proof.
  intros PL ND NT base fs2. apply (base_name_plain fbase itr) in PL. fold base in PL.
  set (fs1 := write_file fs (base ++ lit ".meta") (text_bytes t)) in *.
  assert (ND2 : NoDup (names fs2)) by (unfold fs2, write_file; apply names_dset_NoDup; unfold fs1, write_file; now apply names_dset_NoDup).
  split; [exact ND2|]. split; [|split].
  - unfold metafiles_of. rewrite no_tile_glob; [|exact PL|].
    + rewrite glob_eq by now apply meta_name_plain. rewrite filter_eq_single; [reflexivity | assumption|].
      unfold fs2, write_file. apply names_dset. left. unfold fs1, write_file. apply names_dset. now right.
    + intros (d & e & Ld & Le & Dd & De & I). unfold fs2, fs1, write_file in I.
      apply names_dset in I. destruct I as [I|I].
      * apply names_dset in I. destruct I as [I|I].
        -- apply NT. exists d, e. auto.
        -- symmetry in I. revert I. now apply meta_not_tile.
      * symmetry in I. revert I. now apply data_not_tile.
  - unfold fs2, fs1, write_file. rewrite !dget_dset, text_eqb_refl.
    replace (text_eqb (base ++ lit ".meta") (base ++ lit ".data")) with false; [reflexivity|].
    symmetry. apply text_eqb_neq, meta_not_data.
  - unfold fs2, write_file. now rewrite dget_dset, text_eqb_refl.
Qed.

(** Reading files whose meta file says what it has to. *)
Lemma read_written fs fbase (a : nd F) itr dataprec mf o p n t m :
  plain_name fbase -> NoDup (names fs) -> ~ has_tile (names fs) (base_name fbase itr) ->
  typeprefix mf = Some o -> typesuffix dataprec = Some p -> 2 <= n <= length (shape a) ->
  1 <= size (lead_dims (shape a) n) ->
  let L := skipn (length (shape a) - n) (shape a) in
  let nrec := size (lead_dims (shape a) n) in
  readmeta float_of t = Ok (mk_tilemeta (map Z.of_nat L) (map (fun _ => 0%Z) L) (map Z.of_nat L) m false) ->
  dget m (lit "dataprec") = Some [Vstr dataprec] -> dget m (lit "nrecords") = Some [Vint (Z.of_nat nrec)] ->
  let base := base_name fbase itr in
  let fs2 := write_file (write_file fs (base ++ lit ".meta") (text_bytes t))
               (base ++ lit ".data") (flat_map (enc_item p o) (ravel a)) in
  metafiles_of fs2 base = Ok [base ++ lit ".meta"] /\
  dget fs2 (base ++ lit ".meta") = Some (text_bytes t) /\
  dget fs2 (base ++ lit ".data") = Some (flat_map (enc_item p o) (ravel a)) /\
  exists b, rdmds N C8 C4 float_of fs2 fbase (iters_of itr) mf = Ok b
       /\ shape b = filter (fun d => 1 <? d) [nrec] ++ L
       /\ ravel b = map (fun x => dec_item p o (enc_item p o x)) (ravel a).
Proof.
  intros PL ND NT TP TS NB NP L nrec RM MP MN base fs2.
  assert (LL : length L = n) by (unfold L; rewrite skipn_length; lia).
  assert (LE : lead_dims (shape a) n = firstn (length (shape a) - n) (shape a)).
  { unfold lead_dims. destruct n; [lia | reflexivity]. }
  assert (SZ : nrec * size L = size (shape a)).
  { unfold nrec, L. rewrite LE, <- size_app, firstn_skipn. reflexivity. }
  change (1 <= nrec) in NP.
  destruct (written_files fs fbase itr t (flat_map (enc_item p o) (ravel a)) PL ND NT) as (ND2 & MF & GM & GD).
  fold base in MF, GM, GD. fold fs2 in ND2, MF, GM, GD.
  set (data := map (fun x => dec_item p o (enc_item p o x)) (ravel a)).
  assert (LD : length data = size (nrec :: L)).
  { unfold data. rewrite map_length. unfold ravel. rewrite map_length, all_idx_length, <- SZ. reflexivity. }
  assert (RT : exists b, read_tile N C8 C4 float_of fs2 o 1 0 None (base ++ lit ".meta") = Ok (Some b)
     /\ shape (rs_arr b) = 1 :: nrec :: L /\ ravel (rs_arr b) = data).
  { unfold read_tile. rewrite GM, byte_text_bytes, RM. cbn [rbind].
    unfold init_arr. cbn [tm_meta tm_i0s tm_ies tm_gdims tm_mapped]. unfold single. rewrite MP. cbn [rbind].
    rewrite TS. cbn [rbind]. rewrite whole_combine.
    replace (map (fun b : Z * Z => (snd b - fst b)%Z) (whole L)) with (map Z.of_nat L).
    2:{ unfold whole. rewrite map_map. apply map_ext. intros x. cbn. lia. }
    rewrite mapM_extent. cbn [rbind].
    assert (LN : match L with [] => true | _ => false end = false) by (destruct L; [cbn in LL; lia | reflexivity]).
    rewrite LN, MN. cbn [rbind as_int].
    unfold extent at 1. replace (Z.of_nat nrec <? 0)%Z with false by (symmetry; apply Z.ltb_ge; lia).
    cbn [rbind]. rewrite Nat2Z.id, map_length, LL.
    replace (n <? 2) with false by (symmetry; apply Nat.ltb_ge; lia).
    cbn [rbind]. rewrite data_name, GD. cbn [rs_prec rs_tileshape rs_arr].
    rewrite fromfile_enc. fold data.
    unfold reshape. rewrite LD, Nat.eqb_refl. cbn [rbind].
    destruct (place_whole nrec L (mk_nd (1 :: nrec :: L) (fun _ => nzero N))
       (mk_nd (nrec :: L) (fun idx => nth (offset (nrec :: L) idx) data (nzero N))) eq_refl eq_refl)
      as (b & PB & SB & RB).
    rewrite PB. cbn [rbind]. eexists. split; [reflexivity|]. cbn [rs_arr]. split; [assumption|].
    rewrite RB. unfold ravel. cbn [shape at_]. now apply ravel_reshape. }
  destruct RT as (st & RT & SA & RA).
  assert (SQ : exists b, squeeze N (rs_arr st) = Ok b
      /\ shape b = filter (fun d => 1 <? d) [nrec] ++ L /\ ravel b = data).
  { unfold squeeze. rewrite SA, RA. unfold reshape.
    change (filter (fun d => 1 <? d) [1; nrec]) with (filter (fun d => 1 <? d) [nrec]).
    assert (SZ2 : length data = size (filter (fun d => 1 <? d) [nrec] ++ L)).
    { rewrite LD. cbn [filter]. destruct (Nat.ltb_spec 1 nrec); [reflexivity|].
      assert (nrec = 1) by lia. rewrite H0. cbn [app]. change (size (1 :: L)) with (1 * size L). lia. }
    rewrite SZ2, Nat.eqb_refl. eexists. split; [reflexivity|]. split; [reflexivity|].
    unfold ravel. cbn [shape at_]. now apply ravel_reshape. }
  destruct SQ as (b & SQ & SB & RB).
  split; [exact MF|]. split; [exact GM|]. split; [exact GD|].
  exists b. split; [|auto].
  assert (IL : exists i, iteration_list fs2 fbase (iters_of itr) = Ok [i]
     /\ (if match iters_of itr with NoIter => false | _ => true end
         then fbase ++ ["."%char] ++ fmt_0d 10 i else fbase) = base).
  { unfold base. destruct itr as [i|]; eexists; (split; [reflexivity|]); reflexivity. }
  destruct IL as (i & IL & BN).
  unfold rdmds. rewrite IL. cbn [rbind]. rewrite TP. cbn [length seq combine foldM].
  unfold read_iter. cbn [fst snd]. rewrite BN, MF. cbn [rbind foldM].
  rewrite RT. cbn [rbind]. exact SQ.
Qed.

Lemma wrmds_rdmds fs fbase (a : nd F) itr dataprec ndims nrecords fields sim mf o p n :
  plain_name fbase -> NoDup (names fs) -> ~ has_tile (names fs) (base_name fbase itr) ->
  typeprefix mf = Some o -> typesuffix dataprec = Some p ->
  ndims_of (shape a) ndims nrecords = Ok n -> 2 <= n <= length (shape a) ->
  match nrecords with Some r => r = size (lead_dims (shape a) n) | None => True end ->
  1 <= size (lead_dims (shape a) n) -> sim_ok sim -> fields_ok fields ->
  exists fs', wrmds C8 C4 fs fbase a itr dataprec ndims nrecords fields sim mf = (fs', Ok tt)
    /\ exists b, rdmds N C8 C4 float_of fs' fbase (iters_of itr) mf = Ok b
       /\ shape b = filter (fun d => 1 <? d) [size (lead_dims (shape a) n)] ++ skipn (length (shape a) - n) (shape a)
       /\ ravel b = map (fun x => dec_item p o (enc_item p o x)) (ravel a).
Proof.
  intros PL ND NT TP TS NDIM NB NR NP S FO.
  set (L := skipn (length (shape a) - n) (shape a)).
  set (nrec := size (lead_dims (shape a) n)) in *.
  assert (LL : length L = n) by (unfold L; rewrite skipn_length; lia).
  assert (LE : lead_dims (shape a) n = firstn (length (shape a) - n) (shape a)).
  { unfold lead_dims. destruct n; [lia | reflexivity]. }
  assert (SZ : nrec * size L = size (shape a)).
  { unfold nrec, L. rewrite LE, <- size_app, firstn_skipn. reflexivity. }
  unfold wrmds. rewrite TP, TS, NDIM. fold L nrec.
  replace (match nrecords with Some r => negb (r =? nrec) | None => false end) with false
    by (destruct nrecords as [r|]; [rewrite NR, Nat.eqb_refl; reflexivity | reflexivity]).
  change (match itr with Some i => fbase ++ ["."%char] ++ fmt_0d 10 i | None => fbase end)
    with (base_name fbase itr).
  assert (RL : rev L <> []).
  { intros E. apply (f_equal (@length _)) in E. rewrite rev_length, LL in E. cbn in E. lia. }
  assert (DP : dataprec = lit "float64" \/ dataprec = lit "float32").
  { apply typesuffix_spec in TS. destruct p; auto. }
  destruct (meta_text_parses float_of n (rev L) dataprec nrec itr fields sim RL DP S FO) as (t & -> & PT).
  destruct (readmeta_written t n L dataprec nrec itr fields sim PT) as (m & RM & MP & MN).
  eexists. split; [reflexivity|].
  destruct (read_written fs fbase a itr dataprec mf o p n t m PL ND NT TP TS NB NP RM MP MN) as (_ & _ & _ & H). exact H.
Qed.

(** Equal elements in C order and equal shapes: equal arrays. *)
Lemma ravel_nd_eq (a b : nd F) : shape a = shape b -> ravel a = ravel b -> nd_eq a b.
Proof.
  intros S R. split; [assumption|]. intros idx V.
  rewrite <- (nth_offset (at_ a) (shape a) idx (nzero N) V).
  rewrite S in V. rewrite <- (nth_offset (at_ b) (shape b) idx (nzero N) V).
  unfold ravel in R. rewrite R. now rewrite S.
Qed.

End Mds.
