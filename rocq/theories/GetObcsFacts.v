(** Facts about the model of getobcs.py. *)
From Coq Require Import Ascii String List Bool PeanoNat ZArith Lia Init.Byte.
Import ListNotations.
From Verif Require Import Prelude PreludeFacts Num Mat Fields GridIO Regrid MdsMeta Mds SpecMds MdsTextFacts
  MdsParseFacts SpecGlob GlobFacts MdsScanFacts MdsFacts GetObcs SpecObcs.
Set Implicit Arguments.
Local Open Scope nat_scope.
Local Open Scope list_scope.
Local Arguments Nat.mul : simpl never.

(** ** boundaries *)

Lemma void_resolve ni nj s a : void_arg a ->
  ob_resolve ni nj s a = Ok (mk_boundary true (ob_zero_based ni nj s (ob_default ni nj s))).
Proof. intros [-> | [-> | [-> | ->]]]; reflexivity. Qed.

Lemma resolve_used ni nj s a b : ob_resolve ni nj s a = Ok b -> bd_do b = true.
Proof.
  unfold ob_resolve, ob_select. destruct a as [|z|[|z [|y l]]]; cbn [ob_truth ob_any rbind existsb].
  - intros [= <-]. reflexivity.
  - destruct (z =? 0)%Z; cbn [negb rbind]; [|discriminate]. intros [= <-]. reflexivity.
  - intros [= <-]. reflexivity.
  - destruct (z =? 0)%Z; cbn [negb orb rbind]; intros [= <-]; reflexivity.
  - discriminate.
Qed.

Lemma map_repeat {A B} (f : A -> B) x n : map f (repeat x n) = repeat (f x) n.
Proof. induction n; cbn; [|f_equal]; auto. Qed.

Definition edge_index (ni nj : nat) (s : side) : nat :=
  match s with North => nj - 1 | East => ni - 1 | _ => 0 end.

Lemma default_idx ni nj s : 1 <= ni -> 1 <= nj ->
  ob_zero_based ni nj s (ob_default ni nj s)
  = repeat (Z.of_nat (edge_index ni nj s)) (cells_along ni nj s).
Proof.
  intros Hi Hj. destruct s; cbn [ob_zero_based ob_default edge_index cells_along]; rewrite map_repeat; f_equal.
  - destruct (Z.ltb_spec (Z.of_nat nj) 0); lia.
  - destruct (Z.ltb_spec (Z.of_nat ni) 0); lia.
Qed.

Lemma axis_index_nat n i : axis_index n (Z.of_nat i) = if i <? n then Some i else None.
Proof.
  unfold axis_index. destruct (Z.leb_spec 0 (Z.of_nat i)); [|lia].
  destruct (Z.ltb_spec (Z.of_nat i) (Z.of_nat n)), (Nat.ltb_spec i n); try lia; auto. f_equal. lia.
Qed.

Lemma combine_seq_repeat (z : Z) n k : combine (map Z.of_nat (seq k n)) (repeat z n)
  = map (fun x => (Z.of_nat x, z)) (seq k n).
Proof. revert k; induction n; intros k; cbn; [|f_equal]; auto. Qed.
Lemma combine_repeat_seq (z : Z) n k : combine (repeat z n) (map Z.of_nat (seq k n))
  = map (fun x => (z, Z.of_nat x)) (seq k n).
Proof. revert k; induction n; intros k; cbn; [|f_equal]; auto. Qed.

Definition zpair (p : nat * nat) : Z * Z := (Z.of_nat (fst p), Z.of_nat (snd p)).

Lemma default_partition ni nj s k :
  partition s k (repeat (Z.of_nat (edge_index ni nj s)) (cells_along ni nj s))
  = map (fun x => zpair (sample_point ni nj s k x)) (seq 0 (cells_along ni nj s)).
Proof.
  unfold partition, arange. rewrite repeat_length, map_repeat.
  destruct s, k; cbn [edge_index cells_along sample_point is_normal inner_face edge_cell zpair fst snd];
    rewrite ?combine_seq_repeat, ?combine_repeat_seq; reflexivity.
Qed.

Lemma fancy_pairs {F} (m : mat F) (f : nat -> nat * nat) l :
  (forall x, In x l -> fst (f x) < mrows m /\ snd (f x) < mcols m) ->
  fancy m (map (fun x => zpair (f x)) l) = Ok (map (fun x => mat_at m (fst (f x)) (snd (f x))) l).
Proof.
  unfold fancy. induction l as [|x l IH]; intros H; [reflexivity|].
  cbn [map mapM fst snd zpair]. rewrite !axis_index_nat.
  destruct (H x (or_introl eq_refl)) as (A & B).
  apply Nat.ltb_lt in A, B. rewrite A, B. cbn [rbind].
  rewrite IH by (intros; apply H; now right). reflexivity.
Qed.

Lemma fancy_pairs_inv {F} (m : mat F) (f : nat -> nat * nat) l r :
  fancy m (map (fun x => zpair (f x)) l) = Ok r ->
  r = map (fun x => mat_at m (fst (f x)) (snd (f x))) l.
Proof.
  unfold fancy. revert r. induction l as [|x l IH]; intros r; cbn [map mapM fst snd zpair].
  - intros [= <-]. reflexivity.
  - rewrite !axis_index_nat. destruct (fst (f x) <? mrows m), (snd (f x) <? mcols m); cbn [rbind]; try discriminate.
    intros H. mok H. injection H as <-. f_equal. auto.
Qed.

Lemma fancy_length {F} (m : mat F) l r : fancy m l = Ok r -> length r = length l.
Proof.
  unfold fancy. revert r. induction l as [|x l IH]; intros r; cbn [mapM].
  - intros [= <-]. reflexivity.
  - intros H. mok H. mok H. injection H as <-. cbn [length]. f_equal. auto.
Qed.

Lemma fit_length {F} n (l r : list F) : fit n l = Ok r -> length r = n.
Proof.
  unfold fit. destruct (Nat.eqb_spec (length l) n); [now intros [= <-]|].
  destruct l as [|x [|]]; try discriminate. intros [= <-]. apply repeat_length.
Qed.

Lemma fit_same {F} n (l : list F) : length l = n -> fit n l = Ok l.
Proof. intros <-. unfold fit. now rewrite Nat.eqb_refl. Qed.

Lemma fit_one {F} n (x : F) r : fit n [x] = Ok r -> r = repeat x n.
Proof.
  unfold fit. cbn [length]. destruct (Nat.eqb_spec 1 n) as [<-|]; intros [= <-]; reflexivity.
Qed.

Lemma side_len_eq ni nj s : side_len ni nj s = cells_along ni nj s.
Proof. destruct s; reflexivity. Qed.

(** ** bytes *)

Lemma flat_map_len {A B} (f : A -> list B) w l : (forall x, length (f x) = w) ->
  length (flat_map f l) = length l * w.
Proof. intros H. induction l; cbn [flat_map length]; [reflexivity|]. rewrite app_length, H, IHl. lia. Qed.

Lemma flat_map_item {A B} (f : A -> list B) w l k d : (forall x, length (f x) = w) -> k < length l ->
  firstn w (skipn (k * w) (flat_map f l)) = f (nth k l d).
Proof.
  intros H. revert k. induction l as [|x l IH]; intros k Hk; cbn [length] in Hk; [lia|].
  cbn [flat_map]. destruct k as [|k].
  - rewrite Nat.mul_0_l. cbn [skipn nth]. rewrite firstn_app, H, Nat.sub_diag. cbn [firstn].
    rewrite app_nil_r. apply firstn_all2. rewrite H. auto.
  - rewrite skipn_app, H. replace (S k * w - w) with (k * w) by lia.
    rewrite skipn_all2 by (rewrite H; lia). cbn [app nth]. apply IH. lia.
Qed.

Lemma skip_firstn_item {A} w m k j (l : list A) : k < m ->
  firstn w (skipn (k * w) (firstn (m * w) (skipn j l))) = firstn w (skipn (j + k * w) l).
Proof.
  intros H. rewrite <- skipn_skipn' with (m := j). rewrite skipn_firstn_comm. rewrite firstn_firstn.
  f_equal. assert (w <= m * w - k * w) by (rewrite <- Nat.mul_sub_distr_r; nia). lia.
Qed.

Section Bytes.
Context {F : Type} (enc1 : F -> list byte) (w : nat) (Hw : forall x, length (enc1 x) = w).

Lemma tofile3_len n nd nt a : length (tofile3 enc1 n nd nt a) = n * nd * nt * w.
Proof.
  unfold tofile3. rewrite flat_map_len with (w := nd * (nt * w)).
  - rewrite seq_length. lia.
  - intros x. rewrite flat_map_len with (w := nt * w).
    + now rewrite seq_length.
    + intros d. rewrite flat_map_len with (w := w); [now rewrite seq_length|auto].
Qed.

Lemma tofile3_item n nd nt a x d t : x < n -> d < nd -> t < nt ->
  item w (tofile3 enc1 n nd nt a) ((x * nd + d) * nt + t) = enc1 (a x d t).
Proof.
  intros Hx Hd Ht. unfold item, tofile3.
  set (f1 := fun x d => flat_map (fun t => enc1 (a x d t)) (seq 0 nt)).
  set (f2 := fun x => flat_map (f1 x) (seq 0 nd)).
  assert (L1 : forall x d, length (f1 x d) = nt * w).
  { intros. unfold f1. rewrite flat_map_len with (w := w); [now rewrite seq_length|auto]. }
  assert (L2 : forall x, length (f2 x) = nd * (nt * w)).
  { intros. unfold f2. rewrite flat_map_len with (w := nt * w); [now rewrite seq_length|auto]. }
  change (firstn w (skipn (((x * nd + d) * nt + t) * w) (flat_map f2 (seq 0 n))) = enc1 (a x d t)).
  replace (((x * nd + d) * nt + t) * w) with (x * (nd * (nt * w)) + (d * (nt * w) + t * w)) by lia.
  assert (E2 : firstn (nd * (nt * w)) (skipn (x * (nd * (nt * w))) (flat_map f2 (seq 0 n))) = f2 x).
  { rewrite flat_map_item with (d := 0); auto; [|now rewrite seq_length]. now rewrite seq_nth. }
  assert (E1 : firstn (nt * w) (skipn (d * (nt * w)) (f2 x)) = f1 x d).
  { unfold f2. rewrite flat_map_item with (d := 0); auto; [|now rewrite seq_length]. now rewrite seq_nth. }
  assert (E0 : firstn w (skipn (t * w) (f1 x d)) = enc1 (a x d t)).
  { unfold f1. rewrite flat_map_item with (d := 0) (f := fun t => enc1 (a x d t)); auto; [|now rewrite seq_length].
    now rewrite seq_nth. }
  rewrite <- E0, <- E1, <- E2.
  rewrite (@skip_firstn_item _ (nt * w) nd d) by auto.
  rewrite (@skip_firstn_item _ w nt t) by auto.
  f_equal. f_equal. lia.
Qed.

Lemma fortran_tofile n nd nt a : fortran_bytes enc1 n nd nt a = tofile3 enc1 nt nd n (fun t d x => a x d t).
Proof. reflexivity. Qed.

Lemma orders_agree n nd nt : 1 <= n -> 1 <= nd -> 1 <= nt -> at_most_one_long n nd nt ->
  forall a, tofile3 enc1 n nd nt a = fortran_bytes enc1 n nd nt a.
Proof.
  intros Hn Hd Ht H a. unfold tofile3, fortran_bytes.
  destruct H as [(A & B) | [(A & B) | (A & B)]].
  - replace n with 1 by lia. replace nd with 1 by lia. cbn [seq flat_map]. rewrite !app_nil_r.
    apply flat_map_ext. intros t. now rewrite !app_nil_r.
  - replace n with 1 by lia. replace nt with 1 by lia. cbn [seq flat_map]. rewrite !app_nil_r. reflexivity.
  - replace nd with 1 by lia. replace nt with 1 by lia. cbn [seq flat_map]. rewrite !app_nil_r.
    apply flat_map_ext. intros x. now rewrite !app_nil_r.
Qed.

Lemma orders_differ n nd nt u v : enc1 u <> enc1 v -> 1 <= n -> 1 <= nd -> 1 <= nt ->
  (forall a, tofile3 enc1 n nd nt a = fortran_bytes enc1 n nd nt a) -> at_most_one_long n nd nt.
Proof.
  intros Huv Hn Hd Ht H.
  assert (K : forall x d t x' d' t',
    x < n -> d < nd -> t < nt -> x' < n -> d' < nd -> t' < nt ->
    (x * nd + d) * nt + t = (t' * nd + d') * n + x' -> (x, d, t) = (x', d', t')).
  { intros x d t x' d' t' A B C A' B' C' E.
    pose (a := fun p q r => if (p =? x) && (q =? d) && (r =? t) then u else v).
    assert (E1 : enc1 (a x d t) = enc1 (a x' d' t')).
    { rewrite <- (tofile3_item a A B C). rewrite H, fortran_tofile, E.
      exact (tofile3_item (fun t d x => a x d t) C' B' A'). }
    unfold a in E1. rewrite !Nat.eqb_refl in E1. cbn [andb] in E1.
    destruct (Nat.eqb_spec x' x), (Nat.eqb_spec d' d), (Nat.eqb_spec t' t); cbn [andb] in E1;
      try contradiction; now subst. }
  unfold at_most_one_long.
  destruct (le_lt_dec nt 1) as [T|T], (le_lt_dec nd 1) as [D|D], (le_lt_dec n 1) as [M|M]; try lia; exfalso.
  - (* nd, n long *) assert (nt = 1) by lia. specialize (K 0 1 0 1 0 0). subst nt.
    assert (X : (0, 1, 0) = (1, 0, 0)) by (apply K; lia). discriminate.
  - (* nt, n long *) assert (nd = 1) by lia. subst nd.
    assert (X : (0, 0, 1) = (1, 0, 0)) by (apply K; lia). discriminate.
  - (* nt, nd long *) assert (n = 1) by lia. subst n.
    assert (X : (0, 0, 1) = (0, 1, 0)) by (apply K; lia). discriminate.
  - assert (X : (0, 0, 1) = (1, 0, 0)) by (apply K; lia). discriminate.
Qed.
End Bytes.

(** ** names *)

Lemma dget_dset_other {A} (d : list (text * A)) k v k' : k' <> k -> dget (dset d k v) k' = dget d k'.
Proof.
  intros H. rewrite dget_dset. destruct (text_eqb k' k) eqn:E; auto. apply text_eqb_eq in E. contradiction.
Qed.

Lemma filter_names_dset {A} (p : text -> bool) (fs : list (text * A)) k v : p k = false ->
  filter p (map fst (dset fs k v)) = filter p (map fst fs).
Proof.
  intros H. induction fs as [|(k', v') fs IH]; cbn [dset map filter fst].
  - now rewrite H.
  - destruct (text_eqb k k'); cbn [map filter fst]; [reflexivity|]. now rewrite IH.
Qed.

Lemma existsb_filter {A} (p : A -> bool) l : existsb p l = match filter p l with [] => false | _ => true end.
Proof. induction l as [|x l IH]; cbn; [reflexivity|]. destruct (p x); cbn; auto. Qed.

Lemma existsb_names_dset {A} (p : text -> bool) (fs : list (text * A)) k v : p k = false ->
  existsb p (map fst (dset fs k v)) = existsb p (map fst fs).
Proof. intros H. now rewrite !existsb_filter, filter_names_dset. Qed.

Lemma rev_tail4 (q w p e : text) : q ++ w = p ++ e -> 4 <= length w -> length e = 4 ->
  firstn 4 (rev w) = rev e.
Proof.
  intros H Hw He. apply (f_equal (@rev ascii)) in H. rewrite !rev_app_distr in H.
  apply (f_equal (firstn 4)) in H. rewrite !firstn_app, !rev_length in H.
  replace (4 - length w) with 0 in H by lia. replace (4 - length e) with 0 in H by lia.
  rewrite !firstn_O, !app_nil_r in H. rewrite H. apply firstn_all2. rewrite rev_length. lia.
Qed.

Definition leaf (s : side) (resp : string) : text := lit "OB" ++ side_name s ++ lower (lit resp).

Lemma path_join_app a : exists q, forall b, path_join a b = q ++ b.
Proof.
  unfold path_join. destruct (rev a) as [|c r].
  - exists []. reflexivity.
  - destruct (Ascii.eqb c "/").
    + exists a. reflexivity.
    + exists (a ++ ["/"%char]). intros b. now rewrite <- app_assoc.
Qed.

Lemma in_responses resp k (P : string -> kind -> Prop) : In (resp, k) responses ->
  P "T"%string Tracer -> P "S"%string Tracer -> P "Eta"%string Tracer -> P "W"%string Tracer ->
  P "U"%string Upoint -> P "UICE"%string Upoint -> P "V"%string Vpoint -> P "VICE"%string Vpoint -> P resp k.
Proof.
  intros H. cbn in H.
  repeat (destruct H as [H|H]; [injection H as <- <-; auto|]). contradiction.
Qed.

Lemma leaf_ends resp k s (e : string) : In (resp, k) responses -> e = "meta"%string \/ e = "data"%string ->
  forall q p, q ++ leaf s resp <> p ++ lit e.
Proof.
  intros Hr He q p H.
  apply rev_tail4 in H.
  - revert H. pattern resp, k. apply (in_responses _ Hr); destruct s, He as [-> | ->]; vm_compute; discriminate.
  - pattern resp, k. apply (in_responses _ Hr); destruct s; vm_compute; lia.
  - destruct He as [-> | ->]; reflexivity.
Qed.

(** A name that cannot be taken for a meta or data file. *)
Definition neutral (n : text) : Prop :=
  forall p (e : string), e = "meta"%string \/ e = "data"%string -> n <> p ++ lit e.

Lemma ob_file_neutral out s resp k : In (resp, k) responses -> neutral (ob_file out s resp).
Proof.
  intros Hr p e He. unfold ob_file. destruct (path_join_app out) as (q & Hq). rewrite Hq.
  now apply leaf_ends with (k := k).
Qed.

Lemma ob_file_inj out s resp k s' resp' k' : In (resp, k) responses -> In (resp', k') responses ->
  ob_file out s resp = ob_file out s' resp' -> s = s' /\ resp = resp'.
Proof.
  intros H H'. unfold ob_file. destruct (path_join_app out) as (q & Hq). rewrite !Hq. intros E.
  apply app_inv_head in E. revert E. pattern resp, k. apply (in_responses _ H);
  pattern resp', k'; apply (in_responses _ H'); destruct s, s'; vm_compute; intros E; try discriminate; auto.
Qed.

Lemma meta_is_app (fname t : text) : fname ++ t ++ lit ".meta" = (fname ++ t ++ lit ".") ++ lit "meta".
Proof. rewrite <- !app_assoc. reflexivity. Qed.

Lemma neutral_tail n p (e : string) : e = "meta"%string \/ e = "data"%string -> neutral n ->
  glob_match (p ++ lit e) n = false.
Proof.
  intros He Hn. apply not_true_iff_false. intros E. apply glob_tail in E.
  - destruct E as (q & E). now apply (Hn q e He).
  - destruct He as [-> | ->]; now apply magic_false.
  - destruct He as [-> | ->]; cbn; intuition discriminate.
  - destruct He as [-> | ->]; cbn; intuition discriminate.
Qed.

Lemma neutral_tile n fname : neutral n -> glob_match (tile_pat fname) n = false.
Proof.
  intros Hn. unfold tile_pat. change (lit ".meta") with (lit "." ++ lit "meta"). rewrite !app_assoc.
  apply neutral_tail; auto.
Qed.

Lemma neutral_meta n fname : neutral n -> glob_match (fname ++ lit ".meta") n = false.
Proof.
  intros Hn. change (lit ".meta") with (lit "." ++ lit "meta"). rewrite app_assoc. apply neutral_tail; auto.
Qed.

Lemma result_file_iff l stem : existsb (glob_match (data_pat stem)) l = true <-> result_file l stem.
Proof.
  rewrite existsb_exists. unfold data_pat, result_file. split; intros (s & I & E); exists s; split; auto; now apply glob_match_iff.
Qed.

Lemma neutral_data n stem : neutral n -> glob_match (data_pat stem) n = false.
Proof.
  intros Hn. unfold data_pat. change (lit ".*.data") with (lit ".*." ++ lit "data"). rewrite app_assoc. apply neutral_tail; auto.
Qed.

Lemma responses_NoDup : NoDup (map fst responses).
Proof. vm_compute. repeat constructor; cbn; intuition discriminate. Qed.

Section Facts.
Context {F : Type} (N : numops F) (C8 C4 : codec F) (float_of : text -> option F).
Variable W : Type.
Variable xe_value : W -> mat F -> nat -> nat -> F.

Notation rdmds := (rdmds N C8 C4 float_of).
Notation read_response := (read_response N C8 C4 float_of).
Notation interpolate := (interpolate N xe_value).
Notation assemble := (assemble N C8 C4 float_of xe_value).
Notation put_side := (put_side N).
Notation depth_step := (depth_step N xe_value).
Notation time_step := (time_step N C8 C4 float_of xe_value).
Notation response_step := (response_step N C8 C4 float_of xe_value).
Notation response_loop := (response_loop N C8 C4 float_of xe_value).

(** ** writing an OB file does not change what is read *)

Lemma rdmds_write fs n bs fname l mf : neutral n ->
  rdmds (write_file fs n bs) fname (Iters l) mf = rdmds fs fname (Iters l) mf.
Proof.
  intros Hn. unfold Mds.rdmds. cbn [iteration_list rbind].
  destruct (typeprefix mf) as [o|]; [|reflexivity].
  erewrite foldM_ext; [reflexivity|]. intros st ii _. unfold read_iter.
  set (fn := fname ++ ["."%char] ++ fmt_0d 10 (snd ii)).
  assert (M : metafiles_of (write_file fs n bs) fn = metafiles_of fs fn).
  { unfold metafiles_of, glob, names, write_file. rewrite !filter_names_dset; auto using neutral_tile, neutral_meta. }
  rewrite M. destruct (metafiles_of fs fn) as [mfs|] eqn:E; [|reflexivity]. cbn [rbind].
  apply foldM_ext. intros s x Hx. unfold read_tile, write_file.
  assert (Hd : forall q, q ++ lit "data" <> n) by (intros q Eq; symmetry in Eq; revert Eq; apply Hn; auto).
  rewrite !dget_dset_other; auto.
  intros ->. unfold metafiles_of, glob in E.
  destruct (filter (glob_match (tile_pat fn)) (names fs)) as [|y ys] eqn:E1.
  - destruct (filter (glob_match (fn ++ lit ".meta")) (names fs)) as [|y ys] eqn:E2; [discriminate|].
    injection E as <-. rewrite <- E2 in Hx. apply filter_In in Hx. destruct Hx as (_ & Hx).
    rewrite neutral_meta in Hx by auto. discriminate.
  - injection E as <-. rewrite <- E1 in Hx. apply filter_In in Hx. destruct Hx as (_ & Hx).
    rewrite neutral_tile in Hx by auto. discriminate.
Qed.

Definition same_reads (fs fs' : directory) : Prop :=
  (forall fname l mf, rdmds fs' fname (Iters l) mf = rdmds fs fname (Iters l) mf) /\
  (forall stem, existsb (glob_match (data_pat stem)) (names fs') = existsb (glob_match (data_pat stem)) (names fs)).

Lemma same_reads_refl fs : same_reads fs fs. Proof. split; reflexivity. Qed.
Lemma same_reads_trans a b c : same_reads a b -> same_reads b c -> same_reads a c.
Proof. intros (A1 & A2) (B1 & B2). split; intros; [now rewrite B1, A1|now rewrite B2, A2]. Qed.
Lemma same_reads_write fs n bs : neutral n -> same_reads fs (write_file fs n bs).
Proof.
  intros Hn. split; [intros; now apply rdmds_write|]. intros stem. unfold names, write_file.
  apply existsb_names_dset. now apply neutral_data.
Qed.

(** ** the boundary arrays *)

Definition side_values (ni nj : nat) (bd : side -> boundary) (k : kind) (R : mat F) (s : side) : res (list F) :=
  l <- fancy R (partition s k (bd_idx (bd s))) ;; fit (side_len ni nj s) l.

Definition side_eqb (s s' : side) : bool :=
  match s, s' with North, North | South, South | East, East | West, West => true | _, _ => false end.
Lemma side_eqb_eq s s' : side_eqb s s' = true <-> s = s'.
Proof. destruct s, s'; cbn; split; congruence || auto. Qed.

Lemma put_all ni nj bd k R d t ar ar' : (forall s, bd_do (bd s) = true) ->
  foldM (put_side ni nj bd k R d t) sides ar = Ok ar' ->
  forall s, exists l, side_values ni nj bd k R s = Ok l /\
    forall x d' t', ar' s x d' t' = if (d' =? d) && (t' =? t) then nth x l (nzero N) else ar s x d' t'.
Proof.
  intros Hdo H.
  pose (P := fun (done : list side) (a : arrays) => forall s,
    (In s done -> exists l, side_values ni nj bd k R s = Ok l /\
      forall x d' t', a s x d' t' = if (d' =? d) && (t' =? t) then nth x l (nzero N) else ar s x d' t') /\
    (~ In s done -> forall x d' t', a s x d' t' = ar s x d' t')).
  assert (K : P sides ar').
  { eapply foldM_inv_ok with (P := P); [exact H| |].
    - intros s. split; [intros []|auto].
    - intros done x rest a a' El IH E s. unfold GetObcs.put_side in E. rewrite Hdo in E.
      mok E. mok E. injection E as <-.
      assert (Hv : side_values ni nj bd k R x = Ok a1) by (unfold side_values; rewrite Ha; exact Ha0).
      change (match x, s with North, North | South, South | East, East | West, West => true | _, _ => false end)
        with (side_eqb x s).
      assert (ND : ~ In x done).
      { assert (NoDup sides) by (unfold sides; repeat constructor; cbn; intuition discriminate).
        rewrite El in H0. apply NoDup_remove_2 in H0. rewrite in_app_iff in H0. tauto. }
      destruct (side_eqb x s) eqn:Es.
      + apply side_eqb_eq in Es. subst s. split.
        * intros _. exists a1. split; auto. intros x0 d' t'. cbn [andb].
          destruct ((d' =? d) && (t' =? t)); auto. now apply IH.
        * intros Hn. exfalso. apply Hn. apply in_or_app. right. now left.
      + assert (x <> s) by (intros Eq; apply side_eqb_eq in Eq; congruence).
        split.
        * rewrite in_app_iff. cbn [In]. intros [I|[I|[]]]; [|contradiction]. cbn [andb]. now apply IH.
        * rewrite in_app_iff. cbn [In andb]. intros Hn. apply IH. tauto. }
  intros s. apply K. destruct s; cbn; auto.
Qed.

Definition entry_is (ni nj : nat) (bd : side -> boundary) (rg : kind -> regridder W) (k : kind)
    (A : nd F) (d : nat) (s : side) (v : nat -> F) : Prop :=
  exists R l, interpolate rg k A d = Ok R /\ side_values ni nj bd k R s = Ok l /\
    forall x, v x = nth x l (nzero N).

Lemma depth_all ni nj bd rg k A t nd ar ar' : (forall s, bd_do (bd s) = true) ->
  foldM (depth_step ni nj bd rg k A t) (seq 0 nd) ar = Ok ar' ->
  (forall s d, d < nd -> entry_is ni nj bd rg k A d s (fun x => ar' s x d t)) /\
  (forall s x d t', t' <> t -> ar' s x d t' = ar s x d t').
Proof.
  intros Hdo H.
  pose (P := fun (done : list nat) (a : arrays) =>
    (forall s d, In d done -> entry_is ni nj bd rg k A d s (fun x => a s x d t)) /\
    (forall s x d t', t' <> t -> a s x d t' = ar s x d t')).
  assert (K : P (seq 0 nd) ar').
  { eapply foldM_inv_ok with (P := P); [exact H| |].
    - split; [intros s d []|auto].
    - intros done d0 rest a a' El (I1 & I2) E. unfold GetObcs.depth_step in E. mok E. rename a0 into R.
      assert (Q := put_all _ _ _ _ _ _ _ _ Hdo E).
      assert (ND : ~ In d0 done).
      { pose proof (seq_NoDup nd 0) as X. rewrite El in X. apply NoDup_remove_2 in X. rewrite in_app_iff in X. tauto. }
      split.
      + intros s d Hd. destruct (Q s) as (l & Hl & V). apply in_app_or in Hd.
        destruct Hd as [Hd|[<-|[]]].
        * destruct (I1 s d Hd) as (R' & l' & B1 & B2 & B3). exists R', l'. split; [auto|]. split; [auto|]. intros x.
          rewrite V. destruct (Nat.eqb_spec d d0); [subst; contradiction|]. cbn [andb]. apply B3.
        * exists R, l. split; [auto|]. split; [auto|]. intros x. rewrite V, !Nat.eqb_refl. reflexivity.
      + intros s x d t' Ht. destruct (Q s) as (l & Hl & V). rewrite V.
        destruct (Nat.eqb_spec t' t); [contradiction|]. rewrite andb_false_r. auto. }
  destruct K as (K1 & K2). split; auto. intros s d Hd. apply K1. apply in_seq. lia.
Qed.

Lemma in_combine_seq {A} (l : list A) t d : forall k, t < length l -> In (k + t, nth t l d) (combine (seq k (length l)) l).
Proof.
  revert t. induction l as [|x l IH]; intros t k Ht; cbn [length] in *; [lia|]. cbn [seq combine].
  destruct t as [|t]; [left; f_equal; lia|]. right. replace (k + S t) with (S k + t) by lia. cbn [nth]. apply IH. lia.
Qed.

Lemma combine_seq_NoDup {A} (l : list A) : forall k, NoDup (map fst (combine (seq k (length l)) l)).
Proof.
  induction l as [|x l IH]; intros k; cbn [length seq combine map fst]; constructor.
  - intros I. apply in_map_iff in I. destruct I as ((a, b) & <- & I). apply in_combine_l in I.
    apply in_seq in I. cbn [fst] in I. lia.
  - apply IH.
Qed.

Lemma assemble_inv fs dir resp ni nj bd rg k times nd ar : (forall s, bd_do (bd s) = true) ->
  assemble fs dir resp ni nj bd rg k times = Ok (nd, ar) ->
  (exists t0 r, times = t0 :: r /\ depths_of (read_response fs dir resp t0) = Ok nd) /\
  forall t d s, t < length times -> d < nd ->
  exists A, read_response fs dir resp (nth t times 0%Z) = Ok A /\
    entry_is ni nj bd rg k A d s (fun x => ar s x d t).
Proof.
  intros Hdo H. unfold GetObcs.assemble in H. destruct times as [|t0 r] eqn:Et; [discriminate|]. rewrite <- Et in *.
  mok H. rename a into nd'. mok H. rename a into ar'. injection H as -> ->.
  split; [exists t0, r; auto|].
  pose (P := fun (done : list (nat * Z)) (a : arrays) => forall t z d s, In (t, z) done -> d < nd ->
    exists A, read_response fs dir resp z = Ok A /\ entry_is ni nj bd rg k A d s (fun x => a s x d t)).
  assert (K : P (combine (seq 0 (length times)) times) ar).
  { eapply foldM_inv_ok with (P := P); [exact Ha0| |].
    - intros t z d s [].
    - intros done (t1, z1) rest a a' El IH E. unfold GetObcs.time_step in E. cbn [fst snd] in E. mok E. rename a0 into A.
      edestruct depth_all as (Q1 & Q2); [exact Hdo|exact E|]. 
      intros t z d s I Hd. apply in_app_or in I. destruct I as [I|[I|[]]].
      + destruct (IH t z d s I Hd) as (A' & B1 & R & l & B2 & B3 & B4). exists A'. split; auto. exists R, l.
        split; [auto|]. split; [auto|]. intros x. rewrite Q2; auto. intros ->.
        pose proof (combine_seq_NoDup times 0) as X. rewrite El, map_app in X. cbn [map fst] in X.
        apply NoDup_remove_2 in X. apply X. apply in_or_app. left. change t1 with (fst (t1, z)). now apply in_map.
      + injection I as <- <-. exists A. auto. }
  intros t d s Ht Hd. apply K; auto. apply (@in_combine_seq _ times t 0%Z 0 Ht).
Qed.

(** ** the files *)

Lemma write_sides_same fs out resp k ni nj bd nt nd (ar : arrays) : In (resp, k) responses ->
  same_reads fs (write_sides C8 fs out resp ni nj bd nt nd ar).
Proof.
  intros Hr. unfold write_sides.
  assert (K : forall l fs0, same_reads fs0 (fold_left (fun fs s => if bd_do (bd s)
    then write_file fs (ob_file out s resp) (tofile3 (enc C8) (side_len ni nj s) nd nt (ar s)) else fs) l fs0)).
  { induction l as [|s l IH]; intros fs0; cbn [fold_left]; [apply same_reads_refl|].
    eapply same_reads_trans; [|apply IH].
    destruct (bd_do (bd s)); [|apply same_reads_refl]. apply same_reads_write. eapply ob_file_neutral; eauto. }
  apply K.
Qed.

Lemma write_sides_other fs out resp ni nj bd nt nd (ar : arrays) n :
  (forall s, n <> ob_file out s resp) ->
  dget (write_sides C8 fs out resp ni nj bd nt nd ar) n = dget fs n.
Proof.
  intros Hn. unfold write_sides.
  assert (K : forall l fs0, dget (fold_left (fun fs s => if bd_do (bd s)
    then write_file fs (ob_file out s resp) (tofile3 (enc C8) (side_len ni nj s) nd nt (ar s)) else fs) l fs0) n = dget fs0 n).
  { induction l as [|s l IH]; intros fs0; cbn [fold_left]; [reflexivity|].
    rewrite IH. destruct (bd_do (bd s)); [|reflexivity]. unfold write_file. now apply dget_dset_other. }
  apply K.
Qed.

Lemma write_sides_get fs out resp k ni nj bd nt nd (ar : arrays) s : In (resp, k) responses ->
  (forall s, bd_do (bd s) = true) ->
  dget (write_sides C8 fs out resp ni nj bd nt nd ar) (ob_file out s resp)
  = Some (tofile3 (enc C8) (side_len ni nj s) nd nt (ar s)).
Proof.
  intros Hr Hdo. unfold write_sides, sides. cbn [fold_left]. rewrite !Hdo. unfold write_file.
  assert (D : forall s', s' <> s -> ob_file out s resp <> ob_file out s' resp).
  { intros s' Hs E. eapply ob_file_inj in E; eauto. destruct E. congruence. }
  destruct s; rewrite ?dget_dset; rewrite ?text_eqb_refl; auto;
    repeat match goal with |- context [text_eqb (ob_file out ?a resp) (ob_file out ?b resp)] =>
      rewrite (proj2 (text_eqb_neq (ob_file out a resp) (ob_file out b resp))) by (apply D; discriminate) end; auto.
Qed.

Lemma assemble_same fs fs' dir resp ni nj bd rg k times : same_reads fs fs' ->
  assemble fs' dir resp ni nj bd rg k times = assemble fs dir resp ni nj bd rg k times.
Proof.
  intros (H & _). unfold GetObcs.assemble. destruct times as [|t0 r]; [reflexivity|].
  unfold GetObcs.read_response. rewrite H. destruct (depths_of _) as [nd|]; [|reflexivity]. cbn [rbind].
  erewrite foldM_ext; [reflexivity|]. intros ar (t, z) _. unfold GetObcs.time_step, GetObcs.read_response.
  now rewrite H.
Qed.

Lemma loop_files dir out ni nj bd rg times l : forall fs fs',
  (forall s, bd_do (bd s) = true) -> NoDup (map fst l) -> incl l responses ->
  response_loop dir out ni nj bd rg times l fs = (fs', Ok tt) ->
  (forall n, (forall resp k s, In (resp, k) l -> n <> ob_file out s resp) -> dget fs' n = dget fs n) /\
  (forall resp k, In (resp, k) l -> result_file (names fs) (path_join dir (lit resp)) ->
    exists nd ar, assemble fs dir resp ni nj bd rg k times = Ok (nd, ar) /\
      forall s, dget fs' (ob_file out s resp) = Some (tofile3 (enc C8) (side_len ni nj s) nd (length times) (ar s))) /\
  (forall resp k, In (resp, k) l -> ~ result_file (names fs) (path_join dir (lit resp)) ->
    forall s, dget fs' (ob_file out s resp) = dget fs (ob_file out s resp)).
Proof.
  induction l as [|(r0, k0) l IH]; intros fs fs' Hdo ND HI H.
  { cbn in H. injection H as <-. split; [auto|]. split; intros ? ? []. }
  cbn [GetObcs.response_loop] in H.
  destruct (response_step dir out ni nj bd rg times fs (r0, k0)) as [fs1|e] eqn:E; [|discriminate].
  cbn [map fst] in ND. inversion ND as [|? ? ND1 ND2]; subst.
  assert (HI' : incl l responses) by (intros y Hy; apply HI; now right).
  assert (Hr0 : In (r0, k0) responses) by (apply HI; now left).
  destruct (IH fs1 fs' Hdo ND2 HI' H) as (J1 & J2 & J3). clear IH.
  assert (S : same_reads fs fs1).
  { unfold GetObcs.response_step in E. cbn [fst snd] in E. destruct (existsb _ _).
    - mok E. destruct a as (nd, ar). injection E as <-. eapply write_sides_same; eauto.
    - injection E as <-. apply same_reads_refl. }
  assert (O : forall n, (forall s, n <> ob_file out s r0) -> dget fs1 n = dget fs n).
  { intros n Hn. unfold GetObcs.response_step in E. cbn [fst snd] in E. destruct (existsb _ _).
    - mok E. destruct a as (nd, ar). injection E as <-. now apply write_sides_other.
    - now injection E as <-. }
  assert (RF : forall stem, result_file (names fs1) stem <-> result_file (names fs) stem).
  { intros stem. rewrite <- !result_file_iff. now rewrite (proj2 S). }
  assert (Out : forall s resp k, In (resp, k) l -> forall s', ob_file out s r0 <> ob_file out s' resp).
  { intros s resp k I s' Eq. eapply ob_file_inj in Eq; eauto. destruct Eq as (_ & ->).
    apply ND1. change resp with (fst (resp, k)). now apply in_map. }
  split; [|split].
  - intros n Hn. rewrite J1.
    + apply O. intros s. apply (Hn r0 k0 s). now left.
    + intros resp k s I. apply (Hn resp k s). now right.
  - intros resp k [I|I] Hres.
    + injection I as <- <-. unfold GetObcs.response_step in E. cbn [fst snd] in E.
      apply result_file_iff in Hres. rewrite Hres in E. mok E. destruct a as (nd, ar). injection E as E.
      exists nd, ar. split; auto. intros s. rewrite J1 by (intros; eapply Out; eauto).
      rewrite <- E. eapply write_sides_get; eauto.
    + destruct (J2 resp k I) as (nd & ar & A & B); [now apply RF|].
      exists nd, ar. split; auto. rewrite <- A. symmetry. now apply assemble_same.
  - intros resp k [I|I] Hres s.
    + injection I as <- <-. rewrite J1 by (intros; eapply Out; eauto).
      unfold GetObcs.response_step in E. cbn [fst snd] in E.
      destruct (existsb _ _) eqn:Ex; [apply result_file_iff in Ex; contradiction|]. now injection E as <-.
    + rewrite (J3 resp k I) by (now rewrite RF). apply O. intros s' Eq. symmetry in Eq. revert Eq. eapply Out; eauto.
Qed.

Lemma ob_all_inv ni nj arg bd : ob_all ni nj arg = Ok bd -> forall s, ob_resolve ni nj s (arg s) = Ok (bd s).
Proof.
  unfold ob_all. intros H. mok H. mok H. mok H. mok H. injection H as <-. intros []; auto.
Qed.

(** Everything that holds when getobcs returns. *)
Variables (G : geod F) (lay o3 : nat -> nat -> list (nat * nat)) (fuel : nat).
Variable xe_weights : mat F -> mat F -> mat F -> mat F -> res W.
Notation getobcs := (getobcs N C8 C4 G float_of lay o3 fuel xe_weights xe_value).

Lemma getobcs_ok ws fs a ws' fs' : getobcs ws fs a = (ws', fs', Ok tt) ->
  exists dir p pi pj r ni nj bd rg times,
    txt_arg (oa_parent_resultsdir a) = Some dir /\
    parent_grid N C8 C4 float_of fs a dir = Ok (p, pi, pj) /\
    regional_grid N C8 fs a = Ok (r, ni, nj) /\
    (forall s, ob_resolve ni nj s (oa_ob a s) = Ok (bd s)) /\
    make_regridders N C8 G lay o3 fuel xe_weights ws (results_dir a dir) p pi pj r ni nj = (ws', Ok rg) /\
    times_of fs dir = Ok times /\
    response_loop dir (results_dir a dir) ni nj bd rg times responses fs = (fs', Ok tt).
Proof.
  unfold GetObcs.getobcs, GetObcs.getobcs_from. intros H.
  destruct (txt_arg (oa_parent_resultsdir a)) as [dir|] eqn:Ed; [|discriminate].
  match type of H with match ?x with _ => _ end = _ => destruct x as [((p0, r0), b)|] eqn:E1; [|discriminate] end.
  mok E1. mok E1. mok E1. injection E1 as -> -> ->.
  destruct p0 as ((p, pi), pj). destruct r0 as ((r, ni), nj). cbn [fst snd] in *.
  destruct (make_regridders N C8 G lay o3 fuel xe_weights ws (results_dir a dir) p pi pj r ni nj) as (ws1, [rg|]) eqn:E2;
    [|discriminate].
  match type of H with match ?x with _ => _ end = _ => destruct x as [times|] eqn:E3; [|discriminate] end.
  mok E3. rename a0 into times'. destruct times' as [|t0 rest]; [discriminate|]. mok E3. injection E3 as <-.
  destruct (response_loop dir (results_dir a dir) ni nj b rg (t0 :: rest) responses fs) as (fs1, o) eqn:E4.
  injection H as -> -> ->.
  exists dir, p, pi, pj, r, ni, nj, b, rg, (t0 :: rest).
  repeat split; auto. now apply ob_all_inv.
Qed.

End Facts.
