From Coq Require Import ZArith String List Bool PeanoNat Strings.Byte Lia.
From Flocq Require Import IEEE754.Binary IEEE754.Bits.
Import ListNotations.
From Verif Require Import Prelude PreludeFacts Mat MatFacts Num Fields GridIO GridIOFacts
  Float64 Float64Facts SpecGrid.
Local Open Scope nat_scope.
Local Open Scope list_scope.

Lemma file_pos_index f : file_pos f = index_of f fields.
Proof. destruct f; reflexivity. Qed.
Lemma rows_of_delta f ni : rows_of f ni = ni + ni_delta f.
Proof. destruct f; unfold rows_of; simpl; lia. Qed.
Lemma cols_of_delta f nj : cols_of f nj = nj + nj_delta f.
Proof. destruct f; unfold cols_of; simpl; lia. Qed.
Lemma shaped_nominal {F} (g : grid F) ni nj : shaped g ni nj <-> nominal g ni nj.
Proof.
  unfold shaped, nominal. split; intros H f; specialize (H f);
  rewrite rows_of_delta, cols_of_delta in *; exact H.
Qed.
Lemma pad_pos_iff f ni nj i j :
  pad_pos f ni nj i j <-> i <= ni /\ j <= nj /\ ~ inside f ni nj i j.
Proof.
  unfold pad_pos, inside. rewrite rows_of_delta, cols_of_delta. lia.
Qed.
Lemma inside_le f ni nj i j : inside f ni nj i j -> i <= ni /\ j <= nj.
Proof.
  unfold inside. rewrite rows_of_delta, cols_of_delta.
  pose proof (ni_delta_le f). pose proof (nj_delta_le f). lia.
Qed.

(** every double of a file belongs to exactly one field position *)
Lemma pos_decompose ni nj k : k < file_doubles ni nj ->
  exists f i j, i <= ni /\ j <= nj /\ pos f ni nj i j = k.
Proof.
  unfold file_doubles, pos, slot. intros H.
  assert (Hq : k / ((ni + 1) * (nj + 1)) < 16) by (apply Nat.div_lt_upper_bound; lia).
  destruct (nth_error fields (k / ((ni + 1) * (nj + 1)))) as [f|] eqn:E.
  2:{ apply nth_error_None in E. rewrite fields_length in E. lia. }
  pose proof (index_of_nth _ _ E) as Ei.
  pose proof (Nat.div_mod k ((ni + 1) * (nj + 1))) as Hdm.
  pose proof (Nat.mod_upper_bound k ((ni + 1) * (nj + 1))) as Hm.
  set (r := k mod ((ni + 1) * (nj + 1))) in *.
  pose proof (Nat.div_mod r (ni + 1)) as Hdm'.
  pose proof (Nat.mod_upper_bound r (ni + 1)) as Hm'.
  exists f, (r mod (ni + 1)), (r / (ni + 1)). rewrite file_pos_index, Ei.
  split; [lia|]. split.
  - assert (r / (ni + 1) < nj + 1); [|lia]. apply Nat.div_lt_upper_bound; lia.
  - lia.
Qed.

Lemma pos_lt f ni nj i j : i <= ni -> j <= nj -> pos f ni nj i j < file_doubles ni nj.
Proof.
  intros Hi Hj. unfold pos, file_doubles, slot. rewrite file_pos_index.
  pose proof (index_lt f). nia.
Qed.

(** lists of bytes are determined by their doubles *)
Lemma doubles_ext (bs bs' : list byte) n :
  length bs = 8 * n -> length bs' = 8 * n ->
  (forall k, k < n -> double_at bs k = double_at bs' k) -> bs = bs'.
Proof.
  unfold double_at. revert bs bs'; induction n as [|n IH]; intros bs bs' H H' HE.
  - destruct bs, bs'; try reflexivity; simpl in *; lia.
  - rewrite <- (firstn_skipn 8 bs), <- (firstn_skipn 8 bs'). f_equal.
    + apply (HE 0); lia.
    + apply IH.
      * rewrite skipn_length; lia.
      * rewrite skipn_length; lia.
      * intros k Hk. rewrite !skipn_add.
        replace (8 + 8 * k) with (8 * S k) by lia. apply HE; lia.
Qed.

Section Generic.
Context {F : Type} (N : numops F) (C : codec F) (CL : codeclaws C).

Lemma double_at_length (bs : list byte) k : 8 * k + 8 <= length bs -> length (double_at bs k) = 8.
Proof. intros H. unfold double_at. rewrite firstn_length, skipn_length. lia. Qed.

Lemma raw_at_double bs ni nj f i j :
  file_bytes ni nj <= length bs -> i <= ni -> j <= nj ->
  raw_at N (fromfile C bs) ni nj f i j = dec C (double_at bs (pos f ni nj i j)).
Proof.
  intros HL Hi Hj. unfold raw_at.
  replace (index_of f fields * ((ni + 1) * (nj + 1)) + j * (ni + 1) + i) with (pos f ni nj i j)
    by (unfold pos, slot; rewrite file_pos_index; reflexivity).
  pose proof (pos_lt f ni nj i j Hi Hj) as Hp. unfold file_bytes in HL.
  rewrite fromfile_nth by lia. reflexivity.
Qed.

Lemma enough_doubles bs ni nj :
  file_bytes ni nj <= length bs -> 16 * ((ni + 1) * (nj + 1)) <= length (fromfile C bs).
Proof.
  unfold file_bytes, file_doubles, slot. intros H. rewrite fromfile_length.
  apply Nat.div_le_lower_bound; lia.
Qed.

Lemma enough_doubles_inv bs ni nj :
  16 * ((ni + 1) * (nj + 1)) <= length (fromfile C bs) -> file_bytes ni nj <= length bs.
Proof.
  unfold file_bytes, file_doubles, slot. rewrite fromfile_length. intros H.
  pose proof (Nat.mul_div_le (length bs) 8). lia.
Qed.

(** layout of what is written *)
Lemma write_length d ni nj bs : write_mitgrid N C d ni nj = (bs, Ok tt) ->
  length bs = file_bytes ni nj.
Proof.
  intros H. apply write_ok_segs in H. destruct H as [Hs ->].
  rewrite tofile_length, segs_ok_length by auto. reflexivity.
Qed.

Lemma write_layout d ni nj bs f i j : write_mitgrid N C d ni nj = (bs, Ok tt) ->
  i <= ni -> j <= nj ->
  double_at bs (pos f ni nj i j) = enc C (pad_at N (d f) ni nj f i j).
Proof.
  intros H Hi Hj. apply write_ok_segs in H. destruct H as [Hs ->].
  unfold double_at. rewrite tofile_nth with (d := nzero N); auto.
  - f_equal. pose proof (write_raw_at N d ni nj f i j [] Hs Hi Hj) as E.
    rewrite app_nil_r in E. rewrite <- E. unfold raw_at, pos, slot.
    rewrite file_pos_index. reflexivity.
  - rewrite segs_ok_length by auto. apply pos_lt; auto.
Qed.

Lemma read_short_err bs ni nj strict :
  length bs < file_bytes ni nj -> is_err (read_mitgrid N C bs ni nj strict).
Proof.
  intros H. destruct (read_mitgrid N C bs ni nj strict) as [g|e] eqn:E; [|eexists; reflexivity].
  apply read_inv_length in E. apply enough_doubles_inv in E. lia.
Qed.

Lemma write_err_length d ni nj bs e : write_mitgrid N C d ni nj = (bs, Err e) ->
  length bs < file_bytes ni nj.
Proof.
  intros H. apply write_fields_err in H.
  destruct H as (done & f & rest & Hl & _ & Hok & ->).
  rewrite tofile_length by auto. rewrite flat_seg_length by auto.
  assert (length done < 16).
  { pose proof fields_length. rewrite Hl, app_length in *. simpl in *. lia. }
  unfold file_bytes, file_doubles, slot.
  assert (1 <= (ni + 1) * (nj + 1)) by nia. nia.
Qed.

Lemma write_length_le d ni nj : length (fst (write_mitgrid N C d ni nj)) <= file_bytes ni nj.
Proof.
  destruct (write_mitgrid N C d ni nj) as [bs [[]|e]] eqn:E; simpl.
  - rewrite (write_length _ _ _ _ E). lia.
  - apply write_err_length in E. lia.
Qed.

(** interrupted writes *)
Lemma crash_rejected d ni nj strict n :
  n < file_bytes ni nj ->
  is_err (read_mitgrid N C (firstn n (fst (write_mitgrid N C d ni nj))) ni nj strict).
Proof. intros H. apply read_short_err. rewrite firstn_length. lia. Qed.

Lemma failed_write_rejected d ni nj strict bs e :
  write_mitgrid N C d ni nj = (bs, Err e) ->
  is_err (read_mitgrid N C bs ni nj strict).
Proof. intros H. apply read_short_err. eapply write_err_length; eauto. Qed.

(** read then write *)
Lemma read_nonstrict bs ni nj : file_bytes ni nj <= length bs ->
  exists g, read_mitgrid N C bs ni nj false = Ok g /\ shaped g ni nj /\
    forall f i j, inside f ni nj i j ->
      mat_at (g f) i j = dec C (double_at bs (pos f ni nj i j)).
Proof.
  intros H.
  destruct (read_total N C bs ni nj false (enough_doubles _ _ _ H)) as (g & E & Hm);
    [discriminate|].
  exists g. split; auto. split.
  - apply shaped_nominal. intros f. destruct (Hm f) as (H1 & H2 & _). auto.
  - intros f i j Hin. pose proof (inside_le _ _ _ _ _ Hin).
    destruct (Hm f) as (_ & _ & Hv). unfold inside in Hin.
    rewrite rows_of_delta, cols_of_delta in Hin.
    rewrite Hv by tauto. apply raw_at_double; tauto.
Qed.

Lemma read_shaped bs ni nj strict g : read_mitgrid N C bs ni nj strict = Ok g ->
  file_bytes ni nj <= length bs.
Proof. intros H. apply read_inv_length in H. apply enough_doubles_inv. auto. Qed.

(** strict success returns the non-strict result *)
Lemma read_strict_ok bs ni nj g : read_mitgrid N C bs ni nj true = Ok g ->
  exists g', read_mitgrid N C bs ni nj false = Ok g' /\ forall f, g f = g' f.
Proof.
  unfold read_mitgrid. generalize (fun _ : field => mconst 0 0 (nzero N)).
  generalize (fromfile C bs). intros raw.
  assert (G : forall fs (g0 g0' : grid F), (forall f, g0 f = g0' f) ->
     foldM (read_field N raw ni nj true) fs g0 = Ok g ->
     exists g', foldM (read_field N raw ni nj false) fs g0' = Ok g' /\ forall f, g f = g' f).
  { induction fs as [|f fs IH]; simpl; intros g0 g0' HE H.
    - inversion H; subst. eauto.
    - apply rbind_ok in H. destruct H as (g1 & Hr & H).
      unfold read_field in Hr at 1. unfold read_field at 1.
      destruct (reshapeF N _ _ _) as [m|e]; [|discriminate]. simpl in Hr |- *.
      destruct (padding_nonzero N f ni nj m); [discriminate|]. inversion Hr; subst. clear Hr.
      apply (fun A => IH _ (upd g0' f (mtrim (ni + ni_delta f) (nj + nj_delta f) m)) A H).
      intros f'. unfold upd. destruct (field_beq f' f); auto. }
  intros g0. apply G. auto.
Qed.

(** any successful read returns the file's own doubles *)
Lemma read_spec bs ni nj strict g : read_mitgrid N C bs ni nj strict = Ok g ->
  shaped g ni nj /\ forall f i j, inside f ni nj i j ->
      mat_at (g f) i j = dec C (double_at bs (pos f ni nj i j)).
Proof.
  intros H. pose proof (read_shaped _ _ _ _ _ H) as HL.
  destruct (read_nonstrict bs ni nj HL) as (g0 & E0 & Hs & Hv).
  destruct strict.
  - destruct (read_strict_ok _ _ _ _ H) as (g' & E' & Hg).
    rewrite E0 in E'. inversion E'; subst g'.
    split.
    + intros f. rewrite Hg. apply Hs.
    + intros f i j Hin. rewrite Hg. auto.
  - rewrite E0 in H. inversion H; subst. auto.
Qed.

Lemma inside_ltb f ni nj i j :
  (i <? ni + ni_delta f) && (j <? nj + nj_delta f) = true <-> inside f ni nj i j.
Proof.
  rewrite andb_true_iff, !Nat.ltb_lt. unfold inside.
  rewrite rows_of_delta, cols_of_delta. tauto.
Qed.

Lemma write_shaped_ok g ni nj : shaped g ni nj ->
  exists bs, write_mitgrid N C (dict_of_grid g) ni nj = (bs, Ok tt).
Proof.
  intros H. eexists. apply segs_ok_write; auto. apply nominal_segs_ok. apply shaped_nominal. auto.
Qed.

Lemma write_shaped_layout g ni nj bs f i j : shaped g ni nj ->
  write_mitgrid N C (dict_of_grid g) ni nj = (bs, Ok tt) -> i <= ni -> j <= nj ->
  (inside f ni nj i j -> double_at bs (pos f ni nj i j) = enc C (mat_at (g f) i j)) /\
  (~ inside f ni nj i j -> double_at bs (pos f ni nj i j) = enc C (nzero N)).
Proof.
  intros Hs Hw Hi Hj. rewrite (write_layout _ _ _ _ f i j Hw Hi Hj).
  apply shaped_nominal in Hs. rewrite nominal_pad_at by auto.
  split; intros H.
  - apply inside_ltb in H. rewrite H. reflexivity.
  - destruct ((i <? ni + ni_delta f) && (j <? nj + nj_delta f)) eqn:E; auto.
    apply inside_ltb in E. contradiction.
Qed.

Lemma read_write_canon bs ni nj : file_bytes ni nj <= length bs ->
  exists g bs', read_mitgrid N C bs ni nj false = Ok g /\
    write_mitgrid N C (dict_of_grid g) ni nj = (bs', Ok tt) /\
    length bs' = file_bytes ni nj /\
    forall f i j, i <= ni -> j <= nj ->
      (inside f ni nj i j -> double_at bs' (pos f ni nj i j) = double_at bs (pos f ni nj i j)) /\
      (~ inside f ni nj i j -> double_at bs' (pos f ni nj i j) = enc C (nzero N)).
Proof.
  intros H. destruct (read_nonstrict bs ni nj H) as (g & E & Hs & Hv).
  destruct (write_shaped_ok g ni nj Hs) as (bs' & Ew).
  exists g, bs'. split; auto. split; auto. split; [eapply write_length; eauto|].
  intros f i j Hi Hj.
  destruct (write_shaped_layout g ni nj bs' f i j Hs Ew Hi Hj) as [A B].
  split; auto. intros Hin. rewrite A, Hv by auto.
  apply (enc_dec CL). apply double_at_length.
  pose proof (pos_lt f ni nj i j Hi Hj). unfold file_bytes in H. lia.
Qed.

Lemma read_write_identity bs ni nj : length bs = file_bytes ni nj ->
  (forall f i j, i <= ni -> j <= nj -> ~ inside f ni nj i j ->
     double_at bs (pos f ni nj i j) = enc C (nzero N)) ->
  exists g, read_mitgrid N C bs ni nj false = Ok g /\
    write_mitgrid N C (dict_of_grid g) ni nj = (bs, Ok tt).
Proof.
  intros H Hp. destruct (read_write_canon bs ni nj) as (g & bs' & E & Ew & HL & Hd); [lia|].
  exists g. split; auto. rewrite Ew. f_equal.
  apply doubles_ext with (n := file_doubles ni nj); auto.
  intros k Hk. destruct (pos_decompose ni nj k Hk) as (f & i & j & Hi & Hj & <-).
  destruct (Hd f i j Hi Hj) as [A B].
  destruct (lt_dec i (rows_of f ni)) as [H1|H1], (lt_dec j (cols_of f nj)) as [H2|H2].
  1: { apply A. split; auto. }
  all: rewrite B by (unfold inside; tauto); symmetry; apply Hp; auto; unfold inside; tauto.
Qed.

(** wrong counts *)
Lemma padded_arr_err m ni nj f e : padded N (Arr m) ni nj f = Err e -> exists s, e = ValueError s.
Proof. unfold padded. destruct (_ && _); intros H; inversion H; eauto. Qed.

Lemma wrong_counts g ni0 nj0 ni nj : shaped g ni0 nj0 -> (ni, nj) <> (ni0, nj0) ->
  exists bs s, write_mitgrid N C (dict_of_grid g) ni nj = (bs, Err (ValueError s)).
Proof.
  intros Hs Hne.
  destruct (write_mitgrid N C (dict_of_grid g) ni nj) as [bs [[]|e]] eqn:E.
  - exfalso. apply write_ok_segs in E. destruct E as [Hok _].
    destruct (Hok XC) as (m1 & E1), (Hok XG) as (m2 & E2).
    unfold padded, dict_of_grid in E1, E2.
    destruct (Hs XC) as [A1 A2], (Hs XG) as [B1 B2].
    unfold rows_of, cols_of in *. simpl in *.
    rewrite A1, A2 in E1. rewrite B1, B2 in E2.
    unfold bcast_ok in *.
    destruct (((ni0 =? ni + 0) || (ni0 =? 1)) && ((nj0 =? nj + 0) || (nj0 =? 1))) eqn:C1;
      [|discriminate].
    destruct (((ni0 + 1 =? ni + 1) || (ni0 + 1 =? 1)) && ((nj0 + 1 =? nj + 1) || (nj0 + 1 =? 1))) eqn:C2;
      [|discriminate].
    rewrite andb_true_iff, !orb_true_iff, !Nat.eqb_eq in C1, C2.
    apply Hne. f_equal; lia.
  - pose proof E as E'. apply write_fields_err in E'.
    destruct E' as (done & f & rest & _ & Ep & _ & _).
    unfold dict_of_grid in Ep. apply padded_arr_err in Ep. destruct Ep as (s & ->). eauto.
Qed.

(** None and missing fields *)
Definition entry_shaped (e : entry F) (f : field) (ni nj : nat) : Prop :=
  match e with
  | Missing => False
  | NoneVal => True
  | Arr m => mrows m = rows_of f ni /\ mcols m = cols_of f nj
  end.
Definition value_of (e : entry F) (i j : nat) : F :=
  match e with Arr m => mat_at m i j | _ => nnan N end.

Lemma entry_shaped_padded e f ni nj : entry_shaped e f ni nj ->
  exists m, padded N e ni nj f = Ok m.
Proof.
  destruct e as [| |m]; simpl; [tauto|eauto|].
  rewrite rows_of_delta, cols_of_delta. intros [-> ->].
  unfold bcast_ok. rewrite !Nat.eqb_refl. simpl. eauto.
Qed.

Lemma entry_shaped_pad_at e f ni nj i j : entry_shaped e f ni nj -> inside f ni nj i j ->
  pad_at N e ni nj f i j = value_of e i j.
Proof.
  intros He Hin. unfold pad_at. pose proof (proj2 (inside_ltb f ni nj i j) Hin) as E. rewrite E.
  destruct e as [| |m]; simpl in *; auto. destruct He as [-> ->].
  destruct Hin as [H1 H2]. unfold bidx. f_equal.
  - destruct (rows_of f ni =? 1) eqn:Q; auto. apply Nat.eqb_eq in Q. lia.
  - destruct (cols_of f nj =? 1) eqn:Q; auto. apply Nat.eqb_eq in Q. lia.
Qed.

Lemma none_fields (NZ : neqb N (nzero N) (nzero N) = true) d ni nj strict :
  (forall f, entry_shaped (d f) f ni nj) ->
  exists bs g, write_mitgrid N C d ni nj = (bs, Ok tt) /\
    read_mitgrid N C bs ni nj strict = Ok g /\
    forall f, mat_is (g f) (rows_of f ni) (cols_of f nj) (value_of (d f)).
Proof.
  intros H.
  assert (Hs : segs_ok N d ni nj) by (intros f; apply entry_shaped_padded; auto).
  pose proof (segs_ok_write N C d ni nj Hs) as Ew.
  destruct (write_read_gen N C CL d ni nj strict NZ Hs) as (g & E & Hm).
  rewrite Ew in E. simpl in E.
  eexists; exists g. split; [exact Ew|]. split; [exact E|].
  intros f. rewrite rows_of_delta, cols_of_delta.
  eapply mat_is_ext; [apply Hm|]. intros i j Hi Hj.
  apply entry_shaped_pad_at; auto. unfold inside. rewrite rows_of_delta, cols_of_delta. auto.
Qed.

Lemma missing_field d ni nj strict :
  (forall f, d f = Missing \/ entry_shaped (d f) f ni nj) -> (exists f, d f = Missing) ->
  exists bs, write_mitgrid N C d ni nj = (bs, Err KeyError) /\
    is_err (read_mitgrid N C bs ni nj strict).
Proof.
  intros H (f0 & Hf0).
  destruct (write_mitgrid N C d ni nj) as [bs [[]|e]] eqn:E.
  - exfalso. apply write_ok_segs in E. destruct E as [Hok _].
    destruct (Hok f0) as (m & Em). rewrite Hf0 in Em. discriminate.
  - exists bs. pose proof E as E'. apply write_fields_err in E'.
    destruct E' as (done & f & rest & _ & Ep & _ & _).
    split.
    + f_equal. f_equal. destruct (H f) as [Hm|Hs].
      * rewrite Hm in Ep. simpl in Ep. congruence.
      * destruct (entry_shaped_padded _ _ _ _ Hs) as (m & Em). congruence.
    + eapply failed_write_rejected; eauto.
Qed.

End Generic.

(** ** binary64 instances *)
Lemma word_of_enc x : be_Z (enc b64codec x) = bits_of_b64 x.
Proof.
  cbn [enc b64codec]. apply be_Z_bytes.
  pose proof (bits_of_binary_float_range 52 11 eq_refl eq_refl x) as H.
  change (256 ^ Z.of_nat 8)%Z with (2 ^ (52 + 11 + 1))%Z. exact H.
Qed.

Lemma word_of_dec l : length l = 8 -> bits_of_b64 (dec b64codec l) = be_Z l.
Proof.
  intros H. rewrite <- word_of_enc. f_equal. apply (enc_dec b64_codec_laws). auto.
Qed.

Lemma strict_iff L bs ni nj : file_bytes ni nj <= length bs ->
  ((exists m, read_mitgrid (b64ops L) b64codec bs ni nj true = Err (RuntimeError m)) <->
   exists f i j, i <= ni /\ j <= nj /\ ~ inside f ni nj i j /\
     ~ zero_word (word_at bs (pos f ni nj i j))).
Proof.
  intros H.
  assert (K : forall f i j, i <= ni -> j <= nj ->
    neqb (b64ops L) (raw_at (b64ops L) (fromfile b64codec bs) ni nj f i j) (nzero (b64ops L)) = true
    <-> zero_word (word_at bs (pos f ni nj i j))).
  { intros f i j Hi Hj. rewrite raw_at_double by (auto using b64_codec_laws).
    cbn [neqb nzero b64ops]. rewrite b64_eqb_zero_bits. unfold zero_word, word_at.
    rewrite word_of_dec; [reflexivity|]. apply double_at_length.
    pose proof (pos_lt f ni nj i j Hi Hj). unfold file_bytes in H. lia. }
  split.
  - intros (m & E).
    destruct (read_mitgrid (b64ops L) b64codec bs ni nj true) as [g|e] eqn:Er; [discriminate|].
    (* classically: if no nonzero padding, read_total gives Ok *)
    assert (D : forall f i j, {pad_pos f ni nj i j /\
        neqb (b64ops L) (raw_at (b64ops L) (fromfile b64codec bs) ni nj f i j) (nzero (b64ops L)) = false}
      + {~ (pad_pos f ni nj i j /\
        neqb (b64ops L) (raw_at (b64ops L) (fromfile b64codec bs) ni nj f i j) (nzero (b64ops L)) = false)}).
    { intros f i j.
      destruct (neqb (b64ops L) (raw_at (b64ops L) (fromfile b64codec bs) ni nj f i j) (nzero (b64ops L)));
        [right; intros [_ Q]; discriminate|].
      destruct (le_dec i ni) as [A|A]; [|right; intros [(Q&_) _]; lia].
      destruct (le_dec j nj) as [B|B]; [|right; intros [(_&Q&_) _]; lia].
      destruct (le_dec (ni + ni_delta f) i) as [A'|A'];
        [left; repeat split; auto|].
      destruct (le_dec (nj + nj_delta f) j) as [B'|B'];
        [left; repeat split; auto|].
      right. intros [(_&_&[Q|Q]) _]; lia. }
    (* search *)
    assert (S : (exists f i j, pad_pos f ni nj i j /\
        neqb (b64ops L) (raw_at (b64ops L) (fromfile b64codec bs) ni nj f i j) (nzero (b64ops L)) = false)
      \/ (forall f i j, pad_pos f ni nj i j ->
        neqb (b64ops L) (raw_at (b64ops L) (fromfile b64codec bs) ni nj f i j) (nzero (b64ops L)) = true)).
    { destruct (existsb (fun p => match p with (f,(i,j)) => if D f i j then true else false end)
        (list_prod fields (indices (ni+1) (nj+1)))) eqn:Ex.
      - left. apply existsb_exists in Ex. destruct Ex as ((f,(i,j)) & _ & Ex).
        destruct (D f i j); [eauto|discriminate].
      - right. intros f i j Hp.
        destruct (D f i j) as [[Qp Q]|Q] eqn:ED.
        + exfalso. apply not_true_iff_false in Ex. apply Ex. apply existsb_exists.
          exists (f,(i,j)). split.
          * apply in_prod_iff. split; [apply fields_complete|].
            apply in_indices. destruct Hp as (?&?&_). lia.
          * rewrite ED. reflexivity.
        + apply not_false_iff_true. intros Q'. apply Q. auto. }
    destruct S as [(f & i & j & Hp & Hz)|S].
    + exists f, i, j. apply pad_pos_iff in Hp. destruct Hp as (Hi & Hj & Hn).
      split; auto. split; auto. split; auto.
      intros Z. apply K in Z; auto. congruence.
    + exfalso. destruct (read_total (b64ops L) b64codec bs ni nj true) as (g & Eg & _).
      * apply enough_doubles; auto using b64_codec_laws.
      * intros _. exact S.
      * congruence.
  - intros (f & i & j & Hi & Hj & Hn & Hz).
    apply read_strict_err.
    + apply enough_doubles; auto using b64_codec_laws.
    + exists f, i, j. split; [apply pad_pos_iff; auto|].
      destruct (neqb (b64ops L) (raw_at (b64ops L) (fromfile b64codec bs) ni nj f i j) (nzero (b64ops L))) eqn:Q; auto.
      exfalso. apply Hz. apply K; auto.
Qed.

Lemma strict_otherwise L bs ni nj : file_bytes ni nj <= length bs ->
  (forall f i j, i <= ni -> j <= nj -> ~ inside f ni nj i j ->
     zero_word (word_at bs (pos f ni nj i j))) ->
  exists g g', read_mitgrid (b64ops L) b64codec bs ni nj true = Ok g /\
    read_mitgrid (b64ops L) b64codec bs ni nj false = Ok g' /\ forall f, g f = g' f.
Proof.
  intros H Hz.
  destruct (read_total (b64ops L) b64codec bs ni nj true) as (g & Eg & _).
  - apply enough_doubles; auto using b64_codec_laws.
  - intros _ f i j Hp. apply pad_pos_iff in Hp. destruct Hp as (Hi & Hj & Hn).
    rewrite raw_at_double by (auto using b64_codec_laws).
    cbn [neqb nzero b64ops]. rewrite b64_eqb_zero_bits.
    rewrite word_of_dec; [apply Hz; auto|]. apply double_at_length.
    pose proof (pos_lt f ni nj i j Hi Hj). unfold file_bytes in H. lia.
  - destruct (read_strict_ok _ _ _ _ _ _ Eg) as (g' & E' & Hg). eauto.
Qed.
