From Coq Require Import String List Bool PeanoNat Wf_nat Init.Byte Lia.
Import ListNotations.
From Verif Require Import Prelude PreludeFacts Mat MatFacts Num Fields GridIO.
Local Open Scope nat_scope.
Local Open Scope list_scope.

Lemma field_beq_refl f : field_beq f f = true.
Proof. destruct f; reflexivity. Qed.
Lemma field_beq_true f g : field_beq f g = true <-> f = g.
Proof. split; [apply internal_field_dec_bl|intros ->; apply field_beq_refl]. Qed.
Lemma field_beq_false f g : f <> g -> field_beq f g = false.
Proof.
  intros H. destruct (field_beq f g) eqn:E; auto. apply field_beq_true in E. contradiction.
Qed.
Lemma fields_complete f : In f fields.
Proof. destruct f; simpl; auto 20. Qed.
Lemma fields_NoDup : NoDup fields.
Proof. repeat constructor; simpl; intuition discriminate. Qed.
Lemma fields_length : length fields = 16.
Proof. reflexivity. Qed.
Lemma index_nth f : nth_error fields (index_of f fields) = Some f.
Proof. destruct f; reflexivity. Qed.
Lemma index_lt f : index_of f fields < 16.
Proof. destruct f; vm_compute; lia. Qed.
Lemma index_of_nth k f : nth_error fields k = Some f -> index_of f fields = k.
Proof.
  do 16 (destruct k as [|k]; [simpl; intros H; inversion H; subst; reflexivity|]).
  simpl. destruct k; discriminate.
Qed.
Lemma ni_delta_le f : ni_delta f <= 1. Proof. destruct f; simpl; lia. Qed.
Lemma nj_delta_le f : nj_delta f <= 1. Proof. destruct f; simpl; lia. Qed.

Section Facts.
Context {F : Type} (N : numops F) (C : codec F) (CL : codeclaws C).

Notation fromfile := (fromfile C).
Notation tofile := (tofile C).

Lemma tofile_length xs : length (tofile xs) = 8 * length xs.
Proof.
  unfold GridIO.tofile. induction xs as [|x xs IH]; [reflexivity|].
  simpl flat_map. rewrite app_length, (enc_len CL), IH. simpl length. lia.
Qed.

Lemma len8 (l : list byte) : length l = 8 ->
  exists b0 b1 b2 b3 b4 b5 b6 b7, l = [b0; b1; b2; b3; b4; b5; b6; b7].
Proof.
  intros H.
  do 8 (destruct l as [|? l]; [simpl in H; discriminate|]).
  destruct l; [|simpl in H; discriminate].
  repeat eexists.
Qed.

Lemma fromfile_cons8 l r : length l = 8 -> fromfile (l ++ r) = dec C l :: fromfile r.
Proof.
  intros H. destruct (len8 l H) as (b0&b1&b2&b3&b4&b5&b6&b7&->). reflexivity.
Qed.

Lemma fromfile_short l : length l < 8 -> fromfile l = [].
Proof.
  intros H.
  do 8 (destruct l as [|? l]; [reflexivity|simpl in H]). lia.
Qed.

Lemma fromfile_tofile xs rest : fromfile (tofile xs ++ rest) = xs ++ fromfile rest.
Proof.
  unfold GridIO.tofile.
  induction xs as [|x xs IH]; [reflexivity|].
  simpl flat_map. rewrite <- app_assoc, fromfile_cons8 by apply (enc_len CL).
  rewrite (dec_enc CL), IH. reflexivity.
Qed.

Lemma fromfile_length bs : length (fromfile bs) = length bs / 8.
Proof.
  remember (length bs) as n eqn:E. revert bs E.
  induction n as [n IH] using lt_wf_ind. intros bs E.
  destruct (Nat.lt_ge_cases n 8) as [Hlt|Hge].
  - rewrite fromfile_short by lia. rewrite Nat.div_small by lia. reflexivity.
  - rewrite <- (firstn_skipn 8 bs). rewrite fromfile_cons8.
    + cbn [length]. rewrite (IH (n - 8)) with (bs := skipn 8 bs).
      * replace n with (1 * 8 + (n - 8)) at 2 by lia.
        rewrite Nat.div_add_l by lia. lia.
      * lia.
      * rewrite skipn_length. lia.
    + rewrite firstn_length. lia.
Qed.


Lemma skipn_add {A} a b (l : list A) : skipn a (skipn b l) = skipn (b + a) l.
Proof.
  revert l; induction b as [|b IH]; intros l; [reflexivity|].
  destruct l as [|x l]; simpl; [apply skipn_nil|apply IH].
Qed.

Lemma fromfile_nth bs k d :
  8 * k + 8 <= length bs ->
  nth k (fromfile bs) d = dec C (firstn 8 (skipn (8 * k) bs)).
Proof.
  revert bs; induction k as [|k IH]; intros bs H.
  - rewrite <- (firstn_skipn 8 bs) at 1. rewrite fromfile_cons8 by (rewrite firstn_length; lia).
    reflexivity.
  - rewrite <- (firstn_skipn 8 bs) at 1. rewrite fromfile_cons8 by (rewrite firstn_length; lia).
    cbn [nth]. rewrite IH by (rewrite skipn_length; lia).
    rewrite skipn_add. replace (8 + 8 * k) with (8 * S k) by lia. reflexivity.
Qed.

Lemma tofile_nth xs k d : k < length xs ->
  firstn 8 (skipn (8 * k) (tofile xs)) = enc C (nth k xs d).
Proof.
  unfold GridIO.tofile.
  revert k; induction xs as [|x xs IH]; intros k H; [simpl in H; lia|].
  simpl flat_map. destruct k as [|k].
  - rewrite Nat.mul_0_r. cbn [skipn nth]. rewrite firstn_app, (enc_len CL), Nat.sub_diag.
    rewrite firstn_O, app_nil_r. apply firstn_all2. rewrite (enc_len CL). lia.
  - replace (8 * S k) with (8 + 8 * k) by lia.
    rewrite <- skipn_add. rewrite skipn_app, (enc_len CL), Nat.sub_diag.
    rewrite (skipn_all2 (n:=8) (enc C x)) by (rewrite (enc_len CL); lia). rewrite skipn_O. cbn [app nth].
    rewrite IH by (simpl in H; lia). reflexivity.
Qed.

Lemma tofile_app xs ys : tofile (xs ++ ys) = tofile xs ++ tofile ys.
Proof. unfold GridIO.tofile. apply flat_map_app. Qed.

(** ** ravel *)
Lemma ravelF_length (m : mat F) : length (ravelF m) = mrows m * mcols m.
Proof.
  unfold ravelF. generalize (mcols m) at 1 2. intros n.
  generalize 0 at 2. intros a. revert a.
  induction n as [|n IH]; intros a; simpl; [lia|].
  rewrite app_length, map_length, seq_length, IH. lia.
Qed.

Lemma ravelF_nth (m : mat F) i j d : i < mrows m -> j < mcols m ->
  nth (j * mrows m + i) (ravelF m) d = mat_at m i j.
Proof.
  intros Hi Hj. unfold ravelF.
  assert (G : forall n a k, k < n ->
    nth (k * mrows m + i)
      (flat_map (fun j => map (fun i => mat_at m i j) (seq 0 (mrows m))) (seq a n)) d
    = mat_at m i (a + k)).
  { induction n as [|n IH]; intros a k Hk; [lia|]. simpl flat_map.
    destruct k as [|k].
    - simpl Nat.mul. rewrite app_nth1 by (rewrite map_length, seq_length; lia).
      rewrite nth_indep with (d' := mat_at m 0 a) by (rewrite map_length, seq_length; lia).
      rewrite (map_nth (fun i => mat_at m i a)), seq_nth by lia.
      simpl. f_equal; lia.
    - rewrite app_nth2 by (rewrite map_length, seq_length; simpl; lia).
      rewrite map_length, seq_length.
      replace (S k * mrows m + i - mrows m) with (k * mrows m + i) by (simpl; lia).
      rewrite IH by lia. f_equal; lia. }
  rewrite (G (mcols m) 0 j Hj). reflexivity.
Qed.

(** ** the written file as a list of doubles *)

(** content of the zero-padded array for one field *)
Definition pad_at (e : entry F) (ni nj : nat) (f : field) (i j : nat) : F :=
  if (i <? ni + ni_delta f) && (j <? nj + nj_delta f)
  then match e with
       | Arr m => mat_at m (bidx (mrows m) i) (bidx (mcols m) j)
       | _ => nnan N
       end
  else nzero N.

Lemma padded_is e ni nj f m : padded N e ni nj f = Ok m ->
  mat_is m (ni + 1) (nj + 1) (pad_at e ni nj f).
Proof.
  unfold padded, pad_at. destruct e as [| |a]; intros H.
  - discriminate.
  - inversion H; subst. repeat split.
  - destruct (bcast_ok (mrows a) (ni + ni_delta f) && bcast_ok (mcols a) (nj + nj_delta f));
      [|discriminate]. inversion H; subst. repeat split.
Qed.

Definition seg (d : griddict F) (ni nj : nat) (f : field) : list F :=
  match padded N (d f) ni nj f with Ok m => ravelF m | Err _ => [] end.

Lemma seg_length d ni nj f m : padded N (d f) ni nj f = Ok m ->
  length (seg d ni nj f) = (ni + 1) * (nj + 1).
Proof.
  intros H. unfold seg. rewrite H, ravelF_length.
  destruct (padded_is _ _ _ _ _ H) as (-> & -> & _). reflexivity.
Qed.

Lemma write_fields_ok d ni nj fs bs :
  write_fields N C d ni nj fs = (bs, Ok tt) ->
  (forall f, In f fs -> exists m, padded N (d f) ni nj f = Ok m) /\
  bs = tofile (flat_map (seg d ni nj) fs).
Proof.
  revert bs; induction fs as [|f fs IH]; simpl; intros bs H.
  - inversion H; subst. split; [tauto|reflexivity].
  - destruct (padded N (d f) ni nj f) as [m|e] eqn:E; [|discriminate].
    destruct (write_fields N C d ni nj fs) as [bs' o] eqn:Ew.
    inversion H; subst. destruct (IH bs' eq_refl) as [HA ->].
    split.
    + intros g [<-|Hg]; eauto.
    + rewrite tofile_app. unfold seg at 2. rewrite E. reflexivity.
Qed.

Lemma write_fields_total d ni nj fs :
  (forall f, In f fs -> exists m, padded N (d f) ni nj f = Ok m) ->
  write_fields N C d ni nj fs = (tofile (flat_map (seg d ni nj) fs), Ok tt).
Proof.
  induction fs as [|f fs IH]; simpl; intros H; [reflexivity|].
  destruct (H f) as (m & E); auto. rewrite E, IH by auto.
  rewrite tofile_app. unfold seg at 2. rewrite E. reflexivity.
Qed.

(** what has reached the file when writing stops early *)
Lemma write_fields_err d ni nj fs bs e :
  write_fields N C d ni nj fs = (bs, Err e) ->
  exists done f rest, fs = done ++ f :: rest /\ padded N (d f) ni nj f = Err e /\
    (forall g, In g done -> exists m, padded N (d g) ni nj g = Ok m) /\
    bs = tofile (flat_map (seg d ni nj) done).
Proof.
  revert bs; induction fs as [|f fs IH]; simpl; intros bs H; [discriminate|].
  destruct (padded N (d f) ni nj f) as [m|e'] eqn:E.
  - destruct (write_fields N C d ni nj fs) as [bs' o] eqn:Ew. inversion H; subst.
    destruct (IH bs' eq_refl) as (done & g & rest & -> & He & Hd & ->).
    exists (f :: done), g, rest. repeat split; auto.
    + intros h [<-|Hh]; eauto.
    + simpl flat_map. rewrite tofile_app. unfold seg at 2. rewrite E. reflexivity.
  - inversion H; subst. exists [], f, fs. repeat split; auto. intros g [].
Qed.

Lemma flat_seg_length d ni nj fs :
  (forall f, In f fs -> exists m, padded N (d f) ni nj f = Ok m) ->
  length (flat_map (seg d ni nj) fs) = length fs * ((ni + 1) * (nj + 1)).
Proof.
  induction fs as [|f fs IH]; intros H; [reflexivity|].
  simpl flat_map. rewrite app_length. destruct (H f) as (m & E); [simpl; auto|].
  rewrite (seg_length _ _ _ _ _ E), IH by (intros; apply H; simpl; auto).
  simpl length. lia.
Qed.

Lemma flat_seg_nth (S : field -> list F) sz fs k f :
  (forall g, In g fs -> length (S g) = sz) ->
  nth_error fs k = Some f ->
  firstn sz (skipn (sz * k) (flat_map S fs)) = S f.
Proof.
  revert k; induction fs as [|g fs IH]; intros k Hl Hk.
  - destruct k; discriminate.
  - simpl flat_map. destruct k as [|k].
    + simpl in Hk. inversion Hk; subst. rewrite Nat.mul_0_r. simpl skipn.
      rewrite <- (Hl f) by (simpl; auto).
      rewrite firstn_app, Nat.sub_diag, firstn_all. simpl. apply app_nil_r.
    + simpl in Hk. replace (sz * Datatypes.S k) with (sz + sz * k) by lia.
      rewrite <- skipn_add. rewrite skipn_app.
      rewrite (skipn_all2 (n:=sz) (S g)) by (rewrite (Hl g) by (simpl; auto); lia).
      rewrite (Hl g) by (simpl; auto). rewrite Nat.sub_diag, skipn_O. cbn [app].
      apply IH; auto. intros; apply Hl; simpl; auto.
Qed.

Lemma flat_seg_nth_app (S : field -> list F) sz fs k f tail :
  (forall g, In g fs -> length (S g) = sz) ->
  nth_error fs k = Some f ->
  firstn sz (skipn (sz * k) (flat_map S fs ++ tail)) = S f.
Proof.
  intros Hl Hk.
  assert (Hlen : length (flat_map S fs) = sz * length fs).
  { clear Hk. induction fs as [|g fs IH]; [simpl; lia|]. simpl flat_map.
    rewrite app_length, (Hl g), IH by (simpl; intros; apply Hl || auto; simpl; auto).
    simpl length. lia. }
  assert (Hkl : k < length fs) by (apply nth_error_Some; congruence).
  rewrite skipn_app, firstn_app.
  rewrite flat_seg_nth with (f := f) by auto.
  rewrite skipn_length, Hlen.
  assert (Hz : sz - (sz * length fs - sz * k) = 0) by nia.
  rewrite Hz. simpl. apply app_nil_r.
Qed.

(** ** reading *)

(** the untrimmed array of field [f] in a raw list of doubles *)
Definition raw_at (raw : list F) (ni nj : nat) (f : field) (i j : nat) : F :=
  nth (index_of f fields * ((ni + 1) * (nj + 1)) + j * (ni + 1) + i) raw (nzero N).

Lemma nth_skipn {A} k n (l : list A) d : nth n (skipn k l) d = nth (k + n) l d.
Proof.
  revert l; induction k as [|k IH]; intros l; [reflexivity|].
  destruct l as [|x l]; simpl; [destruct n; reflexivity|apply IH].
Qed.

Lemma nth_firstn {A} k n (l : list A) d : n < k -> nth n (firstn k l) d = nth n l d.
Proof.
  revert n l; induction k as [|k IH]; intros n l H; [lia|].
  destruct l as [|x l]; simpl; [reflexivity|]. destruct n; [reflexivity|]. apply IH; lia.
Qed.

Lemma seg_in_range sz k n : k < 16 -> 16 * sz <= n -> sz * k + sz <= n.
Proof. intros. nia. Qed.

Lemma read_seg raw ni nj f :
  16 * ((ni + 1) * (nj + 1)) <= length raw ->
  exists m,
    reshapeF N (firstn ((ni + 1) * (nj + 1))
      (skipn ((ni + 1) * (nj + 1) * index_of f fields) raw)) (ni + 1) (nj + 1) = Ok m /\
    mat_is m (ni + 1) (nj + 1) (raw_at raw ni nj f).
Proof.
  intros H. unfold reshapeF.
  assert (HL : length (firstn ((ni + 1) * (nj + 1))
      (skipn ((ni + 1) * (nj + 1) * index_of f fields) raw)) = (ni + 1) * (nj + 1)).
  { rewrite firstn_length, skipn_length.
    pose proof (seg_in_range ((ni+1)*(nj+1)) _ (length raw) (index_lt f) H) as HR.
    revert HR. generalize ((ni + 1) * (nj + 1)). intros sz HR. 
    generalize dependent (sz * index_of f fields). intros. lia. }
  rewrite HL, Nat.eqb_refl. eexists; split; [reflexivity|].
  split; [reflexivity|]. split; [reflexivity|].
  intros i j Hi Hj. simpl. unfold raw_at.
  rewrite nth_firstn by nia. rewrite nth_skipn. f_equal. lia.
Qed.

Lemma read_seg_err raw ni nj f :
  length raw < (index_of f fields + 1) * ((ni + 1) * (nj + 1)) ->
  exists msg, reshapeF N (firstn ((ni + 1) * (nj + 1))
      (skipn ((ni + 1) * (nj + 1) * index_of f fields) raw)) (ni + 1) (nj + 1)
    = Err (ValueError msg).
Proof.
  intros H. unfold reshapeF.
  assert (HL : length (firstn ((ni + 1) * (nj + 1))
      (skipn ((ni + 1) * (nj + 1) * index_of f fields) raw)) <> (ni + 1) * (nj + 1)).
  { rewrite firstn_length, skipn_length. nia. }
  apply Nat.eqb_neq in HL. rewrite HL. eauto.
Qed.

(** Specification side of the strict check. *)
Definition pad_pos (f : field) (ni nj i j : nat) : Prop :=
  i <= ni /\ j <= nj /\ (ni + ni_delta f <= i \/ nj + nj_delta f <= j).

Lemma padding_nonzero_spec f ni nj m (h : nat -> nat -> F) :
  mat_is m (ni + 1) (nj + 1) h ->
  padding_nonzero N f ni nj m = true <->
  exists i j, pad_pos f ni nj i j /\ neqb N (h i j) (nzero N) = false.
Proof.
  intros (Hr & Hc & Hv). unfold padding_nonzero, truthy, pad_pos.
  rewrite orb_true_iff, !andb_true_iff, !negb_true_iff, !Nat.ltb_ge, !existsb_exists.
  pose proof (ni_delta_le f). pose proof (nj_delta_le f). split.
  - intros [[Hd (j & Hj & E)]|[Hd (i & Hi & E)]].
    + apply in_seq in Hj. rewrite negb_true_iff in E.
      exists ni, j. rewrite <- Hv by lia. repeat split; auto; lia.
    + apply in_seq in Hi. rewrite negb_true_iff in E.
      exists i, nj. rewrite <- Hv by lia. repeat split; auto; lia.
  - intros (i & j & (Hi & Hj & Hp) & E).
    rewrite <- Hv in E by lia.
    destruct Hp as [Hp|Hp].
    + left. split; [lia|]. exists j. split; [apply in_seq; lia|].
      replace ni with i by lia. rewrite E. reflexivity.
    + right. split; [lia|]. exists i. split; [apply in_seq; lia|].
      replace nj with j by lia. rewrite E. reflexivity.
Qed.

Lemma read_field_ok raw ni nj strict g f :
  16 * ((ni + 1) * (nj + 1)) <= length raw ->
  (strict = true -> forall i j, pad_pos f ni nj i j ->
     neqb N (raw_at raw ni nj f i j) (nzero N) = true) ->
  exists g', read_field N raw ni nj strict g f = Ok g' /\
    mat_is (g' f) (ni + ni_delta f) (nj + nj_delta f) (raw_at raw ni nj f) /\
    (forall f', f' <> f -> g' f' = g f').
Proof.
  intros H Hs. unfold read_field.
  destruct (read_seg raw ni nj f H) as (m & E & Hm). rewrite E. simpl rbind.
  assert (Hp : strict && padding_nonzero N f ni nj m = false).
  { destruct strict; [|reflexivity]. simpl.
    destruct (padding_nonzero N f ni nj m) eqn:Ep; [|reflexivity].
    apply (padding_nonzero_spec f ni nj m _ Hm) in Ep.
    destruct Ep as (i & j & Hpos & Ez). rewrite (Hs eq_refl i j Hpos) in Ez. discriminate. }
  rewrite Hp. eexists; split; [reflexivity|].
  destruct Hm as (Hr & Hc & Hv).
  pose proof (ni_delta_le f). pose proof (nj_delta_le f).
  split.
  - unfold upd. rewrite field_beq_refl. unfold mtrim. repeat split; simpl; try lia.
    intros i j Hi Hj. apply Hv; lia.
  - intros f' Hne. unfold upd. rewrite field_beq_false by auto. reflexivity.
Qed.

Lemma read_total bs ni nj strict :
  16 * ((ni + 1) * (nj + 1)) <= length (fromfile bs) ->
  (strict = true -> forall f i j, pad_pos f ni nj i j ->
     neqb N (raw_at (fromfile bs) ni nj f i j) (nzero N) = true) ->
  exists g, read_mitgrid N C bs ni nj strict = Ok g /\
    forall f, mat_is (g f) (ni + ni_delta f) (nj + nj_delta f) (raw_at (fromfile bs) ni nj f).
Proof.
  intros H Hs. unfold read_mitgrid.
  destruct (foldM_inv (read_field N (fromfile bs) ni nj strict)
    (fun done g => forall f, In f done ->
       mat_is (g f) (ni + ni_delta f) (nj + nj_delta f) (raw_at (fromfile bs) ni nj f))
    fields (fun _ => mconst 0 0 (nzero N))) as (g & Hg & HP).
  - intros f [].
  - intros done f rest g Hl HP.
    destruct (read_field_ok (fromfile bs) ni nj strict g f H) as (g' & E & Hm & Ho); auto.
    exists g'. split; auto. intros f' Hin. apply in_app_or in Hin.
    destruct (field_eq_dec f' f) as [->|Hne]; auto.
    destruct Hin as [Hin|[<-|[]]]; [|congruence].
    rewrite Ho by auto. auto.
  - exists g. split; auto. intros f. apply HP. apply fields_complete.
Qed.

Lemma read_field_inv raw ni nj strict g f g' :
  read_field N raw ni nj strict g f = Ok g' ->
  (index_of f fields + 1) * ((ni + 1) * (nj + 1)) <= length raw.
Proof.
  unfold read_field. intros H. apply rbind_ok in H. destruct H as (m & E & _).
  destruct (Nat.le_gt_cases ((index_of f fields + 1) * ((ni + 1) * (nj + 1))) (length raw)); auto.
  destruct (read_seg_err raw ni nj f) as (msg & E'); [lia|]. congruence.
Qed.

(** a successful read implies the file was long enough *)
Lemma read_inv_length bs ni nj strict g :
  read_mitgrid N C bs ni nj strict = Ok g ->
  16 * ((ni + 1) * (nj + 1)) <= length (fromfile bs).
Proof.
  intros H. unfold read_mitgrid in H.
  change fields with ([XC; YC; DXF; DYF; RAC; XG; YG; DXV; DYU; RAZ; DXC; DYC; RAW; RAS; DXG] ++ [DYG]) in H.
  rewrite foldM_app in H. apply rbind_ok in H. destruct H as (g1 & _ & H).
  simpl foldM in H. apply rbind_ok in H. destruct H as (g2 & H & _).
  apply read_field_inv in H. exact H.
Qed.

Lemma read_err_kind bs ni nj strict e :
  read_mitgrid N C bs ni nj strict = Err e ->
  (exists m, e = ValueError m) \/ (exists m, e = RuntimeError m).
Proof.
  unfold read_mitgrid. generalize (fun _ : field => mconst 0 0 (nzero N)).
  induction fields as [|f fs IH]; simpl; intros g H; [discriminate|].
  apply rbind_err in H. destruct H as [H|(g' & _ & H)]; [|eauto].
  unfold read_field in H. apply rbind_err in H. destruct H as [H|(m & _ & H)].
  - unfold reshapeF in H.
    destruct (length _ =? _) in H; inversion H; eauto.
  - destruct (strict && padding_nonzero N f ni nj m); inversion H; eauto.
Qed.

(** with enough data, a strict failure is a RuntimeError caused by some padding *)
Lemma read_strict_err bs ni nj :
  16 * ((ni + 1) * (nj + 1)) <= length (fromfile bs) ->
  (exists f i j, pad_pos f ni nj i j /\
     neqb N (raw_at (fromfile bs) ni nj f i j) (nzero N) = false) ->
  exists m, read_mitgrid N C bs ni nj true = Err (RuntimeError m).
Proof.
  intros H (f & i & j & Hp & Hz).
  unfold read_mitgrid. generalize (fun _ : field => mconst 0 0 (nzero N)).
  pose proof (fields_complete f) as Hin. revert Hin.
  induction fields as [|g fs IH]; simpl; intros Hin G; [contradiction|].
  destruct (read_seg (fromfile bs) ni nj g H) as (m & E & Hm).
  unfold read_field at 1. rewrite E. simpl rbind at 2.
  destruct (padding_nonzero N g ni nj m) eqn:Ep.
  - simpl. eauto.
  - simpl. apply IH. destruct Hin as [<-|Hin]; auto. exfalso.
    assert (Ht : padding_nonzero N g ni nj m = true).
    { apply (padding_nonzero_spec g ni nj m _ Hm). eauto. }
    congruence.
Qed.

(** ** write then read *)

Definition segs_ok (d : griddict F) ni nj := forall f, exists m, padded N (d f) ni nj f = Ok m.

Lemma write_raw_at d ni nj f i j tail : segs_ok d ni nj -> i <= ni -> j <= nj ->
  raw_at (flat_map (seg d ni nj) fields ++ tail) ni nj f i j = pad_at (d f) ni nj f i j.
Proof.
  intros Hs Hi Hj. unfold raw_at.
  set (sz := (ni + 1) * (nj + 1)).
  assert (HL : forall g, In g fields -> length (seg d ni nj g) = sz).
  { intros g _. destruct (Hs g) as (m & E). eapply seg_length; eauto. }
  pose proof (flat_seg_nth_app (seg d ni nj) sz fields _ f tail HL (index_nth f)) as E.
  rewrite <- Nat.add_assoc. rewrite (Nat.mul_comm (index_of f fields)).
  rewrite <- nth_skipn. rewrite <- (nth_firstn sz) by (unfold sz; nia).
  rewrite E. unfold seg. destruct (Hs f) as (m & Em). rewrite Em.
  destruct (padded_is _ _ _ _ _ Em) as (Hr & Hc & Hv).
  rewrite <- Hv by lia. rewrite <- Hr. apply ravelF_nth; lia.
Qed.

Lemma pad_at_zero d ni nj f i j : pad_pos f ni nj i j -> pad_at (d : entry F) ni nj f i j = nzero N.
Proof.
  intros (Hi & Hj & Hp). unfold pad_at.
  destruct (i <? ni + ni_delta f) eqn:E1, (j <? nj + nj_delta f) eqn:E2; try reflexivity.
  apply Nat.ltb_lt in E1, E2. lia.
Qed.

Lemma nominal_padded (g : grid F) ni nj f : nominal g ni nj ->
  exists m, padded N (dict_of_grid g f) ni nj f = Ok m /\
    mat_is m (ni + 1) (nj + 1)
      (fun i j => if (i <? ni + ni_delta f) && (j <? nj + nj_delta f)
                  then mat_at (g f) i j else nzero N).
Proof.
  intros Hn. destruct (Hn f) as [Hr Hc]. unfold dict_of_grid, padded, bcast_ok, bidx.
  rewrite Hr, Hc, !Nat.eqb_refl. simpl. eexists; split; [reflexivity|].
  repeat split. intros i j Hi Hj. simpl.
  destruct (i <? ni + ni_delta f) eqn:E1, (j <? nj + nj_delta f) eqn:E2; simpl; auto.
  apply Nat.ltb_lt in E1, E2. f_equal.
  - destruct (ni + ni_delta f =? 1) eqn:E; auto. apply Nat.eqb_eq in E. lia.
  - destruct (nj + nj_delta f =? 1) eqn:E; auto. apply Nat.eqb_eq in E. lia.
Qed.

Lemma nominal_segs_ok (g : grid F) ni nj : nominal g ni nj -> segs_ok (dict_of_grid g) ni nj.
Proof. intros Hn f. destruct (nominal_padded g ni nj f Hn) as (m & E & _). eauto. Qed.

Lemma nominal_pad_at (g : grid F) ni nj f i j : nominal g ni nj -> i <= ni -> j <= nj ->
  pad_at (dict_of_grid g f) ni nj f i j =
  if (i <? ni + ni_delta f) && (j <? nj + nj_delta f) then mat_at (g f) i j else nzero N.
Proof.
  intros Hn Hi Hj. destruct (nominal_padded g ni nj f Hn) as (m & E & (_ & _ & Hv)).
  destruct (padded_is _ _ _ _ _ E) as (_ & _ & Hv').
  rewrite <- Hv', <- Hv by lia. reflexivity.
Qed.

Lemma segs_ok_length d ni nj : segs_ok d ni nj ->
  length (flat_map (seg d ni nj) fields) = 16 * ((ni + 1) * (nj + 1)).
Proof. intros H. rewrite flat_seg_length by auto. reflexivity. Qed.

Lemma write_ok_segs d ni nj bs : write_mitgrid N C d ni nj = (bs, Ok tt) ->
  segs_ok d ni nj /\ bs = tofile (flat_map (seg d ni nj) fields).
Proof.
  intros H. apply write_fields_ok in H. destruct H as [H ->]. split; [|reflexivity].
  intros f. apply H, fields_complete.
Qed.

Lemma segs_ok_write d ni nj : segs_ok d ni nj ->
  write_mitgrid N C d ni nj = (tofile (flat_map (seg d ni nj) fields), Ok tt).
Proof. intros H. apply write_fields_total. auto. Qed.

(** general form of the round trip: any dictionary that can be written *)
Lemma write_read_gen d ni nj strict (NZ : neqb N (nzero N) (nzero N) = true) :
  segs_ok d ni nj ->
  exists g, read_mitgrid N C (fst (write_mitgrid N C d ni nj)) ni nj strict = Ok g /\
    forall f, mat_is (g f) (ni + ni_delta f) (nj + nj_delta f) (pad_at (d f) ni nj f).
Proof.
  intros Hs. rewrite segs_ok_write by auto. simpl fst.
  pose proof (fromfile_tofile (flat_map (seg d ni nj) fields) []) as Eff.
  rewrite app_nil_r in Eff. change (fromfile []) with (@nil F) in Eff.
  destruct (read_total (tofile (flat_map (seg d ni nj) fields)) ni nj strict) as (g & Hg & Hm).
  - rewrite Eff, app_nil_r, segs_ok_length by auto. lia.
  - intros _ f i j Hp. rewrite Eff. rewrite write_raw_at by (auto; destruct Hp; lia).
    rewrite pad_at_zero by auto. exact NZ.
  - exists g. split; auto. intros f. eapply mat_is_ext; [apply Hm|].
    pose proof (ni_delta_le f). pose proof (nj_delta_le f).
    intros i j Hi Hj. rewrite Eff. apply write_raw_at; auto; lia.
Qed.

Lemma write_read_nominal g ni nj strict (NZ : neqb N (nzero N) (nzero N) = true) :
  nominal g ni nj ->
  exists g', read_mitgrid N C (fst (write_mitgrid N C (dict_of_grid g) ni nj)) ni nj strict = Ok g'
    /\ geq g' g.
Proof.
  intros Hn.
  destruct (write_read_gen (dict_of_grid g) ni nj strict NZ (nominal_segs_ok _ _ _ Hn))
    as (g' & E & Hm).
  exists g'. split; auto. intros f. destruct (Hn f) as [Hr Hc].
  eapply mat_is_meq; [apply Hm|].
  split; [lia|]. split; [lia|]. intros i j Hi Hj.
  pose proof (ni_delta_le f). pose proof (nj_delta_le f).
  rewrite nominal_pad_at by (auto; lia).
  rewrite (proj2 (Nat.ltb_lt _ _) Hi), (proj2 (Nat.ltb_lt _ _) Hj). reflexivity.
Qed.

End Facts.
