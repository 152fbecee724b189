(** Facts about scanforfiles and the file name patterns. *)
From Coq Require Import Ascii String List Bool PeanoNat NArith ZArith Nnat Lia Sorted Permutation.
Import ListNotations.
From Verif Require Import Prelude MdsMeta Mds SpecMds SpecGlob MdsTextFacts GlobFacts.
Local Open Scope nat_scope.
Local Open Scope list_scope.

Lemma skipn_skipn' {A} (n m : nat) (l : list A) : skipn n (skipn m l) = skipn (m + n) l.
Proof.
  revert l. induction m as [|m IH]; intros l; [reflexivity|].
  destruct l; [cbn [skipn]; now rewrite skipn_nil | cbn [skipn Nat.add]; apply IH].
Qed.

Lemma is_digit_iff c : is_digit c = true <-> 48 <= nat_of_ascii c <= 57.
Proof. unfold is_digit. rewrite andb_true_iff, !Nat.leb_le. tauto. Qed.

Lemma is_decimal_iff ds : is_decimal ds <-> forallb is_digit ds = true.
Proof.
  unfold is_decimal. rewrite forallb_forall, Forall_forall.
  split; intros H x I; apply is_digit_iff; auto.
Qed.

Lemma digits_before_match stem ds ending : length ds = 10 ->
  digits_before (length ending) (stem ++ ds ++ ending) = ds.
Proof.
  intros L. unfold digits_before. rewrite !app_length.
  replace (length stem + (length ds + length ending) - length ending) with (length stem + 10) by lia.
  replace (length stem + 10 - 10) with (length stem) by lia.
  replace (length stem + 10 - length stem) with (length ds) by lia.
  rewrite skipn_app, skipn_all, Nat.sub_diag. cbn [skipn app].
  rewrite firstn_app, firstn_all, Nat.sub_diag. cbn [firstn]. apply app_nil_r.
Qed.

Lemma digit_val_Z c : is_digit c = true -> Z.of_N (digit_val c) = (Z.of_nat (nat_of_ascii c) - 48)%Z.
Proof.
  intros H. apply is_digit_iff in H. unfold digit_val, nat_of_ascii in *.
  rewrite N2Z.inj_sub by lia. rewrite <- (N2Nat.id (N_of_ascii c)) at 1. rewrite nat_N_Z. reflexivity.
Qed.

Lemma digits_value_decimal ds : forall acc, forallb is_digit ds = true ->
  Z.of_N (digits_value acc ds) = (Z.of_N acc * 10 ^ Z.of_nat (length ds) + decimal_value ds)%Z.
Proof.
  induction ds as [|c ds IH]; intros acc H.
  - cbn. lia.
  - cbn [forallb] in H. apply andb_prop in H. destruct H as [Hc H].
    change (digits_value acc (c :: ds)) with (digits_value (10 * acc + digit_val c) ds).
    rewrite IH by assumption. cbn [decimal_value length].
    rewrite N2Z.inj_add, N2Z.inj_mul, digit_val_Z by assumption.
    rewrite Nat2Z.inj_succ, Z.pow_succ_r by lia. change (Z.of_N 10) with 10%Z. ring.
Qed.

Lemma int_of_decimal ds : is_decimal ds -> ds <> [] -> int_of_text ds = Some (decimal_value ds).
Proof.
  intros H E. apply is_decimal_iff in H. rewrite int_of_digits by assumption.
  rewrite digits_value_decimal by assumption. now rewrite Z.mul_0_l, Z.add_0_l.
Qed.

Lemma decimal_bound ds : is_decimal ds -> (0 <= decimal_value ds < 10 ^ Z.of_nat (length ds))%Z.
Proof.
  induction 1 as [|c ds H D IH]; [cbn; lia|]. cbn [decimal_value length].
  rewrite Nat2Z.inj_succ, Z.pow_succ_r by lia. nia.
Qed.

Lemma decimal_inj ds : forall es, is_decimal ds -> is_decimal es -> length ds = length es ->
  decimal_value ds = decimal_value es -> ds = es.
Proof.
  induction ds as [|c ds IH]; intros es D E L V; destruct es as [|e es]; try discriminate L; [reflexivity|].
  inversion D as [|? ? Hc D']; inversion E as [|? ? He E']; subst.
  cbn [length] in L. injection L as L. cbn [decimal_value] in V. rewrite L in V.
  pose proof (decimal_bound ds D') as B1. pose proof (decimal_bound es E') as B2. rewrite L in B1.
  set (k := (10 ^ Z.of_nat (length es))%Z) in *.
  assert (Z.of_nat (nat_of_ascii c) = Z.of_nat (nat_of_ascii e)) by nia.
  assert (N : nat_of_ascii c = nat_of_ascii e) by lia.
  f_equal.
  - rewrite <- (ascii_nat_embedding c), <- (ascii_nat_embedding e). now rewrite N.
  - apply IH; auto. nia.
Qed.

(** * Sorting *)

Lemma insertZ_perm x l : Permutation (x :: l) (insertZ x l).
Proof.
  induction l as [|y l IH]; cbn [insertZ]; [apply Permutation_refl|].
  destruct (x <=? y)%Z; [apply Permutation_refl|].
  eapply perm_trans; [apply perm_swap | now apply perm_skip].
Qed.

Lemma sortZ_perm l : Permutation l (sortZ l).
Proof.
  induction l as [|x l IH]; cbn [sortZ fold_right]; [apply perm_nil|]. fold (sortZ l).
  eapply perm_trans; [apply perm_skip; exact IH | apply insertZ_perm].
Qed.

Lemma insertZ_sorted x l : StronglySorted Z.le l -> StronglySorted Z.le (insertZ x l).
Proof.
  induction 1 as [|y l S IH H]; cbn [insertZ].
  - repeat constructor.
  - destruct (Z.leb_spec x y).
    + constructor; [constructor; assumption|]. constructor; [assumption|].
      eapply Forall_impl; [|exact H]. intros; lia.
    + constructor; [exact IH|].
      eapply Permutation_Forall; [apply insertZ_perm|]. constructor; [lia | assumption].
Qed.

Lemma sortZ_sorted l : StronglySorted Z.le (sortZ l).
Proof. induction l; cbn [sortZ fold_right]; [constructor | now apply insertZ_sorted]. Qed.

Lemma sorted_strict l : StronglySorted Z.le l -> NoDup l -> StronglySorted Z.lt l.
Proof.
  induction 1 as [|y l S IH H]; intros N; [constructor|].
  inversion N; subst. constructor; [auto|].
  apply Forall_forall. intros x I. rewrite Forall_forall in H. specialize (H x I).
  assert (x <> y) by (intros ->; contradiction). lia.
Qed.

(** * The scan *)

Lemma mapM_ok {A B} (f : A -> res B) (g : A -> B) l :
  (forall a, In a l -> f a = Ok (g a)) -> mapM f l = Ok (map g l).
Proof.
  induction l as [|a l IH]; intros H; [reflexivity|]. cbn [mapM map].
  rewrite H by (now left). cbn [rbind]. rewrite IH by (intros; apply H; now right). reflexivity.
Qed.

Lemma NoDup_map_in {A B} (f : A -> B) l :
  (forall x y, In x l -> In y l -> f x = f y -> x = y) -> NoDup l -> NoDup (map f l).
Proof.
  intros H N. induction N as [|a l A' N IH]; [constructor|]. cbn [map]. constructor.
  - intros I. apply in_map_iff in I. destruct I as (x & E & I).
    assert (X : x = a) by (apply H; [now right | now left | assumption]). subst. contradiction.
  - apply IH. intros; apply H; auto; now right.
Qed.

Lemma dot_plain : plain_name ["."%char].
Proof. repeat split; cbn; intuition discriminate. Qed.
Lemma meta_plain : plain_name (lit ".meta").
Proof. repeat split; cbn; intuition discriminate. Qed.
Lemma tile_plain : plain_name (lit ".001.001.meta").
Proof. repeat split; cbn; intuition discriminate. Qed.

Lemma scan_one (l : list text) fname ending files :
  plain_name fname -> plain_name ending ->
  files = filter (glob_match ((fname ++ ["."%char] ++ digits_pat 10) ++ ending)) l -> NoDup l ->
  exists r, (itrs <- mapM (fun s => match int_of_text (digits_before (length ending) s) with
                         | Some z => Ok z
                         | None => Err (ValueError "invalid literal for int()")
                         end) files ;; Ok (sortZ itrs)) = Ok r
    /\ StronglySorted Z.lt r /\ (forall z, In z r <-> has_iteration l fname ending z).
Proof.
  intros PF PE F N.
  assert (IM : forall s, glob_match ((fname ++ ["."%char] ++ digits_pat 10) ++ ending) s = true <->
    exists ds, length ds = 10 /\ is_decimal ds /\ s = (fname ++ ["."%char]) ++ ds ++ ending).
  { intros s. rewrite <- glob_digits; [now rewrite <- !app_assoc| |exact PE].
    apply plain_app. split; [exact PF|apply dot_plain]. }
  set (val := fun s => decimal_value (digits_before (length ending) s)).
  assert (M : forall s, In s files -> exists ds, length ds = 10 /\ is_decimal ds
      /\ s = (fname ++ ["."%char]) ++ ds ++ ending).
  { intros s I. subst files. apply filter_In in I. apply IM. tauto. }
  exists (sortZ (map val files)). split; [|split].
  - rewrite (mapM_ok _ val); [reflexivity|].
    intros s I. destruct (M s I) as (ds & L & D & ->). unfold val.
    rewrite digits_before_match by assumption. rewrite int_of_decimal; [reflexivity | assumption|].
    intros ->. discriminate L.
  - apply sorted_strict; [apply sortZ_sorted|].
    eapply Permutation_NoDup; [apply sortZ_perm|].
    apply NoDup_map_in; [|subst files; now apply NoDup_filter].
    intros x y Ix Iy. destruct (M x Ix) as (dx & Lx & Dx & ->). destruct (M y Iy) as (dy & Ly & Dy & ->).
    unfold val. rewrite !digits_before_match by assumption. intros V.
    rewrite (decimal_inj dx dy); auto. congruence.
  - intros z. split.
    + intros I. apply (Permutation_in _ (Permutation_sym (sortZ_perm _))) in I.
      apply in_map_iff in I. destruct I as (s & V & I). pose proof (M s I) as (ds & L & D & ->).
      exists ds. unfold val in V. rewrite digits_before_match in V by assumption.
      repeat split; auto. subst files. apply filter_In in I. rewrite <- app_assoc in I. tauto.
    + intros (ds & L & D & V & I). apply (Permutation_in _ (sortZ_perm _)).
      apply in_map_iff. exists ((fname ++ ["."%char]) ++ ds ++ ending). split.
      * unfold val. now rewrite digits_before_match.
      * subst files. apply filter_In. split; [rewrite <- app_assoc; exact I|].
        apply IM. exists ds. auto.
Qed.

Lemma scan_spec fs fname : plain_name fname -> NoDup (names fs) ->
  exists r, scanforfiles fs fname = Ok r /\ StronglySorted Z.lt r /\
    ((exists n, has_iteration (names fs) fname (lit ".001.001.meta") n) ->
       forall z, In z r <-> has_iteration (names fs) fname (lit ".001.001.meta") z) /\
    (~ (exists n, has_iteration (names fs) fname (lit ".001.001.meta") n) ->
       forall z, In z r <-> has_iteration (names fs) fname (lit ".meta") z).
Proof.
  intros PF N. unfold scanforfiles, glob.
  assert (IM : forall s, glob_match ((fname ++ ["."%char] ++ digits_pat 10) ++ lit ".001.001.meta") s = true <->
    exists ds, length ds = 10 /\ is_decimal ds /\ s = (fname ++ ["."%char]) ++ ds ++ lit ".001.001.meta").
  { intros s. rewrite <- glob_digits; [now rewrite <- !app_assoc| |apply tile_plain].
    apply plain_app. split; [exact PF|apply dot_plain]. }
  destruct (filter (glob_match ((fname ++ ["."%char] ++ digits_pat 10) ++ lit ".001.001.meta")) (names fs)) as [|x l] eqn:T.
  - destruct (scan_one (names fs) fname (lit ".meta") _ PF meta_plain eq_refl N) as (r & E & S & I).
    exists r. split; [exact E|]. split; [exact S|]. split; [|intros _; exact I].
    intros (n & ds & L & D & V & J). exfalso.
    assert (K : In (fname ++ ["."%char] ++ ds ++ lit ".001.001.meta")
                  (filter (glob_match ((fname ++ ["."%char] ++ digits_pat 10) ++ lit ".001.001.meta")) (names fs))).
    { apply filter_In. split; [exact J|]. apply IM. exists ds.
      rewrite <- app_assoc. auto. }
    rewrite T in K. exact K.
  - destruct (scan_one (names fs) fname (lit ".001.001.meta") _ PF tile_plain eq_refl N) as (r & E & S & I).
    rewrite T in E. exists r. split; [exact E|]. split; [exact S|]. split; [intros _; exact I|].
    intros H. exfalso. apply H.
    assert (J : In x (filter (glob_match ((fname ++ ["."%char] ++ digits_pat 10) ++ lit ".001.001.meta")) (names fs)))
      by (rewrite T; now left).
    apply filter_In in J. destruct J as (J & M). apply IM in M.
    destruct M as (ds & L & D & ->). exists (decimal_value ds), ds. rewrite <- app_assoc in J. auto.
Qed.

(** * Tiles *)

Lemma no_tile_glob fs fname : plain_name fname -> ~ has_tile (names fs) fname -> glob fs (tile_pat fname) = [].
Proof.
  intros P H. unfold glob. destruct (filter (glob_match (tile_pat fname)) (names fs)) as [|x l] eqn:E; [reflexivity|].
  exfalso. apply H. assert (I : In x (filter (glob_match (tile_pat fname)) (names fs))) by (rewrite E; now left).
  apply filter_In in I. destruct I as (I & M). apply (glob_tiles fname x P) in M.
  destruct M as (d & e & L & L' & D & D' & ->). exists d, e. auto.
Qed.

(** * Plain names *)

Lemma digits_plain ds : forallb is_digit ds = true -> plain_name ds.
Proof.
  intros H. rewrite forallb_forall in H. repeat split; intros I; apply H in I; discriminate I.
Qed.
Lemma fmt_0d_plain w z : plain_name (fmt_0d w z).
Proof.
  assert (Z : forall k n, plain_name (padl "0" k (dec_text n))).
  { intros k n. unfold padl. apply plain_app. split; [|apply digits_plain, dec_text_digits].
    repeat split; intros I; apply repeat_spec in I; discriminate I. }
  unfold fmt_0d. destruct z; cbn [int_text]; try apply Z.
  apply plain_cons. split; [repeat split; cbn; intuition discriminate|apply Z].
Qed.
Lemma numbered_plain fname z : plain_name fname -> plain_name (fname ++ ["."%char] ++ fmt_0d 10 z).
Proof. intros P. rewrite !plain_app. repeat split; try apply P; try apply dot_plain; apply fmt_0d_plain. Qed.
Lemma glob_eq fs x : plain_name x -> glob fs x = filter (text_eqb x) (names fs).
Proof.
  intros P. unfold glob. apply filter_ext. intros s. destruct (text_eqb x s) eqn:E.
  - apply text_eqb_eq in E. subst. now apply glob_plain.
  - apply text_eqb_neq in E. apply not_true_iff_false. rewrite (glob_plain x s P). congruence.
Qed.
Lemma meta_name_plain fname : plain_name fname -> plain_name (fname ++ lit ".meta").
Proof. intros P. apply plain_app. split; [exact P|apply meta_plain]. Qed.
