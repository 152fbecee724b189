(** Property C88: what a successful call of rdmds has read. *)
From Coq Require Import Ascii String List Bool PeanoNat ZArith Reals Init.Byte Lia Lra.
From Flocq Require Import Core IEEE754.Binary IEEE754.Bits.
Import ListNotations.
From Verif Require Import Prelude PreludeFacts Num Mat MatFacts Fields GridIO Float64 Float64Facts
  Float32 Float32Facts SpecGrid GridIOFacts GridIOProofs MdsMeta Mds SpecMds MdsTextFacts MdsParseFacts
  SpecGlob GlobFacts MdsScanFacts MdsFacts GetObcsFacts RdMds SpecRdMds TileTextFacts RdMdsFacts RdMdsProofs RdMdsCalls
  SpecMeta MetaFacts SpecTimes SpecNumber ArgParse Main SpecArgs NumberFacts AgreeFacts Samples PropMeta PropMds PropRdMds
  SpecMapTile PropMapTile PropGlob.
Local Open Scope nat_scope.
Local Open Scope list_scope.

(** ** Entries that mean the same *)

Inductive meaning := Number (r : R) | Infinite (negative : bool) | Words (t : text).
Inductive denotes : value binary64 -> meaning -> Prop :=
| d_int : forall z, denotes (Vint z) (Number (IZR z))
| d_float : forall x, is_finite 53 1024 x = true -> denotes (Vfloat x) (Number (B2R 53 1024 x))
| d_inf : forall s, denotes (Vfloat (B754_infinity 53 1024 s)) (Infinite s)
| d_str : forall t, denotes (Vstr t) (Words t).
Definition same_value (a b : value binary64) : Prop := exists m, denotes a m /\ denotes b m.
Definition same_entry (a b : option (list (value binary64))) : Prop :=
  match a, b with
  | Some l, Some l' => Forall2 same_value l l'
  | None, None => True
  | _, _ => False
  end.

(** Entries that belong to one file, not to all of them. *)
Definition file_only (k : text) : Prop :=
  In k [lit "dimList"; lit "timeInterval"; lit "timeStepNumber"; lit "map2glob"].

(** The size of a dimension of the whole array, x first: the first of three numbers. *)
Definition size_of_dim (es : list (text * list (value binary64))) (i : nat) : option (value binary64) :=
  match last_value es (lit "dimList") with Some vs => nth_error (rev vs) (3 * i + 2) | None => None end.

Definition files_agree (es es' : list (text * list (value binary64))) : Prop :=
  (forall k, ~ file_only k -> same_entry (last_value es k) (last_value es' k)) /\
  forall i, size_of_dim es i = size_of_dim es' i.

Lemma denotes_fun v m m' : denotes v m -> denotes v m' -> m = m'.
Proof.
  intros H K. destruct H; inversion K; subst; try reflexivity; try discriminate.
Qed.
Lemma same_sym a b : same_value a b -> same_value b a.
Proof. intros (m & H & K). now exists m. Qed.
Lemma same_trans a b c : same_value a b -> same_value b c -> same_value a c.
Proof. intros (m & H & K) (m' & H' & K'). exists m. split; [exact H|]. now rewrite (denotes_fun _ _ _ K H'). Qed.
Lemma entry_sym a b : same_entry a b -> same_entry b a.
Proof.
  destruct a as [l|], b as [l'|]; cbn; auto. induction 1; constructor; auto. now apply same_sym.
Qed.
Lemma entry_trans a b c : same_entry a b -> same_entry b c -> same_entry a c.
Proof.
  destruct a as [l|], b as [l'|], c as [l''|]; cbn; try tauto. intros H. revert l''. induction H as [|x y l l' E H IH]; intros l'' K.
  - inversion K. constructor.
  - inversion K; subst. constructor; [eapply same_trans; eauto|auto].
Qed.

Lemma eqb_same x y : b64_eqb x y = true -> same_value (Vfloat x) (Vfloat y).
Proof.
  unfold b64_eqb. destruct (b64_compare x y) as [[]|] eqn:C; try discriminate. intros _.
  destruct (is_finite 53 1024 x) eqn:FX, (is_finite 53 1024 y) eqn:FY.
  - unfold b64_compare in C. rewrite Bcompare_correct in C by assumption. injection C as C. apply Rcompare_Eq_inv in C.
    exists (Number (B2R 53 1024 x)). split; [now constructor|]. rewrite C. now constructor.
  - destruct x, y; try discriminate FX; try discriminate FY; unfold b64_compare in C; cbn in C; try discriminate C;
      destruct s0; discriminate C.
  - destruct x, y; try discriminate FX; try discriminate FY; unfold b64_compare in C; cbn in C; try discriminate C;
      destruct s; discriminate C.
  - destruct x, y; try discriminate FX; try discriminate FY; unfold b64_compare in C; cbn in C; try discriminate C.
    destruct s, s0; try discriminate C; eexists; split; apply d_inf.
Qed.

Lemma eqz_value x z : b64_eqz x z = true -> is_finite 53 1024 x = true /\ B2R 53 1024 x = IZR z.
Proof.
  destruct x as [s|s|s pl H|s m e H]; cbn [b64_eqz is_finite B2R]; try discriminate.
  - intros E. apply Z.eqb_eq in E. now subst.
  - intros E. split; [reflexivity|]. unfold F2R. cbn [Fnum Fexp].
    replace (cond_Zopp s (Z.pos m)) with (if s then Z.neg m else Z.pos m) by now destruct s.
    set (n := if s then Z.neg m else Z.pos m) in *. destruct (Z.leb_spec 0 e) as [G|G]; apply Z.eqb_eq in E.
    + rewrite <- E, mult_IZR. f_equal. symmetry. apply (IZR_Zpower radix2). exact G.
    + rewrite E, mult_IZR. change 2%Z with (radix_val radix2). rewrite (IZR_Zpower radix2) by lia.
      rewrite Rmult_assoc, <- bpow_plus. replace (- e + e)%Z with 0%Z by lia. cbn [bpow]. ring.
Qed.
Lemma value_eqb_same L a b : value_eqb (b64ops L) a b = true -> same_value a b.
Proof.
  destruct a, b; cbn [value_eqb]; try discriminate.
  - intros E. apply Z.eqb_eq in E. subst. eexists. split; constructor.
  - intros E. apply eqz_value in E. destruct E as (FI & E). eexists. split; [apply d_int|]. rewrite <- E. now apply d_float.
  - intros E. apply eqz_value in E. destruct E as (FI & E). eexists. split; [|apply d_int]. rewrite <- E. now apply d_float.
  - apply eqb_same.
  - intros E. apply text_eqb_eq in E. subst. eexists. split; constructor.
Qed.
Lemma values_eqb_same L : forall a b, values_eqb (b64ops L) a b = true -> Forall2 same_value a b.
Proof.
  induction a as [|x a IH]; intros [|y b] H; try discriminate H; [constructor|]. cbn [values_eqb] in H.
  apply andb_true_iff in H. destruct H as (H1 & H2). constructor; [now apply (value_eqb_same L)|auto].
Qed.

Lemma dget_in {A} (d : list (text * A)) k v : dget d k = Some v -> In (k, v) d.
Proof.
  induction d as [|[k' v'] d IH]; [discriminate|]. cbn [dget]. destruct (text_eqb k k') eqn:E; [|intros; right; auto].
  apply text_eqb_eq in E. subst. intros [= ->]. now left.
Qed.
Lemma dget_none {A} (d : list (text * A)) k : dget d k = None <-> ~ In k (map fst d).
Proof.
  induction d as [|[k' v'] d IH]; cbn [dget map fst In]; [tauto|]. destruct (text_eqb k k') eqn:E.
  - apply text_eqb_eq in E. subst. split; [discriminate|]. intros H. elim H. now left.
  - rewrite IH. split; [|tauto]. intros H [->|I]; [now rewrite text_eqb_refl in E|auto].
Qed.

Lemma meta_eqb_same L a b : NoDup (map fst a) -> meta_eqb (b64ops L) a b = true ->
  forall k, same_entry (dget a k) (dget b k).
Proof.
  intros ND H. unfold meta_eqb in H. apply andb_true_iff in H. destruct H as (LE & FA). apply Nat.eqb_eq in LE.
  rewrite forallb_forall in FA.
  assert (INC : incl (map fst a) (map fst b)).
  { intros k I. apply in_map_iff in I. destruct I as ([k' v] & <- & I). specialize (FA _ I). cbn [fst snd] in *.
    destruct (dget b k') as [v'|] eqn:D; [|discriminate]. apply dget_in in D. change k' with (fst (k', v')). now apply in_map. }
  assert (INC' : incl (map fst b) (map fst a)).
  { apply NoDup_length_incl; [exact ND | rewrite !map_length; lia | exact INC]. }
  intros k. destruct (dget a k) as [v|] eqn:D.
  - apply dget_in in D. specialize (FA _ D). cbn [fst snd] in FA. destruct (dget b k) as [v'|]; [|discriminate].
    now apply (values_eqb_same L).
  - apply dget_none in D. destruct (dget b k) as [v'|] eqn:D'; [|exact I]. exfalso. apply D, INC'.
    apply dget_in in D'. change k with (fst (k, v')). now apply in_map.
Qed.

(** ** What readmeta keeps *)

Lemma dget_app {A} (l m : list (text * A)) k : dget (l ++ m) k = match dget l k with Some v => Some v | None => dget m k end.
Proof. induction l as [|[k' v] l IH]; [reflexivity|]. cbn [app dget]. destruct (text_eqb k k'); [reflexivity|apply IH]. Qed.
Lemma dget_dpop {A} (d : list (text * A)) k k' : dget (dpop d k') k = if text_eqb k' k then None else dget d k.
Proof.
  unfold dpop. induction d as [|[a v] d IH]; [now destruct (text_eqb k' k)|]. cbn [filter fst].
  destruct (text_eqb k' a) eqn:E; cbn [negb].
  - rewrite IH. apply text_eqb_eq in E. subst a. cbn [dget]. destruct (text_eqb k' k) eqn:Q; [reflexivity|].
    destruct (text_eqb k k') eqn:Q'; [|reflexivity]. apply text_eqb_eq in Q'. subst. now rewrite text_eqb_refl in Q.
  - cbn [dget]. rewrite IH. destruct (text_eqb k a) eqn:Q; [|reflexivity]. apply text_eqb_eq in Q. subst. now rewrite E.
Qed.
Lemma dpop_nodup {A} (d : list (text * A)) k : NoDup (map fst d) -> NoDup (map fst (dpop d k)).
Proof.
  unfold dpop. induction d as [|[a v] d IH]; [auto|]. cbn [map fst filter]. intros H. inversion H as [|? ? NI H']; subst.
  destruct (negb (text_eqb k a)); [|auto]. cbn [map fst]. constructor; [|auto]. intros I. apply NI.
  apply in_map_iff in I. destruct I as (x & <- & I). apply filter_In in I. apply in_map. tauto.
Qed.

Lemma nth_error_nil {A} n : nth_error (@nil A) n = None.
Proof. now destruct n. Qed.
Lemma every3_nth {A} : forall n (l : list A) i, length l <= n -> nth_error (every3 l) i = nth_error l (3 * i).
Proof.
  induction n as [|n IH]; intros l i LE.
  - destruct l; [|cbn in LE; lia]. cbn [every3]. destruct i; [reflexivity|]. now rewrite nth_error_nil, nth_error_nil.
  - destruct l as [|a [|b [|c r]]]; cbn [every3].
    + now rewrite !nth_error_nil.
    + destruct i; [reflexivity|]. replace (3 * S i) with (S (3 * i + 2)) by lia. cbn [nth_error]. now rewrite !nth_error_nil.
    + destruct i; [reflexivity|]. replace (3 * S i) with (S (S (3 * i + 1))) by lia. cbn [nth_error]. now rewrite !nth_error_nil.
    + destruct i; [reflexivity|]. replace (3 * S i) with (S (S (S (3 * i)))) by lia. cbn [nth_error]. apply IH. cbn in LE. lia.
Qed.

Lemma mapM_as_int : forall vs l, mapM (as_int (F:=binary64)) vs = Ok l -> vs = map Vint l.
Proof.
  induction vs as [|v vs IH]; intros l H; [injection H as <-; reflexivity|]. cbn [mapM] in H.
  destruct v; cbn [as_int rbind] in H; try discriminate H. destruct (mapM as_int vs) as [ys|] eqn:E; [|discriminate H].
  injection H as <-. cbn [map]. now rewrite (IH ys).
Qed.

Lemma nodup_snoc {A} (l : list A) x : NoDup l -> ~ In x l -> NoDup (l ++ [x]).
Proof.
  intros H N. rewrite <- (rev_involutive (l ++ [x])). apply NoDup_rev. rewrite rev_app_distr. cbn [rev app].
  constructor; [|now apply NoDup_rev]. intros I. now apply in_rev in I.
Qed.

Lemma ok_inj {A} (a b : A) : Ok a = Ok b -> a = b.
Proof. now intros [= ->]. Qed.

(** The dictionary kept of a meta file. *)
Lemma readmeta_kept t fm : readmeta_full float_arg t = Ok fm ->
  exists es, meta_file float_text t es /\
    NoDup (map fst (tm_meta (fm_tile fm))) /\
    (forall k, ~ file_only k -> dget (tm_meta (fm_tile fm)) k = last_value es k) /\
    exists gd, dget (tm_meta (fm_tile fm)) (lit "dimList") = Some (map Vint (rev gd)) /\
      forall i, size_of_dim es i = option_map (Vint (F:=binary64)) (nth_error gd i).
Proof.
  unfold readmeta_full, readmeta. destruct (parsemeta float_arg t) as [d|e] eqn:P; [|discriminate]. cbn [rbind].
  destruct (dget d (lit "dimList")) as [vs|] eqn:DL; [|discriminate].
  destruct (mapM as_int vs) as [dl|e] eqn:MI; [|discriminate]. cbn [rbind]. intros E. apply ok_inj in E. subst fm.
  cbn [fm_tile tm_meta].
  apply (parsemeta_iff float_arg float_text float_text_iff) in P. destruct P as (es & M & ->). exists es. split; [exact M|].
  assert (ND : NoDup (map fst (dset_all [] es))) by (apply dset_all_nodup; constructor).
  assert (DG : forall k, dget (dset_all [] es) k = last_value es k) by (intros k; rewrite dget_dset_all; now destruct (last_value es k)).
  set (rest := dpop (dpop (dpop (dpop (dset_all [] es) (lit "dimList")) (lit "timeInterval")) (lit "timeStepNumber")) (lit "map2glob")).
  assert (NR : NoDup (map fst rest)) by (unfold rest; now do 4 apply dpop_nodup).
  assert (R0 : forall k, dget rest k = if existsb (fun x => text_eqb x k) [lit "dimList"; lit "timeInterval"; lit "timeStepNumber"; lit "map2glob"]
                               then None else last_value es k).
  { intros k. unfold rest. rewrite !dget_dpop, DG. cbn [existsb].
    destruct (text_eqb (lit "dimList") k), (text_eqb (lit "timeInterval") k), (text_eqb (lit "timeStepNumber") k), (text_eqb (lit "map2glob") k); reflexivity. }
  assert (DN : dget rest (lit "dimList") = None) by (rewrite R0; reflexivity).
  split; [|split].
  - rewrite map_app. apply nodup_snoc; [exact NR|]. now apply dget_none in DN.
  - intros k NF. rewrite dget_app, R0.
    replace (existsb _ _) with false.
    + destruct (last_value es k); [reflexivity|]. cbn [dget]. destruct (text_eqb k (lit "dimList")) eqn:E; [|reflexivity].
      apply text_eqb_eq in E. subst. elim NF. now left.
    + symmetry. apply not_true_is_false. intros E. apply existsb_exists in E. destruct E as (x & I & E).
      apply text_eqb_eq in E. subst. now apply NF.
  - exists (every3 (skipn 2 (rev dl))). split.
    + rewrite dget_app, DN. cbn [dget]. now rewrite text_eqb_refl.
    + intros i. unfold size_of_dim. rewrite <- DG, DL. apply mapM_as_int in MI. subst vs.
      rewrite (every3_nth (length (skipn 2 (rev dl)))) by lia. rewrite <- map_rev, nth_error_map.
      assert (SK : forall {A} (l : list A) k j, nth_error (skipn k l) j = nth_error l (k + j)).
      { clear. intros A l k. revert l. induction k as [|k IH]; intros [|x l] j; try reflexivity; [cbn [skipn Nat.add]; now rewrite !nth_error_nil|apply IH]. }
      rewrite SK. now rewrite Nat.add_comm.
Qed.

(** ** Agreement *)

Lemma same_ints l l' : Forall2 same_value (map Vint l) (map Vint l') -> l = l'.
Proof.
  revert l'. induction l as [|a l IH]; intros [|b l'] H; try (now inversion H). cbn [map] in H.
  inversion H as [|? ? ? ? (m & H1 & H2) H']; subst. f_equal; [|auto]. apply eq_IZR.
  pose proof (denotes_fun _ _ _ H1 (d_int a)) as E1. pose proof (denotes_fun _ _ _ H2 (d_int b)) as E2. congruence.
Qed.

Theorem C88_read_files_agree :
  forall (L : libm) fs fname it mf od o fs' arr itrs meta, byte_order mf od ->
  rdmds64_full L float_arg fs fname it mf o = (fs', Ok (arr, itrs, meta)) ->
  forall z1 z2 s1 s2, In z1 itrs -> In z2 itrs ->
  is_metafile (names fs) (file_base fname it z1) s1 -> is_metafile (names fs) (file_base fname it z2) s2 ->
  exists b1 es1 b2 es2,
    dget fs s1 = Some b1 /\ meta_file float_text (byte_text b1) es1 /\
    dget fs s2 = Some b2 /\ meta_file float_text (byte_text b2) es2 /\
    (s1 = s2 \/ files_agree es1 es2).
Proof.
  intros L fs fname it mf od o fs' arr itrs meta BO H z1 z2 s1 s2 I1 I2 M1 M2.
  apply byte_order_prefix in BO. apply (rdmds_inv (b64ops L) b64codec b32codec float_arg o od) in H; [|exact BO].
  destruct H as (_ & _ & ls & acc & n0 & F2 & _ & SO).
  assert (IN : forall z s, In z itrs -> is_metafile (names fs) (file_base fname it z) s -> In s (concat ls)).
  { intros z s I M. rewrite file_base_of in M. clear - F2 I M. induction F2 as [|z' l zs ls E F2 IH]; [destruct I|].
    cbn [concat]. apply in_or_app. destruct I as [->|I]; [left|right; auto].
    pose proof (metafiles_found fs (base_of fname (adds it) z)) as K. rewrite E in K. now apply K. }
  apply IN in M1; [|exact I1]. apply IN in M2; [|exact I2].
  destruct SO as (_ & SO). destruct (a_state acc) as [s|], n0 as [n|]; try (now destruct SO); [|rewrite SO in M1; destruct M1].
  destruct SO as (_ & (fm0 & (b0 & D0 & R0) & E0) & AG). rewrite Forall_forall in AG.
  assert (G : forall x, In x (concat ls) -> exists b es, dget fs x = Some b /\ meta_file float_text (byte_text b) es /\
     exists fm, readmeta_full float_arg (byte_text b) = Ok fm /\
       (x = n \/ meta_eqb (b64ops L) (tm_meta (fm_tile fm)) (s_meta s) = true)).
  { intros x I. destruct (AG x I) as [->|(fm & (b & D & R) & E)].
    - destruct (readmeta_kept _ _ R0) as (es & ME & _). exists b0, es. split; [exact D0|]. split; [exact ME|]. exists fm0. auto.
    - destruct (readmeta_kept _ _ R) as (es & ME & _). exists b, es. split; [exact D|]. split; [exact ME|]. exists fm. auto. }
  destruct (G s1 M1) as (b1 & es1 & D1 & ME1 & fm1 & R1 & C1). destruct (G s2 M2) as (b2 & es2 & D2 & ME2 & fm2 & R2 & C2).
  exists b1, es1, b2, es2. repeat (split; [assumption|]).
  (* the dictionary of a file and that of the first *)
  destruct (readmeta_kept _ _ R0) as (es0 & ME0 & ND0 & K0 & gd0 & G0 & Z0). rewrite E0 in *.
  assert (T : forall x b es fm, dget fs x = Some b -> meta_file float_text (byte_text b) es ->
     readmeta_full float_arg (byte_text b) = Ok fm ->
     (x = n \/ meta_eqb (b64ops L) (tm_meta (fm_tile fm)) (s_meta s) = true) -> x = n /\ es = es0 \/ files_agree es es0).
  { intros x b es fm D ME R [->|E].
    - left. split; [reflexivity|]. rewrite D0 in D. injection D as <-. now apply (C81_one_meaning (byte_text b0)).
    - right. destruct (readmeta_kept _ _ R) as (es' & ME' & ND & K & gd & GD & Z).
      rewrite (C81_one_meaning _ _ _ ME ME') in *. pose proof (meta_eqb_same L _ _ ND E) as SE. split.
      + intros k NF. rewrite <- (K k NF), <- (K0 k NF). apply SE.
      + intros i. rewrite Z, Z0. pose proof (SE (lit "dimList")) as SD. rewrite GD, G0 in SD. cbn [same_entry] in SD.
        apply same_ints in SD. apply (f_equal (@rev _)) in SD. rewrite !rev_involutive in SD. now rewrite SD. }
  destruct (T _ _ _ _ D1 ME1 R1 C1) as [(-> & ->)|(A1 & B1)], (T _ _ _ _ D2 ME2 R2 C2) as [(-> & ->)|(A2 & B2)].
  - now left.
  - right. split; [intros k NF; apply entry_sym; auto|intros i; symmetry; auto].
  - right. split; auto.
  - right. split; [intros k NF; eapply entry_trans; [auto|]; apply entry_sym; auto | intros i; now rewrite B1, B2].
Qed.

(** ** The dictionary that is returned *)

(** The letters A to Z become a to z; nothing else changes. *)
Definition lowered (k l : text) : Prop :=
  Forall2 (fun a b => (exists i, i < 26 /\ a = ascii_of_nat (65 + i) /\ b = ascii_of_nat (97 + i)) \/
                      ((forall i, i < 26 -> a <> ascii_of_nat (65 + i)) /\ b = a)) k l.

Lemma lower_char_lowered a :
  (exists i, i < 26 /\ a = ascii_of_nat (65 + i) /\ lower_char a = ascii_of_nat (97 + i)) \/
  ((forall i, i < 26 -> a <> ascii_of_nat (65 + i)) /\ lower_char a = a).
Proof.
  unfold lower_char. pose proof (ascii_nat_embedding a) as EA. set (n := nat_of_ascii a) in *.
  destruct ((65 <=? n) && (n <=? 90)) eqn:E.
  - apply andb_true_iff in E. destruct E as (E1 & E2). apply Nat.leb_le in E1. apply Nat.leb_le in E2.
    left. exists (n - 65). split; [lia|]. split; [rewrite <- EA; f_equal; lia|f_equal; lia].
  - right. split; [|reflexivity]. intros i LT ->. unfold n in E. rewrite nat_ascii_embedding in E by lia.
    apply andb_false_iff in E. rewrite !Nat.leb_gt in E. lia.
Qed.
Lemma lower_lowered k : lowered k (RdMds.lower k).
Proof. induction k as [|a k IH]; [constructor|]. unfold RdMds.lower; cbn [map]; fold (RdMds.lower k). constructor; [apply lower_char_lowered|exact IH]. Qed.
Lemma lowered_lower k l : lowered k l -> l = RdMds.lower k.
Proof.
  induction 1 as [|a b k l H K IH]; [reflexivity|]. unfold RdMds.lower; cbn [map]; fold (RdMds.lower k). f_equal; [|exact IH].
  destruct H as [(i & LT & -> & ->)|(NE & ->)]; destruct (lower_char_lowered (ascii_of_nat (65 + i))) as [(j & LJ & E & ->)|(N & E)] || destruct (lower_char_lowered a) as [(j & LJ & E & _)|(_ & E)].
  - apply (f_equal nat_of_ascii) in E. rewrite !nat_ascii_embedding in E by lia. f_equal. lia.
  - elim (N i LT). reflexivity.
  - elim (NE j LJ). exact E.
  - now symmetry.
Qed.

Lemma lower_fold_get {A} (m : list (text * A)) : forall d kl,
  dget (fold_left (fun d kv => dset d (RdMds.lower (fst kv)) (snd kv)) m d) kl =
  match dget (rev (map (fun kv => (RdMds.lower (fst kv), snd kv)) m)) kl with Some v => Some v | None => dget d kl end.
Proof.
  induction m as [|[k v] m IH]; intros d kl; [reflexivity|]. cbn [fold_left map rev fst snd]. rewrite IH, dget_app.
  destruct (dget (rev _) kl); [reflexivity|]. cbn [dget]. rewrite dget_dset. now destruct (text_eqb kl (RdMds.lower k)).
Qed.

Lemma dget_unique {A} (m : list (text * A)) k v : In (k, v) m -> (forall v', In (k, v') m -> v' = v) -> dget m k = Some v.
Proof.
  induction m as [|[a b] m IH]; intros I U; [destruct I|]. cbn [dget]. destruct (text_eqb k a) eqn:E.
  - apply text_eqb_eq in E. subst a. f_equal. apply U. now left.
  - destruct I as [[= -> ->]|I]; [now rewrite text_eqb_refl in E|]. apply IH; [exact I|]. intros v' I'. apply U. now right.
Qed.
Lemma nodup_get {A} (m : list (text * A)) k v : NoDup (map fst m) -> In (k, v) m -> dget m k = Some v.
Proof.
  induction m as [|[a b] m IH]; intros ND I; [destruct I|]. inversion ND as [|? ? NI ND']; subst. cbn [dget].
  destruct I as [[= -> ->]|I]; [now rewrite text_eqb_refl|]. destruct (text_eqb k a) eqn:E; [|auto].
  apply text_eqb_eq in E. subst a. elim NI. cbn [fst]. change k with (fst (k, v)). now apply in_map.
Qed.

Lemma lower_fold_unique {A} (m : list (text * A)) k v : NoDup (map fst m) -> dget m k = Some v ->
  (forall k', In k' (map fst m) -> RdMds.lower k' = RdMds.lower k -> k' = k) ->
  dget (fold_left (fun d kv => dset d (RdMds.lower (fst kv)) (snd kv)) m []) (RdMds.lower k) = Some v.
Proof.
  intros ND G U. rewrite lower_fold_get.
  rewrite (dget_unique _ (RdMds.lower k) v); [reflexivity| |].
  - apply -> in_rev. apply dget_in in G. apply in_map_iff. now exists (k, v).
  - intros v' I. apply in_rev in I. apply in_map_iff in I. destruct I as ([a b] & E & I). cbn [fst snd] in E. injection E as E ->.
    assert (a = k) as -> by (apply U; [change a with (fst (a, v')); now apply in_map|exact E]).
    apply (nodup_get m) in I; [|exact ND]. congruence.
Qed.

Theorem C88_returned_entries :
  forall (L : libm) fs fname it mf od o fs' arr itrs meta, byte_order mf od ->
  rdmds64_full L float_arg fs fname it mf o = (fs', Ok (arr, itrs, meta)) ->
  (exists z s, In z itrs /\ is_metafile (names fs) (file_base fname it z) s) ->
  exists z s b es, In z itrs /\ is_metafile (names fs) (file_base fname it z) s /\
    dget fs s = Some b /\ meta_file float_text (byte_text b) es /\
    forall k vs l, last_value es k = Some vs -> ~ file_only k -> lowered k l ->
      (forall k', file_only k' \/ last_value es k' <> None -> lowered k' l -> k' = k) ->
      dget meta l = Some (Vals vs).
Proof.
  intros L fs fname it mf od o fs' arr itrs meta BO H (z1 & s1 & I1 & M1).
  apply byte_order_prefix in BO. apply (rdmds_inv (b64ops L) b64codec b32codec float_arg o od) in H; [|exact BO].
  destruct H as (_ & _ & ls & acc & n0 & F2 & -> & SO).
  assert (IN : forall s, In s (concat ls) <-> exists z, In z itrs /\ is_metafile (names fs) (file_base fname it z) s).
  { intros s. clear - F2. induction F2 as [|z' l zs ls E F2 IH]; [split; [intros []|now intros (? & [] & _)]|].
    cbn [concat]. rewrite in_app_iff, IH. pose proof (metafiles_found fs (base_of fname (adds it) z')) as K. rewrite E in K. split.
    - intros [J|(z & J & M)]; [exists z'|exists z]; (split; [|]); [now left|rewrite file_base_of; now apply K|now right|exact M].
    - intros (z & [->|J] & M); [left; apply K; now rewrite file_base_of in M|right; now exists z]. }
  assert (J1 : In s1 (concat ls)) by (apply IN; now exists z1).
  destruct SO as (_ & SO). destruct (a_state acc) as [s|] eqn:AS, n0 as [n|]; try (now destruct SO); [|rewrite SO in J1; destruct J1].
  destruct SO as (JN & (fm0 & (b0 & D0 & R0) & E0) & _). apply IN in JN. destruct JN as (z & IZ & MZ).
  destruct (readmeta_kept _ _ R0) as (es & ME & ND & K & _). rewrite E0 in *.
  exists z, n, b0, es. repeat (split; [assumption|]).
  intros k vs l LV NF LO UN. rewrite (lowered_lower _ _ LO) in *. unfold meta_result. rewrite AS.
  set (base := map (fun kv => (fst kv, Vals (snd kv))) (s_meta s)).
  assert (MF : map fst base = map fst (s_meta s)) by (unfold base; rewrite map_map; now apply map_ext).
  assert (GB : dget base k = Some (Vals vs)).
  { apply nodup_get; [now rewrite MF|]. unfold base. apply in_map_iff. exists (k, vs). split; [reflexivity|].
    apply dget_in. now rewrite K. }
  set (m1 := match a_steps acc with [] => base | l => dset base (lit "timeStepNumber") (Vals l) end).
  assert (N1 : NoDup (map fst m1)) by (unfold m1; destruct (a_steps acc); [|apply dset_nodup]; now rewrite MF).
  assert (G1 : dget m1 k = Some (Vals vs)).
  { unfold m1. destruct (a_steps acc); [exact GB|]. rewrite dget_dset. destruct (text_eqb k _) eqn:E; [|exact GB].
    apply text_eqb_eq in E. elim NF. rewrite E. right. right. now left. }
  assert (I1' : forall x, In x (map fst m1) -> file_only x \/ In x (map fst base)).
  { intros x I. unfold m1 in I. destruct (a_steps acc); [now right|]. apply dset_keys in I. destruct I as [->|I]; [|now right].
    left. right. right. now left. }
  set (m2 := match a_intervals acc with [] => m1 | l => dset m1 (lit "timeInterval") (Lists l) end).
  assert (N2 : NoDup (map fst m2)) by (unfold m2; destruct (a_intervals acc); [|apply dset_nodup]; exact N1).
  assert (G2 : dget m2 k = Some (Vals vs)).
  { unfold m2. destruct (a_intervals acc); [exact G1|]. rewrite dget_dset. destruct (text_eqb k _) eqn:E; [|exact G1].
    apply text_eqb_eq in E. elim NF. rewrite E. right. now left. }
  assert (I2' : forall x, In x (map fst m2) -> file_only x \/ In x (map fst base)).
  { intros x I. unfold m2 in I. destruct (a_intervals acc); [auto|]. apply dset_keys in I. destruct I as [->|I]; [|auto].
    left. right. now left. }
  apply lower_fold_unique; [exact N2|exact G2|]. intros k' IK LE. apply UN; [|rewrite <- LE; apply lower_lowered].
  destruct (I2' _ IK) as [FO|IB]; [now left|]. rewrite MF in IB.
  destruct (in_dec (list_eq_dec ascii_dec) k' [lit "dimList"; lit "timeInterval"; lit "timeStepNumber"; lit "map2glob"]) as [FO|NFO]; [now left|].
  right. rewrite <- (K k' NFO). intros E. now apply dget_none in E.
Qed.

Theorem C88_returned_keys :
  forall (L : libm) fs fname it mf od o fs' arr itrs meta, byte_order mf od ->
  rdmds64_full L float_arg fs fname it mf o = (fs', Ok (arr, itrs, meta)) ->
  forall l, In l (map fst meta) -> forall i, i < 26 -> ~ In (ascii_of_nat (65 + i)) l.
Proof.
  intros L fs fname it mf od o fs' arr itrs meta BO H l IL.
  apply byte_order_prefix in BO. apply (rdmds_inv (b64ops L) b64codec b32codec float_arg o od) in H; [|exact BO].
  destruct H as (_ & _ & ls & acc & n0 & _ & -> & _). unfold meta_result in IL.
  match type of IL with In l (map fst (fold_left _ ?m _)) => set (m2 := m) in IL end.
  assert (G : exists k, l = RdMds.lower k).
  { clear - IL. assert (Q : forall (m d : list (text * @mentry binary64)), (forall x, In x (map fst d) -> exists k, x = RdMds.lower k) ->
      forall x, In x (map fst (fold_left (fun d kv => dset d (RdMds.lower (fst kv)) (snd kv)) m d)) -> exists k, x = RdMds.lower k).
    { induction m as [|[a b] m IH]; intros d HD x I; [auto|]. cbn [fold_left fst snd] in I. apply IH in I; [exact I|].
      intros y IY. apply dset_keys in IY. destruct IY as [->|IY]; [now exists a|auto]. }
    eapply Q; [|exact IL]. intros x []. }
  destruct G as (k & ->). intros i LT I. unfold RdMds.lower in I. apply in_map_iff in I. destruct I as (c & E & _).
  destruct (lower_char_lowered c) as [(j & LJ & _ & E2)|(N & E2)]; rewrite E2 in E.
  - apply (f_equal nat_of_ascii) in E. rewrite !nat_ascii_embedding in E by lia. lia.
  - now elim (N i LT).
Qed.

(** ** Byte orders *)

(** Any other name of a byte order is refused before a file is opened. *)
Theorem C88_unknown_byte_order :
  forall (L : libm) fo fs fname it mf o, (forall od, ~ byte_order mf od) ->
  fst (rdmds64_full L fo fs fname it mf o) = fs /\
  (forall itrs, given it itrs ->
     snd (rdmds64_full L fo fs fname it mf o) = Err (ValueError "Allowed machineformats")) /\
  exists e, snd (rdmds64_full L fo fs fname it mf o) = Err e.
Proof.
  intros L fo fs fname it mf o NB.
  assert (TP : typeprefix mf = None).
  { destruct (typeprefix mf) as [od|] eqn:E; [|reflexivity]. elim (NB od). unfold typeprefix in E. cbn [existsb] in E.
    unfold byte_order. rewrite !orb_false_r in E.
    repeat (match type of E with context [text_eqb mf ?x] =>
              let Q := fresh in destruct (text_eqb mf x) eqn:Q;
                [apply text_eqb_eq in Q; rewrite Q; cbn [orb] in E; injection E as <-; cbn [In]; tauto|] end; cbn [orb] in E).
    discriminate E. }
  unfold rdmds64_full, rdmds_full. split; [|split].
  - destruct (itr_list fs fname it); [|reflexivity]. now rewrite TP.
  - intros itrs GI. apply (given_ok fs fname) in GI. now rewrite GI, TP.
  - destruct (itr_list fs fname it); [|now eexists]. rewrite TP. now eexists.
Qed.

(** ** Examples *)

(** Two tiles, the entry format of the second as given. *)
Definition ex_two (prec : string) (k : nat) : directory :=
  let t (lo : string) prec := text_bytes (lit " nDims = [ 2 ];" ++ [ascii_of_nat 10] ++ lit " dimList = [ 4, " ++ lit lo ++ lit ", 1, 1, 1 ];" ++ [ascii_of_nat 10] ++
    lit " Format = [ '" ++ lit prec ++ lit "' ];" ++ [ascii_of_nat 10] ++ lit " dataprec = [ 'float64' ];" ++ [ascii_of_nat 10] ++
    lit " nrecords = [ 1 ];" ++ [ascii_of_nat 10]) in
  [(lit "T.001.001.meta", t "1, 2"%string "raw"%string);
   (lit "T.001.001.data", flat_map (enc_item b64codec b32codec Double Big) [ex_dbl 0; ex_dbl 1]);
   (lit "T.002.001.meta", t "3, 4"%string prec);
   (lit "T.002.001.data", flat_map (enc_item b64codec b32codec Double Big) [ex_dbl k; ex_dbl 3])].
Definition ex_read (prec : string) := rdmds64_full ex_libm float_arg (ex_two prec 2) (lit "T") ItNone (lit "b") (rd_default (b64ops ex_libm)).
Definition ex_entry (prec : string) (k : string) : option (list (value Z)) :=
  match snd (ex_read prec) with
  | Ok (_, _, m) => match dget m (lit k) with
                    | Some (Vals l) => Some (map (fun v => match v with Vint z => Vint z | Vfloat x => Vfloat (bits_of_b64 x) | Vstr t => Vstr t end) l)
                    | _ => None
                    end
  | Err _ => None
  end.
Example C88_case :
  byte_order (lit "b") Big /\
  outcome (ex_read "raw") = Some ([1; 4], bits_at [0; 1; 2; 3], [(-1)%Z]) /\
  is_metafile (names (ex_two "raw" 2)) (file_base (lit "T") ItNone (-1)) (lit "T.001.001.meta") /\
  is_metafile (names (ex_two "raw" 2)) (file_base (lit "T") ItNone (-1)) (lit "T.002.001.meta") /\
  ex_entry "raw" "format" = Some [Vstr (lit "raw")] /\ ex_entry "raw" "Format" = None /\
  ex_entry "raw" "dimlist" = Some [Vint 4%Z; Vint 1%Z] /\ lowered (lit "Format") (lit "format") /\ ~ file_only (lit "Format").
Proof.
  split; [cbn; tauto|]. split; [vm_compute; reflexivity|].
  assert (M : metafiles_of (ex_two "raw" 2) (lit "T") = Ok [lit "T.001.001.meta"; lit "T.002.001.meta"]) by (vm_compute; reflexivity).
  pose proof (metafiles_found (ex_two "raw" 2) (lit "T")) as F. rewrite M in F. destruct F as (_ & F).
  change (file_base (lit "T") ItNone (-1)) with (lit "T").
  split; [apply F; now left|]. split; [apply F; right; now left|].
  split; [vm_compute; reflexivity|]. split; [vm_compute; reflexivity|]. split; [vm_compute; reflexivity|].
  split; [apply (lower_lowered (lit "Format"))|]. intros H. cbn in H. intuition discriminate.
Qed.
(** A second tile that says something else is refused. *)
Example C88_differing_case :
  snd (ex_read "rax") = Err (ValueError "Meta files not compatible") /\ forall od, ~ byte_order (lit "big") od.
Proof. split; [vm_compute; reflexivity|]. intros od H. cbn in H. intuition discriminate. Qed.
