(** A series of iterations, written one after the other. *)
From Coq Require Import Ascii String List Bool PeanoNat ZArith Init.Byte Lia.
Import ListNotations.
From Verif Require Import Prelude PreludeFacts Num MdsMeta Mds SpecMds MdsTextFacts MdsParseFacts SpecGlob GlobFacts MdsScanFacts MdsFacts
  RdMds SpecRdMds TileTextFacts RdMdsFacts RdMdsProofs RdMdsCalls WrMds WrMdsFacts SpecSeries SeriesNames SeriesFrame.
Local Open Scope nat_scope.
Local Open Scope list_scope.

Lemma latest_none {A} (l : list (Z * A)) z : latest l z = None <-> ~ In z (map fst l).
Proof.
  induction l as [|[y a] l IH]; cbn [latest map fst]; [split; [intros _ []|reflexivity]|].
  destruct (latest l z) eqn:E.
  - split; [discriminate|]. intros H. exfalso. apply H. right.
    destruct (in_dec Z.eq_dec z (map fst l)) as [I|I]; [exact I|]. apply IH in I. discriminate I.
  - destruct (Z.eqb_spec y z) as [->|NE].
    + split; [discriminate|]. intros H. exfalso. apply H. now left.
    + split; [|reflexivity]. intros _ [X|X]; [contradiction|]. now apply IH.
Qed.

Lemma latest_in {A} (l : list (Z * A)) z a : latest l z = Some a -> In (z, a) l.
Proof.
  induction l as [|[y b] l IH]; cbn [latest]; [discriminate|]. destruct (latest l z) eqn:E.
  - intros H. injection H as ->. right. now apply IH.
  - destruct (Z.eqb_spec y z) as [->|NE]; [|discriminate]. intros H. injection H as ->. now left.
Qed.

Section Write.
Context {F : Type} (T : timeops F).
Variables (C8 C4 : codec F).

(** wrmds(fbase, arr, itr, dataprec=dp, ndims=.., machineformat=mf) for each of a list. *)
Fixpoint write_series (fs : directory) (fbase dp mf : text) (ndims : option nat) (l : list (Z * nd F)) : directory * res unit :=
  match l with
  | [] => (fs, Ok tt)
  | (z, a) :: r =>
      match wrmds_full T C8 C4 fs fbase a (Some z) dp ndims None TimesNone None None mf None None with
      | (fs', Ok _) => write_series fs' fbase dp mf ndims r
      | (fs', Err e) => (fs', Err e)
      end
  end.

Definition dims_in (a : nd F) (n : nat) : list nat := skipn (length (shape a) - n) (shape a).

Lemma write_one fs fbase (a : nd F) z dp mf ndims o p n :
  typeprefix mf = Some o -> typesuffix dp = Some p -> ndims_of (shape a) ndims None = Ok n -> 1 <= n <= length (shape a) ->
  exists t, meta_text_full T n (rev (dims_in a n)) dp (size (lead_dims (shape a) n)) (Some z) None None None = Ok t /\
    wrmds_full T C8 C4 fs fbase a (Some z) dp ndims None TimesNone None None mf None None
    = (write_file (write_file fs (base_name fbase (Some z) ++ lit ".meta") (text_bytes t)) (base_name fbase (Some z) ++ lit ".data")
         (flat_map (enc_item C8 C4 p o) (ravel a)), Ok tt).
Proof.
  intros TP TS ND NB. unfold wrmds_full. rewrite TP, TS, ND. fold (dims_in a n). cbn [step_and_times times_list].
  assert (W : exists w, dim_width (rev (dims_in a n)) = Ok w).
  { destruct (rev (dims_in a n)) eqn:E; [|eexists; reflexivity]. apply (f_equal (@length _)) in E.
    unfold dims_in in E. rewrite rev_length, skipn_length in E. cbn in E. lia. }
  destruct W as (w & W). unfold meta_text_full. rewrite W. cbn [rbind]. eexists. split; reflexivity.
Qed.

Variables (fbase dp mf : text) (ndims : option nat) (o : order) (p : prec) (n : nat).
Hypothesis TP : typeprefix mf = Some o.
Hypothesis TS : typesuffix dp = Some p.
Hypothesis NP : 1 <= n.

Notation bname z := (base_name fbase (Some z)).

Definition fits (a : nd F) : Prop := ndims_of (shape a) ndims None = Ok n /\ n <= length (shape a).

Definition has_written (fs : directory) (z : Z) (a : nd F) : Prop :=
  exists t, meta_text_full T n (rev (dims_in a n)) dp (size (lead_dims (shape a) n)) (Some z) None None None = Ok t /\
    dget fs (bname z ++ lit ".meta") = Some (text_bytes t) /\
    dget fs (bname z ++ lit ".data") = Some (flat_map (enc_item C8 C4 p o) (ravel a)).

Lemma bname_inj z z' (e e' : text) : (e = lit ".meta" \/ e = lit ".data") -> (e' = lit ".meta" \/ e' = lit ".data") ->
  bname z ++ e = bname z' ++ e' -> z = z'.
Proof.
  intros HE HE' E. destruct (Z.eq_dec z z') as [|NE]; [assumption|exfalso].
  apply (other_iteration fbase z' z (fmt_0d 10 z') (fmt_0d 10 z) e (fmt_iteration z') (fmt_iteration z)); [congruence|exact HE|].
  exists []. split; [now left|]. cbn [app base_name] in *. rewrite <- !app_assoc in E. cbn [app] in E.
  destruct HE' as [-> | ->]; [left|right]; rewrite E; now rewrite <- !app_assoc.
Qed.

Lemma series_written : forall l fs, Forall (fun za => fits (snd za)) l -> NoDup (names fs) ->
  exists fs', write_series fs fbase dp mf ndims l = (fs', Ok tt) /\ NoDup (names fs') /\
    (forall z a, latest l z = Some a -> has_written fs' z a) /\
    (forall k, (forall z, In z (map fst l) -> k <> bname z ++ lit ".meta" /\ k <> bname z ++ lit ".data") ->
       dget fs' k = dget fs k) /\
    (forall k, In k (names fs') <-> In k (names fs) \/
       exists z, In z (map fst l) /\ (k = bname z ++ lit ".meta" \/ k = bname z ++ lit ".data")).
Proof.
  induction l as [|[z a] l IH]; intros fs FA ND.
  - exists fs. split; [reflexivity|]. split; [exact ND|]. split; [discriminate|]. split; [reflexivity|].
    intros k. split; [now left|]. intros [H|(z & [] & _)]. exact H.
  - inversion FA as [|? ? (FI & FL) FA']; subst. cbn [snd] in FI, FL.
    destruct (write_one fs fbase a z dp mf ndims o p n TP TS FI ltac:(lia)) as (t & MT & W).
    cbn [write_series]. rewrite W.
    set (fs1 := write_file (write_file fs _ _) _ _).
    assert (ND1 : NoDup (names fs1)) by (unfold fs1, write_file; now do 2 apply names_dset_NoDup).
    destruct (IH fs1 FA' ND1) as (fs' & E & ND' & LT & KEEP & NM). exists fs'. split; [exact E|]. split; [exact ND'|].
    assert (MD : bname z ++ lit ".meta" <> bname z ++ lit ".data") by (intros X; apply app_inv_head in X; discriminate X).
    split; [|split].
    + intros z' a' H. cbn [latest] in H. destruct (latest l z') eqn:EL.
      { injection H as <-. now apply LT. }
      destruct (Z.eqb_spec z z') as [<-|NE]; [|discriminate H]. injection H as <-. apply latest_none in EL.
      exists t. split; [exact MT|].
      assert (OTH : forall z', In z' (map fst l) -> forall e, e = lit ".meta" \/ e = lit ".data" ->
        bname z ++ e <> bname z' ++ lit ".meta" /\ bname z ++ e <> bname z' ++ lit ".data").
      { intros z' I e HE. split; intros X; apply bname_inj in X; auto; subst z'; contradiction. }
      rewrite !KEEP by (intros; apply OTH; auto). unfold fs1, write_file. rewrite !dget_dset, !text_eqb_refl.
      assert (X : text_eqb (bname z ++ lit ".meta") (bname z ++ lit ".data") = false) by now apply text_eqb_neq.
      rewrite X. auto.
    + intros k H. rewrite KEEP by (intros z' I; apply H; now right). destruct (H z (or_introl eq_refl)) as (H1 & H2).
      unfold fs1, write_file. now rewrite !dget_dset_ne.
    + intros k. rewrite NM. unfold fs1, write_file. rewrite !names_dset. cbn [map fst]. split.
      * intros [[[H|H]|H]|(z' & I & H)]; [now left| | |]; right.
        -- exists z. split; [now left|now left].
        -- exists z. split; [now left|now right].
        -- exists z'. split; [now right|exact H].
      * intros [H|(z' & [<-|I] & H)]; [now left; left; left| |].
        -- left. destruct H as [H|H]; [left; now right|now right].
        -- right. exists z'. now split.
Qed.
End Write.

Section Read.
Context {F : Type} (N : numops F) (T : timeops F).
Variables (C8 C4 : codec F).
Hypothesis E8 : forall x, length (enc C8 x) = 8.
Hypothesis E4 : forall x, length (enc C4 x) = 4.
Variable float_of : text -> option F.
Variable tok : F -> text.
Hypothesis FT : forall x, t_format T x = repeat " "%char (length (t_format T x) - length (tok x)) ++ tok x.

Variables (lead : list nat) (ny nx nrec : nat) (p : prec) (od : order) (dp : text).
Notation td := (one_file lead ny nx nrec p).
Notation dims := (lead ++ [ny; nx]).
Notation zeros := (map (fun _ : nat => 0) dims).
Notation n := (length dims).
Hypothesis DP : dp = prec_text p.

Lemma add_zero idx : forall l : list nat, length idx = length l -> add_idx (map (fun _ => 0) l) idx = idx.
Proof.
  induction idx as [|i idx IH]; intros [|x l] H; try discriminate H; [reflexivity|].
  cbn [map]. change (add_idx (0 :: map (fun _ => 0) l) (i :: idx)) with (i :: add_idx (map (fun _ => 0) l) idx).
  f_equal. apply IH. now injection H.
Qed.

Lemma one_file_dims : td_dims td = dims. Proof. reflexivity. Qed.

Lemma one_inside : tile_inside td zeros.
Proof.
  unfold tile_inside. change (td_dims td) with dims. change (td_ext td) with dims. split; [now rewrite map_length|]. split; [reflexivity|].
  rewrite add_zero by reflexivity. clear. induction dims; constructor; auto.
Qed.
Lemma one_levels k : k <= length lead -> whole_levels td k zeros.
Proof.
  intros H. unfold whole_levels. split; [|reflexivity].
  assert (G : forall m (l : list nat), m <= length l -> firstn m (map (fun _ => 0) l) = repeat 0 m).
  { clear. induction m as [|m IH]; intros [|x l] L; try reflexivity; [cbn in L; lia|]. cbn [map firstn repeat]. now rewrite IH by (cbn in L; lia). }
  apply G. rewrite app_length. lia.
Qed.

Lemma flat_map_twice {X Y Z'} (f : Y -> list Z') (g : X -> list Y) l :
  flat_map f (flat_map g l) = flat_map (fun x => flat_map f (g x)) l.
Proof. induction l as [|x l IH]; [reflexivity|]. cbn [flat_map]. now rewrite flat_map_app, IH. Qed.

Lemma all_idx_app' l1 : forall l2, all_idx (l1 ++ l2) = flat_map (fun u => map (fun v => u ++ v) (all_idx l2)) (all_idx l1).
Proof.
  induction l1 as [|x l1 IH]; intros l2; cbn [app all_idx].
  - cbn [flat_map app]. now rewrite app_nil_r, map_id.
  - rewrite flat_map_twice. apply flat_map_ext. intros i. rewrite IH, map_flat_map, flat_map_map.
    apply flat_map_ext. intros u. now rewrite map_map.
Qed.

Lemma content_one (a : nd F) recs : shape a = recs ++ dims -> size recs = nrec ->
  tile_content td (item recs a) zeros = ravel a.
Proof.
  intros SH SZ. unfold tile_content, ravel. change (td_ext td) with dims. change (td_nrec td) with nrec.
  rewrite SH, (all_idx_app' recs), (map_flat_map (at_ a)).
  transitivity (flat_map (fun u => map (fun v => at_ a (u ++ v)) (all_idx dims)) (map (fun r => nth r (all_idx recs) []) (seq 0 nrec))).
  - rewrite flat_map_map. apply flat_map_ext. intros r. apply map_ext_in. intros idx I. apply in_all_idx in I.
    unfold item. now rewrite add_zero by (now apply valid_length).
  - rewrite <- SZ, <- all_idx_length, map_nth_seq. apply flat_map_ext. intros u. now rewrite map_map.
Qed.

(** The files of one iteration, as wrmds leaves them. *)
Definition left_files (fs : directory) (base : text) (step : option Z) (A : list nat -> F) : Prop :=
  exists a recs t, shape a = recs ++ dims /\ size recs = nrec /\
    readmeta_full float_of t = Ok (file_meta td step zeros) /\
    dget fs (base ++ lit ".meta") = Some (text_bytes t) /\
    dget fs (base ++ lit ".data") = Some (flat_map (enc_item C8 C4 p od) (ravel a)) /\
    A = (fun g => kept C8 C4 p od (item recs a g)).

Lemma written_left fs fbase z a recs : shape a = recs ++ dims -> size recs = nrec ->
  has_written T C8 C4 fbase dp od p n fs z a ->
  left_files fs (base_name fbase (Some z)) (Some z) (fun g => kept C8 C4 p od (item recs a g)).
Proof.
  intros SH SZ (t & MT & GM & GD).
  assert (DI : dims_in a n = dims).
  { unfold dims_in. rewrite SH, (app_length recs). replace (length recs + n - n) with (length recs) by lia.
    rewrite skipn_app, skipn_all, Nat.sub_diag. reflexivity. }
  assert (LD : size (lead_dims (shape a) n) = nrec).
  { unfold lead_dims. destruct n as [|m] eqn:EN; [rewrite app_length in EN; cbn in EN; lia|]. rewrite <- EN, SH, (app_length recs).
    rewrite Nat.add_sub, (firstn_app (length recs) recs), firstn_all, Nat.sub_diag. cbn [firstn]. now rewrite app_nil_r. }
  rewrite DI, LD in MT. exists a, recs, t. split; [exact SH|]. split; [exact SZ|]. split; [|now split].
  destruct (meta_text_full_parses T float_of tok FT n (rev dims) dp nrec (Some z) None None None None) as (t' & MT' & PT); auto; try exact I.
  { intros E. apply (f_equal (@length _)) in E. rewrite rev_length, app_length in E. cbn in E. lia. }
  { rewrite DP. destruct p; auto. }
  rewrite MT in MT'. injection MT' as <-.
  destruct (readmeta_written_full float_of t n dims dp nrec (Some z) None None None PT) as (RF & _). rewrite RF.
  unfold file_meta. change (td_dims td) with dims. change (td_ext td) with dims. do 2 f_equal. f_equal.
  - now rewrite map_map.
  - assert (G : forall l : list nat, map Z.of_nat l = map (fun q => (Z.of_nat (fst q) + Z.of_nat (snd q))%Z) (combine (map (fun _ => 0) l) l)).
    { clear. induction l as [|x l IH]; [reflexivity|]. cbn [map combine fst snd]. now rewrite <- IH. }
    apply G.
  - unfold kept_meta, common_meta. change (td_dims td) with dims. change (td_nrec td) with nrec. change (td_prec td) with p.
    rewrite DP, <- map_rev, map_map. reflexivity.
Qed.

Variable o : rdopts F.
Hypothesis OK : options_ok o td.

Theorem series_read fs fname it mf itrs (A : nat -> list nat -> F) : plain_name fname ->
  itr_list fs fname it = Ok itrs -> typeprefix mf = Some od -> itrs <> [] ->
  (forall i z, nth_error itrs i = Some z ->
     left_files fs (base_of fname (adds it) z) (Some z) (A i) /\ ~ has_tile (names fs) (base_of fname (adds it) z)) ->
  shape_ok o td (it_is_list it) (length itrs) ->
  exists arr,
    rdmds_full N C8 C4 float_of fs fname it mf o = (fs, Ok (arr, itrs, returned_meta td itrs)) /\
    shape arr = result_shape o td (it_is_list it) (length itrs) /\
    ravel arr = flat_map (fun i => map (element o td (A i)) (product (wanted_recs o (td_nrec td) :: wanted o td)))
                  (seq 0 (length itrs)).
Proof.
  intros PF IT TP NE FI DK.
  destruct (rdmds_loop N C8 C4 float_of od td o OK (fun t idx => in_tile (snd t) (td_ext td) idx)
    left_files (fun step t => file_meta td step (snd t))) with (fs := fs) (fname := fname) (it := it) (mf := mf) (itrs := itrs)
    (step := nth_error itrs) (A := A) as (arr & steps & R & ST & SH & RA); auto.
  - intros fs' base step A' name lo (a & recs & t & _ & _ & _ & GM & _) [E|[]]. injection E as <- <-. cbn [app]. eauto.
  - intros nits iit fs' base step A' name lo st fm I (a & recs & t & SH & SZ & RM & GM & GD & ->) G.
    destruct I as [E|[]]. injection E as <- <-.
    apply (read_tile_meta N C8 C4 float_of od td o OK) with (t := t) (bs := flat_map (enc_item C8 C4 p od) (ravel a)); auto.
    + constructor; [|constructor]. split; [apply one_inside|]. apply one_levels. apply OK.
    + now left.
    + rewrite <- (content_one a recs SH SZ). apply (encoded_readable C8 C4 E8 E4 od td o (item recs a) zeros). apply OK.
  - intros i z E. destruct (FI i z E) as (LF & NT). split; [now rewrite E|]. right. split; [reflexivity|exact NT].
  - exists arr. split; [|split; [exact SH|exact RA]]. rewrite R. do 3 f_equal.
    replace steps with (map (Vint (F:=F)) itrs); [now apply returned_meta_ok|].
    rewrite ST. clear. induction itrs as [|z l IH]; [reflexivity|]. cbn [length seq flat_map nth_error map app].
    f_equal. rewrite IH at 1. rewrite <- seq_shift, flat_map_map. reflexivity.
Qed.
End Read.
