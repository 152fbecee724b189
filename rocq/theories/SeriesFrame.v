(** Files that are not asked for do not matter. *)
From Coq Require Import Ascii String List Bool PeanoNat ZArith Lia.
Import ListNotations.
From Verif Require Import Prelude PreludeFacts Num MdsMeta Mds SpecMds MdsTextFacts MdsParseFacts SpecGlob GlobFacts MdsScanFacts MdsFacts
  RdMds SpecRdMds RdMdsCalls RdMdsProofs SpecSeries SeriesNames.
Local Open Scope nat_scope.
Local Open Scope list_scope.

(** Two directories that differ in the file k at most. *)
Definition agree (k : text) (fs fs' : directory) : Prop :=
  (forall n, n <> k -> dget fs' n = dget fs n) /\
  (forall p, p k = false -> filter p (names fs') = filter p (names fs)).

Lemma dget_dset_ne {A} (d : list (text * A)) k v k' : k' <> k -> dget (dset d k v) k' = dget d k'.
Proof. intros H. rewrite dget_dset. apply text_eqb_neq in H. now rewrite H. Qed.

Lemma filter_dset {A} (p : text -> bool) (d : list (text * A)) k v : p k = false ->
  filter p (map fst (dset d k v)) = filter p (map fst d).
Proof.
  intros P. induction d as [|[a w] d IH]; cbn [dset map filter fst]; [now rewrite P|].
  destruct (text_eqb k a) eqn:E; cbn [map filter fst]; [reflexivity|]. now rewrite IH.
Qed.

Lemma names_present {A} (d : list (text * A)) k v w : dget d k = Some w -> map fst (dset d k v) = map fst d.
Proof.
  induction d as [|[a u] d IH]; [discriminate|]. cbn [dget dset]. destruct (text_eqb k a) eqn:E; [reflexivity|].
  intros H. cbn [map fst]. now rewrite IH.
Qed.

Lemma agree_write fs k bs : agree k fs (write_file fs k bs).
Proof.
  split.
  - intros n H. apply dget_dset_ne. exact H.
  - intros p P. now apply filter_dset.
Qed.

Lemma agree_dset k fs fs' n v w : n <> k -> dget fs n = Some w -> agree k fs fs' -> agree k (dset fs n v) (dset fs' n v).
Proof.
  intros NE E (G & P). split.
  - intros m M. rewrite !dget_dset. destruct (text_eqb m n); [reflexivity|now apply G].
  - intros p PK. unfold names. rewrite (names_present fs n v w E), (names_present fs' n v w); [now apply P|]. now rewrite G.
Qed.

Section Frame.
Context {F : Type} (N : numops F).
Variables (C8 C4 : codec F).
Variable float_of : text -> option F.
Variable k : text.

Lemma memmap_agree fs fs' n p od sh : n <> k -> agree k fs fs' ->
  agree k (fst (memmap N C8 C4 fs n p od sh)) (fst (memmap N C8 C4 fs' n p od sh)) /\
  snd (memmap N C8 C4 fs' n p od sh) = snd (memmap N C8 C4 fs n p od sh).
Proof.
  intros NE A. unfold memmap. rewrite (proj1 A) by exact NE. destruct (dget fs n) as [bs|] eqn:E; [|now split].
  destruct (_ =? 0); [now split|]. cbn [fst snd]. split; [|reflexivity].
  destruct (_ <? _); [|exact A]. eapply agree_dset; eassumption.
Qed.

Lemma read_data_agree fs fs' o od st n w ov : n <> k -> agree k fs fs' ->
  agree k (fst (read_data N C8 C4 fs o od st n w ov)) (fst (read_data N C8 C4 fs' o od st n w ov)) /\
  snd (read_data N C8 C4 fs' o od st n w ov) = snd (read_data N C8 C4 fs o od st n w ov).
Proof.
  intros NE A. unfold read_data. destruct (_ || _).
  - destruct (ov_any ov); [|now split]. destruct (o_memmap o).
    + destruct (memmap_agree fs fs' n (s_prec st) od (s_nrec st :: s_recshape st) NE A) as (M1 & M2).
      destruct (memmap N C8 C4 fs n _ od _) as [d r], (memmap N C8 C4 fs' n _ od _) as [d' r']. cbn [fst snd] in *. subst r'. now split.
    + cbn [fst snd]. rewrite (proj1 A) by exact NE. now split.
  - cbn [fst snd]. rewrite (proj1 A) by exact NE. now split.
Qed.

(** Results of a loop's body that agree. *)
Definition same_outcome {S} (r r' : directory * res (directory * S)) : Prop :=
  agree k (fst r) (fst r') /\
  match snd r, snd r' with
  | Ok (d, s), Ok (d', s') => agree k d d' /\ s' = s
  | Err e, Err e' => e' = e
  | _, _ => False
  end.

Lemma foldD_agree {S X} (body : directory * S -> X -> directory * res (directory * S)) : forall l fs fs' s,
  (forall x d d' s, In x l -> agree k d d' -> same_outcome (body (d, s) x) (body (d', s) x)) ->
  agree k fs fs' -> same_outcome (foldD body l (fs, s)) (foldD body l (fs', s)).
Proof.
  induction l as [|x l IH]; intros fs fs' s H A.
  - split; [exact A|]. cbn [foldD snd]. now split.
  - cbn [foldD]. pose proof (H x fs fs' s (or_introl eq_refl) A) as B.
    destruct (body (fs, s) x) as [d r], (body (fs', s) x) as [d' r']. destruct B as (B1 & B2). cbn [fst snd] in *.
    destruct r as [[e t]|e], r' as [[e' t']|e']; try contradiction.
    + destruct B2 as (B2 & ->). apply IH; [|exact B2]. intros y dy dy' sy I. apply H. now right.
    + subst e'. now split.
Qed.

Lemma read_tile_agree o od nits iit fs fs' st fm q : q ++ lit ".meta" <> k -> q ++ lit ".data" <> k -> agree k fs fs' ->
  same_outcome (tiles_body N C8 C4 float_of o od nits iit (fs, (st, fm)) (q ++ lit ".meta"))
               (tiles_body N C8 C4 float_of o od nits iit (fs', (st, fm)) (q ++ lit ".meta")).
Proof.
  intros NM ND A. unfold tiles_body, read_tile_full. rewrite (proj1 A) by exact NM.
  destruct (dget fs (q ++ lit ".meta")) as [bs|]; [|now split].
  match goal with |- context [match ?p with Err _ => _ | Ok _ => _ end] => destruct p as [[[[fm1 st1] ov] w]|e] end; [|now split].
  rewrite data_name. destruct (read_data_agree fs fs' o od st1 (q ++ lit ".data") w ov ND A) as (R1 & R2).
  destruct (read_data N C8 C4 fs o od st1 _ w ov) as [d r], (read_data N C8 C4 fs' o od st1 _ w ov) as [d' r']. cbn [fst snd] in *.
  subst r'. destruct r as [arr|e]; cbn [rbind]; split; cbn [fst snd]; auto.
Qed.

Lemma metafiles_in fs b l m : plain_name b -> metafiles_of fs b = Ok l -> In m l ->
  exists name, (name = [] \/ tile_name name) /\ m = (b ++ name) ++ lit ".meta".
Proof.
  intros PB. unfold metafiles_of. rewrite (glob_eq fs _ (meta_name_plain b PB)). unfold glob.
  destruct (filter (glob_match (tile_pat b)) (names fs)) as [|x r] eqn:T.
  - destruct (filter (text_eqb (b ++ lit ".meta")) (names fs)) as [|y s] eqn:M; [discriminate|]. intros E I. injection E as <-.
    rewrite <- M in I. apply filter_In in I. destruct I as (_ & I). apply text_eqb_eq in I. exists []. rewrite app_nil_r. auto.
  - intros E I. injection E as <-. rewrite <- T in I. apply filter_In in I. destruct I as (_ & I). apply (glob_tiles b m PB) in I.
    destruct I as (d & e & L1 & L2 & D1 & D2 & ->). exists (["."%char] ++ d ++ ["."%char] ++ e). split.
    + right. exists d, e. auto.
    + now rewrite <- !app_assoc.
Qed.

Lemma metafiles_agree fs fs' b : plain_name b -> ~ file_of b k -> agree k fs fs' -> metafiles_of fs' b = metafiles_of fs b.
Proof.
  intros PB NF (_ & P). unfold metafiles_of. rewrite !(fun d => glob_eq d _ (meta_name_plain b PB)). unfold glob. rewrite !P; [reflexivity| |].
  - apply text_eqb_neq. intros E. apply NF. exists []. split; [now left|]. left. cbn [app]. now symmetry.
  - apply not_true_iff_false. intros E. apply NF. apply (glob_tiles b k PB) in E.
    destruct E as (d & e & L1 & L2 & D1 & D2 & ->). exists (["."%char] ++ d ++ ["."%char] ++ e). split.
    + right. exists d, e. auto.
    + left. now rewrite <- !app_assoc.
Qed.

Lemma iter_agree fname additrs o od nits fs fs' acc ii : plain_name fname -> ~ file_of (base_of fname additrs (snd ii)) k -> agree k fs fs' ->
  same_outcome (iter_body N C8 C4 float_of fname additrs o od nits (fs, acc) ii)
               (iter_body N C8 C4 float_of fname additrs o od nits (fs', acc) ii).
Proof.
  intros PF NF A. pose proof (base_of_plain fname additrs (snd ii) PF) as PB. unfold iter_body. fold (base_of fname additrs (snd ii)). set (b := base_of fname additrs (snd ii)) in *.
  change (if additrs then fname ++ ["."%char] ++ fmt_0d 10 (snd ii) else fname) with b.
  rewrite (metafiles_agree fs fs' b PB NF A). destruct (metafiles_of fs b) as [l|e] eqn:M; [|now split].
  assert (S : same_outcome (foldD (tiles_body N C8 C4 float_of o od nits (fst ii)) l (fs, (a_state acc, None)))
                           (foldD (tiles_body N C8 C4 float_of o od nits (fst ii)) l (fs', (a_state acc, None)))).
  { apply foldD_agree; [|exact A]. intros m d d' [st fm] I AD. destruct (metafiles_in fs b l m PB M I) as (name & NM & ->).
    apply read_tile_agree; [| |exact AD].
    - intros E. apply NF. exists name. split; [exact NM|]. left. now rewrite <- E, <- app_assoc.
    - intros E. apply NF. exists name. split; [exact NM|]. right. now rewrite <- E, <- app_assoc. }
  destruct S as (S1 & S2). destruct (foldD _ l (fs, _)) as [d r], (foldD _ l (fs', _)) as [d' r']. cbn [fst snd] in *.
  destruct r as [[e [st fm]]|e], r' as [[e' [st' fm']]|e']; try contradiction.
  - destruct S2 as (S2 & E). injection E as -> ->. split; [exact S2|]. cbn [snd]. now split.
  - subst e'. now split.
Qed.

Lemma scan_agree fs fs' fname : (forall q, k <> q ++ lit ".meta") -> agree k fs fs' ->
  scanforfiles fs' fname = scanforfiles fs fname.
Proof.
  intros NM (_ & P). unfold scanforfiles, glob.
  rewrite !P; [reflexivity| |]; apply not_true_iff_false; intros E.
  all: change (lit ".001.001.meta") with (lit ".001.001" ++ lit ".meta") in E; rewrite app_assoc in E;
    apply glob_tail in E; [|now apply magic_false|cbn; intuition discriminate|cbn; intuition discriminate];
    destruct E as (q & E); now apply (NM q).
Qed.

Lemma itr_list_agree fs fs' fname it : given it <> None \/ (forall q, k <> q ++ lit ".meta") -> agree k fs fs' ->
  itr_list fs' fname it = itr_list fs fname it.
Proof.
  intros [G|NM] A; destruct it; try reflexivity; try (now elim G); cbn [itr_list]; now rewrite (scan_agree fs fs' fname NM A).
Qed.

Theorem rdmds_agree fs fs' fname it mf o : plain_name fname -> given it <> None \/ (forall q, k <> q ++ lit ".meta") ->
  (forall itrs z, itr_list fs fname it = Ok itrs -> In z itrs -> ~ file_of (base_of fname (adds it) z) k) ->
  agree k fs fs' ->
  snd (rdmds_full N C8 C4 float_of fs' fname it mf o) = snd (rdmds_full N C8 C4 float_of fs fname it mf o) /\
  agree k (fst (rdmds_full N C8 C4 float_of fs fname it mf o)) (fst (rdmds_full N C8 C4 float_of fs' fname it mf o)).
Proof.
  intros PF G NF A. unfold rdmds_full. rewrite (itr_list_agree fs fs' fname it G A).
  destruct (itr_list fs fname it) as [itrs|e]; [|now split]. destruct (typeprefix mf) as [od|]; [|now split].
  assert (S : same_outcome
     (foldD (iter_body N C8 C4 float_of fname (adds it) o od (length itrs)) (combine (seq 0 (length itrs)) itrs) (fs, mk_rdacc None [] []))
     (foldD (iter_body N C8 C4 float_of fname (adds it) o od (length itrs)) (combine (seq 0 (length itrs)) itrs) (fs', mk_rdacc None [] []))).
  { apply foldD_agree; [|exact A]. intros [i z] d d' s I AD. apply iter_agree; [exact PF| |exact AD]. cbn [snd].
    apply (NF itrs); [reflexivity|]. now apply in_combine_r in I. }
  destruct S as (S1 & S2).
  destruct (foldD _ _ (fs, _)) as [d r], (foldD _ _ (fs', _)) as [d' r']. cbn [fst snd] in *.
  destruct r as [[e acc]|e], r' as [[e' acc']|e']; try contradiction.
  - destruct S2 as (S2 & ->). cbn [fst snd]. now split.
  - subst e'. cbn [fst snd]. now split.
Qed.
End Frame.

Lemma base_for_iff fname it z b : base_for fname it z b <-> b = base_of fname (adds it) z.
Proof.
  assert (H : (exists t, iteration_text z t /\ b = fname ++ ["."%char] ++ t) <-> b = fname ++ ["."%char] ++ fmt_0d 10 z).
  { split; [intros (t & T & ->); apply iteration_text_iff in T; now subst t | intros ->; eexists; split; [apply fmt_iteration|reflexivity]]. }
  rewrite <- file_base_of. unfold base_for, file_base. destruct it as [|y| | |]; try exact H; [reflexivity|].
  destruct y as [|p|p]; try exact H. destruct p; try exact H. reflexivity.
Qed.
