(** Facts about successful calls of rdmds: which meta files were read, and what became of
    their entries. *)
From Coq Require Import Ascii String List Bool PeanoNat ZArith Init.Byte Lia.
Import ListNotations.
From Verif Require Import Prelude PreludeFacts Num Mat GridIO MdsMeta Mds SpecMds MdsTextFacts
  SpecGlob GlobFacts MdsScanFacts MdsFacts RdMds SpecRdMds RdMdsProofs.
Local Open Scope nat_scope.
Local Open Scope list_scope.

Section Agree.
Context {F : Type} (N : numops F).
Variables (C8 C4 : codec F).
Variable float_of : text -> option F.
Variable o : rdopts F.
Variable od : order.

(** Reading leaves names and meta files alone. *)
Definition keeps (fs fs' : directory) : Prop :=
  names fs' = names fs /\ forall q, dget fs' (q ++ lit ".meta") = dget fs (q ++ lit ".meta").
Lemma keeps_refl fs : keeps fs fs.
Proof. now split. Qed.
Lemma keeps_trans a b c : keeps a b -> keeps b c -> keeps a c.
Proof. intros (H1 & H2) (K1 & K2). split; [congruence|]. intros q. now rewrite K2. Qed.

Lemma names_set (fs : directory) k v v' : dget fs k = Some v -> names (dset fs k v') = names fs.
Proof.
  unfold names. induction fs as [|[a b] fs IH]; [discriminate|]. cbn [dget dset]. destruct (text_eqb k a) eqn:Q.
  - reflexivity.
  - intros H. cbn [map fst]. now rewrite IH.
Qed.

Lemma data_not_meta q r : q ++ lit ".data" <> r ++ lit ".meta".
Proof.
  intros E. apply (f_equal (@rev ascii)) in E. rewrite !rev_app_distr in E. cbn in E. discriminate E.
Qed.

Lemma read_data_keeps fs st q w ov : keeps fs (fst (read_data N C8 C4 fs o od st (q ++ lit ".data") w ov)).
Proof.
  unfold read_data. destruct (_ || _); [|apply keeps_refl]. destruct (ov_any ov); [|apply keeps_refl].
  destruct (o_memmap o); [|apply keeps_refl]. unfold memmap.
  destruct (dget fs (q ++ lit ".data")) as [bs|] eqn:D; [|apply keeps_refl].
  destruct (_ =? 0); [apply keeps_refl|]. destruct (_ <? _); [|apply keeps_refl]. cbn [fst].
  split; [now apply (names_set _ _ bs)|]. intros r. rewrite dget_dset.
  destruct (text_eqb (r ++ lit ".meta") (q ++ lit ".data")) eqn:E; [|reflexivity].
  apply text_eqb_eq in E. symmetry in E. now apply data_not_meta in E.
Qed.

Lemma init_meta nits tm s : init_full o nits tm = Ok s -> s_meta s = tm_meta tm.
Proof.
  unfold init_full. intros H.
  repeat match type of H with
  | (_ <- ?e ;; _) = Ok _ => destruct e as [?|?] eqn:?; [cbn [rbind] in H|discriminate H]
  | (if ?b then _ else _) = Ok _ => destruct b; [discriminate H|]
  | context [if ?b then Err _ else _] => destruct b; [discriminate H|]
  | context [let _ := _ in _] => cbv zeta in H
  end; injection H as <-; reflexivity.
Qed.

(** A meta file that is there and can be read. *)
Definition holds (fs : directory) (n : text) (fm : filemeta (F:=F)) : Prop :=
  exists bs, dget fs n = Some bs /\ readmeta_full float_of (byte_text bs) = Ok fm.

Lemma read_tile_inv nits iit fs st fm0 q fs' r : read_tile_full N C8 C4 float_of o od nits iit (fs, st, fm0) (q ++ lit ".meta") = (fs', Ok r) ->
  keeps fs fs' /\ exists s fm, r = (fs', Some s, Some fm) /\ holds fs (q ++ lit ".meta") fm /\
    match st with
    | None => s_meta s = tm_meta (fm_tile fm)
    | Some s0 => s_meta s = s_meta s0 /\ meta_eqb N (tm_meta (fm_tile fm)) (s_meta s0) = true
    end.
Proof.
  unfold read_tile_full. destruct (dget fs (q ++ lit ".meta")) as [bs|] eqn:D; [|discriminate].
  destruct (readmeta_full float_of (byte_text bs)) as [fm|e] eqn:RM; cbn [rbind]; [|discriminate].
  set (st1 := match st with None => init_full _ _ _ | Some s => _ end).
  destruct st1 as [s1|e] eqn:E1; cbn [rbind]; [|discriminate].
  assert (SM : match st with
    | None => s_meta s1 = tm_meta (fm_tile fm)
    | Some s0 => s_meta s1 = s_meta s0 /\ meta_eqb N (tm_meta (fm_tile fm)) (s_meta s0) = true end).
  { unfold st1 in E1. destruct st as [s0|]; [|now apply init_meta in E1].
    destruct (meta_eqb N (tm_meta (fm_tile fm)) (s_meta s0)); [|discriminate]. injection E1 as <-. auto. }
  clear st1 E1.
  match goal with |- context [ov <- ?e ;; _] => destruct e as [ov|e'] end; cbn [rbind]; [|discriminate].
  match goal with |- context [w <- ?e ;; _] => destruct e as [w|e'] end; cbn [rbind]; [|discriminate].
  rewrite data_name. pose proof (read_data_keeps fs s1 q w ov) as K.
  destruct (read_data N C8 C4 fs o od s1 (q ++ lit ".data") w ov) as (fs1 & [arr|e]); cbn [rbind]; [|discriminate].
  intros H. injection H as <- <-. cbn [fst] in K. split; [exact K|]. eexists _, fm. split; [reflexivity|].
  split; [now exists bs|]. destruct st; exact SM.
Qed.

(** The state after reading: the entries of the first file, and all others agree. *)
Definition first_of (fs : directory) (n0 : text) (ref : metadict F) : Prop :=
  exists fm, holds fs n0 fm /\ tm_meta (fm_tile fm) = ref.
Definition agrees (fs : directory) (n0 : text) (ref : metadict F) (n : text) : Prop :=
  n = n0 \/ exists fm, holds fs n fm /\ meta_eqb N (tm_meta (fm_tile fm)) ref = true.
Definition ends_meta (n : text) : Prop := exists q, n = q ++ lit ".meta".

Lemma holds_keeps fs fs' n fm : ends_meta n -> keeps fs fs' -> holds fs' n fm <-> holds fs n fm.
Proof. intros (q & ->) (_ & K). unfold holds. now rewrite K. Qed.
Lemma agrees_keeps fs fs' n0 ref n : ends_meta n -> keeps fs fs' -> agrees fs' n0 ref n -> agrees fs n0 ref n.
Proof. intros E K [->|(fm & H & M)]; [now left|]. right. exists fm. split; [|exact M]. now apply (holds_keeps fs fs'). Qed.

Definition state_ok (fs : directory) (st : option (rdstate (F:=F))) (n0 : option text) (seen : list text) : Prop :=
  Forall ends_meta seen /\
  match st, n0 with
  | None, None => seen = []
  | Some s, Some n => In n seen /\ first_of fs n (s_meta s) /\ Forall (agrees fs n (s_meta s)) seen
  | _, _ => False
  end.

Lemma state_keeps fs fs' st n0 seen : keeps fs fs' -> state_ok fs st n0 seen <-> state_ok fs' st n0 seen.
Proof.
  assert (D : forall a b, keeps a b -> state_ok a st n0 seen -> state_ok b st n0 seen).
  { intros a b K (EM & SO). split; [exact EM|]. destruct st as [s|], n0 as [n|]; auto.
    destruct SO as (IN & (fm & H1 & H2) & AG). rewrite Forall_forall in EM. split; [exact IN|]. split.
    - exists fm. split; [|exact H2]. apply (holds_keeps a b); auto.
    - apply Forall_forall. intros y Y. rewrite Forall_forall in AG. destruct (AG y Y) as [->|(fy & A1 & A2)]; [now left|].
      right. exists fy. split; [|exact A2]. apply (holds_keeps a b); auto. }
  intros K. split; [now apply D|]. apply D. destruct K as (K1 & K2). split; [congruence|]. intros q. now rewrite K2.
Qed.

Lemma tiles_inv nits iit : forall l fs st fm0 fs1 r, Forall ends_meta l ->
  foldD (tiles_body N C8 C4 float_of o od nits iit) l (fs, (st, fm0)) = (fs1, Ok r) ->
  forall n0 seen, state_ok fs st n0 seen ->
  keeps fs (fst r) /\ exists n1, state_ok fs (fst (snd r)) n1 (seen ++ l).
Proof.
  induction l as [|m l IH]; intros fs st fm0 fs1 r EM H n0 seen SO.
  - cbn [foldD fst] in H. injection H as <- <-. cbn [fst snd]. split; [apply keeps_refl|]. exists n0. now rewrite app_nil_r.
  - destruct (Forall_inv EM) as (q & ->). pose proof (Forall_inv_tail EM) as EM'. cbn [foldD] in H. unfold tiles_body at 1 in H. cbv beta iota in H.
    destruct (read_tile_full N C8 C4 float_of o od nits iit (fs, st, fm0) (q ++ lit ".meta")) as (fs2 & [[[x st'] fm']|e]) eqn:RT;
      cbv beta iota in H; [|discriminate H].
    apply read_tile_inv in RT. destruct RT as (K & s & fm & E & HO & SM). injection E as -> -> ->.
    set (n1 := match n0 with Some n => Some n | None => Some (q ++ lit ".meta") end).
    assert (SO1 : state_ok fs (Some s) n1 (seen ++ [q ++ lit ".meta"])).
    { destruct SO as (ES & SO). split; [apply Forall_app; split; [exact ES|]; constructor; [now exists q|constructor]|].
      destruct st as [s0|], n0 as [n|]; try (now destruct SO); cbn [n1] in *.
      - destruct SO as (IN & FO & AG). destruct SM as (-> & M). split; [apply in_or_app; now left|]. split; [exact FO|].
        apply Forall_app. split; [exact AG|]. constructor; [|constructor]. right. now exists fm.
      - subst seen. split; [now left|]. split; [now exists fm|]. constructor; [now left|constructor]. }
    apply (state_keeps fs fs2 _ _ _ K) in SO1.
    destruct (IH _ _ _ _ _ EM' H _ _ SO1) as (K2 & n2 & SO2). split; [now apply (keeps_trans fs fs2)|].
    exists n2. apply (state_keeps fs fs2 _ _ _ K). now rewrite <- app_assoc in SO2.
Qed.

(** Meta files found end in .meta. *)
Lemma metafiles_end fs base l : metafiles_of fs base = Ok l -> Forall ends_meta l.
Proof.
  assert (G : forall p, Forall ends_meta (glob fs (p ++ lit ".meta"))).
  { intros p. apply Forall_forall. intros s I. unfold glob in I. apply filter_In in I. destruct I as (_ & M).
    apply (glob_tail p (lit ".meta")) in M; [exact M | now apply magic_false | |]; cbn; intuition discriminate. }
  unfold metafiles_of.
  replace (tile_pat base) with ((base ++ concat (repeat (["."%char] ++ digits_pat 3) 2)) ++ lit ".meta")
    by (unfold tile_pat; now rewrite <- app_assoc).
  destruct (glob fs (_ ++ lit ".meta")) as [|a r] eqn:E1.
  - destruct (glob fs (base ++ lit ".meta")) as [|b r] eqn:E2; [discriminate|]. intros [= <-]. rewrite <- E2. apply G.
  - intros [= <-]. rewrite <- E1. apply G.
Qed.

Lemma metafiles_keeps fs fs' base : keeps fs fs' -> metafiles_of fs' base = metafiles_of fs base.
Proof. intros (K & _). unfold metafiles_of, glob. now rewrite K. Qed.

Lemma iters_inv nits fname additrs : forall is fs acc fs1 r,
  foldD (iter_body N C8 C4 float_of fname additrs o od nits) is (fs, acc) = (fs1, Ok r) ->
  forall n0 seen, state_ok fs (a_state acc) n0 seen ->
  exists ls, Forall2 (fun ii l => metafiles_of fs (base_of fname additrs (snd ii)) = Ok l) is ls /\
    keeps fs (fst r) /\ exists n1, state_ok fs (a_state (snd r)) n1 (seen ++ concat ls).
Proof.
  induction is as [|[i z] is IH]; intros fs acc fs1 r H n0 seen SO.
  - cbn [foldD fst] in H. injection H as <- <-. cbn [fst snd]. exists []. split; [constructor|]. split; [apply keeps_refl|].
    exists n0. cbn [concat]. now rewrite app_nil_r.
  - cbn [foldD] in H. unfold iter_body at 1 in H. cbn [fst snd] in H.
    match type of H with context [metafiles_of fs ?b] => change b with (base_of fname additrs z) in H end.
    destruct (metafiles_of fs (base_of fname additrs z)) as [l|e] eqn:ML; [|discriminate H].
    destruct (foldD (tiles_body N C8 C4 float_of o od nits i) l (fs, (a_state acc, None))) as (fs2 & [[fs3 [st fm]]|e]) eqn:FD;
      cbv beta iota in H; [|discriminate H].
    apply tiles_inv with (n0 := n0) (seen := seen) in FD; [|now apply (metafiles_end fs (base_of fname additrs z))|exact SO].
    cbn [fst snd] in FD. destruct FD as (K & n1 & SO1).
    apply (state_keeps fs fs3 _ _ _ K) in SO1.
    edestruct IH as (ls & F2 & K2 & n2 & SO2); [exact H | cbn [a_state]; exact SO1 |].
    exists (l :: ls). split.
    { constructor; [exact ML|]. clear - F2 K. induction F2 as [|x y xs ys E F2 IH]; constructor; [|exact IH].
      now rewrite <- (metafiles_keeps fs fs3 _ K). }
    split; [now apply (keeps_trans fs fs3)|]. exists n2. apply (state_keeps fs fs3 _ _ _ K). cbn [concat]. now rewrite app_assoc.
Qed.

(** Everything a successful call has read. *)
Theorem rdmds_inv fs fname it mf fs' arr itrs meta : rdmds_full N C8 C4 float_of fs fname it mf o = (fs', Ok (arr, itrs, meta)) ->
  typeprefix mf = Some od ->
  itr_list fs fname it = Ok itrs /\ keeps fs fs' /\
  exists ls acc n0, Forall2 (fun z l => metafiles_of fs (base_of fname (adds it) z) = Ok l) itrs ls /\
    meta = meta_result acc /\ state_ok fs (a_state acc) n0 (concat ls).
Proof.
  unfold rdmds_full. intros H TP. destruct (itr_list fs fname it) as [is|e]; [|discriminate H]. rewrite TP in H.
  destruct (foldD _ _ _) as (fs2 & [[fs3 acc]|e]) eqn:FD; [|discriminate H].
  destruct (match a_state acc with None => _ | Some s => _ end) as [a|e]; cbn [rbind] in H; [|discriminate H].
  injection H as <- <- <- <-. split; [reflexivity|].
  apply iters_inv with (n0 := None) (seen := []) in FD; [|split; [constructor|reflexivity]].
  destruct FD as (ls & F2 & K & n1 & SO). cbn [fst snd app] in *. split; [exact K|]. exists ls, acc, n1.
  split; [|split; [reflexivity|exact SO]].
  assert (G : forall (l : list Z) k ls, Forall2 (fun (ii : nat * Z) l => metafiles_of fs (base_of fname (adds it) (snd ii)) = Ok l)
     (combine (seq k (length l)) l) ls -> Forall2 (fun z l => metafiles_of fs (base_of fname (adds it) z) = Ok l) l ls).
  { clear. induction l as [|z l IH]; intros k ls H; cbn [length seq combine] in H; inversion H; subst; constructor; eauto. }
  now apply (G is 0 ls).
Qed.
End Agree.
