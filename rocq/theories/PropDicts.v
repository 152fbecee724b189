(** Property C105: what getobcs does to the dictionaries it is given. *)
From Coq Require Import String List Bool PeanoNat ZArith Lia FunctionalExtensionality.
From Flocq Require Import IEEE754.Binary IEEE754.Bits.
Import ListNotations.
From Verif Require Import Prelude PreludeFacts Num Mat MatFacts Fields GridIO Float64 Float64Facts
  SpecGrid Refine Regrid RegridFacts SpecRegrid SourceFacts MdsMeta Mds GetObcs ObcsDicts
  Float32 Samples PropUtil PropFill PropMkGrid PropRegrid PropMds PropObcs PropVelocity PropRun.
Local Open Scope nat_scope.
Local Arguments Nat.mul : simpl never.

(** ** specification *)

(** The dictionary [d'] is [d] with XG and YG turned by [k] quarter turns. *)
Definition turned_by (k : nat) (d d' : griddict binary64) : Prop :=
  (exists x y x' y', d XG = Arr x /\ d YG = Arr y /\ d' XG = Arr x' /\ d' YG = Arr y' /\
     is_turned k x x' /\ is_turned k y y') /\
  forall f, f <> XG -> f <> YG -> d' f = d f.

Definition obcs_in64 (L : libm) (G : geod binary64) (fo : text -> option binary64) lay o3 fuel
    {W} (xw : mat binary64 -> mat binary64 -> mat binary64 -> mat binary64 -> res W)
    (xv : W -> mat binary64 -> nat -> nat -> binary64) :=
  getobcs_in (b64ops L) b64codec b32codec G fo lay o3 fuel xw xv.

(** ** proofs *)

Lemma turned_once {A} k (m m' : mat A) : k <= 3 -> is_turned k m m' -> is_turned (if k =? 3 then 0 else k + 1) m (rot90 m').
Proof.
  intros Hk. destruct k as [|[|[|[|]]]]; try lia; cbn [Nat.eqb Nat.add]; intros (R & C & E); unfold is_turned, mat_is;
    cbn [rot90 mrows mcols mat_at]; (split; [lia|]; split; [lia|]); intros i j Hi Hj; rewrite E by lia; f_equal; lia.
Qed.

Lemma turned_any {A} k : exists j, j <= 3 /\ forall m : mat A, is_turned j m (Nat.iter k rot90 m).
Proof.
  induction k as [|k (j & Hj & IH)].
  - exists 0. split; [lia|]. intros m. apply (turned_iter 0 m). lia.
  - exists (if j =? 3 then 0 else j + 1). split; [destruct (Nat.eqb_spec j 3); lia|]. intros m.
    apply (turned_once j m (Nat.iter k rot90 m) Hj (IH m)).
Qed.

Lemma iter_plus {A} (f : A -> A) j k x : Nat.iter (k + j) f x = Nat.iter k f (Nat.iter j f x).
Proof. induction k as [|k IH]; [reflexivity|]. change (f (Nat.iter (k + j) f x) = f (Nat.iter k f (Nat.iter j f x))). now rewrite IH. Qed.

Section Any.
Context {F : Type} (N : numops F) (C8 C4 : codec F) (G : geod F) (float_of : text -> option F).
Variables lay o3 : nat -> nat -> list (nat * nat).
Variable fuel : nat.
Context {W : Type}.
Variable xw : mat F -> mat F -> mat F -> mat F -> res W.
Variable xv : W -> mat F -> nat -> nat -> F.

(** [d'] is [d] with XG and YG turned [k] times. *)
Definition after_turns (k : nat) (d d' : griddict F) : Prop :=
  (exists x y, d XG = Arr x /\ d YG = Arr y /\ d' XG = Arr (Nat.iter k rot90 x) /\ d' YG = Arr (Nat.iter k rot90 y)) /\
  forall f, f <> XG -> f <> YG -> d' f = d f.

Lemma after_trans j k d d' d'' : after_turns j d d' -> after_turns k d' d'' -> after_turns (k + j) d d''.
Proof.
  intros ((x & y & A1 & A2 & A3 & A4) & A5) ((x' & y' & B1 & B2 & B3 & B4) & B5). split.
  - exists x, y. rewrite A3 in B1. rewrite A4 in B2. injection B1 as <-. injection B2 as <-.
    rewrite !iter_plus. auto.
  - intros f H1 H2. rewrite B5 by auto. auto.
Qed.

Lemma rot_loop_turns n a : forall l l', rot_loop N G n a l = Ok l' ->
  exists k, lc_xg l' = Nat.iter k rot90 (lc_xg l) /\ lc_yg l' = Nat.iter k rot90 (lc_yg l).
Proof.
  induction n as [|n IH]; intros l l'; cbn [rot_loop].
  - destruct (aligned l); [|discriminate]. intros [= <-]. exists 0. auto.
  - destruct (aligned l); [intros [= <-]; exists 0; auto|].
    destruct (locate N G a (rot90 (lc_xg l)) (rot90 (lc_yg l)) (map (rot_index (mcols (lc_xg l))) (lc_order l))) as [l1|] eqn:E; [|discriminate].
    cbn [rbind]. intros H. destruct (IH _ _ H) as (k & K1 & K2). exists (k + 1).
    unfold locate in E. mok E. destruct a0 as ((? & ?) & ?). mok E. destruct a0 as ((? & ?) & ?). injection E as <-.
    cbn [lc_xg lc_yg] in K1, K2. rewrite K1, K2. rewrite !iter_plus. auto.
Qed.

Lemma regrid_turns lt fs d ni nj x1 y1 x2 y2 s t b r :
  regrid N C8 G lt fs lay o3 fuel (mk_regrid_args None None None (Some d) ni nj x1 y1 x2 y2 s t b) = Ok r ->
  exists k, after_turns k d (rr_dict r).
Proof.
  intros H. unfold regrid in H. mok H.
  assert (a = d).
  { unfold source in Ha. cbn [ra_mitgridfile ra_xg_file ra_yg_file ra_matrices str_arg] in Ha.
    destruct (dict_empty d) in Ha; [discriminate Ha|]. destruct (d XC) in Ha; congruence. }
  clear Ha. subst a. unfold regrid_from in H. apply rbind_ok in H. destruct H as ((xg & yg) & Hxy & H).
  assert (Hd : d XG = Arr xg /\ d YG = Arr yg).
  { unfold xg_yg in Hxy. destruct (d XG), (d YG); try discriminate Hxy. injection Hxy as <- <-. auto. }
  apply rbind_ok in H. destruct H as (l0 & H0 & H).
  match type of H with (if ?c then _ else _) = _ => destruct c; [discriminate H|] end.
  apply rbind_ok in H. destruct H as (l & Hr & H). mok H. mok H. mok H. injection H as <-. cbn [rr_dict].
  destruct (rot_loop_turns _ _ _ _ Hr) as (k & K1 & K2).
  unfold locate in H0. apply rbind_ok in H0. destruct H0 as (((? & ?) & ?) & _ & H0).
  apply rbind_ok in H0. destruct H0 as (((? & ?) & ?) & _ & H0). injection H0 as <-.
  cbn [lc_xg lc_yg] in K1, K2. exists k. split.
  - exists xg, yg. destruct Hd. unfold setd. cbn. rewrite K1, K2. auto.
  - intros fld H1 H2. unfold setd. destruct fld; try congruence; reflexivity.
Qed.

(** Each dictionary stays or is turned. *)
Definition evolved (used : nat -> Prop) (st st' : store (F := F)) : Prop :=
  forall n, st' n = st n \/ (used n /\ exists k, after_turns k (st n) (st' n)).

Lemma evolved_refl used st : evolved used st st.
Proof. intros n. now left. Qed.

Lemma evolved_trans used st st' st'' : evolved used st st' -> evolved used st' st'' -> evolved used st st''.
Proof.
  intros H1 H2 n. destruct (H2 n) as [E|(U & k & K)].
  - rewrite E. apply H1.
  - destruct (H1 n) as [E|(_ & j & J)].
    + right. rewrite <- E. eauto.
    + right. split; auto. exists (k + j). eapply after_trans; eauto.
Qed.

Definition is_place (p : place (F := F)) (n : nat) : Prop := match p with Given m => n = m | Own _ => False end.

Lemma doubled_in_evolved st p ni nj st' o (used : nat -> Prop) : (forall n, is_place p n -> used n) ->
  doubled_in N C8 G lay o3 fuel st p ni nj = (st', o) -> evolved used st st'.
Proof.
  intros Hu. unfold doubled_in. match goal with |- context [match ?x with Ok _ => _ | Err _ => _ end = _] => destruct x as [r|e] eqn:E end.
  - intros [= <- <-]. mok E. mok E. mok E. mok E. apply regrid_turns in E. destruct E as (k & K).
    destruct p as [m|d]; cbn [replaced contents] in *; [|apply evolved_refl].
    intros n. destruct (Nat.eqb_spec n m) as [->|]; [|now left]. right. split; [now apply Hu|eauto].
  - intros [= <- <-]. apply evolved_refl.
Qed.

Lemma regridders_in_evolved ws out st p pi pj r ri rj st' o (used : nat -> Prop) :
  (forall n, is_place p n -> used n) -> (forall n, is_place r n -> used n) ->
  make_regridders_in N C8 G lay o3 fuel xw ws out st p pi pj r ri rj = (st', o) -> evolved used st st'.
Proof.
  intros Hp Hr. unfold make_regridders_in.
  destruct (tracer_regridder _ _ _ _ _) as (ws1, [rt|e]); [|intros [= <- <-]; apply evolved_refl].
  destruct (doubled_in N C8 G lay o3 fuel st p pi pj) as (st1, p2) eqn:D1. apply (doubled_in_evolved _ _ _ _ _ _ _ Hp) in D1.
  destruct p2 as [p2|]; [|intros [= <- <-]; exact D1].
  destruct (doubled_in N C8 G lay o3 fuel st1 r ri rj) as (st2, r2) eqn:D2. apply (doubled_in_evolved _ _ _ _ _ _ _ Hr) in D2.
  destruct r2 as [r2|]; intros [= <- <-]; eapply evolved_trans; eauto.
Qed.

Lemma place_used st file n d m : is_place (place_of_grid st file n d) m -> n = Some m.
Proof.
  unfold place_of_grid. destruct (txt_arg file); [intros []|]. destruct n as [n|]; [|intros []].
  destruct (dict_empty (st n)); [intros []|]. cbn. congruence.
Qed.

Lemma getobcs_in_evolved st ws fs pn rn a st' o :
  getobcs_in N C8 C4 G float_of lay o3 fuel xw xv st ws fs pn rn a = (st', o) ->
  evolved (fun n => pn = Some n \/ rn = Some n) st st'.
Proof.
  unfold getobcs_in. destruct (txt_arg _); [|intros [= <- <-]; apply evolved_refl].
  match goal with |- context [match ?x with Ok _ => _ | Err _ => _ end = _] => destruct x as [((((p & pi) & pj) & ((r & ri) & rj)) & bd)|e] eqn:E end;
    [|intros [= <- <-]; apply evolved_refl].
  cbv zeta. match goal with |- context [make_regridders_in ?a ?b ?c ?d ?e ?f ?g ?h ?i ?j ?k ?l ?m ?n ?o ?q] =>
    destruct (make_regridders_in a b c d e f g h i j k l m n o q) as (st1, x) eqn:M end.
  intros [= <- <-]. eapply regridders_in_evolved; [| |exact M]; intros m Hm; apply place_used in Hm; auto.
Qed.

(** ** the outcome *)

Lemma doubled_in_snd st p ni nj : snd (doubled_in N C8 G lay o3 fuel st p ni nj) = doubled N C8 G lay o3 fuel (contents st p) ni nj.
Proof.
  unfold doubled_in, doubled.
  destruct (corner_nw (contents st p) XG); cbn [rbind]; [|reflexivity].
  destruct (corner_nw (contents st p) YG); cbn [rbind]; [|reflexivity].
  destruct (corner_se (contents st p) XG); cbn [rbind]; [|reflexivity].
  destruct (corner_se (contents st p) YG); cbn [rbind]; [|reflexivity].
  destruct (regrid _ _ _ _ _ _ _ _ _); reflexivity.
Qed.

Lemma regridders_in_snd ws out st p pi pj r ri rj :
  (contents (fst (doubled_in N C8 G lay o3 fuel st p pi pj)) r = contents st r) ->
  snd (make_regridders_in N C8 G lay o3 fuel xw ws out st p pi pj r ri rj)
  = make_regridders N C8 G lay o3 fuel xw ws out (contents st p) pi pj (contents st r) ri rj.
Proof.
  intros H. unfold make_regridders_in, make_regridders.
  destruct (tracer_regridder _ _ _ _ _) as (ws1, [rt|e]); [|reflexivity].
  pose proof (doubled_in_snd st p pi pj) as E1. destruct (doubled_in N C8 G lay o3 fuel st p pi pj) as (st1, p2).
  cbn [fst snd] in *. rewrite <- E1. destruct p2 as [p2|]; cbn [rbind]; [|reflexivity].
  pose proof (doubled_in_snd st1 r ri rj) as E2. rewrite H in E2.
  destruct (doubled_in N C8 G lay o3 fuel st1 r ri rj) as (st2, r2). cbn [snd] in *. rewrite <- E2.
  destruct r2 as [r2|]; reflexivity.
Qed.

Lemma parent_place st pn rn a fs dir p pi pj :
  parent_grid N C8 C4 float_of fs (args_in st pn rn a) dir = Ok (p, pi, pj) ->
  contents st (place_of_grid st (oa_parent_file a) pn p) = p.
Proof.
  unfold parent_grid, place_of_grid. cbn [args_in oa_parent_file oa_parent_matrices].
  destruct (txt_arg (oa_parent_file a)); [reflexivity|]. destruct pn as [n|]; cbn [option_map]; [|reflexivity].
  destruct (dict_empty (st n)); [reflexivity|]. unfold grid_from_matrices. cbn [contents].
  destruct (st n XC); try discriminate. congruence.
Qed.
Lemma regional_place st pn rn a fs r ri rj :
  regional_grid N C8 fs (args_in st pn rn a) = Ok (r, ri, rj) ->
  contents st (place_of_grid st (oa_regional_file a) rn r) = r.
Proof.
  unfold regional_grid, place_of_grid. cbn [args_in oa_regional_file oa_regional_matrices].
  destruct (txt_arg (oa_regional_file a)); [reflexivity|]. destruct rn as [n|]; cbn [option_map]; [|reflexivity].
  destruct (dict_empty (st n)); [reflexivity|]. unfold grid_from_matrices. cbn [contents].
  destruct (st n XC); try discriminate. congruence.
Qed.

Lemma getobcs_in_snd st ws fs pn rn a :
  (forall p pi pj r, contents (fst (doubled_in N C8 G lay o3 fuel st (place_of_grid st (oa_parent_file a) pn p) pi pj))
     (place_of_grid st (oa_regional_file a) rn r) = contents st (place_of_grid st (oa_regional_file a) rn r)) ->
  snd (getobcs_in N C8 C4 G float_of lay o3 fuel xw xv st ws fs pn rn a)
  = getobcs N C8 C4 G float_of lay o3 fuel xw xv ws fs (args_in st pn rn a).
Proof.
  intros H. unfold getobcs_in, getobcs. cbv zeta. destruct (txt_arg _) as [dir|]; [|reflexivity].
  destruct (parent_grid N C8 C4 float_of fs (args_in st pn rn a) dir) as [((p & pi) & pj)|] eqn:Ep; cbn [rbind]; [|reflexivity].
  destruct (regional_grid N C8 fs (args_in st pn rn a)) as [((r & ri) & rj)|] eqn:Er; cbn [rbind]; [|reflexivity].
  destruct (ob_all _ _ _) as [bd|]; cbn [rbind]; [|reflexivity].
  apply parent_place in Ep. apply regional_place in Er. cbn [args_in oa_parent_file oa_regional_file].
  pose proof (regridders_in_snd ws (results_dir (args_in st pn rn a) dir) st (place_of_grid st (oa_parent_file a) pn p) pi pj
    (place_of_grid st (oa_regional_file a) rn r) ri rj (H p pi pj r)) as M. rewrite Ep, Er in M.
  destruct (make_regridders_in _ _ _ _ _ _ _ _ _ _ _ _ _ _ _ _) as (st1, x). cbn [snd] in *. rewrite M. reflexivity.
Qed.

Lemma apart_contents st p pi pj r : (forall n, is_place p n -> ~ is_place r n) ->
  contents (fst (doubled_in N C8 G lay o3 fuel st p pi pj)) r = contents st r.
Proof.
  intros H. unfold doubled_in. match goal with |- context [match ?x with Ok _ => _ | Err _ => _ end] => destruct x end; cbn [fst]; [|reflexivity].
  destruct p as [n|]; [|reflexivity]. destruct r as [m|]; [|reflexivity]. cbn [replaced contents].
  destruct (Nat.eqb_spec m n) as [->|]; [|reflexivity]. exfalso. now apply (H n).
Qed.
End Any.

(** Afterwards each dictionary of the caller is as it was, or it was given to getobcs and
    its XG and YG, and only these, have been turned, both by the same angle. *)
Theorem C105_dictionaries_turned :
  forall W L G fo lay o3 fuel (xw : _ -> _ -> _ -> _ -> res W) xv st ws fs pn rn a st' o,
  obcs_in64 L G fo lay o3 fuel xw xv st ws fs pn rn a = (st', o) ->
  forall n, st' n = st n \/ ((pn = Some n \/ rn = Some n) /\ exists k, k <= 3 /\ turned_by k (st n) (st' n)).
Proof.
  intros W L G fo lay o3 fuel xw xv st ws fs pn rn a st' o H n. apply getobcs_in_evolved in H.
  destruct (H n) as [E|(U & k & (x & y & A1 & A2 & A3 & A4) & A5)]; [now left|]. right. split; [exact U|].
  destruct (@turned_any binary64 k) as (j & Hj & T). exists j. split; [exact Hj|]. split; [|exact A5]. exists x, y. eauto 10.
Qed.

(** With different dictionaries for the two grids, or one from a file or the results
    directory, this changes nothing else: all other theorems about getobcs apply. *)
Theorem C105_same_outcome :
  forall W L G fo lay o3 fuel (xw : _ -> _ -> _ -> _ -> res W) xv st ws fs pn rn a,
  (forall n, pn = Some n -> rn <> Some n) ->
  snd (obcs_in64 L G fo lay o3 fuel xw xv st ws fs pn rn a) = obcs64 L G fo lay o3 fuel xw xv ws fs (args_in st pn rn a).
Proof.
  intros W L G fo lay o3 fuel xw xv st ws fs pn rn a H. unfold obcs_in64, obcs64. apply getobcs_in_snd. intros p pi pj r.
  apply apart_contents. intros n H1 H2. apply place_used in H1, H2. now apply (H n).
Qed.

Lemma doubled_in_kept L G lay o3 fuel st p ni nj :
  layouts lay -> layouts o3 ->
  (forall n, is_place p n -> exists ni nj, complete_grid G lay (st n) ni nj) ->
  fst (doubled_in (b64ops L) b64codec G lay o3 fuel st p ni nj) = st.
Proof.
  intros Hlay Ho3 H. destruct p as [n|d]; [|unfold doubled_in; match goal with |- context [match ?x with Ok _ => _ | Err _ => _ end] => destruct x end; reflexivity].
  destruct (H n eq_refl) as (ni' & nj' & xc & yc & xg & yg & (Hi & Hj & Exc & _ & Ex & Ey & _ & Sx & Sy & N1 & N2) & _). clear H.
  injection Sx as Rx Cx. injection Sy as Ry Cy.
  assert (Hsh : same_shape xg yg) by (unfold same_shape; lia).
  unfold doubled_in. cbn [contents]. unfold corner_nw, corner_se, matrix. rewrite Ex, Ey. cbn [rbind].
  rewrite Rx, Cx, Ry, Cy. rewrite Rx, Cx in N1, N2. cbn zeta in N1, N2.
  replace (ni' + 1 =? 0) with false by (symmetry; apply Nat.eqb_neq; lia).
  replace (nj' + 1 =? 0) with false by (symmetry; apply Nat.eqb_neq; lia).
  cbn [orb rbind].
  replace (ni' + 1 - 1) with ni' in * by lia. replace (nj' + 1 - 1) with nj' in * by lia.
  set (args := mk_regrid_args None None None (Some (st n)) (Some ni) (Some nj) (mat_at xg 0 nj')
    (mat_at yg 0 nj') (mat_at xg ni' 0) (mat_at yg ni' 0) 2 2 false) in *.
  assert (Hs : supplies (b64ops L) b64codec (fun _ => Err OSError) (fun _ => None) args (st n)).
  { eapply from_matrices; [left; reflexivity|left; left; reflexivity|reflexivity|exact Exc]. }
  assert (Hc : corners_at G lay args xg yg 0 nj' ni' 0) by (split; rewrite Rx, Cx; auto).
  assert (Q0 : quarter_turns 0 nj' ni' 0 = 0).
  { unfold quarter_turns. replace (0 <? ni') with true by (symmetry; apply Nat.ltb_lt; lia).
    now replace (0 <? nj') with true by (symmetry; apply Nat.ltb_lt; lia). }
  destruct (regrid64_ok L G (fun _ => Err OSError) (fun _ => None) lay o3 fuel args (st n) xg yg
    0 nj' ni' 0 2 2) as (g & HH & dd & Eg & _ & _ & D1 & D2 & D3); auto; try lia.
  { unfold subscales. cbn. lia. }
  unfold regrid64 in Eg. rewrite Eg. cbn [fst replaced rr_dict]. rewrite Q0 in D1, D2. cbn in D1, D2.
  apply functional_extensionality. intros m. destruct (Nat.eqb_spec m n) as [->|]; [|reflexivity].
  apply functional_extensionality. intros f. destruct f; try (now rewrite D3 by discriminate); congruence.
Qed.

(** Given grids whose own opposite corners regrid finds, getobcs leaves all dictionaries as
    they are, and works as if it copied them; the two grids may then be one dictionary. *)
Theorem C105_found_corners_kept :
  forall W L G fo lay o3 fuel (xw : _ -> _ -> _ -> _ -> res W) xv st ws fs pn rn a st' o,
  layouts lay -> layouts o3 ->
  (forall n, pn = Some n \/ rn = Some n -> exists ni nj, complete_grid G lay (st n) ni nj) ->
  obcs_in64 L G fo lay o3 fuel xw xv st ws fs pn rn a = (st', o) ->
  (forall n f, st' n f = st n f) /\ o = obcs64 L G fo lay o3 fuel xw xv ws fs (args_in st pn rn a).
Proof.
  intros W L G fo lay o3 fuel xw xv st ws fs pn rn a st' o Hlay Ho3 Hc H. split.
  - enough (st' = st) as -> by reflexivity. unfold obcs_in64, getobcs_in in H.
    destruct (txt_arg _); [|now injection H].
    match type of H with match ?x with Ok _ => _ | Err _ => _ end = _ => destruct x as [((((p & pi) & pj) & ((r & ri) & rj)) & bd)|e] eqn:E end;
      [|now injection H].
    cbv zeta in H. cbn [args_in oa_parent_file oa_regional_file] in H.
    match type of H with context [make_regridders_in ?a ?b ?c ?d ?e ?f ?g ?h ?i ?j ?k ?l ?m ?n ?o ?q] =>
      destruct (make_regridders_in a b c d e f g h i j k l m n o q) as (st1, x) eqn:M end.
    injection H as <- _. unfold make_regridders_in in M.
    destruct (tracer_regridder _ _ _ _ _) as (ws1, [rt|e]); [|now injection M].
    pose proof (doubled_in_kept L G lay o3 fuel st (place_of_grid st (oa_parent_file a) pn p) pi pj Hlay Ho3) as K1.
    specialize (K1 (fun n Hn => Hc n (or_introl (place_used _ _ _ _ _ Hn)))).
    destruct (doubled_in _ _ _ _ _ _ _ (place_of_grid st (oa_parent_file a) pn p) _ _) as (st2, p2). cbn [fst] in K1. subst st2.
    destruct p2 as [p2|]; [|now injection M].
    pose proof (doubled_in_kept L G lay o3 fuel st (place_of_grid st (oa_regional_file a) rn r) ri rj Hlay Ho3) as K2.
    specialize (K2 (fun n Hn => Hc n (or_intror (place_used _ _ _ _ _ Hn)))).
    destruct (doubled_in _ _ _ _ _ _ _ (place_of_grid st (oa_regional_file a) rn r) _ _) as (st2, r2). cbn [fst] in K2. subst st2.
    destruct r2 as [r2|]; now injection M.
  - replace o with (snd (obcs_in64 L G fo lay o3 fuel xw xv st ws fs pn rn a)) by (rewrite H; reflexivity).
    unfold obcs_in64, obcs64. apply getobcs_in_snd. intros p pi pj r. rewrite doubled_in_kept; auto.
    intros n Hn. apply Hc. left. eapply place_used; eauto.
Qed.

(** The points regrid finds for the own north-west and south-east corners of a grid. *)
Definition found_at (G : geod binary64) lay (d : griddict binary64) (i1 j1 i2 j2 : nat) : Prop :=
  exists xc xg yg, d XC = Arr xc /\ d XG = Arr xg /\ d YG = Arr yg /\ same_shape xg yg /\
    let n := mrows xg - 1 in let m := mcols xg - 1 in
    is_nearest G (lay (mrows xg) (mcols xg)) (mat_at xg 0 m) (mat_at yg 0 m) xg yg i1 j1 /\
    is_nearest G (lay (mrows xg) (mcols xg)) (mat_at xg n 0) (mat_at yg n 0) xg yg i2 j2.

Lemma doubled_in_turned L G lay o3 fuel st n ni nj st' g i1 j1 i2 j2 :
  layouts lay -> layouts o3 -> 3 <= fuel -> found_at G lay (st n) i1 j1 i2 j2 -> i1 <> i2 -> j1 <> j2 ->
  doubled_in (b64ops L) b64codec G lay o3 fuel st (Given n) ni nj = (st', Ok g) ->
  turned_by (quarter_turns i1 j1 i2 j2) (st n) (st' n).
Proof.
  intros Hlay Ho3 Hf (xc & xg & yg & Exc & Ex & Ey & Hsh & N1 & N2) Hi Hj. cbn zeta in N1, N2.
  pose proof Hsh as (S1 & S2 & _).
  unfold doubled_in. cbn [contents]. unfold corner_nw, corner_se, matrix. rewrite Ex, Ey. cbn [rbind].
  rewrite S1, S2. destruct ((mrows xg =? 0) || (mcols xg =? 0)); cbn [rbind]; [intros [=]|].
  set (args := mk_regrid_args None None None (Some (st n)) (Some ni) (Some nj) (mat_at xg 0 (mcols xg - 1))
    (mat_at yg 0 (mcols xg - 1)) (mat_at xg (mrows xg - 1) 0) (mat_at yg (mrows xg - 1) 0) 2 2 false) in *.
  assert (Hs : supplies (b64ops L) b64codec (fun _ => Err OSError) (fun _ => None) args (st n)).
  { eapply from_matrices; [left; reflexivity|left; left; reflexivity|reflexivity|exact Exc]. }
  assert (Hc : corners_at G lay args xg yg i1 j1 i2 j2) by (split; auto).
  assert (Q : quarter_turns i1 j1 i2 j2 <= 3).
  { unfold quarter_turns. destruct (i1 <? i2), (j2 <? j1); lia. }
  destruct (regrid64_ok L G (fun _ => Err OSError) (fun _ => None) lay o3 fuel args (st n) xg yg
    i1 j1 i2 j2 2 2) as (g' & HH & dd & Eg & _ & _ & D1 & D2 & D3); auto; try lia.
  { unfold subscales. cbn. lia. }
  unfold regrid64 in Eg. rewrite Eg. cbn [replaced rr_dict]. intros [= <- _]. rewrite Nat.eqb_refl.
  split; [|exact D3]. exists xg, yg. do 2 eexists. split; [exact Ex|]. split; [exact Ey|]. split; [exact D1|]. split; [exact D2|].
  split; now apply turned_iter.
Qed.

Lemma doubled_in_other {F} (N : numops F) C8 G lay o3 fuel st p ni nj st' o n :
  doubled_in N C8 G lay o3 fuel st p ni nj = (st', o) -> ~ is_place p n -> st' n = st n.
Proof.
  unfold doubled_in. match goal with |- context [match ?x with Ok _ => _ | Err _ => _ end = _] => destruct x end; intros [= <- <-] H; [|reflexivity].
  destruct p as [m|]; [|reflexivity]. cbn in *. destruct (Nat.eqb_spec n m); [contradiction|reflexivity].
Qed.

(** A grid given to a successful run, as parent or as region but not as both, has afterwards
    been turned by exactly what brings the points found for its corners to the north-west and
    south-east. *)
Theorem C105_turned_by :
  forall W L G fo lay o3 fuel (xw : _ -> _ -> _ -> _ -> res W) xv st ws fs pn rn a st' ws' fs' n i1 j1 i2 j2,
  layouts lay -> layouts o3 -> 3 <= fuel ->
  (pn = Some n /\ rn <> Some n /\ txt_arg (oa_parent_file a) = None) \/
  (rn = Some n /\ pn <> Some n /\ txt_arg (oa_regional_file a) = None) ->
  found_at G lay (st n) i1 j1 i2 j2 -> i1 <> i2 -> j1 <> j2 ->
  obcs_in64 L G fo lay o3 fuel xw xv st ws fs pn rn a = (st', (ws', fs', Ok tt)) ->
  turned_by (quarter_turns i1 j1 i2 j2) (st n) (st' n).
Proof.
  intros W L G fo lay o3 fuel xw xv st ws fs pn rn a st' ws' fs' n i1 j1 i2 j2 Hlay Ho3 Hf Hn Hat Hi Hj H.
  assert (Hne : dict_empty (st n) = false).
  { destruct Hat as (xc & xg & yg & Exc & _). unfold dict_empty. destruct (forallb _ _) eqn:B; [|reflexivity].
    rewrite forallb_forall in B. specialize (B XC). rewrite Exc in B. symmetry. apply B. cbn; auto 20. }
  unfold obcs_in64, getobcs_in in H. destruct (txt_arg (oa_parent_resultsdir (args_in st pn rn a))) as [dir|]; [|discriminate H].
  match type of H with match ?x with Ok _ => _ | Err _ => _ end = _ => destruct x as [((((p & pi) & pj) & ((r & ri) & rj)) & bd)|e] eqn:E end;
    [|discriminate H].
  cbv zeta in H. cbn [args_in oa_parent_file oa_regional_file] in H.
  match type of H with context [make_regridders_in ?a ?b ?c ?d ?e ?f ?g ?h ?i ?j ?k ?l ?m ?n ?o ?q] =>
    destruct (make_regridders_in a b c d e f g h i j k l m n o q) as (st1, x) eqn:M end.
  apply pair_equal_spec in H. destruct H as (<- & H).
  destruct x as (ws1, [rg|e]); [clear H|discriminate H]. unfold make_regridders_in in M.
  destruct (tracer_regridder _ _ _ _ _) as (ws2, [rt|e]); [|discriminate M].
  destruct (doubled_in _ _ _ _ _ _ st (place_of_grid st (oa_parent_file a) pn p) pi pj) as (sa, [p2|e]) eqn:D1; [|discriminate M].
  destruct (doubled_in _ _ _ _ _ _ sa (place_of_grid st (oa_regional_file a) rn r) ri rj) as (sb, [r2|e]) eqn:D2; [|discriminate M].
  apply pair_equal_spec in M. destruct M as (<- & _).
  destruct Hn as [(-> & Hrn & Hfile)|(-> & Hpn & Hfile)].
  - assert (P : place_of_grid st (oa_parent_file a) (Some n) p = Given n) by (unfold place_of_grid; now rewrite Hfile, Hne).
    rewrite P in D1. rewrite (doubled_in_other _ _ _ _ _ _ _ _ _ _ _ _ n D2).
    + exact (doubled_in_turned L G lay o3 fuel st n pi pj sa p2 i1 j1 i2 j2 Hlay Ho3 Hf Hat Hi Hj D1).
    + intros K. apply place_used in K. congruence.
  - assert (P : place_of_grid st (oa_regional_file a) (Some n) r = Given n) by (unfold place_of_grid; now rewrite Hfile, Hne).
    rewrite P in D2. assert (K : sa n = st n).
    { apply (doubled_in_other _ _ _ _ _ _ _ _ _ _ _ _ n D1). intros K. apply place_used in K. congruence. }
    rewrite <- K in Hat |- *. exact (doubled_in_turned L G lay o3 fuel sa n ri rj sb r2 i1 j1 i2 j2 Hlay Ho3 Hf Hat Hi Hj D2).
Qed.

(** ** cases *)

Definition ex_in (fs : directory) (st : store) (pn rn : option nat) :=
  obcs_in64 ex_libm ex_geod ex_float_of indices indices 3 ex_xw ex_xv st [] fs pn rn (ex_ob (fun _ => ONone)).

(** One dictionary for both grids. *)
Example C105_kept_case :
  (forall n, Some 0 = Some n \/ Some 0 = Some n -> exists ni nj, complete_grid ex_geod indices ex_og ni nj) /\
  failure (snd (snd (ex_in ex_results (fun _ => ex_og) (Some 0) (Some 0)))) = None.
Proof.
  split; [|vm_compute; reflexivity]. intros _ _. exists 2, 1. apply (proj1 (proj2 C103_case)).
Qed.

(** A grid with two pairs of coinciding points: its north-west corner is found at (0,0) and
    its south-east corner at (1,1). *)
Definition ex_odd : griddict binary64 :=
  fun f => match f with
    | XG => Arr (ex_mat [[0; 0]; [5; 9]; [9; 7]]%Z)
    | YG => Arr (ex_mat [[2; 2]; [5; 0]; [0; 7]]%Z)
    | _ => Arr (ex_mat [[5]; [6]]%Z)
    end.
Definition ex_shown (d : griddict binary64) (f : field) : nat * nat * list Z :=
  match d f with
  | Arr m => (mrows m, mcols m, map (fun ij => bits_of_b64 (mat_at m (fst ij) (snd ij))) (indices (mrows m) (mcols m)))
  | _ => (0, 0, [])
  end.
Definition ex_only_t : directory :=
  fst (wrmds64 [] (lit "run/T") (mk_nd [1; 2] (fun idx => ex_dbl (offset [1; 2] idx))) (Some 7%Z)
         (lit "float64") None None None None (lit "b")).
Definition ex_two (n : nat) : griddict binary64 := match n with 0 => ex_odd | _ => ex_og end.
Example C105_turned_case :
  found_at ex_geod indices ex_odd 0 0 1 1 /\ quarter_turns 0 0 1 1 = 3 /\
  (let r := ex_in ex_only_t ex_two (Some 0) (Some 1) in
   (failure (snd (snd r)), ex_shown (fst r 0) XG, ex_shown (fst r 0) XC, ex_shown (fst r 1) XG))
  = (None, (2, 3, map ibits [9; 5; 0; 7; 9; 0]%Z), ex_shown ex_og XC, ex_shown ex_og XG).
Proof.
  split; [|split; [reflexivity|vm_compute; reflexivity]].
  eexists _, _, _. split; [reflexivity|]. split; [reflexivity|]. split; [reflexivity|]. split; [unfold same_shape; cbn; lia|].
  split; (eapply (is_nearest_bits ex_libm); [apply layouts_indices|vm_compute; reflexivity]).
Qed.
