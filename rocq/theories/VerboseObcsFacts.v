From Coq Require Import Ascii String List Bool PeanoNat ZArith Init.Byte Lia.
Import ListNotations.
From Verif Require Import Prelude PreludeFacts Num Mat Fields GridIO Regrid Cli MdsMeta Mds GetObcs Counts SpecMds SpecGlob GlobFacts SpecObcs GetObcsFacts GridIOFacts CountsFacts FringeFacts Verbose VerboseFacts VerboseSays VerboseObcs.
Local Open Scope nat_scope.
Local Open Scope list_scope.

Section Facts.
Context {F : Type} (N : numops F) (C : codec F) (G : geod F) (C4 : codec F) (float_of : text -> option F).
Notation mds_stepV := (mds_stepV N C C4 float_of).
Notation mds2mitgridV := (mds2mitgridV N C C4 float_of).
Notation parent_gridV := (parent_gridV N C C4 float_of).
Notation regional_gridV := (regional_gridV N C).

Ltac step := repeat (progress (rewrite ?snd_obind, ?snd_still, ?snd_say; cbn [rbind])).

Section V.
Variable v : bool.

Lemma mds_stepV_snd fs dir st f : snd (mds_stepV v fs dir st f) = mds_step N C C4 float_of fs dir st f.
Proof.
  unfold VerboseObcs.mds_stepV, mds_step. step. destruct (rdmds _ _ _ _ _ _ _ _) as [a|]; [|reflexivity]. step.
  destruct st as ((g, ni), nj). destruct (recast N f a) as [(m, (r, c))|]; [|reflexivity]. cbn [rbind]. step.
  destruct (_ && _); reflexivity.
Qed.

Lemma mds2mitgridV_snd fs dir : snd (mds2mitgridV v fs dir) = mds2mitgrid N C C4 float_of fs dir.
Proof. unfold VerboseObcs.mds2mitgridV, mds2mitgrid. rewrite snd_ofold. apply foldM_ext. intros. apply mds_stepV_snd. Qed.

Lemma grid_from_fileV_snd w fs p ni nj strict :
  snd (grid_from_fileV N C v w fs p ni nj strict) = grid_from_fileZ N C fs p ni nj strict.
Proof.
  unfold grid_from_fileV, grid_from_fileZ. destruct (_ && _); [|reflexivity]. step. rewrite read_tileV_snd.
  unfold read_tileZ. destruct (dget fs p) as [bs|]; [|reflexivity]. destruct (read_mitgridZ _ _ _ _ _ _); reflexivity.
Qed.

Lemma read_grid_snd o : snd (read_grid (F := F) v o) = snd o.
Proof. unfold read_grid. step. now destruct (snd o). Qed.

Lemma parent_gridV_snd fs a n dir : snd (parent_gridV v fs a n dir) = parent_gridZ N C C4 float_of fs a n dir.
Proof.
  unfold VerboseObcs.parent_gridV, parent_gridZ, parent_grid, given_matrices. rewrite read_grid_snd.
  destruct (txt_arg (oa_parent_file a)) as [p|]; [apply grid_from_fileV_snd|].
  assert (K : snd (_ <~ say v [reading_from "parent" dir] ;;
      ' (g, ni, nj) <~ mds2mitgridV v fs dir ;; still (Ok (with_integers (mds_entry g, ni, nj)))) =
    (' (d, ni, nj) <- (' (g, ni, nj) <- mds2mitgrid N C C4 float_of fs dir ;; Ok (mds_entry g, ni, nj)) ;; Ok (d, Z.of_nat ni, Z.of_nat nj))).
  { step. rewrite mds2mitgridV_snd. destruct (mds2mitgrid _ _ _ _ _ _) as [((g, ni), nj)|]; reflexivity. }
  destruct (oa_parent_matrices a) as [d|]; [|exact K]. destruct (dict_empty d); [exact K|]. step.
  destruct (grid_from_matrices d) as [((g, ni), nj)|]; reflexivity.
Qed.

Lemma regional_gridV_snd fs a n : snd (regional_gridV v fs a n) = regional_gridZ N C fs a n.
Proof.
  unfold VerboseObcs.regional_gridV, regional_gridZ, regional_grid, given_matrices. rewrite read_grid_snd.
  destruct (txt_arg (oa_regional_file a)) as [p|]; [apply grid_from_fileV_snd|].
  destruct (oa_regional_matrices a) as [d|]; [|reflexivity]. destruct (dict_empty d); [reflexivity|]. step.
  destruct (grid_from_matrices d) as [((g, ni), nj)|]; reflexivity.
Qed.
End V.

Variables lay o3 : nat -> nat -> list (nat * nat).
Variable fuel : nat.
Variable W : Type.
Variable xw : mat F -> mat F -> mat F -> mat F -> res W.
Variable xv : W -> mat F -> nat -> nat -> F.
Notation response_loopV := (response_loopV N C C4 float_of).
Notation getobcs_fromV := (getobcs_fromV N C G C4 float_of).
Notation getobcsV := (getobcsV N C G C4 float_of).

Lemma response_loopV_snd v dir rd ni nj bd rg times l : forall fs,
  snd (response_loopV v xv dir rd ni nj bd rg times l fs) = response_loop N C C4 float_of xv dir rd ni nj bd rg times l fs.
Proof.
  induction l as [|rk l IH]; intros fs; [reflexivity|]. cbn [VerboseObcs.response_loopV response_loop].
  destruct (response_step _ _ _ _ _ _ _ _ _ _ _ _ _ _) as [fs'|]; [apply IH|reflexivity].
Qed.

(** Results of T without any dimension: the first response fails as well. *)
Lemma loop_no_dimension dir rd ni nj bd rg fs t0 r a :
  times_of fs dir = Ok (t0 :: r) -> read_response N C C4 float_of fs dir "T" t0 = Ok a -> shape a = [] ->
  response_loop N C C4 float_of xv dir rd ni nj bd rg (t0 :: r) responses fs = (fs, Err IndexError).
Proof.
  intros T R S. unfold responses. cbn [response_loop]. unfold response_step. cbn [fst snd].
  assert (E : existsb (glob_match (data_pat (path_join dir (lit "T")))) (names fs) = true).
  { unfold times_of in T. mok T. injection T as T. unfold glob in Ha.
    destruct (existsb (glob_match (data_pat (path_join dir (lit "T")))) (names fs)) eqn:E; [reflexivity|].
    assert (Z : filter (glob_match (data_pat (path_join dir (lit "T")))) (names fs) = []).
    { clear - E. induction (names fs) as [|n l IH]; [reflexivity|]. cbn [existsb filter] in *. apply orb_false_iff in E as (E1 & E2).
      rewrite E1. auto. }
    rewrite Z in Ha. injection Ha as <-. discriminate. }
  rewrite E. unfold assemble. rewrite R. unfold depths_of. rewrite S. cbn [rev rbind length combine seq foldM].
  unfold time_step at 1. cbn [fst snd]. rewrite R. cbn [rbind seq foldM]. unfold depth_step, interpolate, at_depth. rewrite S. reflexivity.
Qed.

Lemma getobcs_fromV_snd v ws fs a dir p pi pj r ri rj bd :
  snd (getobcs_fromV v lay o3 fuel xw xv ws fs a dir p pi pj r ri rj bd) =
  getobcs_from N C C4 G float_of lay o3 fuel xw xv ws fs a dir p pi pj r ri rj bd.
Proof.
  unfold VerboseObcs.getobcs_fromV, getobcs_from, times_and_depths.
  destruct (make_regridders _ _ _ _ _ _ _ _ _ _ _ _ _ _ _) as (ws1, [rg|e]); [|reflexivity].
  destruct (times_of fs dir) as [[|t0 ts]|] eqn:T; [reflexivity| |reflexivity]. cbn [rbind].
  destruct (read_response _ _ _ _ _ _ _ _) as [T1|] eqn:R; [|reflexivity]. cbn [rbind].
  destruct (shape T1) as [|n s] eqn:S.
  - now rewrite (loop_no_dimension _ _ _ _ _ _ _ _ _ _ T R S).
  - cbn [snd]. rewrite response_loopV_snd. now destruct (response_loop _ _ _ _ _ _ _ _ _ _ _ _ _ _).
Qed.

Lemma getobcsV_snd v ws fs a n :
  snd (getobcsV v lay o3 fuel xw xv ws fs a n) = getobcsZ N C G C4 float_of lay o3 fuel xw xv ws fs a n.
Proof.
  unfold VerboseObcs.getobcsV, getobcsZ. destruct (txt_arg _) as [dir|]; [|reflexivity]. cbv zeta. step.
  rewrite parent_gridV_snd. destruct (parent_gridZ _ _ _ _ _ _ _ _) as [((p, pi), pj)|]; [|reflexivity]. cbn [rbind]. step.
  rewrite regional_gridV_snd. destruct (regional_gridZ _ _ _ _ _) as [((r, ri), rj)|]; [|reflexivity]. cbn [rbind fst snd]. step.
  destruct (ob_allZ ri rj (oa_ob a)) as [bd|]; [|reflexivity]. cbn [rbind]. step. apply getobcs_fromV_snd.
Qed.

(** ** Nothing is printed without -v *)

Ltac sil := repeat match goal with
  | |- silent (still _) => apply silent_still
  | |- silent (say _ _) => apply silent_say
  | |- silent (obind _ _) => apply silent_obind; [|intros ?]
  end.

Lemma mds2mitgridV_silent fs dir : silent (mds2mitgridV false fs dir).
Proof.
  unfold VerboseObcs.mds2mitgridV. apply silent_ofold. intros ((g, ni), nj) f. unfold VerboseObcs.mds_stepV. sil.
  destruct (rdmds _ _ _ _ _ _ _ _); sil. repeat match goal with x : (_ * _)%type |- _ => destruct x end. sil.
Qed.
Lemma grid_from_fileV_silent w fs p ni nj strict : silent (grid_from_fileV N C false w fs p ni nj strict).
Proof. unfold grid_from_fileV. destruct (_ && _); sil. apply read_tileV_silent. Qed.
Lemma read_grid_silent o : silent o -> silent (read_grid (F := F) false o).
Proof. intros H. unfold read_grid. sil. exact H. Qed.
Lemma parent_gridV_silent fs a n dir : silent (parent_gridV false fs a n dir).
Proof.
  unfold VerboseObcs.parent_gridV. apply read_grid_silent. destruct (txt_arg _); [apply grid_from_fileV_silent|].
  destruct (given_matrices _); sil; [apply mds2mitgridV_silent|]. repeat match goal with x : (_ * _)%type |- _ => destruct x end. sil.
Qed.
Lemma regional_gridV_silent fs a n : silent (regional_gridV false fs a n).
Proof.
  unfold VerboseObcs.regional_gridV. apply read_grid_silent. destruct (txt_arg _); [apply grid_from_fileV_silent|].
  destruct (given_matrices _); sil.
Qed.
Lemma response_loopV_silent dir rd ni nj bd rg times l : forall fs,
  fst (response_loopV false xv dir rd ni nj bd rg times l fs) = [].
Proof.
  induction l as [|rk l IH]; intros fs; [reflexivity|]. cbn [VerboseObcs.response_loopV].
  destruct (response_step _ _ _ _ _ _ _ _ _ _ _ _ _ _) as [fs'|]; cbn [fst]; destruct (existsb _ _); try reflexivity; apply IH.
Qed.
Lemma getobcsV_silent ws fs a n : fst (getobcsV false lay o3 fuel xw xv ws fs a n) = [].
Proof.
  unfold VerboseObcs.getobcsV. destruct (txt_arg _) as [dir|]; [|reflexivity]. cbv zeta.
  match goal with |- context [snd ?o] => assert (S : silent o) by (sil; [apply parent_gridV_silent|apply regional_gridV_silent]);
    destruct (snd o) as [((((p, pi), pj), ((r, ri), rj)), bd)|]; cbn [fst]; rewrite S end; [|reflexivity].
  unfold VerboseObcs.getobcs_fromV. destruct (make_regridders _ _ _ _ _ _ _ _ _ _ _ _ _ _ _) as (ws1, [rg|e]); [|reflexivity].
  destruct (times_and_depths _ _ _ _ _ _) as [(ts, d)|]; [|reflexivity]. cbn [fst app]. apply response_loopV_silent.
Qed.

(** ** What is announced *)

Lemma ob_resolveZ_used ni nj s a b : ob_resolveZ ni nj s a = Ok b -> bd_do b = true.
Proof.
  unfold ob_resolveZ, ob_selectZ. destruct a as [|z|[|z [|y l]]]; cbn [ob_truth ob_any rbind existsb].
  - destruct (ob_defaultZ ni nj s); [|discriminate]. intros [= <-]. reflexivity.
  - destruct (z =? 0)%Z; cbn [negb rbind]; [|discriminate]. destruct (ob_defaultZ ni nj s); [|discriminate]. intros [= <-]. reflexivity.
  - destruct (ob_defaultZ ni nj s); [|discriminate]. intros [= <-]. reflexivity.
  - destruct (z =? 0)%Z; cbn [negb orb rbind]; [destruct (ob_defaultZ ni nj s); [|discriminate]|]; intros [= <-]; reflexivity.
  - discriminate.
Qed.
Lemma ob_allZ_used ni nj arg bd : ob_allZ ni nj arg = Ok bd -> forall s, bd_do (bd s) = true.
Proof.
  unfold ob_allZ. intros H. mok H. mok H. mok H. mok H. injection H as <-. intros []; eapply ob_resolveZ_used; eassumption.
Qed.

(** Whether a response has data files. *)
Definition has_data (fs : directory) (dir : text) (resp : string) : bool :=
  existsb (glob_match (data_pat (path_join dir (lit resp)))) (names fs).

(** The responses whose files are complete: all that were announced, or in a run that fails
    all but the last. *)
Definition finished (o : res unit) (l : list string) : list string :=
  match o with Ok _ => l | Err _ => removelast l end.

Lemma removelast_app_cons {A} (x : A) l : l <> [] -> removelast (x :: l) = x :: removelast l.
Proof. destruct l; [congruence|reflexivity]. Qed.

Lemma in_removelast {A} (x : A) l : In x (removelast l) -> In x l.
Proof.
  induction l as [|y l IH]; [easy|]. cbn [removelast]. destruct l as [|z l]; [easy|]. intros [->|I]; [now left|right; auto].
Qed.

Lemma loop_announced dir rd ni nj bd rg times l : forall fs o fs' r,
  (forall s, bd_do (bd s) = true) -> NoDup (map fst l) -> incl l responses ->
  response_loopV true xv dir rd ni nj bd rg times l fs = (o, (fs', r)) ->
  exists said unsaid, o = map announce said /\ filter (has_data fs dir) (map fst l) = said ++ unsaid /\
    (r = Ok tt -> unsaid = []) /\ (forall e, r = Err e -> said <> []) /\
    (forall resp s, In resp (finished r said) -> exists k nd ar, In (resp, k) l /\
       assemble N C C4 float_of xv fs dir resp ni nj bd rg k times = Ok (nd, ar) /\
       dget fs' (ob_file rd s resp) = Some (tofile3 (enc C) (side_len ni nj s) nd (length times) (ar s))) /\
    (forall n, (forall resp s, In resp (finished r said) -> n <> ob_file rd s resp) -> dget fs' n = dget fs n).
Proof.
  clear lay o3 fuel xw G.
  induction l as [|(r0, k0) l IH]; intros fs o fs' r Hdo ND HI H.
  { cbn in H. injection H as <- <- <-. exists [], []. cbn [finished filter map app].
    repeat split; auto; try discriminate. intros resp s []. }
  cbn [VerboseObcs.response_loopV fst] in H.
  change (existsb (glob_match (data_pat (path_join dir (lit r0)))) (names fs)) with (has_data fs dir r0) in H.
  cbn [map fst filter].
  destruct (response_step N C C4 float_of xv dir rd ni nj bd rg times fs (r0, k0)) as [fs1|e] eqn:E.
  2:{ injection H as <- <- <-. unfold response_step in E. cbn [fst snd] in E. fold (has_data fs dir r0) in E.
      destruct (has_data fs dir r0); [|discriminate]. exists [r0]. eexists. split; [reflexivity|]. split; [reflexivity|].
      split; [discriminate|]. split; [intros; discriminate|]. cbn [finished removelast]. split; [intros ? ? []|]. auto. }
  cbn [map fst] in ND. inversion ND as [|? ? ND1 ND2]; subst.
  assert (HI' : incl l responses) by (intros y Hy; apply HI; now right).
  assert (Hr0 : In (r0, k0) responses) by (apply HI; now left).
  destruct (response_loopV true xv dir rd ni nj bd rg times l fs1) as (o1, (fs2, r2)) eqn:EL. cbn [fst snd] in H. injection H as <- <- <-.
  destruct (IH fs1 o1 fs2 r2 Hdo ND2 HI' EL) as (sd & un & J1 & J2 & J3 & J4 & J5 & J6). clear IH.
  assert (S : same_reads N C C4 float_of fs fs1).
  { unfold response_step in E. cbn [fst snd] in E. destruct (existsb _ _).
    - mok E. destruct a as (nd, ar). injection E as <-. eapply write_sides_same; eauto.
    - injection E as <-. apply same_reads_refl. }
  assert (HD : forall resp, has_data fs1 dir resp = has_data fs dir resp) by (intros; unfold has_data; now rewrite (proj2 S)).
  rewrite (filter_ext _ _ HD) in J2.
  assert (SD : forall resp, In resp sd -> exists k, In (resp, k) l).
  { intros resp I. assert (I' : In resp (sd ++ un)) by (apply in_or_app; now left). rewrite <- J2 in I'.
    apply filter_In in I' as (I' & _). apply in_map_iff in I' as ((q & k) & <- & I'). eauto. }
  assert (FD : forall resp, In resp (finished r2 sd) -> In resp sd).
  { intros resp. destruct r2; cbn [finished]; [auto|apply in_removelast]. }
  assert (Out : forall s resp k, In (resp, k) l -> forall s', ob_file rd s r0 <> ob_file rd s' resp).
  { intros s resp k I s' Eq. eapply ob_file_inj in Eq; eauto. destruct Eq as (_ & ->).
    apply ND1. change resp with (fst (resp, k)). now apply in_map. }
  unfold response_step in E. cbn [fst snd] in E. fold (has_data fs dir r0) in E.
  destruct (has_data fs dir r0) eqn:Ed.
  - mok E. destruct a as (nd, ar). injection E as E.
    exists (r0 :: sd), un. split; [cbn [map app]; now rewrite J1|]. split; [cbn [app]; now rewrite J2|]. split; [exact J3|].
    split; [discriminate|].
    assert (FE : forall x, In x (finished r2 (r0 :: sd)) <-> x = r0 \/ In x (finished r2 sd)).
    { intros x. destruct r2 as [[]|e]; cbn [finished]; [cbn; intuition congruence|].
      rewrite removelast_app_cons by (eapply J4; reflexivity). cbn. intuition congruence. }
    split.
    + intros resp s I. apply FE in I as [-> |I].
      * exists k0, nd, ar. split; [now left|]. split; [exact Ha|].
        rewrite J6.
        { rewrite <- E. eapply write_sides_get; eauto. }
        intros resp s' I'. destruct (SD _ (FD _ I')) as (k & I2). eapply Out; eauto.
      * destruct (J5 resp s I) as (k & nd' & ar' & A1 & A2 & A3). exists k, nd', ar'. split; [now right|].
        split; [|exact A3]. rewrite <- A2. symmetry. now apply assemble_same.
    + intros n Hn. rewrite J6.
      * rewrite <- E. apply write_sides_other. intros s. apply (Hn r0 s). apply FE. now left.
      * intros resp s I. apply Hn. apply FE. now right.
  - injection E as <-. exists sd, un. split; [exact J1|]. split; [exact J2|]. split; [exact J3|]. split; [exact J4|]. split; [|exact J6].
    intros resp s I. destruct (J5 resp s I) as (k & nd' & ar' & A1 & A2 & A3). exists k, nd', ar'. split; [now right|]. auto.
Qed.

(** ** Nothing else looks like an announcement: those start with a small c *)
Definition small_c (i : item F) : Prop := match i with Text (c :: _) => c = "c"%char | _ => False end.
Definition no_c {A} (o : out F A) : Prop := Forall (fun i => ~ small_c i) (fst o).

Lemma nc_obind {A B} (o : out F A) (k : A -> out F B) : no_c o -> (forall a, no_c (k a)) -> no_c (obind o k).
Proof. unfold no_c, obind. intros H K. destruct (snd o); cbn [fst]; [|exact H]. apply Forall_app. auto. Qed.
Lemma nc_still {A} (r : res A) : no_c (still r).
Proof. constructor. Qed.
Lemma nc_say v l : Forall (fun i => ~ small_c i) l -> no_c (say v l).
Proof. unfold no_c, say. destruct v; [auto|constructor]. Qed.
Lemma nc_ofold {S X} (body : S -> X -> out F S) l : (forall s x, no_c (body s x)) -> forall s, no_c (ofold body l s).
Proof. intros H. induction l as [|x l IH]; intros s; [constructor|]. cbn [ofold]. apply nc_obind; auto. Qed.
Ltac nc := repeat match goal with
  | |- no_c (still _) => apply nc_still
  | |- no_c (say _ _) => apply nc_say
  | |- no_c (obind _ _) => apply nc_obind; [|intros ?]
  | |- Forall _ (_ :: _) => constructor; [cbn; discriminate|]
  | |- Forall _ [] => constructor
  end.

Section W.
Variable v : bool.
Lemma read_tileV_nc fs p ni nj strict : no_c (read_tileV N C v fs p ni nj strict).
Proof. unfold read_tileV. nc. apply nc_ofold. intros. unfold read_fieldV. nc. Qed.
Lemma grid_from_fileV_nc w fs p ni nj strict : no_c (grid_from_fileV N C v w fs p ni nj strict).
Proof. unfold grid_from_fileV. destruct (_ && _); nc. apply read_tileV_nc. Qed.
Lemma read_grid_nc o : no_c o -> no_c (read_grid (F := F) v o).
Proof. intros H. unfold read_grid. nc. exact H. Qed.
Lemma parent_gridV_nc fs a n dir : no_c (parent_gridV v fs a n dir).
Proof.
  unfold VerboseObcs.parent_gridV. apply read_grid_nc. destruct (txt_arg _); [apply grid_from_fileV_nc|].
  destruct (given_matrices _); nc.
  - unfold VerboseObcs.mds2mitgridV. apply nc_ofold. intros ((g, ni), nj) f. unfold VerboseObcs.mds_stepV. nc.
    destruct (rdmds _ _ _ _ _ _ _ _); nc. repeat match goal with x : (_ * _)%type |- _ => destruct x end. nc.
  - repeat match goal with x : (_ * _)%type |- _ => destruct x end. nc.
Qed.
Lemma regional_gridV_nc fs a n : no_c (regional_gridV v fs a n).
Proof.
  unfold VerboseObcs.regional_gridV. apply read_grid_nc. destruct (txt_arg _); [apply grid_from_fileV_nc|].
  destruct (given_matrices _); nc.
Qed.
End W.

(** ** What a successful run prints *)

Definition mds_said (f : field) (m : option (mat F)) : list (item F) :=
  Text (lit "reading " ++ padl " " 3 (field_text f) ++ lit "...") ::
  match m with
  | Some _ => [Text (lit "reformatting..."); line (lit "done")]
  | None => [line (lit "............no data")]
  end.

Lemma mds_step_says fs dir g ni nj f g' ni' nj' : g f = None ->
  snd (mds_stepV true fs dir (g, ni, nj) f) = Ok (g', ni', nj') ->
  fst (mds_stepV true fs dir (g, ni, nj) f) = mds_said f (g' f) /\ forall f', f' <> f -> g' f' = g f'.
Proof.
  intros Gf H. unfold VerboseObcs.mds_stepV in *. ook H.
  destruct (rdmds _ _ _ _ _ _ _ _) as [a|e].
  - do 3 ook H. destruct x1 as (m, (r, c)).
    assert (E : g' = fun f' => if field_beq f' f then Some m else g f') by (destruct (_ && _); injection H; auto). subst g'.
    rewrite field_beq_refl. split; [destruct (_ && _); reflexivity|]. intros f' Hf.
    destruct (field_beq f' f) eqn:K; [|reflexivity]. apply field_beq_eq in K. contradiction.
  - ook H. injection H as <- <- <-. rewrite Gf. auto.
Qed.

Lemma mds_fold_says fs dir l : forall g ni nj g' ni' nj', NoDup l -> (forall f, In f l -> g f = None) ->
  snd (ofold (mds_stepV true fs dir) l (g, ni, nj)) = Ok (g', ni', nj') ->
  fst (ofold (mds_stepV true fs dir) l (g, ni, nj)) = flat_map (fun f => mds_said f (g' f)) l /\
  forall f, ~ In f l -> g' f = g f.
Proof.
  induction l as [|f l IH]; intros g ni nj g' ni' nj' ND Hg H.
  { cbn in H. injection H as <- <- <-. auto. }
  cbn [ofold] in *. ook H. destruct x as ((g1, n1), m1). inversion ND as [|? ? ND1 ND2]; subst.
  destruct (mds_step_says _ _ _ _ _ _ _ _ _ (Hg f (or_introl eq_refl)) Hx) as (E1 & E2).
  destruct (IH g1 n1 m1 g' ni' nj' ND2) as (J1 & J2); [|exact H|].
  { intros f' I. rewrite E2; [apply Hg; now right|]. intros ->. contradiction. }
  split.
  - rewrite E1, J1. cbn [flat_map]. now rewrite (J2 f ND1).
  - intros f' Hf. rewrite J2, E2; auto; intros K; apply Hf; [left|right]; auto.
Qed.

Lemma mds_says fs dir g ni nj : snd (mds2mitgridV true fs dir) = Ok (g, ni, nj) ->
  fst (mds2mitgridV true fs dir) = flat_map (fun f => mds_said f (g f)) fields.
Proof. intros H. eapply mds_fold_says in H as (H & _); [exact H|apply fields_NoDup|reflexivity]. Qed.

(** A run ends before the responses, or prints the messages of the two grids, the line with
    the numbers of depths and times, and announcements. *)
Lemma getobcsV_parts ws fs a n o ws' fs' r : getobcsV true lay o3 fuel xw xv ws fs a n = (o, (ws', fs', r)) ->
  (fs' = fs /\ (exists e, r = Err e) /\ Forall (fun i => ~ small_c i) o) \/
  exists dir gp gr bd rg nt times,
    txt_arg (oa_parent_resultsdir a) = Some dir /\
    snd (parent_gridV true fs a n dir) = Ok gp /\ snd (regional_gridV true fs a n) = Ok gr /\
    ob_allZ (snd (fst gr)) (snd gr) (oa_ob a) = Ok bd /\
    times_and_depths N C C4 float_of fs dir = Ok (times, nt) /\
    let l := response_loopV true xv dir (results_dir a dir) (Z.to_nat (snd (fst gr))) (Z.to_nat (snd gr)) bd rg times responses fs in
    o = fst (parent_gridV true fs a n dir) ++ fst (regional_gridV true fs a n) ++ [computing nt (length times)] ++ fst l /\
    snd l = (fs', r).
Proof.
  unfold VerboseObcs.getobcsV. destruct (txt_arg _) as [dir|]; [|intros [= <- <- <- <-]; left; repeat split; eauto].
  cbv zeta. set (q := obind _ _).
  assert (S : no_c q).
  { unfold q. nc; [apply parent_gridV_nc|apply regional_gridV_nc]. }
  destruct (snd q) as [((((p, pi), pj), ((gr, ri), rj)), bd)|e] eqn:E.
  2:{ intros [= <- <- <- <-]. left. split; [reflexivity|]. split; [eauto|]. exact S. }
  unfold VerboseObcs.getobcs_fromV.
  destruct (make_regridders _ _ _ _ _ _ _ _ _ _ _ _ _ _ _) as (ws1, [rg|e]).
  2:{ cbn [fst snd]. rewrite app_nil_r. intros [= <- <- <- <-]. left. split; [reflexivity|]. split; [eauto|]. exact S. }
  destruct (times_and_depths _ _ _ _ _ _) as [(ts, d)|e] eqn:T.
  2:{ cbn [fst snd]. rewrite app_nil_r. intros [= <- <- <- <-]. left. split; [reflexivity|]. split; [eauto|]. exact S. }
  cbn [fst snd]. intros [= <- <- <- <-]. right.
  assert (Eq : fst q = fst (parent_gridV true fs a n dir) ++ fst (regional_gridV true fs a n) /\
    snd (parent_gridV true fs a n dir) = Ok (p, pi, pj) /\ snd (regional_gridV true fs a n) = Ok (gr, ri, rj) /\
    ob_allZ ri rj (oa_ob a) = Ok bd).
  { unfold q in *. clear q S T. ook E. ook E. ook E. cbn [snd still] in *. injection E as -> -> ->. cbn [fst snd still] in *.
    rewrite !app_nil_r. auto. }
  destruct Eq as (E1 & E2 & E3 & E4).
  exists dir, (p, pi, pj), (gr, ri, rj), bd, rg, d, ts. repeat (split; [first [reflexivity|assumption]|]).
  rewrite E1. split; [now rewrite <- !app_assoc|]. apply surjective_pairing.
Qed.
End Facts.
