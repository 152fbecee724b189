(** The two models of rdmds agree: where [Mds.rdmds] gives an array, [RdMds.rdmds_full] with the
    default options gives the same one and changes no files. *)
From Coq Require Import Ascii String List Bool PeanoNat ZArith Lia Init.Byte.
Import ListNotations.
From Verif Require Import Prelude Num MdsMeta Mds SpecMds MdsFacts RdMds SpecRdMds RdMdsFacts.
Local Open Scope nat_scope.
Local Open Scope list_scope.

Lemma mapM_app {A B} (f : A -> res B) l1 : forall l2 r1 r2, mapM f l1 = Ok r1 -> mapM f l2 = Ok r2 ->
  mapM f (l1 ++ l2) = Ok (r1 ++ r2).
Proof.
  induction l1 as [|x l1 IH]; intros l2 r1 r2 E1 E2.
  - injection E1 as <-. exact E2.
  - cbn [mapM app] in *. destruct (f x); [|discriminate]. cbn [rbind] in *.
    destruct (mapM f l1) as [q|]; [|discriminate]. cbn [rbind] in *. injection E1 as <-.
    rewrite (IH l2 q r2 eq_refl E2). reflexivity.
Qed.

Lemma mapM_app_inv {A B} (f : A -> res B) l1 : forall l2 r, mapM f (l1 ++ l2) = Ok r ->
  exists r1 r2, mapM f l1 = Ok r1 /\ mapM f l2 = Ok r2 /\ r = r1 ++ r2.
Proof.
  induction l1 as [|x l1 IH]; intros l2 r E.
  - exists [], r. auto.
  - cbn [mapM app] in *. destruct (f x) as [y|]; [|discriminate]. cbn [rbind] in *.
    destruct (mapM f (l1 ++ l2)) as [q|] eqn:Q; [|discriminate]. cbn [rbind] in E. injection E as <-.
    destruct (IH _ _ Q) as (r1 & r2 & -> & -> & ->). exists (y :: r1), r2. auto.
Qed.

Lemma in_slices_valid gd : forall bounds t t', length bounds <= length gd ->
  valid_idx gd t -> in_slices (map (fun nb => slice_of (fst nb) (snd nb)) (combine gd bounds)) t = Some t' ->
  valid_idx (map snd (map (fun nb => slice_of (fst nb) (snd nb)) (combine gd bounds)) ++ skipn (length bounds) gd) t'.
Proof.
  induction gd as [|g gd IH]; intros [|b bounds] t t' L V H.
  - cbn in *. injection H as <-. exact V.
  - cbn in L. lia.
  - cbn in *. injection H as <-. exact V.
  - inversion V as [|i ? t0 ? V1 V2]; subst. cbn [combine map in_slices fst snd length skipn app] in *.
    destruct (slice_of g b) as [s c] eqn:SL.
    destruct ((s <=? i) && (i <? s + c)) eqn:B; [|discriminate].
    destruct (in_slices (map (fun nb => slice_of (fst nb) (snd nb)) (combine gd bounds)) t0) as [q|] eqn:Q; [|discriminate].
    cbn [option_map] in H. injection H as <-. cbn [snd].
    apply andb_prop in B. destruct B as [B1 B2]. apply Nat.leb_le in B1. apply Nat.ltb_lt in B2.
    constructor; [lia|]. apply (IH bounds t0 q); [lia | assumption | assumption].
Qed.

Lemma pick_whole sh : forall t, valid_idx sh t -> pick (map (seq 0) sh) t = t.
Proof.
  induction sh as [|n sh IH]; intros t V; inversion V as [|i ? t0 ? V1 V2]; subst; [reflexivity|].
  cbn [map]. rewrite pick_cons, IH by assumption. now rewrite seq_nth.
Qed.

Lemma whole_lengths (sh : list nat) : map (@length nat) (map (seq 0) sh) = sh.
Proof. rewrite map_map. rewrite <- (map_id sh) at 2. apply map_ext. intros n. apply seq_length. Qed.

Section Agree.
Context {F : Type} (N : numops F).
Variables (C8 C4 : codec F).
Variable float_of : text -> option F.

Lemma select_whole (a : nd F) n sh : shape a = n :: sh -> exists v, select a [Whole] = Ok v /\ nd_eq v a.
Proof.
  intros E. destruct (select_ok a [Whole] (map (seq 0) (n :: sh))) as (v & SV & SH & H).
  { rewrite E. cbn [axes axis rbind]. now rewrite axes_nil. }
  exists v. split; [exact SV|]. split.
  - rewrite SH, E. apply whole_lengths.
  - intros idx V. rewrite H, pick_whole; [reflexivity|]. now rewrite SH, whole_lengths in V.
Qed.

Lemma place_agrees (a a' : nd F) iit bounds (tile v : nd F) b : place a iit bounds tile = Ok b ->
  nd_eq a a' -> nd_eq v tile ->
  exists w b', slice_view (shape a') iit bounds = Ok w /\ assign a' w v = Ok b' /\ nd_eq b b'.
Proof.
  intros P [SA EA] [SV EV]. unfold place in P. destruct (shape a) as [|nits [|nrec gd]] eqn:S; try discriminate.
  destruct (Nat.ltb_spec (length gd) (length bounds)) as [|LB]; [discriminate|].
  set (sl := map (fun nb => slice_of (fst nb) (snd nb)) (combine gd bounds)) in *.
  destruct (list_eq_dec Nat.eq_dec (nrec :: map snd sl ++ skipn (length bounds) gd) (shape tile)) as [T|]; [|discriminate].
  injection P as <-. unfold slice_view. rewrite <- SA.
  replace (length gd <? length bounds) with false by (symmetry; apply Nat.ltb_ge; assumption).
  fold sl. set (w := mk_view _ _).
  assert (VP : forall idx t, valid_idx (shape a') idx -> v_place w idx = Some t -> valid_idx (v_shape w) t).
  { intros idx t V H. rewrite <- SA in V. cbn [v_place v_shape w] in *.
    destruct idx as [|i [|r t0]]; try discriminate. apply valid_cons in V. destruct V as [_ V].
    apply valid_cons in V. destruct V as [V1 V2].
    destruct (i =? iit); [|discriminate]. destruct (in_slices sl t0) as [q|] eqn:Q; [|discriminate].
    cbn [option_map] in H. injection H as <-. apply valid_cons. split; [assumption|].
    unfold sl in *. now apply in_slices_valid with t0. }
  destruct (assign_same a' w v) as (b' & AB & SB & HB).
  { rewrite SV, <- T. reflexivity. }
  { exact VP. }
  exists w, b'. split; [reflexivity|]. split; [exact AB|]. split; [cbn [shape]; now rewrite SB|].
  intros idx V. cbn [shape at_] in *. rewrite HB by (now rewrite <- SA).
  pose proof (VP idx) as VI. rewrite <- SA in VI. specialize (fun t => VI t V). cbn [v_place w] in *.
  destruct idx as [|i [|r t0]]; [apply EA; assumption | apply EA; assumption|].
  destruct (i =? iit); [|apply EA; assumption].
  destruct (in_slices sl t0) as [q|] eqn:Q; cbn [option_map] in *; [|apply EA; assumption].
  specialize (VI _ eq_refl). symmetry. apply EV. rewrite SV, <- T. exact VI.
Qed.

Lemma place_shape (a : nd F) iit bounds (tile : nd F) b : place a iit bounds tile = Ok b -> shape b = shape a.
Proof.
  unfold place. destruct (shape a) as [|nits [|nrec gd]] eqn:S; try discriminate.
  destruct (_ <? _); [discriminate|]. destruct (list_eq_dec _ _ _); [|discriminate]. now intros [= <-].
Qed.

Record agrees (a : rstate (F:=F)) (s : rdstate (F:=F)) : Prop := mk_agrees {
  ag_arr : nd_eq (rs_arr a) (s_arr s);
  ag_prec : s_prec s = rs_prec a;
  ag_shape : rs_tileshape a = s_nrec s :: s_recshape s;
  ag_meta : s_meta s = rs_meta a;
  ag_dims : 2 <= length (shape (rs_arr a)) }.

Let o := rd_default N.

Lemma last_two (l : list Z) : 2 <= length l -> exists r y x, l = r ++ [y; x].
Proof.
  intros H. destruct (split_last2 l (length l - 2)) as (r & y & x & E & _); [lia|]. eauto.
Qed.

Lemma extent_inv z n : extent z = Ok n -> (0 <= z)%Z /\ n = Z.to_nat z.
Proof. unfold extent. destruct (Z.ltb_spec z 0); [discriminate|]. intros [= <-]. auto. Qed.

Lemma init_agrees nits (tm : tilemeta (F:=F)) st : init_arr N nits tm = Ok st ->
  exists s, init_full o nits tm = Ok s /\ agrees st s.
Proof.
  unfold init_arr, init_full. intros H.
  destruct (match dget (tm_meta tm) (lit "dataprec") with Some _ => _ | None => _ end) as [pv|]; [|discriminate].
  cbn [rbind] in *.
  destruct (match pv with Vstr s => _ | _ => _ end) as [p|]; [|discriminate]. cbn [rbind] in *.
  destruct (mapM extent (map _ (combine (tm_i0s tm) (tm_ies tm)))) as [recshape|]; [|discriminate]. cbn [rbind] in *.
  destruct (match recshape with [] => true | _ => false end); [discriminate|].
  destruct (single (tm_meta tm) (lit "nrecords")) as [nv|]; [|discriminate]. cbn [rbind] in *.
  destruct (as_int nv) as [nz|]; [|discriminate]. cbn [rbind] in *.
  destruct (extent nz) as [nrec|]; [|discriminate]. cbn [rbind] in *.
  destruct (Nat.ltb_spec (length (tm_gdims tm)) 2) as [|L]; [discriminate|].
  destruct (mapM extent (tm_gdims tm)) as [gd|] eqn:G; [|discriminate]. cbn [rbind] in H. injection H as <-.
  cbn [o rd_default o_region o_lev o_rec o_fill].
  destruct (last_two _ L) as (r & y & x & E). rewrite E in *.
  unfold full_region. rewrite rev_last2. cbn [nth_error rbind ri0 rie rj0 rje].
  cbn [length]. rewrite app_length. cbn [length].
  replace (length r + 2 <? 0 + 2) with false by (symmetry; apply Nat.ltb_ge; lia).
  replace (firstn (length r + 2 - 2) (r ++ [y; x])) with r.
  2:{ replace (length r + 2 - 2) with (length r + 0) by lia. rewrite firstn_app_2. cbn [firstn]. now rewrite app_nil_r. }
  cbn [skipn].
  destruct (mapM_app_inv extent r [y; x] _ G) as (r1 & r2 & -> & M2 & ->).
  cbn [mapM] in M2. destruct (extent y) as [ny|] eqn:EY; [|discriminate]. cbn [rbind] in M2.
  destruct (extent x) as [nx|] eqn:EX; [|discriminate]. cbn [rbind] in M2. injection M2 as <-.
  cbn [rbind skipn map app]. rewrite !Z.sub_0_r, EY, EX. cbn [rbind].
  eexists. split; [reflexivity|]. split; cbn [rs_arr rs_prec rs_tileshape rs_meta s_arr s_prec s_nrec s_recshape s_meta];
    try reflexivity; [|cbn [shape length]; lia].
  split; cbn [shape at_]; [|reflexivity]. f_equal. f_equal. rewrite map_length, seq_length. reflexivity.
Qed.

Definition agree_opt (st : option (rstate (F:=F))) (s : option (rdstate (F:=F))) : Prop :=
  match st, s with Some a, Some b => agrees a b | None, None => True | _, _ => False end.

Lemma tile_agrees fs od nits iit st s fm mf st' : read_tile N C8 C4 float_of fs od nits iit st mf = Ok st' ->
  agree_opt st s ->
  exists bs tm fm' s', dget fs mf = Some bs /\ readmeta float_of (byte_text bs) = Ok tm /\
    readmeta_full float_of (byte_text bs) = Ok fm' /\
    read_tile_full N C8 C4 float_of o od nits iit (fs, s, fm) mf = (fs, Ok (fs, s', Some fm')) /\
    agree_opt st' s' /\ st' <> None /\
    (st = None -> option_map (@rs_meta F) st' = Some (tm_meta tm)) /\
    (st <> None -> option_map (@rs_meta F) st' = option_map (@rs_meta F) st).
Proof.
  intros R A. unfold read_tile in R. unfold read_tile_full.
  destruct (dget fs mf) as [bs|]; [|discriminate].
  destruct (readmeta float_of (byte_text bs)) as [tm|] eqn:RM; [|discriminate]. cbn [rbind] in R.
  destruct (match st with None => _ | Some s => _ end) as [st1|] eqn:ST; [|discriminate]. cbn [rbind] in R.
  destruct (tm_mapped tm) eqn:MP; [discriminate|].
  destruct (dget fs (firstn (length mf - 4) mf ++ lit "data")) as [dbs|] eqn:D; [|discriminate].
  destruct (reshape N (fromfile_as C8 C4 (rs_prec st1) od dbs) (rs_tileshape st1)) as [tile|] eqn:RS; [|discriminate].
  cbn [rbind] in R.
  destruct (place (rs_arr st1) iit (combine (tm_i0s tm) (tm_ies tm)) tile) as [arr|] eqn:P; [|discriminate].
  cbn [rbind] in R. injection R as <-.
  assert (RF : exists fm', readmeta_full float_of (byte_text bs) = Ok fm' /\ fm_tile fm' = tm /\ fm_map fm' = None).
  { unfold readmeta_full. unfold readmeta in RM.
    destruct (parsemeta float_of (byte_text bs)) as [meta|] eqn:PM; [|discriminate].
    cbn [rbind] in *.
    destruct (dget meta (lit "dimList")) as [vs|] eqn:DL; [|discriminate].
    destruct (mapM (as_int (F:=F)) vs) as [dl|] eqn:MI; [|discriminate]. cbn [rbind] in RM. cbv zeta in RM.
    unfold readmeta. rewrite PM. cbn [rbind]. rewrite DL, MI. cbn [rbind]. eexists. split; [reflexivity|].
    cbn [fm_tile fm_map]. split; [now injection RM|]. 
    assert (MP2 : tm_mapped tm = match dget meta (lit "map2glob") with Some _ => true | None => false end)
      by (clear - RM; injection RM as <-; reflexivity).
    rewrite MP in MP2.
    destruct (dget meta (lit "map2glob")); [discriminate | reflexivity]. }
  destruct RF as (fm' & RF & FT & FM).
  assert (AS : exists s1, match s with
       | None => init_full o nits tm
       | Some s => if meta_eqb N (tm_meta tm) (s_meta s) then Ok s else Err (ValueError "Meta files not compatible")
       end = Ok s1 /\ agrees st1 s1).
  { destruct st as [a|], s as [b|]; cbn [agree_opt] in A; try contradiction.
    - rewrite (ag_meta _ _ A). destruct (meta_eqb N (tm_meta tm) (rs_meta a)); [|discriminate].
      injection ST as <-. eauto.
    - now apply init_agrees. }
  destruct AS as (s1 & AS & AG).
  exists bs, tm, fm'. rewrite RF. cbn [rbind]. rewrite FT, AS. cbn [rbind]. rewrite FM.
  change (o_region o) with (@None region). cbn [rbind ov_bounds].
  assert (SH : shape tile = s_nrec s1 :: s_recshape s1).
  { rewrite <- (ag_shape _ _ AG). unfold reshape in RS. destruct (_ =? _); [|discriminate]. injection RS as <-. reflexivity. }
  destruct (select_whole tile _ _ SH) as (v & SV & EV).
  destruct (place_agrees _ _ _ _ _ _ _ P (ag_arr _ _ AG) EV) as (w & b' & SW & AB & EB).
  rewrite SW. cbn [rbind].
  unfold read_data. change (o_memmap o) with false. change (o_rec o) with RecAll. cbn [orb ov_any].
  rewrite D, (ag_prec _ _ AG), <- (ag_shape _ _ AG), RS. cbn [rbind].
  change (rec_sel o :: tile_sel o (length (s_recshape s1)) (mk_overlap (combine (tm_i0s tm) (tm_ies tm)) None true))
    with [Whole]. rewrite SV. cbn [rbind]. rewrite AB. cbn [rbind].
  eexists. split; [reflexivity|]. split; [exact RM|]. split; [reflexivity|]. split; [reflexivity|].
  split; [|split; [discriminate|split]].
  - cbn [agree_opt]. split; cbn [rs_arr rs_prec rs_tileshape rs_meta s_arr s_prec s_nrec s_recshape s_meta];
      [exact EB | reflexivity | apply (ag_shape _ _ AG) | apply (ag_meta _ _ AG) |].
    rewrite (place_shape _ _ _ _ _ P). apply (ag_dims _ _ AG).
  - intros ->. cbn [option_map rs_meta]. f_equal. unfold init_arr in ST. clear - ST.
    repeat match type of ST with
           | rbind ?e _ = _ => destruct e; [cbn [rbind] in ST | discriminate]
           | (if ?b then _ else _) = _ => destruct b; [discriminate|]
           end. injection ST as <-. reflexivity.
  - intros NN. destruct st as [a|]; [|now elim NN]. cbn [option_map rs_meta]. f_equal.
    destruct (meta_eqb N (tm_meta tm) (rs_meta a)); [|discriminate]. now injection ST as <-.
Qed.

Lemma tiles_agree fs od nits iit : forall mfs st s fm st',
  foldM (read_tile N C8 C4 float_of fs od nits iit) mfs st = Ok st' -> agree_opt st s ->
  exists s' fm', foldD (tiles_body N C8 C4 float_of o od nits iit) mfs (fs, (s, fm)) = (fs, Ok (fs, (s', fm')))
    /\ agree_opt st' s'.
Proof.
  induction mfs as [|mf mfs IH]; intros st s fm st' H A.
  - injection H as <-. exists s, fm. auto.
  - cbn [foldM] in H. destruct (read_tile N C8 C4 float_of fs od nits iit st mf) as [st1|] eqn:R; [|discriminate].
    cbn [rbind] in H.
    destruct (tile_agrees fs od nits iit st s fm mf st1 R A) as (bs & tm & fm' & s1 & _ & _ & _ & RF & A1 & _).
    destruct (IH st1 s1 (Some fm') st' H A1) as (s' & fm2 & FD & A2).
    exists s', fm2. split; [|exact A2]. cbn [foldD]. unfold tiles_body at 1. rewrite RF. exact FD.
Qed.

Lemma iters_agree fs fname additrs od nits : forall is st acc st',
  foldM (read_iter N C8 C4 float_of fs fname additrs od nits) is st = Ok st' -> agree_opt st (a_state acc) ->
  exists acc', foldD (iter_body N C8 C4 float_of fname additrs o od nits) is (fs, acc) = (fs, Ok (fs, acc'))
    /\ agree_opt st' (a_state acc').
Proof.
  induction is as [|ii is IH]; intros st acc st' H A.
  - injection H as <-. exists acc. auto.
  - cbn [foldM] in H. unfold read_iter at 1 in H. cbn [foldD]. unfold iter_body at 1.
    match type of H with context [metafiles_of fs ?x] =>
      match goal with |- context [metafiles_of fs ?y] => change (metafiles_of fs y) with (metafiles_of fs x) end;
      destruct (metafiles_of fs x) as [mfs|]; [|discriminate]
    end.
    cbn [rbind] in H.
    destruct (foldM (read_tile N C8 C4 float_of fs od nits (fst ii)) mfs st) as [st1|] eqn:FM; [|discriminate].
    cbn [rbind] in H.
    destruct (tiles_agree fs od nits (fst ii) mfs st (a_state acc) None st1 FM A) as (s1 & fm1 & FD & A1).
    rewrite FD. eapply IH; [exact H|]. exact A1.
Qed.

Definition itarg_of (it : iterations) : itarg :=
  match it with NoIter => ItNone | Iters l => ItList l | AllIters => ItNaN | LastIter => ItInf end.

Lemma itr_list_of fs fname it : itr_list fs fname (itarg_of it) = iteration_list fs fname it.
Proof. destruct it; reflexivity. Qed.

Lemma ravel_eq (a b : nd F) : nd_eq a b -> ravel a = ravel b.
Proof.
  intros [S E]. unfold ravel. rewrite <- S. apply map_ext_in. intros idx I. apply E. now apply in_all_idx.
Qed.

Lemma reshape_agrees (a b : nd F) sh r : nd_eq a b -> reshape N (ravel a) sh = Ok r -> reshape N (ravel b) sh = Ok r.
Proof. intros E H. now rewrite <- (ravel_eq _ _ E). Qed.

(** What the array is made from: the loop of [rdmds]. *)
Theorem rdmds_agrees fs fname it mf b : rdmds N C8 C4 float_of fs fname it mf = Ok b ->
  exists b' itrs m, rdmds_full N C8 C4 float_of fs fname (itarg_of it) mf o = (fs, Ok (b', itrs, m)) /\
    nd_eq b' b /\ iteration_list fs fname it = Ok itrs.
Proof.
  unfold rdmds, rdmds_full. rewrite itr_list_of.
  destruct (iteration_list fs fname it) as [itrs|]; [|discriminate]. cbn [rbind].
  destruct (typeprefix mf) as [od|]; [|discriminate].
  replace (adds (itarg_of it)) with (match it with NoIter => false | _ => true end) by (destruct it; reflexivity).
  destruct (foldM _ _ None) as [st|] eqn:FM; [|discriminate]. cbn [rbind]. intros H.
  destruct (iters_agree fs fname _ od (length itrs) _ _ (mk_rdacc None [] []) st FM I) as (acc & FD & A).
  rewrite FD. destruct st as [a|]; cbn [agree_opt] in A; destruct (a_state acc) as [s|] eqn:SA; try contradiction.
  - assert (DD : exists b', drop_dims N o (it_is_list (itarg_of it)) (s_arr s) = Ok b' /\ nd_eq b' b).
    { unfold drop_dims. change (o_lev o) with (@nil levarg). change (o_squeeze o) with true. cbn [length plus].
      pose proof (proj1 (ag_arr _ _ A)) as SH. unfold squeeze in H.
      destruct (shape (rs_arr a)) as [|n [|m r]] eqn:SR.
      - pose proof (ag_dims _ _ A) as Q. rewrite SR in Q. cbn in Q. lia.
      - pose proof (ag_dims _ _ A) as Q. rewrite SR in Q. cbn in Q. lia.
      - rewrite <- SH. cbn [firstn skipn]. exists b. split; [|split; reflexivity].
        eapply reshape_agrees; [exact (ag_arr _ _ A) | exact H]. }
    destruct DD as (b' & -> & E). cbn [rbind]. do 3 eexists. split; [reflexivity|]. auto.
  - injection H as <-. cbn [rbind]. do 3 eexists. split; [reflexivity|]. split; [split; reflexivity | reflexivity].
Qed.

(** The same for one file: what is returned besides the array. *)
Theorem rdmds_one fs fname it mf b i name mfile bs fm : rdmds N C8 C4 float_of fs fname it mf = Ok b ->
  iteration_list fs fname it = Ok [i] ->
  (if match it with NoIter => false | _ => true end then fname ++ ["."%char] ++ fmt_0d 10 i else fname) = name ->
  metafiles_of fs name = Ok [mfile] -> dget fs mfile = Some bs -> readmeta_full float_of (byte_text bs) = Ok fm ->
  exists b' s, s_meta s = tm_meta (fm_tile fm) /\ nd_eq b' b /\
    rdmds_full N C8 C4 float_of fs fname (itarg_of it) mf o
    = (fs, Ok (b', [i], meta_result (mk_rdacc (Some s)
         (match fm_step fm with Some l => l | None => [] end)
         (match fm_interval fm with Some l => [l] | None => [] end)))).
Proof.
  intros R IL NM MF DG RM.
  destruct (rdmds_agrees _ _ _ _ _ R) as (b' & itrs & m & RF & EQ & IL').
  assert (itrs = [i]) by congruence. subst itrs. clear IL'.
  unfold rdmds in R. rewrite IL in R. cbn [rbind] in R.
  unfold rdmds_full in RF |- *. rewrite itr_list_of, IL in RF |- *.
  destruct (typeprefix mf) as [od|]; [|discriminate]. cbn [length seq combine foldM foldD] in *.
  replace (adds (itarg_of it)) with (match it with NoIter => false | _ => true end) in * by (destruct it; reflexivity).
  unfold read_iter in R. unfold iter_body in RF |- *. cbn [fst snd a_state a_steps a_intervals] in *.
  rewrite NM, MF in R. rewrite NM, MF in RF |- *. cbn [rbind foldM foldD] in *.
  destruct (read_tile N C8 C4 float_of fs od 1 0 None mfile) as [st|] eqn:RT; [|discriminate].
  destruct (tile_agrees fs od 1 0 None None None mfile st RT I)
    as (bs' & tm & fm' & s & DG' & RM' & RF' & RTF & AG & NN & SM & _).
  rewrite DG in DG'. injection DG' as <-. rewrite RM in RF'. injection RF' as <-.
  unfold tiles_body in RF |- *. rewrite RTF in RF |- *. cbn [app] in RF |- *.
  destruct st as [a|]; [|now elim NN]. destruct s as [s|]; [|contradiction AG].
  cbn [agree_opt] in AG. specialize (SM eq_refl). cbn [option_map] in SM. injection SM as SM.
  cbn [a_state] in *.
  destruct (drop_dims N o (it_is_list (itarg_of it)) (s_arr s)) as [b''|]; [|discriminate].
  cbn [rbind] in *. injection RF as -> _. exists b', s. split; [|split; [exact EQ | reflexivity]].
  rewrite (ag_meta _ _ AG), SM. unfold readmeta_full in RM.
  destruct (parsemeta float_of (byte_text bs)); [|discriminate]. cbn [rbind] in RM.
  rewrite RM' in RM. cbn [rbind] in RM. now injection RM as <-.
Qed.

End Agree.

(** An iteration number and the list of it are the same if singleton dimensions are dropped. *)
Lemma rdmds_one_itr {F} (N : numops F) C8 C4 fo fs fname z mf o : o_squeeze o = true -> z <> (-1)%Z ->
  rdmds_full N C8 C4 fo fs fname (ItOne z) mf o = rdmds_full N C8 C4 fo fs fname (ItList [z]) mf o.
Proof.
  intros SQ Z1. unfold rdmds_full. cbn [itr_list adds]. destruct (Z.eqb_spec z (-1)); [contradiction|]. cbn [negb].
  unfold drop_dims. rewrite SQ. reflexivity.
Qed.
