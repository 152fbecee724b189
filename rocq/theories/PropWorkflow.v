(** Property C94: what chains of commands give. *)
From Coq Require Import ZArith String List Bool PeanoNat Lia Init.Byte.
From Flocq Require Import IEEE754.BinarySingleNaN IEEE754.Binary IEEE754.Bits.
Import ListNotations.
From Verif Require Import Prelude PreludeFacts Mat MatFacts Num Fields GridIO Float64 Float64Facts SpecGrid SpecHalf
  GridIOProofs Util UtilFacts ComputeGrid ComputeGridFacts TomitFacts TomitSpec Refine MkGrid RefineFacts Regrid
  RegridFacts SpecRegrid SourceFacts PropUtil MatchEdges SpecTiles MatchEdgesFacts AddFringe FringeFacts Stitch SpecStitch
  StitchFacts Cli Samples PropGridIO PropFill PropMkGrid PropRegrid PropMatchEdges PropFringe PropStitch PropCli.
Local Open Scope nat_scope.
Local Open Scope list_scope.
Local Arguments Nat.mul : simpl never.

Definition equal_files (L : libm) (g g' : grid binary64) (ni nj : nat) : Prop :=
  write64 L (dict_of_grid g') ni nj = write64 L (dict_of_grid g) ni nj.

Lemma geq_equal_files L g g' ni nj : shaped g ni nj -> geq g' g -> equal_files L g g' ni nj.
Proof.
  intros Hs Hg.
  assert (Hs' : shaped g' ni nj) by (intros f; destruct (Hg f) as (R & C & _); destruct (Hs f); split; congruence).
  unfold equal_files, write64.
  destruct (write_shaped_ok (b64ops L) b64codec g ni nj Hs) as (bs & E).
  destruct (write_shaped_ok (b64ops L) b64codec g' ni nj Hs') as (bs' & E').
  rewrite E, E'. f_equal.
  pose proof (write_length _ _ b64_codec_laws _ _ _ _ E) as Le.
  pose proof (write_length _ _ b64_codec_laws _ _ _ _ E') as Le'. unfold file_bytes in Le, Le'.
  apply (doubles_ext bs' bs (file_doubles ni nj) Le' Le). intros k Hk.
  destruct (pos_decompose ni nj k Hk) as (f & i & j & Hi & Hj & <-).
  destruct (write_shaped_layout (b64ops L) b64codec b64_codec_laws g ni nj bs f i j Hs E Hi Hj) as (A1 & A2).
  destruct (write_shaped_layout (b64ops L) b64codec b64_codec_laws g' ni nj bs' f i j Hs' E' Hi Hj) as (B1 & B2).
  destruct (Nat.ltb_spec i (rows_of f ni)), (Nat.ltb_spec j (cols_of f nj));
    try (assert (Hn : ~ inside f ni nj i j) by (unfold inside; lia); rewrite A2, B2 by exact Hn; reflexivity).
  assert (Hin : inside f ni nj i j) by (unfold inside; lia). rewrite A1, B1 by exact Hin.
  destruct (Hg f) as (R & C & V). destruct (Hs f) as (R2 & C2). rewrite V by lia. reflexivity.
Qed.

(** ** One cell written to a file and refined from there *)
(** as C18, wherever the source's four corners come from *)
Lemma regrid_one_cell L G loadtxt fs lay o3 fuel lon1 lat1 lon2 lat2 p q a d xg yg :
  layouts lay -> layouts o3 -> 1 <= p -> 1 <= q -> 3 <= fuel ->
  own_corner G lon1 lat1 lon2 lat2 0 1 -> own_corner G lon1 lat1 lon2 lat2 1 0 ->
  supplies (b64ops L) b64codec loadtxt fs a d -> d XG = Arr xg -> d YG = Arr yg ->
  mrows xg = 2 -> mcols xg = 2 -> mrows yg = 2 -> mcols yg = 2 ->
  (forall i j, i <= 1 -> j <= 1 -> (mat_at xg i j, mat_at yg i j) = box_corner lon1 lat1 lon2 lat2 i j) ->
  ra_lon1 a = lon1 -> ra_lat1 a = lat1 -> ra_lon2 a = lon2 -> ra_lat2 a = lat2 ->
  ra_lon_subscale a = Z.of_nat p -> ra_lat_subscale a = Z.of_nat q ->
  exists g rr, mkgrid64 L G lon1 lat1 lon2 lat2 (Z.of_nat p) (Z.of_nat q) = Ok (g, p, q) /\
    regrid64 L G loadtxt fs lay o3 fuel a = Ok rr /\
    geq (rr_grid rr) g /\ rr_ni rr = p /\ rr_nj rr = q.
Proof.
  intros Hlay Ho3 Hp Hq Hf O1 O2 Hd Ex Ey R1 R2 R3 R4 HC A1 A2 A3 A4 Ep Eq.
  set (C := box_corner lon1 lat1 lon2 lat2) in *.
  assert (Hss : same_shape xg yg) by (unfold same_shape; lia).
  assert (Hnear : forall i j, i <= 1 -> j <= 1 -> own_corner G lon1 lat1 lon2 lat2 i j ->
    is_nearest G (lay (mrows xg) (mcols xg)) (fst (C i j)) (snd (C i j)) xg yg i j).
  { intros i j Hi Hj (O & O'). fold C in O, O'. unfold is_nearest.
    assert (Hdd : forall a b, a <= 1 -> b <= 1 ->
      dist_to G (fst (C i j)) (snd (C i j)) xg yg (a, b) = g_inv G (C i j) (C a b)).
    { intros a0 b0 Ha Hb. unfold dist_to. cbn [fst snd]. rewrite HC by auto. rewrite <- surjective_pairing. reflexivity. }
    rewrite R1, R2. split; [lia|]. split; [lia|]. rewrite Hdd by auto. split; [auto|]. split.
    - intros a0 b0 Ha Hb. rewrite Hdd by lia. destruct (pair_dec (a0, b0) (i, j)) as [Hab|Hne].
      + inversion Hab. subst. apply b64_ltb_irrefl.
      + specialize (O' a0 b0 ltac:(lia) ltac:(lia) Hne). apply not_true_iff_false. intros Hlt.
        apply lt_le in Hlt. congruence.
    - destruct (Hlay 2 2) as (Hnd & Hin). pose proof (proj2 (Hin i j) ltac:(lia)) as Hij.
      apply in_split in Hij. destruct Hij as (pre & post & Eo). exists pre, post. split; auto.
      intros (a0, b0) Hq0. assert (Hab : a0 < 2 /\ b0 < 2) by (apply Hin; rewrite Eo; apply in_or_app; auto).
      rewrite Hdd by lia. apply O'; try lia. intros Hab'. inversion Hab'. subst a0 b0.
      rewrite Eo in Hnd. apply NoDup_remove_2 in Hnd. apply Hnd. apply in_or_app. auto. }
  assert (Hc : corners_at G lay a xg yg 0 1 1 0).
  { split; [rewrite A1, A2|rewrite A3, A4].
    - apply (Hnear 0 1); auto.
    - apply (Hnear 1 0); auto. }
  destruct (regrid64_ok L G loadtxt fs lay o3 fuel a d xg yg 0 1 1 0 p q)
    as (g & H & dd & Er & HS & Hg & _); auto.
  { unfold subscales. auto. }
  { unfold quarter_turns. cbn. lia. }
  destruct (mkgrid64_ok L G lon1 lat1 lon2 lat2 p q) as (g' & H' & E' & HS' & Hg'); auto. fold C in HS'.
  exists g'. eexists. split; [exact E'|]. split; [exact Er|]. cbn [rr_grid rr_ni rr_nj].
  change (out_ni 0 1 1 0) with 1 in *. change (out_nj 0 1 1 0) with 1 in *. rewrite !Nat.mul_1_r in *.
  split; auto.
  assert (HCC : forall a0 b0, a0 <= 1 -> b0 <= 1 ->
    (fun a b => (mat_at xg (fst (source_index 0 1 1 0 a b)) (snd (source_index 0 1 1 0 a b)),
                 mat_at yg (fst (source_index 0 1 1 0 a b)) (snd (source_index 0 1 1 0 a b)))) a0 b0 = C a0 b0).
  { intros a0 b0 Ha Hb. change (source_index 0 1 1 0 a0 b0) with (0 + a0, 0 + b0). cbn [fst snd Nat.add]. apply HC; auto. }
  assert (Hpos : corners_pos (b64ops L)
    (fun a b => (mat_at xg (fst (source_index 0 1 1 0 a b)) (snd (source_index 0 1 1 0 a b)),
                 mat_at yg (fst (source_index 0 1 1 0 a b)) (snd (source_index 0 1 1 0 a b)))) 1 1 =
    corners_pos (b64ops L) C 1 1).
  { unfold corners_pos. apply eq_true_iff_eq. rewrite !forallb_forall.
    split; intros Hx (a0, b0) Hin; specialize (Hx (a0, b0) Hin); apply in_prod_iff in Hin; rewrite !in_seq in Hin;
      cbn [fst snd] in *.
    - rewrite <- HCC by lia. exact Hx.
    - rewrite <- HCC in Hx by lia. exact Hx. }
  rewrite Hpos in HS.
  eapply grid_of_geq; [exact Hg|]. eapply grid_of_ext; [|exact Hg'].
  intros u v Hu Hv. symmetry. apply (subdivides_unique (b64ops L) G _ _ _ p q 1 1 H H' Hp Hq ltac:(auto) ltac:(auto) HCC HS HS');
    rewrite Nat.mul_1_r; auto.
Qed.

Lemma fs_set_same fs p bs : fs_set fs p bs p = Some bs.
Proof. unfold fs_set. now rewrite String.eqb_refl. Qed.
Lemma fs_set_other fs p bs q : q <> p -> fs_set fs p bs q = fs q.
Proof. intros H. unfold fs_set. apply String.eqb_neq in H. now rewrite H. Qed.

(** sgmkgrid for a box *)
Definition box_command (lon1 lat1 lon2 lat2 : binary64) (ls lt : nat) (out : string) : command binary64 :=
  sgmkgrid (Some lon1) (Some lat1) (Some lon2) (Some lat2) (Some (Z.of_nat ls)) (Some (Z.of_nat lt)) (Some out).

Section Chains.
Variables (L : libm) (G : geod binary64) (loadtxt : list byte -> res (option (mat binary64))).
Variables lay o3 : nat -> nat -> list (nat * nat).
Hypothesis (Hlay : layouts lay) (Ho3 : layouts o3).
Notation run_ fuel := (run64 L G loadtxt lay o3 fuel).

Lemma box_run fuel w fs lon1 lat1 lon2 lat2 p q out strict : 1 <= p -> 1 <= q -> w out = true ->
  exists g bs g', mkgrid64 L G lon1 lat1 lon2 lat2 (Z.of_nat p) (Z.of_nat q) = Ok (g, p, q) /\
    run_ fuel w fs (box_command lon1 lat1 lon2 lat2 p q out) = (fs_set fs out bs, Ok tt) /\
    write64 L (dict_of_grid g) p q = (bs, Ok tt) /\ read64 L bs p q strict = Ok g' /\ geq g' g.
Proof.
  intros Hp Hq Hw. destruct (mkgrid64_ok L G lon1 lat1 lon2 lat2 p q) as (g & H & E & _ & Hg); auto.
  pose proof (grid_of_shaped _ _ _ _ _ _ Hg) as Hs.
  destruct (C01_write_read_roundtrip L g p q strict Hs) as (bs & g' & Ew & Er & Hv).
  exists g, bs, g'. split; [exact E|]. split.
  - unfold run64, run, box_command. cbn [compute as_double outfile_of].
    unfold mkgrid64 in E. rewrite E. unfold write_file. rewrite Hw. unfold write64 in Ew. rewrite Ew. reflexivity.
  - split; [exact Ew|]. split; [exact Er|]. intros f. destruct (Hv f) as (R & C0 & V). destruct (Hs f) as (R' & C').
    split; [congruence|]. split; [congruence|]. intros i j Hi Hj. apply V; congruence.
Qed.

Theorem C94_refining_a_written_cell_sec : forall fuel w fs lon1 lat1 lon2 lat2 p q cell out strict,
  1 <= p -> 1 <= q -> 3 <= fuel -> cell <> EmptyString -> w cell = true -> w out = true ->
  own_corner G lon1 lat1 lon2 lat2 0 1 -> own_corner G lon1 lat1 lon2 lat2 1 0 ->
  let fs1 := fst (run_ fuel w fs (box_command lon1 lat1 lon2 lat2 1 1 cell)) in
  exists bs,
    run_ fuel w fs (box_command lon1 lat1 lon2 lat2 p q out) = (fs_set fs out bs, Ok tt) /\
    run_ fuel w fs1 (sgregrid (Some cell) None None 1 1 lon1 lat1 lon2 lat2 (Z.of_nat p) (Z.of_nat q) strict out) =
      (fs_set fs1 out bs, Ok tt).
Proof.
  intros fuel w fs lon1 lat1 lon2 lat2 p q cell out strict Hp Hq Hf Hc W1 W2 O1 O2 fs1.
  destruct (box_run fuel w fs lon1 lat1 lon2 lat2 1 1 cell strict) as (g1 & b1 & r1 & E1 & R1 & _ & Rd & Hr); auto.
  destruct (box_run fuel w fs lon1 lat1 lon2 lat2 p q out strict) as (g & bs & _ & E & R & Wr & _); auto.
  assert (Hfs : fs1 = fs_set fs cell b1) by (unfold fs1; rewrite R1; reflexivity). clearbody fs1. subst fs1.
  set (fs1 := fs_set fs cell b1). exists bs. split; [exact R|].
  set (a := mk_regrid_args (Some cell) None None None (Some 1) (Some 1) lon1 lat1 lon2 lat2 (Z.of_nat p) (Z.of_nat q) strict).
  destruct (mkgrid64_ok L G lon1 lat1 lon2 lat2 1 1) as (g1' & H1 & E1' & (S1 & _) & Hg1); auto.
  assert (g1' = g1) as -> by congruence. clear E1'.
  destruct (grid_of_positions _ _ _ _ _ _ Hg1) as (P1 & _).
  pose proof (grid_of_shaped _ _ _ _ _ _ Hg1) as Hsh.
  destruct (Hsh XG) as (X1 & X2). destruct (Hsh YG) as (Y1 & Y2).
  destruct (Hr XG) as (X3 & X4 & X5). destruct (Hr YG) as (Y3 & Y4 & Y5).
  cbn [rows_of cols_of place_of Nat.add] in X1, X2, Y1, Y2.
  destruct (regrid_one_cell L G loadtxt fs1 lay o3 fuel lon1 lat1 lon2 lat2 p q a (fun f => Arr (r1 f)) (r1 XG) (r1 YG))
    as (g0 & rr & Eg & Err & Hgeq & Ni & Nj); auto; try congruence.
  { eapply (from_mitgrid _ _ _ _ a cell 1 1 b1 r1); try (split; [reflexivity|auto]).
    - apply fs_set_same.
    - exact Rd. }
  { intros i j Hi Hj. rewrite X5, Y5 by lia. rewrite P1 by auto. apply (S1 i j Hi Hj). }
  assert (g0 = g) as -> by congruence.
  unfold run64, run. cbn [compute outfile_of]. fold a. unfold regrid64 in Err. rewrite Err. cbn [rbind].
  rewrite Ni, Nj. unfold write_file. rewrite W2.
  pose proof (geq_equal_files L g (rr_grid rr) p q) as Q.
  destruct (mkgrid64_ok L G lon1 lat1 lon2 lat2 p q) as (g' & H & E' & _ & Hg); auto.
  assert (g' = g) as -> by congruence. specialize (Q (grid_of_shaped _ _ _ _ _ _ Hg) Hgeq).
  unfold equal_files, write64 in Q. rewrite Q. unfold write64 in Wr. rewrite Wr. reflexivity.
Qed.
End Chains.

(** ** Boxes next to each other *)
(** the entries of the two tiles on the common line are the same *)
Definition agree_on_seam (s : side) (p q p' q' : nat) (a b : grid binary64) : Prop :=
  forall f k l k' l' i j, inside f p q k l -> inside f p' q' k' l' ->
    SpecStitch.located (origin_a s p' q') (k, l) (i, j) -> SpecStitch.located (origin_b s p q) (k', l') (i, j) ->
    mat_at (a f) k l = mat_at (b f) k' l'.

Definition west (lon : binary64) : bool := b64_ltb lon b64_zero.

Lemma box_pos L lon1 lat1 lon2 lat2 :
  corners_pos (b64ops L) (box_corner lon1 lat1 lon2 lat2) 1 1 = negb (west lon1 || west lon2).
Proof.
  unfold corners_pos. cbn [seq Nat.add list_prod map app forallb fst snd box_corner Nat.eqb].
  change (nltb (b64ops L) lon1 (nzero (b64ops L))) with (west lon1).
  change (nltb (b64ops L) lon2 (nzero (b64ops L))) with (west lon2).
  destruct (west lon1), (west lon2); reflexivity.
Qed.

Lemma boundary_entries L G H p q g f i j : grid_of (b64ops L) G H p q g -> inside f p q i j -> straddles p q f i j ->
  mat_at (g f) i j = b64_zero.
Proof. intros Hg [Hi Hj] Hs. exact (grid_of_zero _ _ _ _ _ _ Hg f i j Hi Hj Hs). Qed.

Theorem C94_boxes_side_by_side_agree : forall L G lon1 lat1 lon2 lat2 lon3 p p' q a b,
  1 <= p -> 1 <= p' -> 1 <= q ->
  west lon1 || west lon2 = west lon2 || west lon3 ->
  mkgrid64 L G lon1 lat1 lon2 lat2 (Z.of_nat p) (Z.of_nat q) = Ok (a, p, q) ->
  mkgrid64 L G lon2 lat1 lon3 lat2 (Z.of_nat p') (Z.of_nat q) = Ok (b, p', q) ->
  agree_on_seam East p q p' q a b.
Proof.
  intros L G lon1 lat1 lon2 lat2 lon3 p p' q a b Hp Hp' Hq Hw Ea Eb.
  destruct (mkgrid64_ok L G lon1 lat1 lon2 lat2 p q Hp Hq) as (a0 & H & E & (S1 & S2 & S3) & Ha).
  destruct (mkgrid64_ok L G lon2 lat1 lon3 lat2 p' q Hp' Hq) as (b0 & H' & E' & (T1 & T2 & T3) & Hb).
  assert (a0 = a) as -> by congruence. assert (b0 = b) as -> by congruence. clear E E'.
  rewrite box_pos in S3, T3.
  assert (HH : forall v, v <= 2 * q -> H (2 * p) v = H' 0 v).
  { assert (K0 : H (2 * p) 0 = H' 0 0).
    { specialize (S1 1 0 ltac:(lia) ltac:(lia)). specialize (T1 0 0 ltac:(lia) ltac:(lia)).
      rewrite Nat.mul_1_r, Nat.mul_0_r in S1. rewrite !Nat.mul_0_r in T1. rewrite S1, T1. reflexivity. }
    assert (K1 : H (2 * p) (2 * q) = H' 0 (2 * q)).
    { specialize (S1 1 1 ltac:(lia) ltac:(lia)). specialize (T1 0 1 ltac:(lia) ltac:(lia)).
      rewrite !Nat.mul_1_r in S1. rewrite Nat.mul_1_r, Nat.mul_0_r in T1. rewrite S1, T1. reflexivity. }
    intros v Hv. destruct (Nat.eq_dec v 0) as [->|N0]; [exact K0|].
    destruct (Nat.eq_dec v (2 * q)) as [->|N1]; [exact K1|].
    specialize (S3 (2 * p) 0 v ltac:(lia) ltac:(lia) ltac:(lia)). specialize (T3 0 0 v ltac:(lia) ltac:(lia) ltac:(lia)).
    rewrite Nat.mul_0_r, Nat.add_0_l, Nat.mul_1_r in S3, T3.
    rewrite S3, T3, K0, K1, Hw. reflexivity. }
  intros f k l k' l' i j Hin Hin' (X1 & X2) (X3 & X4). cbn [origin_a origin_b fst snd] in *.
  destruct (straddles_seam East f) eqn:Hst.
  { rewrite (boundary_entries L G H p q a f k l Ha Hin), (boundary_entries L G H' p' q b f k' l' Hb Hin'); [reflexivity| |];
      destruct f; try discriminate Hst; unfold inside in *; cbn in *; lia. }
  destruct (Ha f) as (_ & _ & Va). destruct (Hb f) as (_ & _ & Vb). destruct Hin as (I1 & I2). destruct Hin' as (I3 & I4).
  rewrite Va, Vb by assumption.
  destruct f; try discriminate Hst; cbn in I1, I2, I3, I4; try (exfalso; lia);
    (replace k with p by lia); (replace k' with 0 by lia); (replace l' with l by lia);
    cbn [spec_field]; unfold half_y; rewrite ?Nat.mul_0_r; rewrite ?HH by lia; try reflexivity.
  destruct (inner l q) eqn:In; [|reflexivity]. unfold inner in In. apply andb_true_iff in In. destruct In as (N1 & N2).
  apply Nat.ltb_lt in N1, N2. rewrite !HH by lia. reflexivity.
Qed.

Theorem C94_boxes_above_each_other_agree : forall L G lon1 lat1 lon2 lat2 lat3 p q q' a b,
  1 <= p -> 1 <= q -> 1 <= q' ->
  mkgrid64 L G lon1 lat1 lon2 lat2 (Z.of_nat p) (Z.of_nat q) = Ok (a, p, q) ->
  mkgrid64 L G lon1 lat3 lon2 lat1 (Z.of_nat p) (Z.of_nat q') = Ok (b, p, q') ->
  agree_on_seam North p q p q' a b.
Proof.
  intros L G lon1 lat1 lon2 lat2 lat3 p q q' a b Hp Hq Hq' Ea Eb.
  destruct (mkgrid64_ok L G lon1 lat1 lon2 lat2 p q Hp Hq) as (a0 & H & E & (S1 & S2 & _) & Ha).
  destruct (mkgrid64_ok L G lon1 lat3 lon2 lat1 p q' Hp Hq') as (b0 & H' & E' & (T1 & T2 & _) & Hb).
  assert (a0 = a) as -> by congruence. assert (b0 = b) as -> by congruence. clear E E'.
  rewrite box_pos in S2, T2.
  assert (HH : forall u, u <= 2 * p -> H u (2 * q) = H' u 0).
  { intros u Hu.
    assert (K : forall x, x <= 1 -> H (2 * p * x) (2 * q) = H' (2 * p * x) 0).
    { intros x Hx. specialize (S1 x 1 Hx ltac:(lia)). specialize (T1 x 0 Hx ltac:(lia)).
      rewrite Nat.mul_1_r in S1. rewrite (Nat.mul_0_r (2 * q')) in T1. rewrite S1, T1. reflexivity. }
    destruct (Nat.eq_dec u 0) as [->|N0]; [specialize (K 0 ltac:(lia)); rewrite Nat.mul_0_r in K; exact K|].
    destruct (Nat.eq_dec u (2 * p)) as [->|N1]; [specialize (K 1 ltac:(lia)); rewrite Nat.mul_1_r in K; exact K|].
    specialize (S2 0 1 u ltac:(lia) ltac:(lia) ltac:(lia)). specialize (T2 0 0 u ltac:(lia) ltac:(lia) ltac:(lia)).
    rewrite Nat.mul_0_r, Nat.add_0_l in S2, T2. rewrite Nat.mul_1_r in S2. rewrite (Nat.mul_0_r (2 * q')) in T2.
    rewrite S2, T2. reflexivity. }
  intros f k l k' l' i j Hin Hin' (X1 & X2) (X3 & X4). cbn [origin_a origin_b fst snd] in *.
  destruct (straddles_seam North f) eqn:Hst.
  { rewrite (boundary_entries L G H p q a f k l Ha Hin), (boundary_entries L G H' p q' b f k' l' Hb Hin'); [reflexivity| |];
      destruct f; try discriminate Hst; unfold inside in *; cbn in *; lia. }
  destruct (Ha f) as (_ & _ & Va). destruct (Hb f) as (_ & _ & Vb). destruct Hin as (I1 & I2). destruct Hin' as (I3 & I4).
  rewrite Va, Vb by assumption.
  destruct f; try discriminate Hst; cbn in I1, I2, I3, I4; try (exfalso; lia);
    (replace l with q by lia); (replace l' with 0 by lia); (replace k' with k by lia);
    cbn [spec_field]; unfold half_x; rewrite ?Nat.mul_0_r; rewrite ?HH by lia; try reflexivity.
  destruct (inner k p) eqn:In; [|reflexivity]. unfold inner in In. apply andb_true_iff in In. destruct In as (N1 & N2).
  apply Nat.ltb_lt in N1, N2. rewrite !HH by lia. reflexivity.
Qed.

(** ** Stitching tiles that agree on the common line *)
(** the corner tests that tell where B lies: the two tiles are close to each other at the two
    ends of side [s] of [a] and nowhere else *)
Definition meets_only_at (L : libm) (G : geod binary64) (a b : mat point64) (s : side) : Prop :=
  (forall e n, g_inv G (corner_of a e n) (corner_of a e n) = b64_zero) /\
  (forall e n, g_inv G (corner_of b e n) (corner_of b e n) = b64_zero) /\
  b64_leb b64_zero (limit64 L G a b) = true /\ b64_leb b64_inf (limit64 L G a b) = false /\
  b64_leb b64_zero (limit64 L G b a) = true /\ b64_leb b64_inf (limit64 L G b a) = false /\
  (forall e n e' n', near64 L G a b (corner_of a e n) (corner_of b e' n') -> on_side s e n /\ on_side (opposite s) e' n') /\
  (forall e n e' n', near64 L G b a (corner_of b e n) (corner_of a e' n') -> on_side (opposite s) e n /\ on_side s e' n').

Lemma seam_corners s p q p' q' a b : shaped a p q -> shaped b p' q' -> along_a s p q = along_b s p' q' ->
  agree_on_seam s p q p' q' a b ->
  forall e n, on_side s e n -> corner_of (tile_points a) e n = mirrored s (tile_points b) e n.
Proof.
  intros Hsa Hsb Hal Hag.
  assert (Ra : mrows (a XG) = p + 1) by apply (Hsa XG). assert (Ca : mcols (a XG) = q + 1) by apply (Hsa XG).
  assert (Rb : mrows (b XG) = p' + 1) by apply (Hsb XG). assert (Cb : mcols (b XG) = q' + 1) by apply (Hsb XG).
  assert (K : forall k l k' l', k <= p -> l <= q -> k' <= p' -> l' <= q' ->
    fst (origin_a s p' q') + k = fst (origin_b s p q) + k' -> snd (origin_a s p' q') + l = snd (origin_b s p q) + l' ->
    mat_at (tile_points a) k l = mat_at (tile_points b) k' l').
  { intros k l k' l' H1 H2 H3 H4 H5 H6. cbn [tile_points mat_at].
    rewrite (Hag XG k l k' l' _ _ ltac:(split; cbn; lia) ltac:(split; cbn; lia) (conj eq_refl eq_refl)) by (split; cbn [fst snd]; assumption).
    rewrite (Hag YG k l k' l' _ _ ltac:(split; cbn; lia) ltac:(split; cbn; lia) (conj eq_refl eq_refl)) by (split; cbn [fst snd]; assumption).
    reflexivity. }
  intros e n He. unfold mirrored, corner_of. cbn [tile_points mrows mcols]. rewrite Ra, Ca, Rb, Cb.
  unfold along_a, along_b in Hal.
  destruct s; cbn [on_side zonal origin_a origin_b fst snd] in *; subst; destruct e || destruct n; cbn [negb]; apply K; lia.
Qed.

Section Stitched.
Variables (L : libm) (G : geod binary64).

Lemma agreeing_tiles fs t s a b :
  tile_a L fs t a -> tile_b L fs t b ->
  1 <= tt_nia t -> 1 <= tt_nja t -> 1 <= tt_nib t -> 1 <= tt_njb t ->
  along_a s (tt_nia t) (tt_nja t) = along_b s (tt_nib t) (tt_njb t) ->
  agree_on_seam s (tt_nia t) (tt_nja t) (tt_nib t) (tt_njb t) a b ->
  meets_only_at L G (tile_points a) (tile_points b) s ->
  filled a (tt_nia t) (tt_nja t) -> filled b (tt_nib t) (tt_njb t) ->
  let ni := total_ni s (tt_nia t) (tt_nib t) in let nj := total_nj s (tt_nja t) (tt_njb t) in
  exists c c', stitch64 L G fs t = Ok (c, ni, nj) /\ stitch64 L G fs (swapped t) = Ok (c', ni, nj) /\
    shaped c ni nj /\ geq c' c /\ combines s (tt_nia t) (tt_nja t) (tt_nib t) (tt_njb t) a b c.
Proof.
  intros Ta Tb Hp Hq Hp' Hq' Hal Hag (Z1 & Z2 & A0 & A1 & B0 & B1 & N1 & N2) Fa Fb ni nj.
  assert (Hsa : shaped a (tt_nia t) (tt_nja t))
    by (destruct Ta as (bs & _ & R); exact (proj1 (read_spec _ _ _ _ _ _ _ R))).
  assert (Hsb : shaped b (tt_nib t) (tt_njb t))
    by (destruct Tb as (bs & _ & R); exact (proj1 (read_spec _ _ _ _ _ _ _ R))).
  pose proof (seam_corners s _ _ _ _ a b Hsa Hsb Hal Hag) as Hc.
  assert (Hadj : adjacent L G (tile_points a) (tile_points b) s) by (split; assumption).
  assert (Hadj' : adjacent L G (tile_points b) (tile_points a) (opposite s)).
  { split; [|intros e n e' n' K; rewrite opposite_involutive; apply N2; exact K].
    intros e n He. unfold mirrored. rewrite zonal_opposite. unfold mirrored in Hc. 
    destruct (zonal s) eqn:Zs.
    - rewrite (Hc (negb e) n), negb_involutive; [reflexivity|].
      clear - He Zs; destruct s; try discriminate Zs; cbn in *; subst; reflexivity.
    - rewrite (Hc e (negb n)), negb_involutive; [reflexivity|].
      clear - He Zs; destruct s; try discriminate Zs; cbn in *; subst; reflexivity. }
  destruct (C36_adjacent_tiles_stitch_both_ways L G fs t s a b) as (c & c' & E & E' & Hoff); auto.
  fold ni nj in E, E', Hoff.
  exists c, c'. split; [exact E|]. split; [exact E'|].
  destruct (adjacent_fringe L G fs t s a b) as (a1 & Ea); auto.
  assert (Hal' : along_a (opposite s) (tt_nib t) (tt_njb t) = along_b (opposite s) (tt_nia t) (tt_nja t)).
  { unfold along_a, along_b in *. rewrite zonal_opposite. auto. }
  destruct (adjacent_fringe L G fs (swapped t) (opposite s) b a) as (b1 & Eb); auto.
  rewrite opposite_involutive in Eb.
  destruct (C34_stitch_places_every_entry L G fs t c ni nj E)
    as (s0 & a1' & b0 & Ea' & Tb0 & _ & _ & _ & Hsc & (P1 & P2 & P3)).
  rewrite Ea in Ea'. assert (s0 = s) as -> by (apply side_code_inj; congruence).
  assert (a1' = a1) as -> by congruence. clear Ea'.
  assert (b0 = b) as -> by (eapply holds_tile_fun; eauto). clear Tb0.
  destruct (C34_stitch_places_every_entry L G fs (swapped t) c' ni nj E')
    as (s0 & b1' & a0 & Eb' & _ & _ & _ & _ & Hsc' & (Q1 & _ & _)).
  rewrite Eb in Eb'. assert (s0 = opposite s) as -> by (apply side_code_inj; congruence).
  assert (b1' = b1) as -> by congruence. clear Eb'.
  pose proof (filled_kept L G fs t _ _ _ a Ea Ta Fa) as Ka.
  pose proof (filled_kept L G fs (swapped t) _ _ _ b Eb Tb Fb) as Kb.
  cbn [swapped tt_nia tt_nja tt_nib tt_njb] in Q1, Kb.
  assert (Ca : forall f k l i j, inside f (tt_nia t) (tt_nja t) k l ->
     SpecStitch.located (origin_a s (tt_nib t) (tt_njb t)) (k, l) (i, j) -> mat_at (c f) i j = mat_at (a f) k l).
  { intros f k l i j Hin Hloc. rewrite (P1 f k l i j Hin Hloc). apply Ka. exact Hin. }
  split; [exact Hsc|]. split; [|split; [exact Ca|split; [exact P2|exact P3]]].
  intros f. destruct (Hsc f) as (R1 & R2). destruct (Hsc' f) as (R1' & R2').
  split; [congruence|]. split; [congruence|]. rewrite R1', R2'. intros i j Hi Hj.
  destruct (P3 f i j (conj Hi Hj)) as [(k & l & Hkl & Hloc)|(k' & l' & Hkl' & Hloc')].
  - assert (Hd : (exists k' l', inside f (tt_nib t) (tt_njb t) k' l' /\
        SpecStitch.located (origin_b s (tt_nia t) (tt_nja t)) (k', l') (i, j)) \/
      ~ in_b s (tt_nia t) (tt_nja t) (tt_nib t) (tt_njb t) f i j).
    { set (o := origin_b s (tt_nia t) (tt_nja t)).
      destruct (le_dec (fst o) i) as [J1|J1]; [|right; intros (x & y & _ & (Y & _)); fold o in Y; cbn [fst snd] in Y; lia].
      destruct (le_dec (snd o) j) as [J2|J2]; [|right; intros (x & y & _ & (_ & Y)); fold o in Y; cbn [fst snd] in Y; lia].
      destruct (lt_dec (i - fst o) (rows_of f (tt_nib t))) as [J3|J3];
        [|right; intros (x & y & (X & _) & (Y & _)); fold o in Y; cbn [fst snd] in Y; lia].
      destruct (lt_dec (j - snd o) (cols_of f (tt_njb t))) as [J4|J4];
        [|right; intros (x & y & (_ & X) & (_ & Y)); fold o in Y; cbn [fst snd] in Y; lia].
      left. exists (i - fst o), (j - snd o). split; [split; assumption|split; cbn [fst snd]; lia]. }
    destruct Hd as [(k' & l' & Hkl' & Hloc')|Hnb].
    + rewrite (Q1 f k' l' i j Hkl') by (rewrite origin_swap; exact Hloc'). rewrite Kb by exact Hkl'.
      rewrite (Ca f k l i j Hkl Hloc). symmetry. exact (Hag f k l k' l' i j Hkl Hkl' Hloc Hloc').
    + apply Hoff; [split; assumption|]. intros (_ & Hb). exact (Hnb Hb).
  - assert (Hd : in_a s (tt_nia t) (tt_nja t) (tt_nib t) (tt_njb t) f i j \/
        ~ in_a s (tt_nia t) (tt_nja t) (tt_nib t) (tt_njb t) f i j).
    { set (o := origin_a s (tt_nib t) (tt_njb t)).
      destruct (le_dec (fst o) i) as [J1|J1]; [|right; intros (x & y & _ & (Y & _)); fold o in Y; cbn [fst snd] in Y; lia].
      destruct (le_dec (snd o) j) as [J2|J2]; [|right; intros (x & y & _ & (_ & Y)); fold o in Y; cbn [fst snd] in Y; lia].
      destruct (lt_dec (i - fst o) (rows_of f (tt_nia t))) as [J3|J3];
        [|right; intros (x & y & (X & _) & (Y & _)); fold o in Y; cbn [fst snd] in Y; lia].
      destruct (lt_dec (j - snd o) (cols_of f (tt_nja t))) as [J4|J4];
        [|right; intros (x & y & (_ & X) & (_ & Y)); fold o in Y; cbn [fst snd] in Y; lia].
      left. exists (i - fst o), (j - snd o). split; [split; assumption|split; cbn [fst snd]; fold o; lia]. }
    rewrite (Q1 f k' l' i j Hkl') by (rewrite origin_swap; exact Hloc'). rewrite Kb by exact Hkl'.
    destruct Hd as [(k & l & Hkl & Hloc)|Hna].
    + rewrite (Ca f k l i j Hkl Hloc). symmetry. exact (Hag f k l k' l' i j Hkl Hkl' Hloc Hloc').
    + symmetry. exact (P2 f k' l' i j Hkl' Hloc' Hna).
Qed.
End Stitched.

(** ** From the boxes to the stitched file *)
Definition box := (binary64 * binary64 * binary64 * binary64)%type.
Definition box_grid (L : libm) (G : geod binary64) (x : box) (p q : nat) : res (grid binary64 * nat * nat) :=
  let '(lon1, lat1, lon2, lat2) := x in mkgrid64 L G lon1 lat1 lon2 lat2 (Z.of_nat p) (Z.of_nat q).
Definition make_box (x : box) (p q : nat) (out : string) : command binary64 :=
  let '(lon1, lat1, lon2, lat2) := x in box_command lon1 lat1 lon2 lat2 p q out.

(** the second box, of p' x q' cells, continues the first beyond side [s] *)
Inductive continues : side -> nat -> nat -> nat -> nat -> box -> box -> Prop :=
| to_the_east lon1 lat1 lon2 lat2 lon3 p p' q : west lon1 || west lon2 = west lon2 || west lon3 ->
    continues East p q p' q (lon1, lat1, lon2, lat2) (lon2, lat1, lon3, lat2)
| to_the_north lon1 lat1 lon2 lat2 lat3 p q q' :
    continues North p q p q' (lon1, lat1, lon2, lat2) (lon1, lat3, lon2, lat1).

Definition no_inner_zero (g : grid binary64) (p q : nat) : Prop :=
  forall f i j, inside f p q i j -> f <> XG -> f <> YG -> is_zero (mat_at (g f) i j) = true -> straddles p q f i j.

Lemma corner_of_geq (a a' : grid binary64) p q : shaped a p q -> geq a' a ->
  forall e n, corner_of (tile_points a') e n = corner_of (tile_points a) e n.
Proof.
  intros Hs Hg e n. destruct (Hs XG) as (R & C). destruct (Hg XG) as (R1 & C1 & V1). destruct (Hg YG) as (R2 & C2 & V2).
  destruct (Hs YG) as (R' & C'). cbn in R, C, R', C'.
  unfold corner_of. cbn [tile_points mrows mcols mat_at]. rewrite R1, C1, R, C.
  rewrite V1, V2; [reflexivity|..]; destruct e, n; lia.
Qed.

Lemma meets_only_at_ext L G a b a' b' s :
  (forall e n, corner_of a' e n = corner_of a e n) -> (forall e n, corner_of b' e n = corner_of b e n) ->
  meets_only_at L G a b s -> meets_only_at L G a' b' s.
Proof.
  intros Ha Hb.
  assert (L1 : limit64 L G a' b' = limit64 L G a b)
    by (unfold limit64, near_limit, diagonal, diagonal'; now rewrite !Ha, !Hb).
  assert (L2 : limit64 L G b' a' = limit64 L G b a)
    by (unfold limit64, near_limit, diagonal, diagonal'; now rewrite !Ha, !Hb).
  intros (Z1 & Z2 & A0 & A1 & B0 & B1 & N1 & N2). unfold meets_only_at. rewrite L1, L2.
  split; [intros; rewrite Ha; apply Z1|]. split; [intros; rewrite Hb; apply Z2|].
  do 4 (split; [assumption|]).
  unfold near64, near in *. fold (limit64 L G a' b') (limit64 L G b' a'). rewrite L1, L2.
  split; intros e n e' n'; rewrite Ha, Hb; auto.
Qed.

Lemma geq_at {a a' : grid binary64} {p q} : shaped a p q -> geq a' a ->
  forall f i j, inside f p q i j -> mat_at (a' f) i j = mat_at (a f) i j.
Proof.
  intros Hs Hg f i j (Hi & Hj). destruct (Hs f) as (R & C). destruct (Hg f) as (R1 & C1 & V). apply V; congruence.
Qed.

(** the four corners of a box *)
Definition box_points (x : box) : mat point64 :=
  let '(lon1, lat1, lon2, lat2) := x in mkmat 2 2 (box_corner lon1 lat1 lon2 lat2).
Lemma box_points_ok L G x p q a : 1 <= p -> 1 <= q -> box_grid L G x p q = Ok (a, p, q) ->
  forall e n, corner_of (tile_points a) e n = corner_of (box_points x) e n.
Proof.
  intros Hp Hq E e n. destruct x as [[[lon1 lat1] lon2] lat2]. cbn [box_grid] in E.
  destruct (mkgrid64_ok L G lon1 lat1 lon2 lat2 p q Hp Hq) as (g & H & E0 & (S1 & _) & Hg).
  assert (g = a) as -> by congruence. destruct (grid_of_positions _ _ _ _ _ _ Hg) as (P1 & _).
  destruct (grid_of_shaped _ _ _ _ _ _ Hg XG) as (R & C). cbn in R, C.
  unfold corner_of. cbn [tile_points mrows mcols mat_at box_points]. rewrite R, C.
  rewrite P1 by (destruct e, n; lia).
  specialize (S1 (if e then 1 else 0) (if n then 1 else 0) ltac:(destruct e; lia) ltac:(destruct n; lia)).
  replace (2 * (if e then p + 1 - 1 else 0)) with (2 * p * (if e then 1 else 0)) by (destruct e; lia).
  replace (2 * (if n then q + 1 - 1 else 0)) with (2 * q * (if n then 1 else 0)) by (destruct n; lia).
  rewrite S1. destruct e, n; reflexivity.
Qed.

Section FromBoxes.
Variables (L : libm) (G : geod binary64) (loadtxt : list byte -> res (option (mat binary64))).
Variables lay o3 : nat -> nat -> list (nat * nat).
Notation run_ fuel := (run64 L G loadtxt lay o3 fuel).

Lemma made_box fuel w fs x p q out strict : 1 <= p -> 1 <= q -> w out = true ->
  exists g bs g', box_grid L G x p q = Ok (g, p, q) /\
    run_ fuel w fs (make_box x p q out) = (fs_set fs out bs, Ok tt) /\
    read64 L bs p q strict = Ok g' /\ geq g' g /\ shaped g p q /\ boundary_zero (b64ops L) p q g.
Proof.
  intros Hp Hq Hw. destruct x as [[[lon1 lat1] lon2] lat2].
  destruct (box_run L G loadtxt lay o3 fuel w fs lon1 lat1 lon2 lat2 p q out strict Hp Hq Hw)
    as (g & bs & g' & E & R & _ & Rd & Hg).
  exists g, bs, g'. split; [exact E|]. split; [exact R|]. split; [exact Rd|]. split; [exact Hg|].
  destruct (mkgrid64_ok L G lon1 lat1 lon2 lat2 p q Hp Hq) as (g0 & H & E0 & _ & Hg0).
  assert (g0 = g) as -> by congruence. split; [eapply grid_of_shaped|eapply grid_of_zero]; eauto.
Qed.

Lemma continues_agree s p q p' q' x y a b : 1 <= p -> 1 <= q -> 1 <= p' -> 1 <= q' ->
  continues s p q p' q' x y -> box_grid L G x p q = Ok (a, p, q) -> box_grid L G y p' q' = Ok (b, p', q') ->
  along_a s p q = along_b s p' q' /\ agree_on_seam s p q p' q' a b.
Proof.
  clear loadtxt lay o3.
  intros Hp Hq Hp' Hq' Hc Ea Eb. destruct Hc as [lon1 lat1 lon2 lat2 lon3 p p' q Hw|lon1 lat1 lon2 lat2 lat3 p q q'];
    (split; [reflexivity|]); cbn [box_grid] in Ea, Eb.
  - exact (C94_boxes_side_by_side_agree L G lon1 lat1 lon2 lat2 lon3 p p' q a b Hp Hp' Hq Hw Ea Eb).
  - exact (C94_boxes_above_each_other_agree L G lon1 lat1 lon2 lat2 lat3 p q q' a b Hp Hq Hq' Ea Eb).
Qed.

Theorem C94_neighbouring_boxes_stitch_alike_sec : forall fuel w fs s p q p' q' x y a b fa fb out strict,
  1 <= p -> 1 <= q -> 1 <= p' -> 1 <= q' -> continues s p q p' q' x y ->
  box_grid L G x p q = Ok (a, p, q) -> box_grid L G y p' q' = Ok (b, p', q') ->
  meets_only_at L G (box_points x) (box_points y) s -> no_inner_zero a p q -> no_inner_zero b p' q' ->
  fa <> fb -> w fa = true -> w fb = true -> w out = true ->
  let fs1 := fst (run_ fuel w fs (make_box x p q fa)) in
  let fs2 := fst (run_ fuel w fs1 (make_box y p' q' fb)) in
  let t := mk_two_tiles fa p q fb p' q' strict in
  exists bs c,
    run_ fuel w fs2 (sgstitch t out) = (fs_set fs2 out bs, Ok tt) /\
    run_ fuel w fs2 (sgstitch (swapped t) out) = (fs_set fs2 out bs, Ok tt) /\
    read64 L bs (total_ni s p p') (total_nj s q q') true = Ok c /\ combines s p q p' q' a b c.
Proof.
  intros fuel w fs s p q p' q' x y a b fa fb out strict Hp Hq Hp' Hq' Hc Ea Eb Hm Za Zb Hne Wa Wb Wo fs1 fs2 t.
  destruct (made_box fuel w fs x p q fa strict Hp Hq Wa) as (a0 & ba & ra & E & R & Rd & Ga & Sa & Ba).
  assert (a0 = a) as -> by congruence. clear E.
  destruct (made_box fuel w fs1 y p' q' fb strict Hp' Hq' Wb) as (b0 & bb & rb & E & R' & Rd' & Gb & Sb & Bb).
  assert (b0 = b) as -> by congruence. clear E.
  destruct (continues_agree s p q p' q' x y a b Hp Hq Hp' Hq' Hc Ea Eb) as (Hal & Hag).
  assert (F2 : fs2 = fs_set (fs_set fs fa ba) fb bb).
  { unfold fs2. rewrite R'. cbn [fst]. unfold fs1. rewrite R. reflexivity. }
  clearbody fs2. clear fs1 R R'. subst fs2. set (fs2 := fs_set (fs_set fs fa ba) fb bb).
  assert (Ta : tile_a L fs2 t ra).
  { exists ba. split; [|exact Rd]. unfold fs2. cbn [t tt_a]. rewrite fs_set_other by exact Hne. apply fs_set_same. }
  assert (Tb : tile_b L fs2 t rb).
  { exists bb. split; [|exact Rd']. unfold fs2. cbn [t tt_b]. apply fs_set_same. }
  pose proof (geq_at Sa Ga) as Va. pose proof (geq_at Sb Gb) as Vb.
  destruct (agreeing_tiles L G fs2 t s ra rb Ta Tb Hp Hq Hp' Hq' Hal) as (c & c' & Es & Es' & Hs & Hg & Hcomb).
  - intros f k l k' l' i j H1 H2 H3 H4. cbn [t tt_nia tt_nja tt_nib tt_njb] in *. rewrite Va, Vb by assumption. eapply Hag; eauto.
  - eapply meets_only_at_ext; [| |exact Hm]; intros e n.
    + rewrite (corner_of_geq a ra p q Sa Ga). exact (box_points_ok L G x p q a Hp Hq Ea e n).
    + rewrite (corner_of_geq b rb p' q' Sb Gb). exact (box_points_ok L G y p' q' b Hp' Hq' Eb e n).
  - intros f i j Hin N1 N2 Hz. cbn [t tt_nia tt_nja] in *. rewrite Va in * by exact Hin.
    pose proof (Za f i j Hin N1 N2 Hz) as St. split; [exact St|]. destruct Hin. apply Ba; assumption.
  - intros f i j Hin N1 N2 Hz. cbn [t tt_nib tt_njb] in *. rewrite Vb in * by exact Hin.
    pose proof (Zb f i j Hin N1 N2 Hz) as St. split; [exact St|]. destruct Hin. apply Bb; assumption.
  - cbn [t tt_nia tt_nja tt_nib tt_njb] in Es, Es', Hs, Hcomb.
    destruct (C01_write_read_roundtrip L c _ _ true Hs) as (bs & rc & Ew & Er & Hv).
    pose proof (geq_equal_files L c c' _ _ Hs Hg) as Q. unfold equal_files in Q. rewrite Ew in Q.
    exists bs, rc.
    split; [unfold run64, run; cbn [compute outfile_of]; unfold stitch64 in Es; rewrite Es;
      unfold write_file; rewrite Wo; unfold write64 in Ew; rewrite Ew; reflexivity|].
    split; [unfold run64, run; cbn [compute outfile_of]; unfold stitch64 in Es'; rewrite Es';
      unfold write_file; rewrite Wo; unfold write64 in Q; rewrite Q; reflexivity|].
    split; [exact Er|].
    destruct Hcomb as (P1 & P2 & P3).
    assert (In : forall f k l i j, inside f p q k l -> SpecStitch.located (origin_a s p' q') (k, l) (i, j) ->
      inside f (total_ni s p p') (total_nj s q q') i j).
    { intros f k l i j (H1 & H2) (H3 & H4). unfold inside, total_ni, total_nj, along_a, along_b in *.
      unfold rows_of, cols_of in *. destruct s, (place_of f); cbn [zonal origin_a fst snd] in *; lia. }
    assert (In' : forall f k l i j, inside f p' q' k l -> SpecStitch.located (origin_b s p q) (k, l) (i, j) ->
      inside f (total_ni s p p') (total_nj s q q') i j).
    { intros f k l i j (H1 & H2) (H3 & H4). unfold inside, total_ni, total_nj, along_a, along_b in *.
      unfold rows_of, cols_of in *. destruct s, (place_of f); cbn [zonal origin_b fst snd] in *; lia. }
    split; [|split; [|exact P3]].
    + intros f k l i j H1 H2. destruct (Hv f) as (_ & _ & V). destruct (In f k l i j H1 H2) as (I1 & I2).
      rewrite V by assumption. rewrite (P1 f k l i j H1 H2). apply Va. exact H1.
    + intros f k l i j H1 H2 H3. destruct (Hv f) as (_ & _ & V). destruct (In' f k l i j H1 H2) as (I1 & I2).
      rewrite V by assumption. rewrite (P2 f k l i j H1 H2 H3). apply Vb. exact H1.
Qed.
End FromBoxes.

Theorem C94_refining_a_written_cell : forall (L : libm) (G : geod binary64) loadtxt lay o3,
  layouts lay -> layouts o3 -> forall fuel can_write fs lon1 lat1 lon2 lat2 p q cell out strict,
  1 <= p -> 1 <= q -> 3 <= fuel -> cell <> EmptyString -> can_write cell = true -> can_write out = true ->
  own_corner G lon1 lat1 lon2 lat2 0 1 -> own_corner G lon1 lat1 lon2 lat2 1 0 ->
  let run_ := run64 L G loadtxt lay o3 fuel can_write in
  let fs1 := fst (run_ fs (box_command lon1 lat1 lon2 lat2 1 1 cell)) in
  exists bs,
    run_ fs (box_command lon1 lat1 lon2 lat2 p q out) = (fs_set fs out bs, Ok tt) /\
    run_ fs1 (sgregrid (Some cell) None None 1 1 lon1 lat1 lon2 lat2 (Z.of_nat p) (Z.of_nat q) strict out) =
      (fs_set fs1 out bs, Ok tt).
Proof.
  intros L G loadtxt lay o3 H1 H2 fuel w. exact (C94_refining_a_written_cell_sec L G loadtxt lay o3 H1 H2 fuel w).
Qed.

Theorem C94_neighbouring_boxes_stitch_alike : forall (L : libm) (G : geod binary64) loadtxt lay o3
    fuel can_write fs s p q p' q' x y a b fa fb out strict,
  1 <= p -> 1 <= q -> 1 <= p' -> 1 <= q' -> continues s p q p' q' x y ->
  box_grid L G x p q = Ok (a, p, q) -> box_grid L G y p' q' = Ok (b, p', q') ->
  meets_only_at L G (box_points x) (box_points y) s -> no_inner_zero a p q -> no_inner_zero b p' q' ->
  fa <> fb -> can_write fa = true -> can_write fb = true -> can_write out = true ->
  let run_ := run64 L G loadtxt lay o3 fuel can_write in
  let fs1 := fst (run_ fs (make_box x p q fa)) in
  let fs2 := fst (run_ fs1 (make_box y p' q' fb)) in
  let t := mk_two_tiles fa p q fb p' q' strict in
  exists bs c,
    run_ fs2 (sgstitch t out) = (fs_set fs2 out bs, Ok tt) /\
    run_ fs2 (sgstitch (swapped t) out) = (fs_set fs2 out bs, Ok tt) /\
    read64 L bs (total_ni s p p') (total_nj s q q') true = Ok c /\ combines s p q p' q' a b c.
Proof.
  intros L G loadtxt lay o3 fuel w. exact (C94_neighbouring_boxes_stitch_alike_sec L G loadtxt lay o3 fuel w).
Qed.

(** ** concrete chains *)
Definition box_of (x : box) (p q : nat) : grid binary64 :=
  match box_grid ex_libm ex_geod x p q with Ok (g, _, _) => g | Err _ => fun _ => mconst 0 0 b64_zero end.
Lemma box_of_ok x p q : 1 <= p -> 1 <= q -> box_grid ex_libm ex_geod x p q = Ok (box_of x p q, p, q).
Proof.
  intros Hp Hq. unfold box_of. destruct x as [[[lon1 lat1] lon2] lat2]. unfold box_grid.
  destruct (mkgrid64_ok ex_libm ex_geod lon1 lat1 lon2 lat2 p q Hp Hq) as (g & H & E & _). rewrite E. reflexivity.
Qed.

(** no zero off the boundary, decided entry by entry *)
Definition inner_zeros (g : grid binary64) (p q : nat) : bool :=
  forallb (fun f => forallb (fun ij => (match f with XG | YG => true | _ => false end) || negb (is_zero (mat_at (g f) (fst ij) (snd ij)))
      || straddlesb p q f (fst ij) (snd ij))
    (list_prod (seq 0 (rows_of f p)) (seq 0 (cols_of f q)))) fields.
Lemma inner_zeros_ok g p q : inner_zeros g p q = true -> no_inner_zero g p q.
Proof.
  intros Hz f i j (Hi & Hj) N1 N2 Z. unfold inner_zeros in Hz. rewrite forallb_forall in Hz.
  specialize (Hz f (in_fields f)). rewrite forallb_forall in Hz. specialize (Hz (i, j)). cbn [fst snd] in Hz.
  rewrite Z in Hz. rewrite !orb_true_iff in Hz. 
  destruct Hz as [[Hz|Hz]|Hz].
  - apply in_prod_iff. rewrite !in_seq. lia.
  - destruct f; try discriminate Hz; contradiction.
  - discriminate Hz.
  - apply straddlesb_ok. exact Hz.
Qed.

Definition ex_west : box := (ex_int 0, ex_int 2, ex_int 4, ex_int 0).
Definition ex_east : box := (ex_int 4, ex_int 2, ex_int 6, ex_int 0).
Definition ex_north : box := (ex_int 0, ex_int 5, ex_int 4, ex_int 2).

Lemma meets_dec (a b : mat point64) s (P Q : bool -> bool -> bool) :
  (forall e n, P e n = true -> on_side s e n) -> (forall e n, Q e n = true -> on_side (opposite s) e n) ->
  (forall e n, bits_of_b64 (g_inv ex_geod (corner_of a e n) (corner_of a e n)) = 0%Z) ->
  (forall e n, bits_of_b64 (g_inv ex_geod (corner_of b e n) (corner_of b e n)) = 0%Z) ->
  b64_leb b64_zero (limit64 ex_libm ex_geod a b) = true -> b64_leb b64_inf (limit64 ex_libm ex_geod a b) = false ->
  b64_leb b64_zero (limit64 ex_libm ex_geod b a) = true -> b64_leb b64_inf (limit64 ex_libm ex_geod b a) = false ->
  (forall e n e' n', P e n && Q e' n' = false ->
     b64_leb (g_inv ex_geod (corner_of a e n) (corner_of b e' n')) (limit64 ex_libm ex_geod a b) = false) ->
  (forall e n e' n', Q e n && P e' n' = false ->
     b64_leb (g_inv ex_geod (corner_of b e n) (corner_of a e' n')) (limit64 ex_libm ex_geod b a) = false) ->
  meets_only_at ex_libm ex_geod a b s.
Proof.
  intros HP HQ Z1 Z2 A0 A1 B0 B1 N1 N2.
  assert (Hz : forall x, bits_of_b64 x = 0%Z -> x = b64_zero).
  { intros x Hx. rewrite <- (binary_float_of_bits_of_binary_float 52 11 eq_refl eq_refl eq_refl x).
    unfold bits_of_b64 in Hx. rewrite Hx. reflexivity. }
  split; [intros; apply Hz, Z1|]. split; [intros; apply Hz, Z2|]. do 4 (split; [assumption|]).
  split; intros e n e' n' K.
  - apply (near_dec _ _ a b (fun e n e' n' => P e n && Q e' n') N1) in K. apply andb_true_iff in K. intuition.
  - apply (near_dec _ _ b a (fun e n e' n' => Q e n && P e' n') N2) in K. apply andb_true_iff in K. intuition.
Qed.

Example C94_side_by_side_case :
  continues East 2 2 1 2 ex_west ex_east /\
  meets_only_at ex_libm ex_geod (box_points ex_west) (box_points ex_east) East /\
  no_inner_zero (box_of ex_west 2 2) 2 2 /\ no_inner_zero (box_of ex_east 1 2) 1 2.
Proof.
  split; [apply to_the_east; vm_compute; reflexivity|].
  split; [|split; apply inner_zeros_ok; vm_compute; reflexivity].
  apply (meets_dec _ _ _ (fun e _ => e) (fun e _ => negb e)).
  - intros [] n; [reflexivity|discriminate].
  - intros [] n; [discriminate|reflexivity].
  - intros [] []; vm_compute; reflexivity.
  - intros [] []; vm_compute; reflexivity.
  - vm_compute; reflexivity.
  - vm_compute; reflexivity.
  - vm_compute; reflexivity.
  - vm_compute; reflexivity.
  - intros [] [] [] []; intros K; try discriminate K; vm_compute; reflexivity.
  - intros [] [] [] []; intros K; try discriminate K; vm_compute; reflexivity.
Qed.

Example C94_above_each_other_case :
  continues North 2 2 2 1 ex_west ex_north /\
  meets_only_at ex_libm ex_geod (box_points ex_west) (box_points ex_north) North /\
  no_inner_zero (box_of ex_west 2 2) 2 2 /\ no_inner_zero (box_of ex_north 2 1) 2 1.
Proof.
  split; [apply to_the_north|].
  split; [|split; apply inner_zeros_ok; vm_compute; reflexivity].
  apply (meets_dec _ _ _ (fun _ n => n) (fun _ n => negb n)).
  - intros e []; [reflexivity|discriminate].
  - intros e []; [discriminate|reflexivity].
  - intros [] []; vm_compute; reflexivity.
  - intros [] []; vm_compute; reflexivity.
  - vm_compute; reflexivity.
  - vm_compute; reflexivity.
  - vm_compute; reflexivity.
  - vm_compute; reflexivity.
  - intros [] [] [] []; intros K; try discriminate K; vm_compute; reflexivity.
  - intros [] [] [] []; intros K; try discriminate K; vm_compute; reflexivity.
Qed.

(** the chains themselves, run *)
Definition ex_run (fs : filesystem) (c : command binary64) : filesystem :=
  fst (run64 ex_libm ex_geod (fun _ => Err ParseError) indices indices 3 (fun _ => true) fs c).
Definition same_bytes (x y : option (list byte)) : bool :=
  match x, y with
  | Some u, Some v => (length u =? length v) && forallb (fun p => Byte.eqb (fst p) (snd p)) (combine u v)
  | _, _ => false
  end.
Local Open Scope string_scope.
Example C94_refine_case :
  let fs1 := ex_run (fun _ => None) (box_command (ex_int 0) (ex_int 2) (ex_int 8) (ex_int 0) 1 1 "cell") in
  let fs2 := ex_run fs1 (sgregrid (Some "cell") None None 1 1 (ex_int 0) (ex_int 2) (ex_int 8) (ex_int 0) 2 1 true "fine") in
  let fs3 := ex_run fs2 (box_command (ex_int 0) (ex_int 2) (ex_int 8) (ex_int 0) 2 1 "direct") in
  same_bytes (fs3 "fine") (fs3 "direct") = true /\ same_bytes (fs3 "cell") (fs3 "direct") = false.
Proof. vm_compute. split; reflexivity. Qed.
Example C94_stitch_case :
  let fs1 := ex_run (fun _ => None) (make_box ex_west 2 2 "w") in
  let fs2 := ex_run fs1 (make_box ex_east 1 2 "e") in
  let fs3 := ex_run fs2 (sgstitch (mk_two_tiles "w" 2 2 "e" 1 2 true) "we") in
  let fs4 := ex_run fs3 (sgstitch (mk_two_tiles "e" 1 2 "w" 2 2 true) "ew") in
  same_bytes (fs4 "we") (fs4 "ew") = true /\ same_bytes (fs4 "w") (fs4 "we") = false.
Proof. vm_compute. split; reflexivity. Qed.
