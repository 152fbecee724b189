From Coq Require Import String List ZArith Lia Bool PeanoNat.
Import ListNotations.
From Verif Require Import Prelude PreludeFacts Num Mat MatFacts Fields Util ComputeGrid ComputeGridFacts
  SpecGrid SpecHalf GridIOProofs TomitSpec Refine RefineFacts Regrid RegridFacts MatchEdges SpecTiles
  MatchEdgesFacts AddFringe.
Local Open Scope nat_scope.
Local Arguments Nat.mul : simpl never.
Local Arguments Nat.sub : simpl never.

Section Fold.
Context {F : Type}.

Lemma field_beq_eq f f' : field_beq f f' = true <-> f = f'.
Proof. split; [apply internal_field_dec_bl|apply internal_field_dec_lb]. Qed.
Lemma field_beq_neq f f' : f <> f' -> field_beq f f' = false.
Proof. intros H. apply not_true_iff_false. rewrite field_beq_eq. exact H. Qed.

Lemma fold_fields (op : field -> mat F -> res (mat F)) (r : field -> mat F) (g0 : grid F) l :
  NoDup l -> (forall f, In f l -> op f (g0 f) = Ok (r f)) ->
  exists g, foldM (fun g f => x <- op f (g f) ;; Ok (gset g f x)) l g0 = Ok g /\
    (forall f, In f l -> g f = r f) /\ (forall f, ~ In f l -> g f = g0 f).
Proof.
  intros Hnd Hop.
  destruct (foldM_inv (fun g f => x <- op f (g f) ;; Ok (gset g f x))
    (fun done g => (forall f, In f done -> g f = r f) /\ (forall f, ~ In f done -> g f = g0 f)) l g0)
    as (g & E & H1 & H2); [split; [contradiction|auto]| |exists g; auto].
  intros done f rest g Hl (H1 & H2).
  assert (Hn : ~ In f done). { subst l. apply NoDup_remove_2 in Hnd. intros K. apply Hnd. apply in_or_app; auto. }
  rewrite (H2 f Hn), Hop by (subst l; apply in_or_app; simpl; auto). cbn [rbind].
  eexists. split; [reflexivity|]. unfold gset. split; intros f' Hf'.
  - destruct (field_beq f' f) eqn:E; [apply field_beq_eq in E; subst; auto|].
    apply in_app_or in Hf'. destruct Hf' as [K|[K|[]]]; auto.
    subst f'. rewrite (proj2 (field_beq_eq f f) eq_refl) in E. discriminate.
  - rewrite field_beq_neq; [apply H2; intros K; apply Hf'; apply in_or_app; auto|].
    intros ->. apply Hf'. apply in_or_app. simpl; auto.
Qed.

(** partial version: what an Ok fold did *)
Lemma fold_fields_inv (op : field -> mat F -> res (mat F)) (g0 g : grid F) l :
  NoDup l -> foldM (fun g f => x <- op f (g f) ;; Ok (gset g f x)) l g0 = Ok g ->
  (forall f, In f l -> op f (g0 f) = Ok (g f)) /\ (forall f, ~ In f l -> g f = g0 f).
Proof.
  intros Hnd E.
  refine (foldM_inv_ok _ (fun done g => (forall f, In f done -> op f (g0 f) = Ok (g f)) /\
     (forall f, ~ In f done -> g f = g0 f)) _ _ _ E _ _); [split; [contradiction|auto]|].
  intros done f rest s s' Hl (H1 & H2) Hb. mok Hb. inversion Hb. subst s'. clear Hb.
  assert (Hn : ~ In f done). { subst l. apply NoDup_remove_2 in Hnd. intros K. apply Hnd. apply in_or_app; auto. }
  rewrite (H2 f Hn) in Ha. unfold gset. split; intros f' Hf'.
  - destruct (field_beq f' f) eqn:E'; [apply field_beq_eq in E'; subst; auto|].
    apply in_app_or in Hf'. destruct Hf' as [K|[K|[]]]; auto.
    subst f'. rewrite (proj2 (field_beq_eq f f) eq_refl) in E'. discriminate.
  - rewrite field_beq_neq; [apply H2; intros K; apply Hf'; apply in_or_app; auto|].
    intros ->. apply Hf'. apply in_or_app. simpl; auto.
Qed.

Lemma fields_nodup : NoDup fields.
Proof.
  unfold fields. repeat (constructor; [simpl; intuition discriminate|]). constructor.
Qed.
Lemma in_fields f : In f fields.
Proof. destruct f; simpl; tauto. Qed.
End Fold.

Section Facts.
Context {F : Type} (N : numops F) (NL : numlaws N) (G : geod F).
Notation pt := (F * F)%type.

(** ** writing the ring *)
Definition ring (s : side) (p q k : nat) : nat * nat :=
  match s with
  | East => (2 * p + 2, 1 + k) | West => (0, 1 + k)
  | North => (1 + k, 2 * q + 2) | South => (1 + k, 0)
  end.
Definition ring_len (s : side) (p q : nat) : nat := if zonal s then 2 * q + 1 else 2 * p + 1.

Lemma sset_ok (cg : mat pt) s p q v z :
  mrows cg = 2 * p + 3 -> mcols cg = 2 * q + 3 -> length v = ring_len s p q ->
  exists cg', sset cg (join_slice (side_code s)) v z = Ok cg' /\
    mrows cg' = mrows cg /\ mcols cg' = mcols cg /\
    (forall k, k < ring_len s p q -> point cg' (ring s p q k) = nth k v z) /\
    (forall i j, i < mrows cg -> j < mcols cg -> (forall k, k < ring_len s p q -> (i, j) <> ring s p q k) ->
       mat_at cg' i j = mat_at cg i j).
Proof.
  intros Hr Hc Hl. unfold ring_len in *.
  assert (E0 : forall n, norm_index (n + 3) 0 = Ok 0).
  { intros n. change 0%Z with (Z.of_nat 0). rewrite norm_index_nat. destruct (Nat.ltb_spec 0 (n + 3)); [auto|lia]. }
  assert (E1 : forall n, norm_index (n + 3) (-1) = Ok (n + 2)).
  { intros n. change (-1)%Z with (- Z.of_nat 1)%Z. rewrite norm_index_neg by lia.
    destruct (Nat.leb_spec 1 (n + 3)); [f_equal; lia|lia]. }
  destruct s; cbn [join_slice side_code Nat.eqb eN eS eE eW sset zonal] in *; rewrite ?Hr, ?Hc, ?E0, ?E1; cbn [rbind];
  match goal with |- context [?a =? ?b] => replace (a =? b) with true by (symmetry; apply Nat.eqb_eq; lia) end;
  (eexists; split; [reflexivity|]; cbn [mrows mcols mat_at]; split; [reflexivity|]; split; [reflexivity|]; split).
  all: try (intros k Hk; unfold point, ring; cbn [fst snd mat_at];
    rewrite Nat.eqb_refl; cbn [andb];
    rewrite (proj2 (Nat.leb_le 1 (1 + k))) by lia;
    match goal with |- context [?a <? ?b] => replace (a <? b) with true by (symmetry; apply Nat.ltb_lt; lia) end;
    cbn [andb]; f_equal; lia).
  all: intros i j Hi Hj Hno;
    match goal with |- (if ?c then _ else _) = _ => destruct c eqn:Ec; [exfalso|reflexivity] end;
    rewrite !andb_true_iff, Nat.eqb_eq, Nat.leb_le, Nat.ltb_lt in Ec; unfold ring in Hno.
  1,2: apply (Hno (i - 1)); [lia|f_equal; lia].
  all: apply (Hno (j - 1)); [lia|f_equal; lia].
Qed.

(** ** the compute grid of addfringe *)
Lemma fringe_cg_ok (a : mat pt) (m : matched (F := F)) s p q :
  mrows a = p + 1 -> mcols a = q + 1 -> me_join m = join_slice (side_code s) ->
  length (me_edge m) = ring_len s p q ->
  exists cg, fringe_cg N a m = Ok cg /\ mrows cg = 2 * p + 3 /\ mcols cg = 2 * q + 3 /\
    (forall i j, i <= p -> j <= q -> mat_at cg (1 + 2 * i) (1 + 2 * j) = mat_at a i j) /\
    lon0to360 N cg = corners_pos N (mat_at a) p q && forallb (fun x => negb (nltb N (fst x) (nzero N))) (me_edge m).
Proof.
  intros Hr Hc Hj Hl. unfold fringe_cg. rewrite Hr, Hc.
  replace (p + 1 - 1) with p by lia. replace (q + 1 - 1) with q by lia.
  set (z := (nzero N, nzero N)).
  destruct (scatter_ok N indices (p + 1) (q + 1) 1 1 (mat_at a) (mconst (2 * p + 3) (2 * q + 3) z))
    as (cg & E & Hr1 & Hc1 & Hv & Hz); auto using indices_order_ok.
  { intros i j Hi Hj'. cbn [mrows mcols mconst]. lia. }
  rewrite E. cbn [rbind]. rewrite Hj. cbn [mrows mcols mconst] in Hr1, Hc1.
  destruct (sset_ok cg s p q (me_edge m) z Hr1 Hc1 Hl) as (cg' & E' & Hr2 & Hc2 & Hv2 & Hz2).
  exists cg'. split; [exact E'|]. split; [lia|]. split; [lia|].
  assert (Hcor : forall i j, i <= p -> j <= q -> mat_at cg' (1 + 2 * i) (1 + 2 * j) = mat_at a i j).
  { intros i j Hi Hj'. rewrite Hz2; [|lia|lia|].
    - rewrite <- (Hv i j) by lia. f_equal; lia.
    - intros k Hk K. unfold ring in K. destruct s; inversion K; lia. }
  split; [exact Hcor|].
  rewrite (lon0to360_list N cg'
    (map (fun ij => (1 + 2 * fst ij, 1 + 2 * snd ij)) (list_prod (seq 0 (p + 1)) (seq 0 (q + 1)))
     ++ map (ring s p q) (seq 0 (ring_len s p q)))).
  - rewrite forallb_app. f_equal.
    + unfold corners_pos. apply eq_true_iff_eq. rewrite !forallb_forall. split; intros K.
      * intros (x, y) Hin. specialize (K (1 + 2 * x, 1 + 2 * y)).
        rewrite <- K by (apply in_map_iff; exists (x, y); auto).
        apply in_prod_iff in Hin. rewrite !in_seq in Hin. unfold point. cbn [fst snd].
        rewrite Hcor by lia. reflexivity.
      * intros ij Hin. apply in_map_iff in Hin. destruct Hin as ((x, y) & <- & Hin).
        specialize (K (x, y) Hin). rewrite <- K. apply in_prod_iff in Hin. rewrite !in_seq in Hin.
        unfold point. cbn [fst snd]. rewrite Hcor by lia. reflexivity.
    + apply eq_true_iff_eq. rewrite !forallb_forall. split; intros K.
      * intros x Hin. apply (In_nth _ _ z) in Hin. destruct Hin as (k & Hk & <-).
        rewrite Hl in Hk. rewrite <- Hv2 by auto. apply K. apply in_map. apply in_seq. lia.
      * intros ij Hin. apply in_map_iff in Hin. destruct Hin as (k & <- & Hin). apply in_seq in Hin.
        rewrite Hv2 by lia. apply K. apply nth_In. rewrite Hl. lia.
  - intros ij Hin. apply in_app_or in Hin. destruct Hin as [Hin|Hin].
    + apply in_map_iff in Hin. destruct Hin as ((x, y) & <- & Hin). apply in_prod_iff in Hin.
      rewrite !in_seq in Hin. cbn [fst snd]. lia.
    + apply in_map_iff in Hin. destruct Hin as (k & <- & Hin). apply in_seq in Hin.
      unfold ring, ring_len in *. destruct s; cbn [fst snd zonal] in *; lia.
  - intros i j Hi Hj' Hnin. rewrite Hz2; [|lia|lia|].
    + rewrite Hz; [apply (nltb_irrefl NL)|].
      intros x y Hx Hy K. apply Hnin. apply in_or_app. left. apply in_map_iff. exists (x, y).
      cbn [fst snd]. rewrite K. split; [f_equal; lia|]. apply in_prod_iff. rewrite !in_seq. lia.
    + intros k Hk K. apply Hnin. apply in_or_app. right. rewrite K. apply in_map. apply in_seq. lia.
Qed.

(** ** addfringe *)
Definition kept (old new : F) : F := if negb (neqb N (nzero N) old) then old else new.

Lemma merge_ok (old new : mat F) : mrows old = mrows new -> mcols old = mcols new ->
  mrows old <> 0 -> mcols old <> 0 ->
  merge N old new = Ok (mkmat (mrows new) (mcols new) (fun i j => kept (mat_at old i j) (mat_at new i j))).
Proof.
  intros Hr Hc Hr0 Hc0. unfold merge. rewrite Hr, Hc, !Nat.eqb_refl. cbn [andb negb].
  rewrite <- Hr, <- Hc. apply Nat.eqb_neq in Hr0, Hc0. rewrite Hr0, Hc0. reflexivity.
Qed.

Lemma rows_of_pos f p : 1 <= p -> rows_of f p <> 0.
Proof. unfold rows_of. destruct (place_of f); lia. Qed.
Lemma cols_of_pos f p : 1 <= p -> cols_of f p <> 0.
Proof. unfold cols_of. destruct (place_of f); lia. Qed.

Definition fringe_flag (a : grid F) (p q : nat) (e : list pt) : bool :=
  corners_pos N (mat_at (tile_points a)) p q && forallb (fun x => negb (nltb N (fst x) (nzero N))) e.

Lemma fringe_ok (a b : grid F) (m : matched (F := F)) s p q :
  shaped a p q -> 1 <= p -> 1 <= q ->
  matchedges N G (tile_points a) (tile_points b) = Ok m ->
  me_join m = join_slice (side_code s) -> length (me_edge m) = ring_len s p q ->
  exists H new g, fringe N G a b = Ok (me_a m, me_b m, g) /\
    subdivides N G (fringe_flag a p q (me_edge m)) (mat_at (tile_points a)) 1 1 p q H /\
    grid_of N G H p q new /\
    forall f, mat_is (g f) (rows_of f p) (cols_of f q)
      (fun i j => kept (mat_at (a f) i j) (mat_at (new f) i j)).
Proof.
  intros Hs Hp Hq Em Hj Hl.
  assert (Hr : mrows (a XG) = p + 1) by apply (Hs XG). assert (Hc : mcols (a XG) = q + 1) by apply (Hs XG).
  unfold fringe. rewrite Em. cbn [rbind]. rewrite Hr, Hc.
  replace (p + 1 - 1) with p by lia. replace (q + 1 - 1) with q by lia.
  destruct (fringe_cg_ok (tile_points a) m s p q Hr Hc Hj Hl) as (cg & Ecg & Hr1 & Hc1 & Hv & Hw).
  rewrite Ecg. cbn [rbind].
  destruct (finish_ok N NL G cg 1 1 p q) as (new & H & Ef & Hsub & Hg); try lia.
  rewrite !Nat.mul_1_l in Ef, Hg. rewrite Ef. cbn [rbind].
  destruct (fold_fields (fun f x => merge N (a f) x)
    (fun f => mkmat (mrows (new f)) (mcols (new f)) (fun i j => kept (mat_at (a f) i j) (mat_at (new f) i j)))
    new fields) as (g & E & Hin & _); [apply fields_nodup| |].
  { intros f _. destruct (Hg f) as (G1 & G2 & _). destruct (Hs f) as (S1 & S2).
    apply merge_ok; [lia|lia|rewrite S1; apply rows_of_pos; auto|rewrite S2; apply cols_of_pos; auto]. }
  rewrite E. cbn [rbind]. exists H, new, g. split; [reflexivity|]. split.
  - unfold fringe_flag. rewrite <- Hw. destruct Hsub as (S1 & S2 & S3).
    assert (HC : forall i j, i <= p -> j <= q -> mat_at cg (1 + 2 * 1 * i) (1 + 2 * 1 * j) = mat_at (tile_points a) i j).
    { intros i j Hi Hj'. rewrite !Nat.mul_1_r. apply Hv; auto. }
    split; [|split].
    + intros i j Hi Hj'. rewrite S1 by auto. apply HC; auto.
    + intros i j k Hi Hj' Hk. rewrite S2 by auto. rewrite !HC by lia. reflexivity.
    + exact S3.
  - split; [exact Hg|]. intros f. rewrite Hin by apply in_fields.
    destruct (Hg f) as (G1 & G2 & _). repeat split; auto.
Qed.

Lemma fringe_inv (a b : grid F) p q ea eb g :
  shaped a p q -> fringe N G a b = Ok (ea, eb, g) ->
  exists m s, 1 <= p /\ 1 <= q /\ matchedges N G (tile_points a) (tile_points b) = Ok m /\
    me_a m = side_code s /\ me_b m = side_code (opposite s) /\
    me_join m = join_slice (side_code s) /\ length (me_edge m) = ring_len s p q /\
    ea = side_code s /\ eb = side_code (opposite s).
Proof.
  intros Hs E.
  assert (Hr : mrows (a XG) = p + 1) by apply (Hs XG). assert (Hc : mcols (a XG) = q + 1) by apply (Hs XG).
  unfold fringe in E. mok E. rename a0 into m.
  destruct (matchedges_inv N NL G _ _ m Ha) as (s & Hne & Hbig & K1 & K2).
  destruct (matchedges_ok N NL G _ _ s Hne Hbig K1 K2) as (m' & Em & E1 & E2 & E3 & E4 & E5 & Hm).
  rewrite Em in Ha. inversion Ha. subst m'. clear Ha.
  assert (Hl : length (me_edge m) = ring_len s p q).
  { destruct Hm as (H & _ & ->). rewrite map_length, seq_length. unfold ring_len, side_len.
    cbn [mrows mcols tile_points]. rewrite Hr, Hc. destruct (zonal s); lia. }
  exists m, s.
  mok E. mok E. mok E. inversion E. subst. clear E.
  assert (Hpq : 1 <= p /\ 1 <= q).
  { rewrite Hr, Hc in Ha0. replace (p + 1 - 1) with p in Ha0 by lia. replace (q + 1 - 1) with q in Ha0 by lia.
    unfold finish in Ha0. mok Ha0. clear Ha0.
    destruct (Nat.eq_dec p 0) as [->|Hp]; [|destruct (Nat.eq_dec q 0) as [->|Hq]; [|lia]].
    - destruct (fill_empty N G a0 1 1 (2 * 0) (2 * q) 1 1) as (e & He); [left; lia|].
      rewrite He in Ha2. discriminate.
    - destruct (fill_empty N G a0 1 1 (2 * p) (2 * 0) 1 1) as (e & He); [right; lia|].
      rewrite He in Ha2. discriminate. }
  repeat split; auto; tauto.
Qed.

(** ** everything about a returned grid *)
Lemma fringe_char (a b : grid F) p q ea eb g :
  shaped a p q -> fringe N G a b = Ok (ea, eb, g) ->
  exists m s H new, matchedges N G (tile_points a) (tile_points b) = Ok m /\ 1 <= p /\ 1 <= q /\
    me_a m = side_code s /\ me_b m = side_code (opposite s) /\
    ea = side_code s /\ eb = side_code (opposite s) /\
    subdivides N G (fringe_flag a p q (me_edge m)) (mat_at (tile_points a)) 1 1 p q H /\
    grid_of N G H p q new /\
    forall f, mat_is (g f) (rows_of f p) (cols_of f q)
      (fun i j => kept (mat_at (a f) i j) (mat_at (new f) i j)).
Proof.
  intros Hs E. destruct (fringe_inv a b p q ea eb g Hs E) as (m & s & Hp & Hq & Em & A1 & A2 & A3 & A4 & A5 & A6).
  destruct (fringe_ok a b m s p q Hs Hp Hq Em A3 A4) as (H & new & g' & E' & Hsub & Hg & Hk).
  rewrite E in E'. inversion E'. subst g'. exists m, s, H, new.
  split; [exact Em|]. split; [exact Hp|]. split; [exact Hq|]. do 6 (split; [assumption|]). exact Hk.
Qed.

Lemma fresh_unique (C C' : nat -> nat -> pt) w p q H H' new new' : 1 <= p -> 1 <= q ->
  (forall i j, i <= p -> j <= q -> C i j = C' i j) ->
  subdivides N G w C 1 1 p q H -> subdivides N G w C' 1 1 p q H' ->
  grid_of N G H p q new -> grid_of N G H' p q new' -> geq new new'.
Proof.
  intros Hp Hq HC S1 S2 G1 G2. apply (grid_of_geq N G H' p q); auto.
  apply (grid_of_ext N G H H' p q); auto. intros u v Hu Hv.
  apply (subdivides_unique N G w C C' 1 1 p q H H'); auto; lia.
Qed.

Lemma tile_points_meq (a a' : grid F) p q : shaped a p q -> shaped a' p q ->
  (forall i j, i <= p -> j <= q -> mat_at (a XG) i j = mat_at (a' XG) i j /\ mat_at (a YG) i j = mat_at (a' YG) i j) ->
  meq (tile_points a) (tile_points a').
Proof.
  intros Hs Hs' HXY.
  pose proof (proj1 (Hs XG)) as R1. pose proof (proj2 (Hs XG)) as C1.
  pose proof (proj1 (Hs' XG)) as R2. pose proof (proj2 (Hs' XG)) as C2. cbn in R1, C1, R2, C2.
  split; [|split]; cbn [mrows mcols tile_points mat_at]; [congruence|congruence|].
  intros i j Hi Hj. destruct (HXY i j) as [-> ->]; [lia|lia|reflexivity].
Qed.

(** corners are not changed *)
Lemma kept_same x : kept x x = x.
Proof. unfold kept. destruct (negb _); reflexivity. Qed.

Lemma fringe_corners (a b : grid F) p q ea eb g : shaped a p q -> fringe N G a b = Ok (ea, eb, g) ->
  forall i j, i <= p -> j <= q ->
  mat_at (g XG) i j = mat_at (a XG) i j /\ mat_at (g YG) i j = mat_at (a YG) i j.
Proof.
  intros Hs E i j Hi Hj.
  destruct (fringe_char a b p q ea eb g Hs E) as (m & s & H & new & _ & Hp & Hq & _ & _ & _ & _ & Hsub & Hg & Hk).
  destruct Hsub as (S1 & _).
  assert (Hcorner : H (2 * i) (2 * j) = (mat_at (a XG) i j, mat_at (a YG) i j)).
  { specialize (S1 i j Hi Hj). rewrite !Nat.mul_1_r in S1. exact S1. }
  assert (Hx : i < rows_of XG p /\ j < cols_of XG q) by (cbn; lia).
  assert (Hy : i < rows_of YG p /\ j < cols_of YG q) by (cbn; lia).
  split.
  - destruct (Hk XG) as (_ & _ & ->); [|apply Hx|apply Hx]. destruct (Hg XG) as (_ & _ & ->); [|apply Hx|apply Hx].
    cbn [spec_field]. rewrite Hcorner. apply kept_same.
  - destruct (Hk YG) as (_ & _ & ->); [|apply Hy|apply Hy]. destruct (Hg YG) as (_ & _ & ->); [|apply Hy|apply Hy].
    cbn [spec_field]. rewrite Hcorner. apply kept_same.
Qed.

Lemma fringe_geq (a b a' b' : grid F) p q p' q' ea eb g :
  shaped a p q -> shaped a' p q -> shaped b p' q' -> shaped b' p' q' ->
  geq a a' -> geq b b' -> fringe N G a b = Ok (ea, eb, g) ->
  exists g', fringe N G a' b' = Ok (ea, eb, g') /\ geq g g'.
Proof.
  intros Hs Hs' Ht Ht' Ga Gb E.
  destruct (fringe_inv a b p q ea eb g Hs E) as (m & s & Hp & Hq & Em & A1 & A2 & A3 & A4 & -> & ->).
  assert (Em' : matchedges N G (tile_points a') (tile_points b') = Ok m).
  { refine (matchedges_meq N NL G _ _ _ _ m _ _ Em).
    - apply (tile_points_meq a a' p q Hs Hs'). intros i j Hi Hj.
      split; [apply (Ga XG)|apply (Ga YG)];
        first [rewrite (proj1 (Hs XG))|rewrite (proj2 (Hs XG))|rewrite (proj1 (Hs YG))|rewrite (proj2 (Hs YG))]; cbn; lia.
    - apply (tile_points_meq b b' p' q' Ht Ht'). intros i j Hi Hj.
      split; [apply (Gb XG)|apply (Gb YG)];
        first [rewrite (proj1 (Ht XG))|rewrite (proj2 (Ht XG))|rewrite (proj1 (Ht YG))|rewrite (proj2 (Ht YG))]; cbn; lia. }
  destruct (fringe_ok a b m s p q Hs Hp Hq Em A3 A4) as (H & new & g0 & E0 & Hsub & Hg & Hk).
  rewrite E in E0. inversion E0. subst g0. clear E0.
  destruct (fringe_ok a' b' m s p q Hs' Hp Hq Em' A3 A4) as (H' & new' & g' & E' & Hsub' & Hg' & Hk').
  exists g'. split; [congruence|].
  assert (HC : forall i j, i <= p -> j <= q -> mat_at (tile_points a) i j = mat_at (tile_points a') i j).
  { intros i j Hi Hj. cbn [tile_points mat_at]. f_equal; [apply (Ga XG)|apply (Ga YG)];
        first [rewrite (proj1 (Hs XG))|rewrite (proj2 (Hs XG))|rewrite (proj1 (Hs YG))|rewrite (proj2 (Hs YG))]; cbn; lia. }
  assert (Hn : geq new new').
  { apply (fresh_unique (mat_at (tile_points a)) (mat_at (tile_points a')) (fringe_flag a p q (me_edge m)) p q H H'); auto.
    unfold fringe_flag in *. rewrite (corners_pos_ext N (mat_at (tile_points a)) (mat_at (tile_points a')) p q HC). exact Hsub'. }
  intros f. destruct (Hk f) as (R & C0 & V). destruct (Hk' f) as (R' & C' & V').
  split; [congruence|]. split; [congruence|]. intros i j Hi Hj. rewrite V, V' by congruence.
  destruct (Hg f) as (Gr & Gc & _). destruct (Hs f) as (Sr & Sc).
  rewrite (proj2 (proj2 (Ga f))) by congruence. rewrite (proj2 (proj2 (Hn f))) by congruence. reflexivity.
Qed.

Lemma fringe_shaped (a b : grid F) p q ea eb g : shaped a p q -> fringe N G a b = Ok (ea, eb, g) -> shaped g p q.
Proof.
  intros Hs E. destruct (fringe_char a b p q ea eb g Hs E) as (m & s & H & new & _ & _ & _ & _ & _ & _ & _ & _ & _ & Hk).
  intros f. destruct (Hk f) as (R & C0 & _). auto.
Qed.

Lemma fringe_idem (a b : grid F) p q ea eb g : shaped a p q -> fringe N G a b = Ok (ea, eb, g) ->
  exists g', fringe N G g b = Ok (ea, eb, g') /\ geq g' g.
Proof.
  intros Hs E. pose proof (fringe_shaped a b p q ea eb g Hs E) as Hs'.
  destruct (fringe_inv a b p q ea eb g Hs E) as (m & s & Hp & Hq & Em & A1 & A2 & A3 & A4 & -> & ->).
  pose proof (fringe_corners a b p q _ _ g Hs E) as Hcor.
  assert (Em' : matchedges N G (tile_points g) (tile_points b) = Ok m).
  { refine (matchedges_meq N NL G _ _ _ _ m _ _ Em); [|apply meq_refl].
    apply (tile_points_meq a g p q Hs Hs'). intros i j Hi Hj. destruct (Hcor i j Hi Hj). auto. }
  destruct (fringe_ok a b m s p q Hs Hp Hq Em A3 A4) as (H & new & g0 & E0 & Hsub & Hg & Hk).
  rewrite E in E0. inversion E0. subst g0. clear E0.
  destruct (fringe_ok g b m s p q Hs' Hp Hq Em' A3 A4) as (H' & new' & g' & E' & Hsub' & Hg' & Hk').
  exists g'. split; [congruence|].
  assert (HC : forall i j, i <= p -> j <= q -> mat_at (tile_points a) i j = mat_at (tile_points g) i j).
  { intros i j Hi Hj. cbn [tile_points mat_at]. destruct (Hcor i j Hi Hj) as [-> ->]. reflexivity. }
  assert (Hn : geq new new').
  { apply (fresh_unique (mat_at (tile_points a)) (mat_at (tile_points g)) (fringe_flag a p q (me_edge m)) p q H H'); auto.
    unfold fringe_flag in *. rewrite (corners_pos_ext N (mat_at (tile_points a)) (mat_at (tile_points g)) p q HC). exact Hsub'. }
  intros f. destruct (Hk f) as (R & C0 & V). destruct (Hk' f) as (R' & C' & V').
  split; [congruence|]. split; [congruence|]. intros i j Hi Hj. rewrite R' in Hi. rewrite C' in Hj.
  rewrite V', V by congruence.
  destruct (Hg f) as (Gr & Gc & _).
  rewrite <- (proj2 (proj2 (Hn f))) by congruence.
  unfold kept. destruct (neqb N (nzero N) (mat_at (a f) i j)) eqn:Ez; cbn [negb].
  - destruct (negb (neqb N (nzero N) (mat_at (new f) i j))); reflexivity.
  - rewrite Ez. reflexivity.
Qed.
End Facts.
