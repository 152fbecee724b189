From Coq Require Import String List ZArith Bool PeanoNat Lia Permutation.
Import ListNotations.
From Verif Require Import Prelude PreludeFacts Mat MatFacts Num Fields Util UtilFacts ComputeGrid
  ComputeGridFacts.
Local Open Scope nat_scope.
Local Arguments Nat.mul : simpl never.
Local Arguments Nat.div : simpl never.
Local Arguments Nat.modulo : simpl never.

Lemma NoDup_range_prod a b c d : NoDup (list_prod (range a b) (range c d)).
Proof. apply NoDup_list_prod; apply seq_NoDup. Qed.

Lemma in_range_prod a b c d i j :
  In (i, j) (list_prod (range a b) (range c d)) <-> a <= i < b /\ c <= j < d.
Proof. unfold range. rewrite in_prod_iff, !in_seq. lia. Qed.

Lemma inb_bool i j l b : (In (i, j) l <-> b = true) -> inb (i, j) l = b.
Proof.
  intros H. destruct b.
  - apply inb_In. apply H. reflexivity.
  - apply inb_notIn. intros Hn. apply H in Hn. discriminate.
Qed.

Lemma mat_is_intro {A} (m : mat A) r c f :
  mrows m = r -> mcols m = c -> (forall i j, i < r -> j < c -> mat_at m i j = f i j) ->
  mat_is m r c f.
Proof. intros; repeat split; auto. Qed.

Definition btw (a i b : nat) : bool := (a <=? i) && (i <? b).
Lemma btw_true a i b : btw a i b = true <-> a <= i < b.
Proof. unfold btw. rewrite andb_true_iff, Nat.leb_le, Nat.ltb_lt. tauto. Qed.
Lemma btw_false a i b : btw a i b = false <-> i < a \/ b <= i.
Proof. rewrite <- not_true_iff_false, btw_true. lia. Qed.

Section Tomit.
Context {F : Type} (N : numops F) (G : geod F).
Notation pt := (F * F)%type.

(** ** edges *)
Definition EX (cg : mat pt) ilb iub jlb jub i j : F :=
  if btw ilb i iub && btw jlb j (jub + 1)
  then g_inv G (mat_at cg i j) (mat_at cg (i + 1) j) else nzero N.
Definition EY (cg : mat pt) ilb iub jlb jub i j : F :=
  if btw ilb i (iub + 1) && btw jlb j jub
  then g_inv G (mat_at cg i j) (mat_at cg i (j + 1)) else nzero N.

Lemma edges_ok (cg : mat pt) ilb iub jlb jub : iub < mrows cg -> jub < mcols cg ->
  exists ex ey, edges N G cg ilb iub jlb jub = Ok (ex, ey) /\
    mat_is ex (mrows cg - 1) (mcols cg) (EX cg ilb iub jlb jub) /\
    mat_is ey (mrows cg) (mcols cg - 1) (EY cg ilb iub jlb jub).
Proof.
  intros Hi Hj. unfold edges.
  destruct (tabulate_loop (edges_x_step G cg)
    (fun i j => Some (g_inv G (mat_at cg i j) (mat_at cg (i + 1) j)))
    (list_prod (range ilb iub) (range jlb (jub + 1)))
    (mconst (mrows cg - 1) (mcols cg) (nzero N))) as (ex & Ex & Hxr & Hxc & Hxv).
  { intros m i j Hin Hr Hc. apply in_range_prod in Hin. simpl in Hr, Hc.
    unfold edges_x_step. rewrite !mget_ok by lia. cbn [rbind].
    match goal with |- context [mset m i j ?v] =>
      destruct (mset_ok m i j v) as (m' & -> & Hr' & Hc' & Hv'); [lia|lia|] end.
    exists m'. split; [reflexivity|]. rewrite Hr', Hc'. auto. }
  { apply NoDup_range_prod. }
  destruct (tabulate_loop (edges_y_step G cg)
    (fun i j => Some (g_inv G (mat_at cg i j) (mat_at cg i (j + 1))))
    (list_prod (range ilb (iub + 1)) (range jlb jub))
    (mconst (mrows cg) (mcols cg - 1) (nzero N))) as (ey & Ey & Hyr & Hyc & Hyv).
  { intros m i j Hin Hr Hc. apply in_range_prod in Hin. simpl in Hr, Hc.
    unfold edges_y_step. rewrite !mget_ok by lia. cbn [rbind].
    match goal with |- context [mset m i j ?v] =>
      destruct (mset_ok m i j v) as (m' & -> & Hr' & Hc' & Hv'); [lia|lia|] end.
    exists m'. split; [reflexivity|]. rewrite Hr', Hc'. auto. }
  { apply NoDup_range_prod. }
  rewrite Ex. cbn [rbind]. rewrite Ey. cbn [rbind].
  exists ex, ey. split; auto. split; apply mat_is_intro; auto.
  - intros i j _ _. rewrite Hxv. unfold EX.
    rewrite (inb_bool i j _ (btw ilb i iub && btw jlb j (jub + 1))); [reflexivity|].
    rewrite in_range_prod, andb_true_iff, !btw_true. tauto.
  - intros i j _ _. rewrite Hyv. unfold EY.
    rewrite (inb_bool i j _ (btw ilb i (iub + 1) && btw jlb j jub)); [reflexivity|].
    rewrite in_range_prod, andb_true_iff, !btw_true. tauto.
Qed.

(** ** sums *)
Definition S2 (x y : F) : F :=
  if existsb (neqb N (nzero N)) [x; y] then nzero N else nadd N x y.
Definition S4 (x y z t : F) : F :=
  if existsb (neqb N (nzero N)) [x; y; z; t] then nzero N
  else nadd N (nadd N (nadd N x y) z) t.

Lemma sum2_ok r c (e : mat F) p q :
  (forall i j, i < r -> j < c -> fst (p i j) < mrows e /\ snd (p i j) < mcols e) ->
  (forall i j, i < r -> j < c -> fst (q i j) < mrows e /\ snd (q i j) < mcols e) ->
  exists m, sum2_field N r c e p q = Ok m /\
    mat_is m r c (fun i j => S2 (mat_at e (fst (p i j)) (snd (p i j)))
                               (mat_at e (fst (q i j)) (snd (q i j)))).
Proof.
  intros Hp Hq. unfold sum2_field.
  match goal with |- context [foldM ?b _ _] =>
    destruct (tabulate_loop b (fun i j =>
      let x := mat_at e (fst (p i j)) (snd (p i j)) in
      let y := mat_at e (fst (q i j)) (snd (q i j)) in
      if existsb (neqb N (nzero N)) [x; y] then None else Some (nadd N x y))
      (indices r c) (mconst r c (nzero N))) as (m & E & Hr & Hc & Hv) end.
  - intros m i j Hin Hr Hc. apply in_indices in Hin. simpl in Hr, Hc.
    specialize (Hp i j). specialize (Hq i j).
    rewrite !mget_ok by tauto. cbn [rbind].
    destruct (existsb _ _).
    + exists m. auto.
    + match goal with |- context [mset m i j ?v] =>
      destruct (mset_ok m i j v) as (m' & -> & Hr' & Hc' & Hv'); [lia|lia|] end.
    exists m'. split; [reflexivity|]. rewrite Hr', Hc'. auto.
  - apply NoDup_indices.
  - exists m. split; auto. apply mat_is_intro; auto. intros i j Hi Hj. rewrite Hv.
    rewrite (inb_bool i j _ true) by (rewrite in_indices; tauto).
    unfold S2. cbv zeta. destruct (existsb _ _); reflexivity.
Qed.

Lemma sum4_ok r c (e : mat F) p :
  (forall i j, i < r -> j < c -> fst (p i j) + 1 < mrows e /\ snd (p i j) + 1 < mcols e) ->
  exists m, sum4_field N r c e p = Ok m /\
    mat_is m r c (fun i j => S4 (mat_at e (fst (p i j)) (snd (p i j)))
                               (mat_at e (fst (p i j) + 1) (snd (p i j)))
                               (mat_at e (fst (p i j) + 1) (snd (p i j) + 1))
                               (mat_at e (fst (p i j)) (snd (p i j) + 1))).
Proof.
  intros Hp. unfold sum4_field.
  match goal with |- context [foldM ?b _ _] =>
    destruct (tabulate_loop b (fun i j =>
      let x := mat_at e (fst (p i j)) (snd (p i j)) in
      let y := mat_at e (fst (p i j) + 1) (snd (p i j)) in
      let z := mat_at e (fst (p i j) + 1) (snd (p i j) + 1) in
      let t := mat_at e (fst (p i j)) (snd (p i j) + 1) in
      if existsb (neqb N (nzero N)) [x; y; z; t] then None
      else Some (nadd N (nadd N (nadd N x y) z) t))
      (indices r c) (mconst r c (nzero N))) as (m & E & Hr & Hc & Hv) end.
  - intros m i j Hin Hr Hc. apply in_indices in Hin. simpl in Hr, Hc.
    specialize (Hp i j). destruct (p i j) as (u, v). simpl in Hp |- *.
    rewrite !mget_ok by lia. cbn [rbind].
    destruct (neqb N (nzero N) _ || _).
    + exists m. auto.
    + match goal with |- context [mset m i j ?v] =>
      destruct (mset_ok m i j v) as (m' & -> & Hr' & Hc' & Hv'); [lia|lia|] end.
    exists m'. split; [reflexivity|]. rewrite Hr', Hc'. auto.
  - apply NoDup_indices.
  - exists m. split; auto. apply mat_is_intro; auto. intros i j Hi Hj. rewrite Hv.
    rewrite (inb_bool i j _ true) by (rewrite in_indices; tauto).
    unfold S4. cbv zeta. destruct (existsb _ _); reflexivity.
Qed.

(** ** areas *)
Definition qarea (planar : bool) (P : nat -> nat -> pt) (u v : nat) : F :=
  let c u v := cart1 N (fst (P u v)) (snd (P u v)) in
  nmul N ((if planar then pquad1 N else squad1 N)
            (c u v) (c (u + 1) v) (c (u + 1) (v + 1)) (c u (v + 1)))
         (nmul N (g_a G) (g_a G)).

Lemma areas_ok (cg : mat pt) ex ey :
  exists m, areas N G cg ex ey = Ok m /\
    mat_is m (mrows cg - 1) (mcols cg - 1) (qarea (use_planar N ex ey) (mat_at cg)).
Proof.
  unfold areas, lonlat2cart, shapes_equal. simpl. rewrite !Nat.eqb_refl. simpl.
  destruct (use_planar N ex ey); eexists; (split; [reflexivity|]);
  apply mat_is_intro; reflexivity.
Qed.

(** ** tomitgrid on a compute grid of p x q cells with its boundary ring *)
Section Std.
Variables (cg : mat pt) (p q : nat).
Hypothesis (Hrows : mrows cg = 2 * p + 3) (Hcols : mcols cg = 2 * q + 3).

(** half-cell coordinates: corners at even, centres at odd positions *)
Definition P (u v : nat) : pt := mat_at cg (1 + u) (1 + v).
Definition hx (u v : nat) : F := g_inv G (P u v) (P (u + 1) v).
Definition hy (u v : nat) : F := g_inv G (P u v) (P u (v + 1)).

Lemma EX_in u v : u < 2 * p -> v <= 2 * q ->
  EX cg 1 (1 + 2 * p) 1 (1 + 2 * q) (1 + u) (1 + v) = hx u v.
Proof.
  clear Hrows Hcols. intros Hu Hv. unfold EX.
  replace (btw 1 (1 + u) (1 + 2 * p)) with true by (symmetry; apply btw_true; lia).
  replace (btw 1 (1 + v) (1 + 2 * q + 1)) with true by (symmetry; apply btw_true; lia).
  simpl. unfold hx, P. replace (S u + 1) with (1 + (u + 1)) by lia. reflexivity.
Qed.

Lemma EY_in u v : u <= 2 * p -> v < 2 * q ->
  EY cg 1 (1 + 2 * p) 1 (1 + 2 * q) (1 + u) (1 + v) = hy u v.
Proof.
  clear Hrows Hcols. intros Hu Hv. unfold EY.
  replace (btw 1 (1 + u) (1 + 2 * p + 1)) with true by (symmetry; apply btw_true; lia).
  replace (btw 1 (1 + v) (1 + 2 * q)) with true by (symmetry; apply btw_true; lia).
  simpl. unfold hy, P. replace (S v + 1) with (1 + (v + 1)) by lia. reflexivity.
Qed.

Definition CA (pl : bool) (i j : nat) : F :=
  if btw 1 i (1 + 2 * p) && btw 1 j (1 + 2 * q) then qarea pl P (i - 1) (j - 1) else nzero N.

Lemma CA_in pl u v : u < 2 * p -> v < 2 * q -> CA pl (1 + u) (1 + v) = qarea pl P u v.
Proof.
  clear Hrows Hcols. intros Hu Hv. unfold CA.
  replace (btw 1 (1 + u) (1 + 2 * p)) with true by (symmetry; apply btw_true; lia).
  replace (btw 1 (1 + v) (1 + 2 * q)) with true by (symmetry; apply btw_true; lia).
  simpl. f_equal; lia.
Qed.

(** what each field contains, in absolute compute-grid indices *)
Definition fieldval (pl : bool) (f : field) (i j : nat) : F :=
  let ex := EX cg 1 (1 + 2 * p) 1 (1 + 2 * q) in
  let ey := EY cg 1 (1 + 2 * p) 1 (1 + 2 * q) in
  let s4 u v := S4 (CA pl u v) (CA pl (u + 1) v) (CA pl (u + 1) (v + 1)) (CA pl u (v + 1)) in
  match f with
  | XG => fst (P (2 * i) (2 * j)) | YG => snd (P (2 * i) (2 * j))
  | XC => fst (P (2 * i + 1) (2 * j + 1)) | YC => snd (P (2 * i + 1) (2 * j + 1))
  | DXG => S2 (ex (1 + 2 * i) (1 + 2 * j)) (ex (1 + 2 * i + 1) (1 + 2 * j))
  | DYG => S2 (ey (1 + 2 * i) (1 + 2 * j)) (ey (1 + 2 * i) (1 + 2 * j + 1))
  | DXC => S2 (ex (2 * i) (1 + 2 * j + 1)) (ex (2 * i + 1) (1 + 2 * j + 1))
  | DYC => S2 (ey (1 + 2 * i + 1) (2 * j)) (ey (1 + 2 * i + 1) (2 * j + 1))
  | DXV => S2 (ex (2 * i) (1 + 2 * j)) (ex (2 * i + 1) (1 + 2 * j))
  | DYF => S2 (ey (1 + 2 * i + 1) (1 + 2 * j)) (ey (1 + 2 * i + 1) (1 + 2 * j + 1))
  | DXF => S2 (ex (1 + 2 * i) (1 + 2 * j + 1)) (ex (1 + 2 * i + 1) (1 + 2 * j + 1))
  | DYU => S2 (ey (1 + 2 * i) (2 * j)) (ey (1 + 2 * i) (2 * j + 1))
  | RAC => s4 (1 + 2 * i) (1 + 2 * j)
  | RAZ => s4 (2 * i) (2 * j)
  | RAW => s4 (2 * i) (1 + 2 * j)
  | RAS => s4 (1 + 2 * i) (2 * j)
  end.

Lemma use_planar_ext ex ex' ey ey' : meq ex ex' -> meq ey ey' ->
  use_planar N ex ey = use_planar N ex' ey'.
Proof.
  intros (H1 & H2 & H3) (H4 & H5 & H6). unfold use_planar, nonzero_mean.
  assert (E : forall m m' : mat F, mrows m = mrows m' -> mcols m = mcols m' ->
    (forall i j, i < mrows m -> j < mcols m -> mat_at m i j = mat_at m' i j) -> entries m = entries m').
  { intros m m' A B C. unfold entries. rewrite <- A, <- B. apply map_ext_in.
    intros (i, j) Hin. apply in_indices in Hin. simpl. apply C; tauto. }
  rewrite (E ex ex'), (E ey ey') by auto. reflexivity.
Qed.

(** the formula choice, in terms of the edge lengths *)
Definition planar_choice : bool :=
  use_planar N (mkmat (2 * p + 2) (2 * q + 3) (EX cg 1 (1 + 2 * p) 1 (1 + 2 * q)))
               (mkmat (2 * p + 3) (2 * q + 2) (EY cg 1 (1 + 2 * p) 1 (1 + 2 * q))).

Theorem tomitgrid_ok :
  exists g, tomitgrid N G cg 0 1 (1 + 2 * p) (1 + 2 * p + 1) 0 1 (1 + 2 * q) (1 + 2 * q + 1) = Ok g /\
    forall f, mat_is (g f) (p + ni_delta f) (q + nj_delta f) (fieldval planar_choice f).
Proof.
  unfold tomitgrid.
  replace ((1 + 2 * p - 1) / 2) with p
    by (replace (1 + 2 * p - 1) with (p * 2) by lia; rewrite Nat.div_mul; lia).
  replace ((1 + 2 * q - 1) / 2) with q
    by (replace (1 + 2 * q - 1) with (q * 2) by lia; rewrite Nat.div_mul; lia).
  destruct (edges_ok cg 1 (1 + 2 * p) 1 (1 + 2 * q)) as (ex & ey & E & Hex & Hey); [lia|lia|].
  rewrite E. cbn [rbind]. rewrite Hrows, Hcols in Hex, Hey.
  assert (Hpl : use_planar N ex ey = planar_choice).
  { unfold planar_choice. destruct Hex as (A1 & A2 & A3), Hey as (B1 & B2 & B3).
    apply use_planar_ext; repeat split; simpl; try lia; intros; [apply A3|apply B3]; lia. }
  match goal with |- context [areas N G ?sl ex ey] =>
    destruct (areas_ok sl ex ey) as (ar & Ea & Har) end.
  rewrite Ea. cbn [rbind].
  assert (S1 : slice_len 1 (1 + 2 * p + 1) 1 (mrows cg) = 2 * p + 1)
    by (replace (1 + 2 * p + 1) with (1 + 1 * (2 * p) + 1) by lia; rewrite slice_len_incl by lia; lia).
  assert (S1' : slice_len 1 (1 + 2 * q + 1) 1 (mcols cg) = 2 * q + 1)
    by (replace (1 + 2 * q + 1) with (1 + 1 * (2 * q) + 1) by lia; rewrite slice_len_incl by lia; lia).
  cbn [mrows mcols mslice] in Har.
  rewrite S1, S1' in Har. rewrite Hpl in Har.
  destruct Har as (Harr & Harc & Harv).
  unfold mset_block. cbn [mrows mcols mconst].
  replace ((1 + 2 * p <=? 1 + 2 * p + 1 - 0) && (1 + 2 * q <=? 1 + 2 * q + 1 - 0)
     && (mrows ar =? 1 + 2 * p - 1) && (mcols ar =? 1 + 2 * q - 1)) with true.
  2:{ symmetry. rewrite !andb_true_iff, !Nat.leb_le, !Nat.eqb_eq. lia. }
  cbn [rbind].
  match goal with |- context [sum4_field N p q ?c _] => set (ca := c) end.
  assert (Hca : mat_is ca (2 * p + 2) (2 * q + 2) (CA planar_choice)).
  { apply mat_is_intro; unfold ca; cbn [mrows mcols mat_at mconst]; try lia.
    intros i j _ _. unfold CA, btw.
    destruct (1 <=? i) eqn:E1, (i <? 1 + 2 * p) eqn:E2, (1 <=? j) eqn:E3, (j <? 1 + 2 * q) eqn:E4;
      cbn [andb]; auto.
    apply Nat.leb_le in E1, E3. apply Nat.ltb_lt in E2, E4.
    rewrite Harv by lia. unfold qarea, mslice. cbn [mat_at]. unfold P.
    rewrite !Nat.mul_1_r. reflexivity. }
  destruct Hex as (Hexr & Hexc & Hexv). destruct Hey as (Heyr & Heyc & Heyv).
  destruct Hca as (Hcar & Hcac & Hcav).
  Ltac step2 H := match goal with |- context [sum2_field N ?r ?c ?e ?p0 ?q0] =>
    let m := fresh "m" in let Em := fresh "Em" in
    destruct (sum2_ok r c e p0 q0) as (m & Em & H);
    [intros i j Hi Hj; cbn [fst snd]; lia | intros i j Hi Hj; cbn [fst snd]; lia |];
    rewrite Em; cbn [rbind] end.
  Ltac step4 H := match goal with |- context [sum4_field N ?r ?c ?e ?p0] =>
    let m := fresh "m" in let Em := fresh "Em" in
    destruct (sum4_ok r c e p0) as (m & Em & H);
    [intros i j Hi Hj; cbn [fst snd]; lia |];
    rewrite Em; cbn [rbind] end.
  step2 H1. step2 H2. step4 H3. step2 H4. step2 H5. step4 H6. step2 H7. step2 H8. step4 H9.
  step2 H10. step2 H11. step4 H12.
  eexists. split; [reflexivity|].
  assert (L1 : slice_len 1 (1 + 2 * p + 1) 2 (mrows cg) = p + 1) by (rewrite slice_len_incl by lia; lia).
  assert (L2 : slice_len 1 (1 + 2 * q + 1) 2 (mcols cg) = q + 1) by (rewrite slice_len_incl by lia; lia).
  assert (L3 : slice_len (1 + 1) (1 + 2 * p - 1 + 1) 2 (mrows cg) = p).
  { unfold slice_len. rewrite Nat.min_l by lia.
    destruct p as [|p']; [reflexivity|].
    replace (1 + 2 * S p' - 1 + 1 - (1 + 1) + (2 - 1)) with (S p' * 2) by lia. apply Nat.div_mul. lia. }
  assert (L4 : slice_len (1 + 1) (1 + 2 * q - 1 + 1) 2 (mcols cg) = q).
  { unfold slice_len. rewrite Nat.min_l by lia.
    destruct q as [|p']; [reflexivity|].
    replace (1 + 2 * S p' - 1 + 1 - (1 + 1) + (2 - 1)) with (S p' * 2) by lia. apply Nat.div_mul. lia. }
  Ltac fin := let a := fresh in let b := fresh in let c := fresh in
    match goal with H : mat_is ?m _ _ _ |- mat_is ?m _ _ _ => destruct H as (a & b & c) end;
    apply mat_is_intro; [rewrite a; cbn [ni_delta nj_delta]; lia | rewrite b; cbn [ni_delta nj_delta]; lia |];
    cbn [ni_delta nj_delta]; intros i j Hi Hj; rewrite c by lia; cbn [fst snd fieldval].
  intros f; destruct f.
  - apply mat_is_intro; cbn [mrows mcols mat_at mmap mslice ni_delta nj_delta]; try lia.
    intros i j _ _. cbn [fieldval]. unfold P. f_equal. f_equal; lia.
  - apply mat_is_intro; cbn [mrows mcols mat_at mmap mslice ni_delta nj_delta]; try lia.
    intros i j _ _. cbn [fieldval]. unfold P. f_equal. f_equal; lia.
  - fin. rewrite !Hexv by lia. reflexivity.
  - fin. rewrite !Heyv by lia. reflexivity.
  - fin. rewrite !Hcav by lia. reflexivity.
  - apply mat_is_intro; cbn [mrows mcols mat_at mmap mslice ni_delta nj_delta]; try lia.
    intros i j _ _. cbn [fieldval]. unfold P. f_equal. f_equal; lia.
  - apply mat_is_intro; cbn [mrows mcols mat_at mmap mslice ni_delta nj_delta]; try lia.
    intros i j _ _. cbn [fieldval]. unfold P. f_equal. f_equal; lia.
  - fin. rewrite !Hexv by lia. reflexivity.
  - fin. rewrite !Heyv by lia. reflexivity.
  - fin. rewrite !Hcav by lia. reflexivity.
  - fin. rewrite !Hexv by lia. reflexivity.
  - fin. rewrite !Heyv by lia. reflexivity.
  - fin. rewrite !Hcav by lia. reflexivity.
  - fin. rewrite !Hcav by lia. reflexivity.
  - fin. rewrite !Hexv by lia. reflexivity.
  - fin. rewrite !Heyv by lia. reflexivity.
Qed.

End Std.
End Tomit.
