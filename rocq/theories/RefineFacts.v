From Coq Require Import String List ZArith Bool PeanoNat Lia Permutation.
Import ListNotations.
From Verif Require Import Prelude PreludeFacts Mat MatFacts Num Fields Util UtilFacts ComputeGrid
  ComputeGridFacts TomitFacts SpecGrid SpecHalf GridIOProofs TomitSpec Refine MkGrid.
Local Open Scope nat_scope.
Local Arguments Nat.mul : simpl never.
Local Arguments Nat.div : simpl never.
Local Arguments Nat.modulo : simpl never.

Section R.
Context {F : Type} (N : numops F) (NL : numlaws N) (G : geod F).
Notation pt := (F * F)%type.

(** fill produces a subdivision *)
Lemma fillXY_subdivides (w : bool) (cg : mat pt) ilb jlb ls lt m n : 1 <= ls -> 1 <= lt ->
  subdivides N G w (fun a b => mat_at cg (ilb + 2 * ls * a) (jlb + 2 * lt * b)) ls lt m n
    (fillXY N G w cg ilb jlb ls lt).
Proof.
  intros Hls Hlt.
  assert (Hdj : forall b l, l < 2 * lt -> (2 * lt * b + l) / (2 * lt) = b /\ (2 * lt * b + l) mod (2 * lt) = l).
  { intros b l Hl. destruct (div_mod_at (2 * lt) b l) as [H1 H2]; [lia|]. split.
    - rewrite (Nat.mul_comm (2 * lt) b). auto.
    - rewrite (Nat.mul_comm (2 * lt) b). auto. }
  assert (Hdi : forall b l, l < 2 * ls -> (2 * ls * b + l) / (2 * ls) = b /\ (2 * ls * b + l) mod (2 * ls) = l).
  { intros b l Hl. destruct (div_mod_at (2 * ls) b l) as [H1 H2]; [lia|]. split.
    - rewrite (Nat.mul_comm (2 * ls) b). auto.
    - rewrite (Nat.mul_comm (2 * ls) b). auto. }
  assert (Hcol : forall u b, fillXY N G w cg ilb jlb ls lt u (2 * lt * b) = fillX N G w cg ilb jlb ls lt u b).
  { intros u b. unfold fillXY. destruct (Hdj b 0) as [E1 E2]; [lia|]. rewrite Nat.add_0_r in E1, E2.
    rewrite E1, E2. reflexivity. }
  split; [|split].
  - intros a b Ha Hb. rewrite Hcol. unfold fillX.
    destruct (Hdi a 0) as [E1 E2]; [lia|]. rewrite Nat.add_0_r in E1, E2. rewrite E1, E2.
    cbn [subdiv]. f_equal; lia.
  - intros a b k Ha Hb Hk. rewrite Hcol. unfold fillX.
    destruct (Hdi a k) as [E1 E2]; [lia|]. rewrite E1, E2.
    destruct k as [|k]; [lia|]. cbn [subdiv]. replace (S k - 1) with k by lia.
    replace (a * (2 * ls)) with (2 * ls * a) by lia. replace ((a + 1) * (2 * ls)) with (2 * ls * (a + 1)) by lia.
    replace (b * (2 * lt)) with (2 * lt * b) by lia. reflexivity.
  - intros u b l Hu Hb Hl. rewrite !Hcol. unfold fillXY.
    destruct (Hdj b l) as [E1 E2]; [lia|]. rewrite E1, E2.
    destruct l as [|l]; [lia|]. cbn [subdiv]. replace (S l - 1) with l by lia. reflexivity.
Qed.

(** a subdivision is determined by the corners *)
Lemma subdivides_unique (w : bool) (C C' : nat -> nat -> pt) ls lt m n H H' : 1 <= ls -> 1 <= lt ->
  1 <= m -> 1 <= n ->
  (forall a b, a <= m -> b <= n -> C a b = C' a b) ->
  subdivides N G w C ls lt m n H -> subdivides N G w C' ls lt m n H' ->
  forall u v, u <= 2 * ls * m -> v <= 2 * lt * n -> H u v = H' u v.
Proof.
  intros Hls Hlt Hm Hn HC (A1 & A2 & A3) (B1 & B2 & B3).
  assert (Hcol : forall u b, u <= 2 * ls * m -> b <= n -> H u (2 * lt * b) = H' u (2 * lt * b)).
  { intros u b Hu Hb. pose proof (Nat.div_mod u (2 * ls)) as Hd. pose proof (Nat.mod_upper_bound u (2 * ls)) as Hb'.
    set (a := u / (2 * ls)) in *. set (k := u mod (2 * ls)) in *.
    assert (Ha : a <= m) by nia. destruct (Nat.eq_dec k 0) as [Ek|Ek].
    - replace u with (2 * ls * a) by lia. rewrite A1, B1; auto.
    - assert (a < m) by nia. replace u with (2 * ls * a + k) by lia. rewrite A2, B2 by lia.
      rewrite !HC by lia. reflexivity. }
  intros u v Hu Hv. pose proof (Nat.div_mod v (2 * lt)) as Hd. pose proof (Nat.mod_upper_bound v (2 * lt)) as Hb'.
  set (b := v / (2 * lt)) in *. set (l := v mod (2 * lt)) in *.
  assert (Ha : b <= n) by nia. destruct (Nat.eq_dec l 0) as [Ek|Ek].
  - replace v with (2 * lt * b) by lia. auto.
  - assert (b < n) by nia. replace v with (2 * lt * b + l) by lia. rewrite A3, B3 by lia.
    rewrite !Hcol by lia. reflexivity.
Qed.

(** ** cg_check *)
Lemma cg_check_ok rows cols ls lt : cg_check rows cols ls lt = Ok tt <->
  (2 <= rows /\ 2 <= cols /\ ls <> 0 /\ lt <> 0)%Z.
Proof.
  unfold cg_check.
  destruct (Z.ltb_spec rows 0), (Z.ltb_spec cols 0), (Z.ltb_spec rows 2), (Z.ltb_spec cols 2),
    (Z.eqb_spec ls 0), (Z.eqb_spec lt 0); cbn [orb]; split; intros Hh; try discriminate; try reflexivity; try lia.
Qed.

(** ** finish *)
Lemma finish_ok (cg : mat pt) ls lt m n : 1 <= ls -> 1 <= lt -> 1 <= m -> 1 <= n ->
  mrows cg = 2 * (ls * m) + 3 -> mcols cg = 2 * (lt * n) + 3 ->
  exists g H, finish N G cg (ls * m) (lt * n) ls lt = Ok g /\
    subdivides N G (lon0to360 N cg) (fun a b => mat_at cg (1 + 2 * ls * a) (1 + 2 * lt * b)) ls lt m n H /\
    grid_of N G H (ls * m) (lt * n) g.
Proof.
  intros Hls Hlt Hm Hn Hr Hc. unfold finish, fill.
  destruct (fill_ok N G cg 1 1 ls lt m n indices indices) as (g' & E & Hr' & Hc' & Hv & _);
    auto using indices_order_ok; try lia.
  rewrite (Nat.mul_assoc 2 ls m), (Nat.mul_assoc 2 lt n).
  rewrite E. cbn [rbind]. rewrite <- (Nat.mul_assoc 2 ls m), <- (Nat.mul_assoc 2 lt n).
  destruct (tomitgrid_spec N NL G g' (ls * m) (lt * n)) as (g & E' & Hg); try congruence.
  exists g, (fillXY N G (lon0to360 N cg) cg 1 1 ls lt). split; [exact E'|]. split.
  - apply fillXY_subdivides; auto.
  - eapply grid_of_ext; [|exact Hg]. intros u v Hu Hv'. unfold P. apply Hv; lia.
Qed.

(** ** lon0to360 of a compute grid that is zero except for the corners *)
Lemma lon0to360_corners (cg : mat pt) (C : nat -> nat -> pt) ls lt m n :
  mrows cg = 2 * (ls * m) + 3 -> mcols cg = 2 * (lt * n) + 3 ->
  (forall a b, a <= m -> b <= n -> mat_at cg (1 + 2 * ls * a) (1 + 2 * lt * b) = C a b) ->
  (forall i j, i < mrows cg -> j < mcols cg ->
     (forall a b, a <= m -> b <= n -> (i, j) <> (1 + 2 * ls * a, 1 + 2 * lt * b)) ->
     mat_at cg i j = (nzero N, nzero N)) ->
  lon0to360 N cg = corners_pos N C m n.
Proof.
  intros Hr Hc HC Hz. unfold lon0to360, corners_pos, entries.
  apply eq_true_iff_eq. rewrite negb_true_iff, <- not_true_iff_false, existsb_exists, forallb_forall.
  split.
  - intros Hn (a, b) Hin. apply in_prod_iff in Hin. rewrite !in_seq in Hin. cbn [fst snd].
    apply negb_true_iff, not_true_iff_false. intros Hneg. apply Hn.
    exists (C a b). split; auto. rewrite <- HC by lia.
    apply in_map_iff. exists (1 + 2 * ls * a, 1 + 2 * lt * b). split; auto. apply in_indices.
    rewrite Hr, Hc. nia.
  - intros Ha (x & Hin & Hneg). apply in_map_iff in Hin. destruct Hin as ((i, j) & <- & Hin).
    apply in_indices in Hin. cbn [fst snd] in Hneg.
    assert (Hdec : (exists a b, a <= m /\ b <= n /\ (i, j) = (1 + 2 * ls * a, 1 + 2 * lt * b)) \/
      (forall a b, a <= m -> b <= n -> (i, j) <> (1 + 2 * ls * a, 1 + 2 * lt * b))).
    { destruct (existsb (fun ab => (i =? 1 + 2 * ls * fst ab) && (j =? 1 + 2 * lt * snd ab))
         (list_prod (seq 0 (m + 1)) (seq 0 (n + 1)))) eqn:Ex.
      - left. apply existsb_exists in Ex. destruct Ex as ((a, b) & Hi & Ex). cbn [fst snd] in Ex.
        apply in_prod_iff in Hi. rewrite !in_seq in Hi. apply andb_true_iff in Ex. rewrite !Nat.eqb_eq in Ex.
        exists a, b. destruct Ex as [-> ->]. repeat split; lia.
      - right. intros a b Hab Hb He. inversion He. subst. apply not_true_iff_false in Ex. apply Ex.
        apply existsb_exists. exists (a, b). split.
        + apply in_prod_iff. rewrite !in_seq. lia.
        + cbn [fst snd]. rewrite !Nat.eqb_refl. reflexivity. }
    destruct Hdec as [(a & b & Hle & Hbe & He)|Hno].
    + inversion He. subst. specialize (Ha (a, b)). cbn [fst snd] in Ha. rewrite HC in Hneg by lia.
      rewrite Hneg in Ha. discriminate Ha. apply in_prod_iff. rewrite !in_seq. lia.
    + rewrite Hz in Hneg by (try apply Hno; lia). cbn [fst] in Hneg. rewrite (nltb_irrefl NL) in Hneg. discriminate.
Qed.

(** ** mkgrid *)
Definition mkC (lon1 lat1 lon2 lat2 : F) (a b : nat) : pt :=
  (if a =? 0 then lon1 else lon2, if b =? 0 then lat2 else lat1).

Lemma mk_corners_ok lon1 lat1 lon2 lat2 iub jub : 2 <= iub -> 2 <= jub ->
  exists cg, mk_corners N lon1 lat1 lon2 lat2 iub jub = Ok cg /\
    mrows cg = iub + 2 /\ mcols cg = jub + 2 /\
    mat_at cg 1 1 = (lon1, lat2) /\ mat_at cg 1 jub = (lon1, lat1) /\
    mat_at cg iub 1 = (lon2, lat2) /\ mat_at cg iub jub = (lon2, lat1) /\
    (forall i j, ~ ((i = 1 \/ i = iub) /\ (j = 1 \/ j = jub)) -> mat_at cg i j = (nzero N, nzero N)).
Proof.
  intros Hi Hj. unfold mk_corners, mset. cbn [mrows mcols mconst].
  assert (E1 : (1 <? iub + 2) = true) by (apply Nat.ltb_lt; lia).
  assert (E2 : (1 <? jub + 2) = true) by (apply Nat.ltb_lt; lia).
  assert (E3 : (iub <? iub + 2) = true) by (apply Nat.ltb_lt; lia).
  assert (E4 : (jub <? jub + 2) = true) by (apply Nat.ltb_lt; lia).
  rewrite ?E1, ?E2, ?E3, ?E4. cbn [andb rbind mrows mcols]. rewrite ?E1, ?E2, ?E3, ?E4. cbn [andb rbind mrows mcols].
  rewrite ?E1, ?E2, ?E3, ?E4. cbn [andb rbind mrows mcols]. rewrite ?E1, ?E2, ?E3, ?E4.
  cbn [andb rbind mrows mcols]. eexists. split; [reflexivity|]. cbn [mrows mcols mat_at].
  repeat match goal with |- context [?a =? ?b] => destruct (Nat.eqb_spec a b); try lia end.
  cbn [andb]. repeat split; auto.
  intros i j Hn.
  repeat match goal with |- context [?a =? ?b] => destruct (Nat.eqb_spec a b); try (exfalso; apply Hn; lia) end;
    reflexivity.
Qed.

Lemma mkgrid_ok lon1 lat1 lon2 lat2 (ls lt : nat) : 1 <= ls -> 1 <= lt ->
  exists g H, mkgrid N G lon1 lat1 lon2 lat2 (Z.of_nat ls) (Z.of_nat lt) = Ok (g, ls, lt) /\
    subdivides N G (corners_pos N (mkC lon1 lat1 lon2 lat2) 1 1) (mkC lon1 lat1 lon2 lat2) ls lt 1 1 H /\
    grid_of N G H ls lt g.
Proof.
  intros Hls Hlt. unfold mkgrid.
  rewrite (proj2 (cg_check_ok _ _ _ _)) by lia. cbn [rbind]. rewrite !Nat2Z.id.
  destruct (mk_corners_ok lon1 lat1 lon2 lat2 (1 + 2 * ls) (1 + 2 * lt))
    as (cg & E & Hr & Hc & H1 & H2 & H3 & H4 & Hz); [lia|lia|].
  rewrite E. cbn [rbind].
  destruct (finish_ok cg ls lt 1 1) as (g & H & Ef & Hs & Hg); auto; try lia.
  rewrite !Nat.mul_1_r in Ef, Hg.
  assert (HC : forall a b, a <= 1 -> b <= 1 ->
    mat_at cg (1 + 2 * ls * a) (1 + 2 * lt * b) = mkC lon1 lat1 lon2 lat2 a b).
  { intros a b Ha Hb. unfold mkC.
    destruct a as [|[|]], b as [|[|]]; try lia; rewrite ?Nat.mul_0_r, ?Nat.mul_1_r, ?Nat.add_0_r; cbn [Nat.eqb]; auto. }
  exists g, H. rewrite Ef. cbn [rbind]. split; [reflexivity|]. split; [|exact Hg].
  rewrite <- (lon0to360_corners cg (mkC lon1 lat1 lon2 lat2) ls lt 1 1); auto; try lia.
  - destruct Hs as (S1 & S2 & S3). split; [|split]; auto.
    + intros a b Ha Hb. rewrite S1, HC; auto.
    + intros a b k Ha Hb Hk. rewrite S2, !HC by lia. reflexivity.
  - intros i j Hi Hj Hn. apply Hz. intros [[->| ->] [->| ->]].
    + apply (Hn 0 0); try lia. f_equal; lia.
    + apply (Hn 0 1); try lia. f_equal; lia.
    + apply (Hn 1 0); try lia. f_equal; lia.
    + apply (Hn 1 1); try lia. f_equal; lia.
Qed.
End R.
