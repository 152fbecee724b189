(** Property C97: how evenly, in doubles, mkgrid and regrid cut the sides of the cells they refine. *)
From Coq Require Import Reals ZArith Lia Lra Psatz Bool List PeanoNat.
Import ListNotations.
From Flocq Require Import Core IEEE754.BinarySingleNaN IEEE754.Binary IEEE754.Bits.
From Verif Require Import Prelude Mat MatFacts Num Fields Util ComputeGrid Float64 Float64Facts PyFloatFacts FloorDivFacts RealInst RealFacts
  SpecGrid SpecHalf TomitFacts TomitSpec MkGrid Regrid PropFill PropMkGrid RoundFacts Samples.
Local Open Scope R_scope.

Notation pos := (binary64 * binary64)%type.

Section Accurate.
Variables (L : libm) (G : geod binary64) (w : bool) (D : pos -> pos -> R) (ok : pos -> Prop).

(** The k-th of the n + 2 stations from P to Q: P, the n points interpolated, Q. *)
Definition station (P Q : pos) (n k : nat) : pos :=
  if (k =? 0)%nat then P else if (k =? n + 1)%nat then Q else wrap (b64ops L) w (g_npt G P Q n (k - 1)).

(** The geodesic library measures the distance D to within e between usable points and, asked for n points,
    gives usable ones that cut it into n + 1 pieces equal to within e. *)
Definition accurate (e : R) (n : nat) : Prop :=
  (forall P Q, ok P -> ok Q -> finite (g_inv G P Q) = true /\ Rabs (R64 (g_inv G P Q) - D P Q) <= e) /\
  (forall P Q k, ok P -> ok Q -> (k <= n + 1)%nat -> ok (station P Q n k)) /\
  (forall P Q k, ok P -> ok Q -> (k <= n)%nat ->
     Rabs (D (station P Q n k) (station P Q n (k + 1)) - D P Q / INR (n + 1)) <= e).
End Accurate.

(** a finite positive double within 4e and one rounding of v *)
Definition close_to (e : R) (x : binary64) (v : R) : Prop :=
  finite x = true /\ 0 < R64 x /\ Rabs (R64 x - v) <= 4 * e + u53 * (v + 4 * e).

Fixpoint rsum (n : nat) (f : nat -> R) : R := match n with O => 0 | S k => rsum k f + f k end.

Section Cut.
Variables (D : pos -> pos -> R) (e : R) (g : grid binary64).
Definition corner_at (i j : nat) : pos := (mat_at (g XG) i j, mat_at (g YG) i j).

(** lengths that are neither lost in the error nor beyond any earth *)
Definition sound (l : nat) (d : R) : Prop := 4 * e * INR l < d <= IZR (2 ^ 59).

(** Every old side along i is cut into [ls] edges of one [ls]-th of its length, every line along j between two
    old rows into [lt]; and the edges make up the whole. *)
Definition evenly_cut (ls lt m n : nat) : Prop :=
  (forall a b, (a < m)%nat -> (b <= n)%nat ->
     let d := D (corner_at (ls * a) (lt * b)) (corner_at (ls * (a + 1)) (lt * b)) in sound ls d ->
     (forall i, (i < ls)%nat -> close_to e (mat_at (g DXG) (ls * a + i) (lt * b)) (d / INR ls)) /\
     Rabs (rsum ls (fun i => R64 (mat_at (g DXG) (ls * a + i) (lt * b))) - d) <= 4 * e * INR ls + u53 * (d + 4 * e * INR ls)) /\
  (forall i b, (i <= ls * m)%nat -> (b < n)%nat ->
     let d := D (corner_at i (lt * b)) (corner_at i (lt * (b + 1))) in sound lt d ->
     (forall j, (j < lt)%nat -> close_to e (mat_at (g DYG) i (lt * b + j)) (d / INR lt)) /\
     Rabs (rsum lt (fun j => R64 (mat_at (g DYG) i (lt * b + j))) - d) <= 4 * e * INR lt + u53 * (d + 4 * e * INR lt)).
End Cut.

Lemma rsum_close n f v c : (forall i, (i < n)%nat -> Rabs (f i - v) <= c) -> Rabs (rsum n f - INR n * v) <= INR n * c.
Proof.
  induction n as [|n IH]; intros H.
  - cbn. rewrite !Rmult_0_l, Rminus_0_r, Rabs_R0. lra.
  - cbn [rsum]. rewrite S_INR. specialize (IH (fun i Hi => H i (Nat.lt_lt_succ_r _ _ Hi))). specialize (H n (Nat.lt_succ_diag_r n)).
    replace (rsum n f + f n - (INR n + 1) * v) with ((rsum n f - INR n * v) + (f n - v)) by ring.
    eapply Rle_trans; [apply Rabs_triang|]. lra.
Qed.

Lemma sum_two L x y h e :
  0 <= e -> finite x = true -> finite y = true -> Rabs (R64 x - h) <= 2 * e -> Rabs (R64 y - h) <= 2 * e ->
  2 * e < h -> h <= IZR (2 ^ 59) / 2 ->
  close_to e (sum2 (b64ops L) x y) (2 * h).
Proof.
  intros E FX FY HX HY HP HB. apply Rabs_le_inv in HX, HY.
  assert (NX : is0 (b64ops L) x = false /\ is0 (b64ops L) y = false).
  { unfold is0. cbn [neqb nzero b64ops]. split; apply Bool.not_true_is_false; intros K; apply b64_eqb_finite in K; auto;
      change (R64 b64_zero) with 0 in K; lra. }
  unfold sum2. rewrite (proj1 NX), (proj2 NX). cbn [orb nadd b64ops].
  destruct (add_near x y FX FY) as (F & A).
  { unfold big. assert (IZR (2 ^ 59) = IZR (2 ^ 60) / 2) by (simpl; lra). rewrite Rabs_pos_eq; lra. }
  rewrite (Rabs_pos_eq (R64 x + R64 y)) in A by lra. pose proof u53_small as U.
  apply Rabs_le_inv in A.
  assert (U1 : u53 * (R64 x + R64 y) <= u53 * (2 * h + 4 * e)) by (apply Rmult_le_compat_l; lra).
  assert (U2 : u53 * (R64 x + R64 y) < 1 * (R64 x + R64 y)) by (apply Rmult_lt_compat_r; lra).
  split; [exact F|]. split; [lra|]. apply Rabs_le. lra.
Qed.

Section Line.
Variables (L : libm) (G : geod binary64) (w : bool) (D : pos -> pos -> R) (ok : pos -> Prop) (e : R).
Variables (l : nat) (P Q : pos) (S : nat -> pos).
Hypothesis Hl : (1 <= l)%nat.
Hypothesis A : accurate L G w D ok e (2 * l - 1).
Hypothesis HP : ok P.
Hypothesis HQ : ok Q.
Hypothesis HS : forall k, (k <= 2 * l)%nat -> S k = station L G w P Q (2 * l - 1) k.

Lemma line_cut : 0 <= e -> sound e l (D P Q) ->
  (forall i, (i < l)%nat -> close_to e (sum2 (b64ops L) (g_inv G (S (2 * i)) (S (2 * i + 1))) (g_inv G (S (2 * i + 1)) (S (2 * i + 1 + 1)))) (D P Q / INR l)) /\
  Rabs (rsum l (fun i => R64 (sum2 (b64ops L) (g_inv G (S (2 * i)) (S (2 * i + 1))) (g_inv G (S (2 * i + 1)) (S (2 * i + 1 + 1))))) - D P Q)
    <= 4 * e * INR l + u53 * (D P Q + 4 * e * INR l).
Proof.
  intros E (S1 & S2). destruct A as (A1 & A2 & A3).
  assert (I0 : 1 <= INR l) by (change 1 with (INR 1); apply le_INR; exact Hl).
  assert (IL : INR (2 * l - 1 + 1) = 2 * INR l).
  { replace (2 * l - 1 + 1)%nat with (2 * l)%nat by lia. rewrite mult_INR. reflexivity. }
  assert (K : forall k, (k < 2 * l)%nat -> finite (g_inv G (S k) (S (k + 1)%nat)) = true /\
                Rabs (R64 (g_inv G (S k) (S (k + 1)%nat)) - D P Q / (2 * INR l)) <= 2 * e).
  { intros k Hk. rewrite !HS by lia.
    destruct (A1 (station L G w P Q (2 * l - 1) k) (station L G w P Q (2 * l - 1) (k + 1))) as (F & M); [apply A2; auto; lia..|].
    split; [exact F|]. specialize (A3 P Q k HP HQ ltac:(lia)). rewrite IL in A3. apply Rabs_le. apply Rabs_le_inv in M, A3. lra. }
  assert (C : forall i, (i < l)%nat ->
     close_to e (sum2 (b64ops L) (g_inv G (S (2 * i)%nat) (S (2 * i + 1)%nat)) (g_inv G (S (2 * i + 1)%nat) (S (2 * i + 1 + 1)%nat))) (D P Q / INR l)).
  { intros i Hi. destruct (K (2 * i)%nat ltac:(lia)) as (F1 & M1). destruct (K (2 * i + 1)%nat ltac:(lia)) as (F2 & M2).
    replace (D P Q / INR l) with (2 * (D P Q / (2 * INR l))) by (field; lra).
    apply sum_two; auto.
    - apply (Rmult_lt_reg_r (2 * INR l)); [lra|]. replace (D P Q / (2 * INR l) * (2 * INR l)) with (D P Q) by (field; lra). lra.
    - apply (Rmult_le_reg_r (2 * INR l)); [lra|]. replace (D P Q / (2 * INR l) * (2 * INR l)) with (D P Q) by (field; lra).
      assert (0 < IZR (2 ^ 59)) by (apply IZR_lt; reflexivity). nra. }
  split; [exact C|].
  set (f := fun i => R64 (sum2 (b64ops L) (g_inv G (S (2 * i)%nat) (S (2 * i + 1)%nat)) (g_inv G (S (2 * i + 1)%nat) (S (2 * i + 1 + 1)%nat)))) in *.
  assert (B := rsum_close l f (D P Q / INR l) (4 * e + u53 * (D P Q / INR l + 4 * e)) (fun i Hi => proj2 (proj2 (C i Hi)))).
  replace (INR l * (D P Q / INR l)) with (D P Q) in B by (field; lra).
  replace (INR l * (4 * e + u53 * (D P Q / INR l + 4 * e))) with (4 * e * INR l + u53 * (D P Q + 4 * e * INR l)) in B by (field; lra).
  exact B.
Qed.
End Line.

Lemma rsum_ext n f h : (forall i, (i < n)%nat -> f i = h i) -> rsum n f = rsum n h.
Proof. induction n as [|n IH]; intros H; [reflexivity|]. cbn. rewrite IH, (H n) by auto. reflexivity. Qed.

Lemma cut_of_subdivides L G w D ok e C ls lt m n H g :
  (1 <= ls)%nat -> (1 <= lt)%nat -> 0 <= e ->
  subdivides (b64ops L) G w C ls lt m n H ->
  positions_documented H (ls * m) (lt * n) g -> edges_documented (b64ops L) G H (ls * m) (lt * n) g ->
  accurate L G w D ok e (2 * ls - 1) -> accurate L G w D ok e (2 * lt - 1) ->
  (forall a b, (a <= m)%nat -> (b <= n)%nat -> ok (C a b)) ->
  evenly_cut D e g ls lt m n.
Proof.
  intros Hls Hlt E (U1 & U2 & U3) (P1 & _) (X & Y & _) AX AY OK.
  assert (POS : forall i j, (i <= ls * m)%nat -> (j <= lt * n)%nat -> corner_at g i j = H (2 * i)%nat (2 * j)%nat) by (intros; apply P1; auto).
  assert (SX : forall a b, (a < m)%nat -> (b <= n)%nat -> forall k, (k <= 2 * ls)%nat ->
            H (2 * ls * a + k)%nat (2 * lt * b)%nat = station L G w (C a b) (C (a + 1)%nat b) (2 * ls - 1) k).
  { intros a b Ha Hb k Hk. unfold station. destruct (k =? 0)%nat eqn:K0; [apply Nat.eqb_eq in K0; subst k; rewrite Nat.add_0_r; apply U1; lia|].
    apply Nat.eqb_neq in K0. destruct (k =? 2 * ls - 1 + 1)%nat eqn:K1; [apply Nat.eqb_eq in K1|apply Nat.eqb_neq in K1; apply U2; lia].
    replace (2 * ls * a + k)%nat with (2 * ls * (a + 1))%nat by lia. apply U1; lia. }
  assert (SY : forall u b, (u <= 2 * ls * m)%nat -> (b < n)%nat -> forall k, (k <= 2 * lt)%nat ->
            H u (2 * lt * b + k)%nat = station L G w (H u (2 * lt * b)%nat) (H u (2 * lt * (b + 1))%nat) (2 * lt - 1) k).
  { intros u b Hu Hb k Hk. unfold station. destruct (k =? 0)%nat eqn:K0; [apply Nat.eqb_eq in K0; subst k; rewrite Nat.add_0_r; reflexivity|].
    apply Nat.eqb_neq in K0. destruct (k =? 2 * lt - 1 + 1)%nat eqn:K1; [apply Nat.eqb_eq in K1|apply Nat.eqb_neq in K1; apply U3; lia].
    f_equal. lia. }
  assert (OX : forall u b, (u <= 2 * ls * m)%nat -> (b <= n)%nat -> ok (H u (2 * lt * b)%nat)).
  { intros u b Hu Hb. destruct (Nat.eq_dec u (2 * ls * m)) as [->|Hn]; [rewrite U1 by lia; apply OK; lia|].
    set (a := (u / (2 * ls))%nat). set (k := (u mod (2 * ls))%nat).
    assert (Hu' : u = (2 * ls * a + k)%nat) by (apply Nat.div_mod; lia).
    assert (Hk : (k < 2 * ls)%nat) by (apply Nat.mod_upper_bound; lia). clearbody a k.
    assert (Ha : (a < m)%nat) by nia. rewrite Hu', SX by lia. apply AX; [apply OK; lia..|lia]. }
  split.
  - intros a b Ha Hb d Hd. unfold d in *. clear d.
    assert (Hm : (ls * a + ls <= ls * m)%nat) by nia. assert (Hn : (lt * b <= lt * n)%nat) by nia.
    rewrite !POS in * by nia.
    replace (2 * (ls * a))%nat with (2 * ls * a)%nat in * by lia. replace (2 * (lt * b))%nat with (2 * lt * b)%nat in * by lia.
    replace (2 * (ls * (a + 1)))%nat with (2 * ls * (a + 1))%nat in * by lia. rewrite (U1 a b), (U1 (a + 1)%nat b) in * by lia.
    destruct (line_cut L G w D ok e ls (C a b) (C (a + 1)%nat b) (fun k => H (2 * ls * a + k)%nat (2 * lt * b)%nat) Hls AX) as (R1 & R2);
      [apply OK; lia|apply OK; lia|intros k Hk; apply SX; lia|exact E|exact Hd|].
    assert (V : forall i, (i < ls)%nat -> mat_at (g DXG) (ls * a + i)%nat (lt * b)%nat =
       sum2 (b64ops L) (g_inv G (H (2 * ls * a + 2 * i)%nat (2 * lt * b)%nat) (H (2 * ls * a + (2 * i + 1))%nat (2 * lt * b)%nat))
                       (g_inv G (H (2 * ls * a + (2 * i + 1))%nat (2 * lt * b)%nat) (H (2 * ls * a + (2 * i + 1 + 1))%nat (2 * lt * b)%nat))).
    { intros i Hi. rewrite X by lia. unfold half_x. f_equal; f_equal; f_equal; lia. }
    split.
    + intros i Hi. rewrite V by exact Hi. apply R1. exact Hi.
    + rewrite (rsum_ext ls _ _ (fun i Hi => f_equal R64 (V i Hi))). exact R2.
  - intros i b Hi Hb d Hd. unfold d in *. clear d.
    assert (Hn : (lt * b + lt <= lt * n)%nat) by nia.
    rewrite !POS in * by nia.
    replace (2 * (lt * b))%nat with (2 * lt * b)%nat in * by lia. replace (2 * (lt * (b + 1)))%nat with (2 * lt * (b + 1))%nat in * by lia.
    destruct (line_cut L G w D ok e lt (H (2 * i)%nat (2 * lt * b)%nat) (H (2 * i)%nat (2 * lt * (b + 1))%nat)
                (fun k => H (2 * i)%nat (2 * lt * b + k)%nat) Hlt AY) as (R1 & R2);
      [apply OX; lia|apply OX; lia|intros k Hk; apply SY; lia|exact E|exact Hd|].
    assert (V : forall j, (j < lt)%nat -> mat_at (g DYG) i (lt * b + j)%nat =
       sum2 (b64ops L) (g_inv G (H (2 * i)%nat (2 * lt * b + 2 * j)%nat) (H (2 * i)%nat (2 * lt * b + (2 * j + 1))%nat))
                       (g_inv G (H (2 * i)%nat (2 * lt * b + (2 * j + 1))%nat) (H (2 * i)%nat (2 * lt * b + (2 * j + 1 + 1))%nat))).
    { intros j Hj. rewrite Y by lia. unfold half_y. f_equal; f_equal; f_equal; lia. }
    split.
    + intros j Hj. rewrite V by exact Hj. apply R1. exact Hj.
    + rewrite (rsum_ext lt _ _ (fun j Hj => f_equal R64 (V j Hj))). exact R2.
Qed.

(** A box made by mkgrid. *)
Theorem C97_mkgrid_lengths : forall L G lon1 lat1 lon2 lat2 ls lt w D ok e,
  (1 <= ls)%nat -> (1 <= lt)%nat -> 0 <= e ->
  w = negb (b64_ltb lon1 b64_zero || b64_ltb lon2 b64_zero) ->
  accurate L G w D ok e (2 * ls - 1) -> accurate L G w D ok e (2 * lt - 1) ->
  ok (lon1, lat1) -> ok (lon1, lat2) -> ok (lon2, lat1) -> ok (lon2, lat2) ->
  exists g, mkgrid64 L G lon1 lat1 lon2 lat2 (Z.of_nat ls) (Z.of_nat lt) = Ok (g, ls, lt) /\
    corner_at g 0 0 = (lon1, lat2) /\ corner_at g ls lt = (lon2, lat1) /\
    evenly_cut D e g ls lt 1 1.
Proof.
  intros L G lon1 lat1 lon2 lat2 ls lt w D ok e Hls Hlt E W A1 A2 O1 O2 O3 O4.
  destruct (mkgrid64_ok L G lon1 lat1 lon2 lat2 ls lt Hls Hlt) as (g & H & EQ & HS & HG).
  set (C := box_corner lon1 lat1 lon2 lat2) in *.
  assert (W' : corners_pos (b64ops L) C 1 1 = w).
  { subst w. unfold corners_pos, C, box_corner. cbn -[b64_ltb b64_zero].
    destruct (b64_ltb lon1 b64_zero), (b64_ltb lon2 b64_zero); reflexivity. }
  rewrite W' in HS. exists g. split; [exact EQ|].
  assert (HP : positions_documented H ls lt g) by (eapply grid_of_positions; eauto).
  assert (HE : edges_documented (b64ops L) G H ls lt g) by (eapply grid_of_edges; eauto).
  destruct HS as (U1 & UR).
  split; [|split].
  - unfold corner_at. rewrite (proj1 HP) by lia. change (2 * 0)%nat with 0%nat.
    pose proof (U1 0%nat 0%nat ltac:(lia) ltac:(lia)) as K. rewrite !Nat.mul_0_r in K. exact K.
  - unfold corner_at. rewrite (proj1 HP) by lia.
    pose proof (U1 1%nat 1%nat ltac:(lia) ltac:(lia)) as K. rewrite !Nat.mul_1_r in K. exact K.
  - apply (cut_of_subdivides L G w D ok e C ls lt 1 1 H g); auto.
    + split; auto.
    + rewrite !Nat.mul_1_r. exact HP.
    + rewrite !Nat.mul_1_r. exact HE.
    + intros a b Ha Hb. unfold C, box_corner. destruct (a =? 0)%nat, (b =? 0)%nat; assumption.
Qed.

(** A tile refined by regrid. *)
Theorem C97_regrid_lengths : forall L G loadtxt fs lay o3 fuel a rr D ok e,
  layouts lay -> layouts o3 -> regrid64 L G loadtxt fs lay o3 fuel a = Ok rr -> 0 <= e ->
  exists n m ls lt w, rr_ni rr = (ls * n)%nat /\ rr_nj rr = (lt * m)%nat /\ (1 <= ls)%nat /\ (1 <= lt)%nat /\
    (accurate L G w D ok e (2 * ls - 1) -> accurate L G w D ok e (2 * lt - 1) ->
     (forall x y, (x <= n)%nat -> (y <= m)%nat -> ok (corner_at (rr_grid rr) (ls * x) (lt * y))) ->
     evenly_cut D e (rr_grid rr) ls lt n m).
Proof.
  intros L G loadtxt fs lay o3 fuel a rr D ok e Hlay Ho3 EQ E.
  destruct (regrid64_grid L G loadtxt fs lay o3 fuel a rr Hlay Ho3 EQ)
    as (C & n & m & ls & lt & H & E1 & E2 & Hn & Hm & Hls & Hlt & El & Et & Hs & Hg).
  exists n, m, ls, lt, (corners_pos (b64ops L) C n m). repeat (split; [assumption|]).
  intros A1 A2 OK.
  assert (HP : positions_documented H (ls * n) (lt * m) (rr_grid rr)) by (eapply grid_of_positions; eauto).
  apply (cut_of_subdivides L G (corners_pos (b64ops L) C n m) D ok e C ls lt n m H (rr_grid rr)); auto.
  - eapply grid_of_edges; eauto.
  - intros x y Hx Hy. specialize (OK x y Hx Hy). unfold corner_at in OK. rewrite (proj1 HP) in OK by nia.
    destruct Hs as (U1 & _). rewrite <- U1 by auto. replace (2 * ls * x)%nat with (2 * (ls * x))%nat by lia.
    replace (2 * lt * y)%nat with (2 * (lt * y))%nat by lia. exact OK.
Qed.

(** ** A library that meets the hypotheses: distances along the axes of a map 1000 by 1000. *)
Definition k1000 : binary64 := ex_int 1000.
Definition clamp (x : binary64) : binary64 := if b64_ltb x b64_zero then b64_zero else if b64_ltb k1000 x then k1000 else x.
Definition way (n k : nat) (x y : binary64) : binary64 :=
  clamp (b64_plus mode_NE x (b64_mult mode_NE (b64_minus mode_NE y x)
    (b64_div mode_NE (ex_int (Z.of_nat k + 1)) (ex_int (Z.of_nat n + 1))))).
Definition apart (x y : binary64) : binary64 := if b64_ltb x y then b64_minus mode_NE y x else b64_minus mode_NE x y.
Definition map_geod : geod binary64 :=
  {| g_inv := fun P Q => b64_plus mode_NE (apart (fst P) (fst Q)) (apart (snd P) (snd Q));
     g_npt := fun P Q n k => (way n k (fst P) (fst Q), way n k (snd P) (snd Q));
     g_a := ex_int 1 |}.
Definition map_dist (P Q : pos) : R := Rabs (R64 (fst P) - R64 (fst Q)) + Rabs (R64 (snd P) - R64 (snd Q)).
Definition on_axis (x : binary64) : Prop := finite x = true /\ 0 <= R64 x <= 1000.
Definition on_map (P : pos) : Prop := on_axis (fst P) /\ on_axis (snd P).
Definition tiny : R := 32768 * u53.

Lemma int_value z : (Z.abs z < 2 ^ 53)%Z -> finite (ex_int z) = true /\ R64 (ex_int z) = IZR z.
Proof.
  intros B. destruct (exact_normalize z 0 false B ltac:(lia)) as (V & F & _).
  - rewrite Rmult_1_r, <- abs_IZR. apply Rlt_trans with (IZR (2 ^ 53)); [now apply IZR_lt|].
    change (IZR (2 ^ 53)) with (bpow radix2 53). apply bpow_lt. lia.
  - unfold ex_int. rewrite V. cbn [bpow]. rewrite Rmult_1_r. split; [exact F|reflexivity].
Qed.

Lemma tiny_small : 0 < tiny < / 1000000000.
Proof. unfold tiny. rewrite u53_value. split; [|]; simpl; lra. Qed.

Lemma div_near x y : finite x = true -> finite y = true -> R64 y <> 0 -> Rabs (R64 x / R64 y) <= big ->
  finite (b64_div mode_NE x y) = true /\ Rabs (R64 (b64_div mode_NE x y) - R64 x / R64 y) <= u53 * Rabs (R64 x / R64 y) + h75.
Proof.
  intros FX FY NZ B. pose proof (Binary.Bdiv_correct 53 1024 eq_refl eq_refl binop_nan_pl64 mode_NE x y NZ) as M.
  change (Binary.Bdiv 53 1024 eq_refl eq_refl binop_nan_pl64 mode_NE x y) with (b64_div mode_NE x y) in M.
  change (round_mode mode_NE) with ZnearestE in M. change (SpecFloat.fexp 53 1024) with fexp64 in M.
  rewrite Rlt_bool_true in M by (now apply small_lt_emax). rewrite FX in M. destruct M as (V & F & _).
  split; [exact F|]. rewrite V. apply round_any.
Qed.

Lemma clamp_near x v c : finite x = true -> 0 <= v <= 1000 -> Rabs (R64 x - v) <= c ->
  on_axis (clamp x) /\ Rabs (R64 (clamp x) - v) <= c.
Proof.
  intros F V N. apply Rabs_le_inv in N. unfold clamp. destruct (int_value 1000 ltac:(reflexivity)) as (FK & VK). fold k1000 in FK, VK.
  destruct (b64_ltb x b64_zero) eqn:K1.
  - apply b64_ltb_finite in K1; [|exact F|reflexivity]. change (R64 b64_zero) with 0 in *.
    split; [split; [reflexivity|change (R64 b64_zero) with 0; lra]|]. change (R64 b64_zero) with 0. apply Rabs_le. lra.
  - assert (0 <= R64 x).
    { apply Rnot_lt_le. intros K. assert (b64_ltb x b64_zero = true) by (apply b64_ltb_finite; [exact F|reflexivity|exact K]). congruence. }
    destruct (b64_ltb k1000 x) eqn:K2.
    + apply b64_ltb_finite in K2; [|exact FK|exact F]. split; [split; [exact FK|rewrite VK; lra]|]. rewrite VK in *. apply Rabs_le. lra.
    + assert (R64 x <= 1000).
      { apply Rnot_lt_le. intros K. assert (b64_ltb k1000 x = true) by (apply b64_ltb_finite; [exact FK|exact F|rewrite VK; exact K]). congruence. }
      split; [split; [exact F|lra]|]. apply Rabs_le. lra.
Qed.

Lemma apart_near x y : on_axis x -> on_axis y ->
  finite (apart x y) = true /\ 0 <= R64 (apart x y) <= 2000 /\ Rabs (R64 (apart x y) - Rabs (R64 x - R64 y)) <= 1000 * u53.
Proof.
  intros (FX & BX) (FY & BY). unfold apart. pose proof u53_small as U.
  assert (BG : 1000 <= big) by (unfold big; apply IZR_le; discriminate).
  assert (K : forall a b, finite a = true -> finite b = true -> R64 a <= R64 b -> 0 <= R64 a <= 1000 -> 0 <= R64 b <= 1000 ->
     finite (b64_minus mode_NE b a) = true /\ 0 <= R64 (b64_minus mode_NE b a) <= 2000 /\
     Rabs (R64 (b64_minus mode_NE b a) - (R64 b - R64 a)) <= 1000 * u53).
  { intros a b FA FB LE BA BB. destruct (sub_near b a FB FA) as (F & E); [rewrite Rabs_pos_eq; lra|].
    rewrite (Rabs_pos_eq (R64 b - R64 a)) in E by lra.
    assert (0 <= u53 * (R64 b - R64 a)) by (apply Rmult_le_pos; lra).
    assert (u53 * (R64 b - R64 a) <= 1 * (R64 b - R64 a)) by (apply Rmult_le_compat_r; lra).
    assert (u53 * (R64 b - R64 a) <= u53 * 1000) by (apply Rmult_le_compat_l; lra).
    apply Rabs_le_inv in E. split; [exact F|]. split; [lra|]. apply Rabs_le. lra. }
  destruct (b64_ltb x y) eqn:LT.
  - apply b64_ltb_finite in LT; auto. rewrite (Rabs_minus_sym (R64 x)), (Rabs_pos_eq (R64 y - R64 x)) by lra. apply K; auto. lra.
  - assert (R64 y <= R64 x).
    { apply Rnot_lt_le. intros Q. assert (b64_ltb x y = true) by (apply b64_ltb_finite; auto). congruence. }
    rewrite (Rabs_pos_eq (R64 x - R64 y)) by lra. apply K; auto.
Qed.

Lemma way_near n k x y : on_axis x -> on_axis y -> (k < n)%nat -> (Z.of_nat n < 2 ^ 52)%Z ->
  on_axis (way n k x y) /\
  Rabs (R64 (way n k x y) - (R64 x + (R64 y - R64 x) * (INR (k + 1) / INR (n + 1)))) <= 5100 * u53.
Proof.
  intros (FX & BX) (FY & BY) Hk Hn. unfold way. pose proof u53_small as U. pose proof h75_small as HH.
  assert (HU : h75 <= u53).
  { unfold h75. change (/ 2) with (bpow radix2 (-1)). rewrite <- bpow_plus.
    replace u53 with (bpow radix2 (-53)) by (unfold u53; change (/ 2) with (bpow radix2 (-1)); rewrite <- bpow_plus; reflexivity).
    apply bpow_le. lia. }
  assert (BG : 10000 <= big) by (unfold big; apply IZR_le; discriminate).
  destruct (int_value (Z.of_nat k + 1) ltac:(lia)) as (F1 & V1). destruct (int_value (Z.of_nat n + 1) ltac:(lia)) as (F2 & V2).
  assert (I1 : IZR (Z.of_nat k + 1) = INR (k + 1)) by (rewrite INR_IZR_INZ; f_equal; lia).
  assert (I2 : IZR (Z.of_nat n + 1) = INR (n + 1)) by (rewrite INR_IZR_INZ; f_equal; lia).
  rewrite I1 in V1. rewrite I2 in V2.
  assert (P1 : 0 < INR (k + 1)) by (apply lt_0_INR; lia). assert (P2 : 0 < INR (n + 1)) by (apply lt_0_INR; lia).
  assert (LE : INR (k + 1) <= INR (n + 1)) by (apply le_INR; lia).
  set (t := INR (k + 1) / INR (n + 1)).
  assert (T : 0 <= t <= 1).
  { unfold t. split; [apply Rmult_le_pos; [lra|left; apply Rinv_0_lt_compat; lra]|].
    apply (Rmult_le_reg_r (INR (n + 1))); [lra|]. unfold Rdiv. rewrite Rmult_assoc, Rinv_l by lra. lra. }
  destruct (div_near (ex_int (Z.of_nat k + 1)) (ex_int (Z.of_nat n + 1)) F1 F2) as (F3 & E3).
  { rewrite V2. lra. }
  { rewrite V1, V2. fold t. rewrite Rabs_pos_eq; lra. }
  rewrite V1, V2 in E3. fold t in E3. rewrite (Rabs_pos_eq t) in E3 by lra.
  set (f := b64_div mode_NE (ex_int (Z.of_nat k + 1)) (ex_int (Z.of_nat n + 1))) in *. clearbody f.
  assert (E3' : Rabs (R64 f - t) <= 2 * u53).
  { eapply Rle_trans; [exact E3|]. assert (u53 * t <= u53 * 1) by (apply Rmult_le_compat_l; lra). lra. }
  destruct (sub_near y x FY FX) as (F4 & E4); [apply Rabs_le; lra|].
  set (d := b64_minus mode_NE y x) in *. clearbody d.
  assert (D0 : Rabs (R64 y - R64 x) <= 1000) by (apply Rabs_le; lra).
  assert (E4' : Rabs (R64 d - (R64 y - R64 x)) <= 1000 * u53).
  { eapply Rle_trans; [exact E4|]. rewrite (Rmult_comm 1000). apply Rmult_le_compat_l; lra. }
  assert (Df : Rabs (R64 d) <= 1001) by (apply Rabs_le; apply Rabs_le_inv in E4', D0; lra).
  assert (Ff : Rabs (R64 f) <= 1.001) by (apply Rabs_le; apply Rabs_le_inv in E3'; lra).
  assert (DF : Rabs (R64 d * R64 f) <= 1003).
  { rewrite Rabs_mult. apply Rle_trans with (1001 * 1.001); [apply Rmult_le_compat; auto using Rabs_pos|lra]. }
  destruct (mul_near d f F4 F3) as (F5 & E5 & _); [lra|].
  set (p := b64_mult mode_NE d f) in *. clearbody p.
  assert (E5' : Rabs (R64 p - R64 d * R64 f) <= 1004 * u53).
  { eapply Rle_trans; [exact E5|]. assert (u53 * Rabs (R64 d * R64 f) <= u53 * 1003) by (apply Rmult_le_compat_l; lra). lra. }
  assert (Q : Rabs (R64 d * R64 f - (R64 y - R64 x) * t) <= 1000 * u53 + 2002 * u53 * 1).
  { replace (R64 d * R64 f - (R64 y - R64 x) * t) with ((R64 d - (R64 y - R64 x)) * t + R64 d * (R64 f - t)) by ring.
    eapply Rle_trans; [apply Rabs_triang|]. rewrite !Rabs_mult. apply Rplus_le_compat.
    - rewrite (Rabs_pos_eq t) by lra. apply Rle_trans with (1000 * u53 * 1); [apply Rmult_le_compat; try lra; apply Rabs_pos|lra].
    - apply Rle_trans with (1001 * (2 * u53)); [apply Rmult_le_compat; auto using Rabs_pos|lra]. }
  destruct (add_near x p FX F5) as (F6 & E6).
  { apply Rabs_le_inv in DF, E5'. apply Rabs_le. lra. }
  assert (V : 0 <= R64 x + (R64 y - R64 x) * t <= 1000) by nra.
  set (s := b64_plus mode_NE x p) in *. clearbody s.
  apply clamp_near; [exact F6|exact V|].
  apply Rabs_le_inv in Q, E5'.
  assert (B6 : Rabs (R64 x + R64 p) <= 1001) by (apply Rabs_le; lra).
  assert (u53 * Rabs (R64 x + R64 p) <= u53 * 1001) by (apply Rmult_le_compat_l; lra).
  apply Rabs_le_inv in E6. apply Rabs_le. lra.
Qed.

Lemma wrap_on_map L w P : on_axis (fst P) -> wrap (b64ops L) w P = P.
Proof.
  intros (F & B). unfold wrap. cbn [nltb nzero b64ops].
  replace (b64_ltb (fst P) b64_zero) with false; [now rewrite andb_false_r|]. symmetry. apply not_true_is_false. intros K.
  apply b64_ltb_finite in K; [|exact F|reflexivity]. change (R64 b64_zero) with 0 in K. lra.
Qed.

(** Every library of mathematical functions, every number of points below 2^52. *)
Lemma map_accurate L w n : (Z.of_nat n < 2 ^ 52)%Z -> accurate L map_geod w map_dist on_map tiny n.
Proof.
  intros Hn. pose proof u53_small as U.
  assert (ST : forall P Q k, on_map P -> on_map Q -> (k <= n + 1)%nat -> on_map (station L map_geod w P Q n k) /\
     Rabs (R64 (fst (station L map_geod w P Q n k)) - (R64 (fst P) + (R64 (fst Q) - R64 (fst P)) * (INR k / INR (n + 1)))) <= 5100 * u53 /\
     Rabs (R64 (snd (station L map_geod w P Q n k)) - (R64 (snd P) + (R64 (snd Q) - R64 (snd P)) * (INR k / INR (n + 1)))) <= 5100 * u53).
  { intros P Q k (P1 & P2) (Q1 & Q2) Hk. unfold station. assert (NZ : 0 < INR (n + 1)) by (apply lt_0_INR; lia).
    destruct (k =? 0)%nat eqn:K0; [|destruct (k =? n + 1)%nat eqn:K1].
    - apply Nat.eqb_eq in K0. subst k. change (INR 0) with 0. unfold Rdiv. rewrite Rmult_0_l, !Rmult_0_r, !Rplus_0_r.
      unfold Rminus. rewrite !Rplus_opp_r, Rabs_R0. repeat split; try apply P1; try apply P2; lra.
    - apply Nat.eqb_eq in K1. subst k. unfold Rdiv. rewrite Rinv_r by lra. rewrite !Rmult_1_r.
      replace (R64 (fst Q) - (R64 (fst P) + (R64 (fst Q) - R64 (fst P)))) with 0 by ring.
      replace (R64 (snd Q) - (R64 (snd P) + (R64 (snd Q) - R64 (snd P)))) with 0 by ring. rewrite Rabs_R0.
      repeat split; try apply Q1; try apply Q2; lra.
    - apply Nat.eqb_neq in K0, K1. cbn [g_npt map_geod].
      destruct (way_near n (k - 1) (fst P) (fst Q) P1 Q1 ltac:(lia) Hn) as (O1 & E1).
      destruct (way_near n (k - 1) (snd P) (snd Q) P2 Q2 ltac:(lia) Hn) as (O2 & E2).
      replace (k - 1 + 1)%nat with k in E1, E2 by lia.
      rewrite wrap_on_map by exact O1. split; [split; [exact O1|exact O2]|]. split; [exact E1|exact E2]. }
  assert (AB : forall a b a' b' v c, Rabs (a - a') <= c -> Rabs (b - b') <= c -> a' - b' = v -> Rabs (Rabs (a - b) - Rabs v) <= 2 * c).
  { intros a b a' b' v c Ha Hb <-. eapply Rle_trans; [apply Rabs_triang_inv2|].
    replace (a - b - (a' - b')) with ((a - a') - (b - b')) by ring. apply Rabs_le_inv in Ha, Hb. apply Rabs_le. lra. }
  split; [|split].
  - intros P Q (P1 & P2) (Q1 & Q2). cbn [g_inv map_geod]. unfold map_dist.
    destruct (apart_near _ _ P1 Q1) as (F1 & B1 & E1). destruct (apart_near _ _ P2 Q2) as (F2 & B2 & E2).
    destruct (add_near _ _ F1 F2) as (F & E).
    { apply Rle_trans with 4000; [apply Rabs_le; lra|unfold big; apply IZR_le; discriminate]. }
    split; [exact F|]. rewrite (Rabs_pos_eq (_ + _)) in E by lra.
    assert (u53 * (R64 (apart (fst P) (fst Q)) + R64 (apart (snd P) (snd Q))) <= u53 * 4000) by (apply Rmult_le_compat_l; lra).
    apply Rabs_le_inv in E, E1, E2. unfold tiny. apply Rabs_le. lra.
  - intros P Q k HP HQ Hk. exact (proj1 (ST P Q k HP HQ Hk)).
  - intros P Q k HP HQ Hk. destruct (ST P Q k HP HQ ltac:(lia)) as (_ & A1 & A2). destruct (ST P Q (k + 1)%nat HP HQ ltac:(lia)) as (_ & B1 & B2).
    unfold map_dist. rewrite plus_INR in B1, B2. change (INR 1) with 1 in B1, B2.
    assert (NZ : 0 < INR (n + 1)) by (apply lt_0_INR; lia).
    set (N := INR (n + 1)) in *. clearbody N.
    assert (S1 := AB _ _ _ _ ((R64 (fst P) - R64 (fst Q)) / N) _ A1 B1 ltac:(field; lra)).
    assert (S2 := AB _ _ _ _ ((R64 (snd P) - R64 (snd Q)) / N) _ A2 B2 ltac:(field; lra)).
    unfold Rdiv in S1, S2 |- *. rewrite Rabs_mult, (Rabs_pos_eq (/ N)) in S1, S2 by (left; now apply Rinv_0_lt_compat).
    rewrite Rmult_plus_distr_r. unfold tiny.
    apply Rabs_le_inv in S1, S2. apply Rabs_le. lra.
Qed.

(** A box of 900 by 600 cut into 3 by 4: every edge along i is 300 to within 5e-11, every one along j 150. *)
Example C97_case : forall L, exists g,
  mkgrid64 L map_geod (ex_int 50) (ex_int 700) (ex_int 950) (ex_int 100) 3 4 = Ok (g, 3%nat, 4%nat) /\
  (forall i b, (i < 3)%nat -> (b <= 1)%nat -> Rabs (R64 (mat_at (g DXG) i (4 * b)%nat) - 300) <= 5 * tiny) /\
  (forall j, (j < 4)%nat -> Rabs (R64 (mat_at (g DYG) 0%nat j) - 150) <= 5 * tiny).
Proof.
  intros L.
  destruct (int_value 50 ltac:(reflexivity)) as (F1 & V1). destruct (int_value 700 ltac:(reflexivity)) as (F2 & V2).
  destruct (int_value 950 ltac:(reflexivity)) as (F3 & V3). destruct (int_value 100 ltac:(reflexivity)) as (F4 & V4).
  pose proof tiny_small as T. pose proof u53_small as U.
  set (x1 := ex_int 50) in *. set (y1 := ex_int 700) in *. set (x2 := ex_int 950) in *. set (y2 := ex_int 100) in *. clearbody x1 y1 x2 y2.
  assert (O1 : on_axis x1) by (split; [exact F1|rewrite V1; lra]). assert (O2 : on_axis y1) by (split; [exact F2|rewrite V2; lra]).
  assert (O3 : on_axis x2) by (split; [exact F3|rewrite V3; lra]). assert (O4 : on_axis y2) by (split; [exact F4|rewrite V4; lra]).
  destruct (C97_mkgrid_lengths L map_geod x1 y1 x2 y2 3 4 _ map_dist on_map tiny ltac:(lia) ltac:(lia) ltac:(lra) eq_refl
              (map_accurate L _ 5 eq_refl) (map_accurate L _ 7 eq_refl)) as (g & E & C0 & C1 & X & Y);
    try (split; assumption).
  exists g. split; [exact E|].
  destruct (C17_mkgrid_contract L map_geod x1 y1 x2 y2 3 4 ltac:(lia) ltac:(lia)) as (g' & E' & K1 & K2 & K3 & K4 & K5 & K6 & K7 & K8).
  change (Z.of_nat 3) with 3%Z in *. change (Z.of_nat 4) with 4%Z in *. rewrite E in E'. injection E' as <-. clear E.
  assert (I3 : INR 3 = 3) by (cbn; lra). assert (I4 : INR 4 = 4) by (cbn; lra).
  assert (B59 : 10000 <= IZR (2 ^ 59)) by (apply IZR_le; discriminate).
  assert (CL : forall x v, close_to tiny x v -> 0 <= v <= 1000 -> Rabs (R64 x - v) <= 5 * tiny).
  { intros x v (_ & _ & M) B. assert (u53 * (v + 4 * tiny) <= u53 * 1001) by (apply Rmult_le_compat_l; lra).
    assert (tiny = 32768 * u53) by reflexivity. lra. }
  split.
  - intros i b Hi Hb. specialize (X 0%nat b ltac:(lia) Hb). cbv zeta in X.
    assert (DD : map_dist (corner_at g (3 * 0) (4 * b)) (corner_at g (3 * (0 + 1)) (4 * b)) = 900).
    { change (3 * 0)%nat with 0%nat. change (3 * (0 + 1))%nat with 3%nat. unfold map_dist, corner_at. cbn [fst snd].
      destruct b as [|[|b]]; [change (4 * 0)%nat with 0%nat|change (4 * 1)%nat with 4%nat|lia].
      - rewrite K3, K4, K5, K6, V1, V3, V4. rewrite (Rabs_left (50 - 950)), (Rminus_diag_eq 100 100), Rabs_R0 by lra. lra.
      - rewrite K1, K2, K7, K8, V1, V3, V2. rewrite (Rabs_left (50 - 950)), (Rminus_diag_eq 700 700), Rabs_R0 by lra. lra. }
    rewrite DD in X. destruct X as (X & _); [split; [rewrite I3; lra|lra]|].
    specialize (X i Hi). rewrite I3 in X. change (3 * 0 + i)%nat with i in X. replace (900 / 3) with 300 in X by lra.
    apply CL; [exact X|lra].
  - intros j Hj. specialize (Y 0%nat 0%nat ltac:(lia) ltac:(lia)). cbv zeta in Y.
    assert (DD : map_dist (corner_at g 0 (4 * 0)) (corner_at g 0 (4 * (0 + 1))) = 600).
    { change (4 * 0)%nat with 0%nat. change (4 * (0 + 1))%nat with 4%nat. unfold map_dist, corner_at. cbn [fst snd].
      rewrite K1, K2, K5, K6, V1, V2, V4. rewrite (Rabs_left (100 - 700)), (Rminus_diag_eq 50 50), Rabs_R0 by lra. lra. }
    rewrite DD in Y. destruct Y as (Y & _); [split; [rewrite I4; lra|lra]|].
    specialize (Y j Hj). rewrite I4 in Y. change (4 * 0 + j)%nat with j in Y. replace (600 / 4) with 150 in Y by lra.
    apply CL; [exact Y|lra].
Qed.

(** ** All eight edge-length fields *)

(** The library measures every half edge of the grid to within e, and none is lost in the error. *)
Definition halves_measured (G : geod binary64) (D : pos -> pos -> R) (e : R) (H : nat -> nat -> pos) (p q : nat) : Prop :=
  let good P Q := finite (g_inv G P Q) = true /\ Rabs (R64 (g_inv G P Q) - D P Q) <= e < D P Q /\ D P Q <= IZR (2 ^ 58) in
  (forall u v, (u < 2 * p)%nat -> (v <= 2 * q)%nat -> good (H u v) (H (u + 1)%nat v)) /\
  (forall u v, (u <= 2 * p)%nat -> (v < 2 * q)%nat -> good (H u v) (H u (v + 1)%nat)).

(** x is the length of the way from P over Q to R, within 2e and one rounding *)
Definition is_way (D : pos -> pos -> R) (e : R) (P Q R : pos) (x : binary64) : Prop :=
  let d := D P Q + D Q R in
  finite x = true /\ 0 < R64 x /\ Rabs (R64 x - d) <= 2 * e + u53 * (d + 2 * e).

Definition lengths_true (D : pos -> pos -> R) (e : R) (H : nat -> nat -> pos) (p q : nat) (g : grid binary64) : Prop :=
  let along u v := is_way D e (H u v) (H (u + 1)%nat v) (H (u + 2)%nat v) in
  let across u v := is_way D e (H u v) (H u (v + 1)%nat) (H u (v + 2)%nat) in
  (forall i j, (i < p)%nat -> (j <= q)%nat -> along (2 * i)%nat (2 * j)%nat (mat_at (g DXG) i j)) /\
  (forall i j, (i <= p)%nat -> (j < q)%nat -> across (2 * i)%nat (2 * j)%nat (mat_at (g DYG) i j)) /\
  (forall i j, (i < p)%nat -> (j < q)%nat -> along (2 * i)%nat (2 * j + 1)%nat (mat_at (g DXF) i j)) /\
  (forall i j, (i < p)%nat -> (j < q)%nat -> across (2 * i + 1)%nat (2 * j)%nat (mat_at (g DYF) i j)) /\
  (forall i j, (0 < i < p)%nat -> (j < q)%nat -> along (2 * i - 1)%nat (2 * j + 1)%nat (mat_at (g DXC) i j)) /\
  (forall i j, (i < p)%nat -> (0 < j < q)%nat -> across (2 * i + 1)%nat (2 * j - 1)%nat (mat_at (g DYC) i j)) /\
  (forall i j, (0 < i < p)%nat -> (j <= q)%nat -> along (2 * i - 1)%nat (2 * j)%nat (mat_at (g DXV) i j)) /\
  (forall i j, (i <= p)%nat -> (0 < j < q)%nat -> across (2 * i)%nat (2 * j - 1)%nat (mat_at (g DYU) i j)).

Lemma sum_measured L G D e P Q R : 
  (finite (g_inv G P Q) = true /\ Rabs (R64 (g_inv G P Q) - D P Q) <= e < D P Q /\ D P Q <= IZR (2 ^ 58)) ->
  (finite (g_inv G Q R) = true /\ Rabs (R64 (g_inv G Q R) - D Q R) <= e < D Q R /\ D Q R <= IZR (2 ^ 58)) ->
  is_way D e P Q R (sum2 (b64ops L) (g_inv G P Q) (g_inv G Q R)).
Proof.
  intros (FX & (HX & PX) & BX) (FY & (HY & PY) & BY). unfold is_way. cbv zeta.
  assert (E : 0 <= e) by (eapply Rle_trans; [apply Rabs_pos|exact HX]).
  set (x := g_inv G P Q) in *. set (y := g_inv G Q R) in *. set (a := D P Q) in *. set (b := D Q R) in *. clearbody x y a b.
  apply Rabs_le_inv in HX, HY.
  assert (NX : is0 (b64ops L) x = false /\ is0 (b64ops L) y = false).
  { unfold is0. cbn [neqb nzero b64ops]. split; apply Bool.not_true_is_false; intros K; apply b64_eqb_finite in K; auto;
      change (R64 b64_zero) with 0 in K; lra. }
  unfold sum2. rewrite (proj1 NX), (proj2 NX). cbn [orb nadd b64ops].
  assert (B60 : IZR (2 ^ 58) = IZR (2 ^ 60) / 4) by (simpl; lra).
  destruct (add_near x y FX FY) as (F & A); [unfold big; rewrite Rabs_pos_eq; lra|].
  rewrite (Rabs_pos_eq (R64 x + R64 y)) in A by lra. pose proof u53_small as U. apply Rabs_le_inv in A.
  assert (U1 : u53 * (R64 x + R64 y) <= u53 * (a + b + 2 * e)) by (apply Rmult_le_compat_l; lra).
  assert (U2 : u53 * (R64 x + R64 y) < 1 * (R64 x + R64 y)) by (apply Rmult_lt_compat_r; lra).
  split; [exact F|]. split; [lra|]. apply Rabs_le. lra.
Qed.

Lemma lengths_of_edges L G D e H p q g : edges_documented (b64ops L) G H p q g -> halves_measured G D e H p q ->
  lengths_true D e H p q g.
Proof.
  intros (X1 & X2 & X3 & X4 & X5 & X6 & X7 & X8) (MX & MY). cbv zeta in MX, MY.
  assert (S1 : forall u v x, (u + 1 < 2 * p)%nat -> (v <= 2 * q)%nat -> x = sum2 (b64ops L) (half_x G H u v) (half_x G H (u + 1)%nat v) ->
             is_way D e (H u v) (H (u + 1)%nat v) (H (u + 2)%nat v) x).
  { intros u v x Hu Hv ->. unfold half_x. replace (u + 1 + 1)%nat with (u + 2)%nat by lia. apply sum_measured; [apply MX; lia|].
    replace (u + 2)%nat with (u + 1 + 1)%nat by lia. apply MX; lia. }
  assert (S2 : forall u v x, (u <= 2 * p)%nat -> (v + 1 < 2 * q)%nat -> x = sum2 (b64ops L) (half_y G H u v) (half_y G H u (v + 1)%nat) ->
             is_way D e (H u v) (H u (v + 1)%nat) (H u (v + 2)%nat) x).
  { intros u v x Hu Hv ->. unfold half_y. replace (v + 1 + 1)%nat with (v + 2)%nat by lia. apply sum_measured; [apply MY; lia|].
    replace (v + 2)%nat with (v + 1 + 1)%nat by lia. apply MY; lia. }
  unfold lengths_true. cbv zeta.
  repeat match goal with |- _ /\ _ => split end; intros i j Hi Hj.
  - apply S1; [lia..|]. apply X1; assumption.
  - apply S2; [lia..|]. apply X2; assumption.
  - apply S1; [lia..|]. apply X3; assumption.
  - apply S2; [lia..|]. apply X4; assumption.
  - apply S1; [lia..|]. replace (2 * i - 1 + 1)%nat with (2 * i)%nat by lia. apply X5; assumption.
  - apply S2; [lia..|]. replace (2 * j - 1 + 1)%nat with (2 * j)%nat by lia. apply X6; assumption.
  - apply S1; [lia..|]. replace (2 * i - 1 + 1)%nat with (2 * i)%nat by lia. apply X7; assumption.
  - apply S2; [lia..|]. replace (2 * j - 1 + 1)%nat with (2 * j)%nat by lia. apply X8; assumption.
Qed.

(** Whatever points tomitgrid is given. *)
Theorem C97_edges_true : forall L G D e (cg : mat pos) p q,
  mrows cg = (2 * p + 3)%nat -> mcols cg = (2 * q + 3)%nat ->
  let H u v := mat_at cg (1 + u)%nat (1 + v)%nat in
  halves_measured G D e H p q ->
  exists g, tomitgrid64 L G cg 0 1 (1 + 2 * p) (1 + 2 * p + 1) 0 1 (1 + 2 * q) (1 + 2 * q + 1) = Ok g /\
    lengths_true D e H p q g.
Proof.
  intros L G D e cg p q Hr Hc H M. destruct (C14_edge_lengths L G cg p q Hr Hc) as (g & E & HE).
  exists g. split; [exact E|]. exact (lengths_of_edges L G D e H p q g HE M).
Qed.

(** The points regrid interpolates. *)
Theorem C97_regrid_edges_true : forall L G D e loadtxt fs lay o3 fuel a rr,
  layouts lay -> layouts o3 -> regrid64 L G loadtxt fs lay o3 fuel a = Ok rr ->
  exists C n m ls lt H, rr_ni rr = (ls * n)%nat /\ rr_nj rr = (lt * m)%nat /\
    subdivides (b64ops L) G (corners_pos (b64ops L) C n m) C ls lt n m H /\
    positions_documented H (rr_ni rr) (rr_nj rr) (rr_grid rr) /\
    (halves_measured G D e H (rr_ni rr) (rr_nj rr) -> lengths_true D e H (rr_ni rr) (rr_nj rr) (rr_grid rr)).
Proof.
  intros L G D e loadtxt fs lay o3 fuel a rr Hlay Ho3 EQ.
  destruct (C14_regrid_edge_lengths L G loadtxt fs lay o3 fuel a rr Hlay Ho3 EQ) as (C & n & m & ls & lt & H & E1 & E2 & HS & HP & HE).
  exists C, n, m, ls, lt, H. rewrite E1, E2. repeat (split; [auto; fail|]). apply lengths_of_edges with (1 := HE).
Qed.

(** The hypothesis is met by every grid of distinct enough points of the map. *)
Example C97_edges_case : forall H p q,
  (forall u v, (u <= 2 * p)%nat -> (v <= 2 * q)%nat -> on_map (H u v)) ->
  (forall u v, (u < 2 * p)%nat -> (v <= 2 * q)%nat -> tiny < map_dist (H u v) (H (u + 1)%nat v)) ->
  (forall u v, (u <= 2 * p)%nat -> (v < 2 * q)%nat -> tiny < map_dist (H u v) (H u (v + 1)%nat)) ->
  halves_measured map_geod map_dist tiny H p q.
Proof.
  intros H p q O HX HY. destruct (map_accurate ex_libm true 1 eq_refl) as (A & _).
  assert (B : forall P Q, on_map P -> on_map Q -> map_dist P Q <= IZR (2 ^ 58)).
  { intros P Q ((_ & P1) & (_ & P2)) ((_ & Q1) & (_ & Q2)). assert (B58 : 10000 <= IZR (2 ^ 58)) by (apply IZR_le; discriminate). unfold map_dist.
    assert (Rabs (R64 (fst P) - R64 (fst Q)) <= 1000) by (apply Rabs_le; lra).
    assert (Rabs (R64 (snd P) - R64 (snd Q)) <= 1000) by (apply Rabs_le; lra). lra. }
  split; intros u v Hu Hv; (split; [apply A; apply O; lia|split; [split; [apply A; apply O; lia|auto]|apply B; apply O; lia]]).
Qed.
