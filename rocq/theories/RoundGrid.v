(** Rounding errors of the scaled areas and of their sums over four quarter cells. *)
From Coq Require Import Reals ZArith Lia Lra Psatz Bool List.
Import ListNotations.
From Flocq Require Import Core IEEE754.BinarySingleNaN IEEE754.Binary IEEE754.Bits.
From Verif Require Import Prelude Mat Num Util Float64 Float64Facts FloorDivFacts RealInst RealFacts RoundFacts RoundCart SphereGeod SpecGrid SpecHalf.
Local Open Scope R_scope.

Lemma big_val : big = 1152921504606846976. Proof. reflexivity. Qed.

Lemma u53_val : u53 = / 9007199254740992. Proof. rewrite u53_value. reflexivity. Qed.

Lemma h75_tiny x : 96 * u53 <= x -> h75 <= / 1000 * (x * x).
Proof.
  rewrite u53_val. intros X. unfold h75.
  assert (B : bpow radix2 (-1074) <= bpow radix2 (-120)) by (apply bpow_le; lia). change (bpow radix2 (-120)) with (/ IZR (2 ^ 120)) in B.
  assert (XX : 96 * / 9007199254740992 * (96 * / 9007199254740992) <= x * x) by (apply Rmult_le_compat; lra).
  change (2 ^ 120)%Z with 1329227995784915872903807060280344576%Z in B. lra.
Qed.

(** A radius of the sphere that squares without overflow: 1 <= a <= 2^26. *)
Definition good_radius (a : binary64) : Prop := finite a = true /\ 1 <= R64 a <= 67108864.

Lemma scaled_near r a Q e s : finite r = true -> 0 <= R64 r -> Rabs (R64 r - Q) <= 3 * e * (s + e) -> 0 <= Q <= s -> s <= 2 ->
  96 * u53 <= e <= / 300 -> good_radius a ->
  let x := b64_mult mode_NE r (b64_mult mode_NE a a) in
  finite x = true /\ 0 <= R64 x /\ Rabs (R64 x - R64 a * R64 a * Q) <= 4 * e * (s + e) * (R64 a * R64 a).
Proof.
  intros FR PR ER PQ S E (FA & A) x. pose proof u53_small as U. pose proof (h75_tiny e ltac:(lra)) as H. pose proof h75_small as HS. pose proof big_val as BV.
  set (w := R64 a * R64 a) in *. assert (W : 1 <= w <= 4503599627370496) by (unfold w; nra).
  destruct (mul_near a a FA FA) as (FM & EM & PM); [fold w; rewrite Rabs_pos_eq; lra|]. fold w in EM, PM.
  rewrite (Rabs_pos_eq w) in EM by lra. set (m := b64_mult mode_NE a a) in *.
  assert (SE : 3 * e * (s + e) <= / 100 * (s + e)) by (apply Rmult_le_compat_r; lra).
  assert (R0 : R64 r <= 101 / 100 * (s + e)) by (apply Rabs_le_inv in ER; lra).
  assert (HW : h75 <= u53 * w).
  { apply Rle_trans with u53.
    - pose proof (h75_tiny (96 * u53) ltac:(lra)) as T. assert (u53 * u53 <= / 1000000 * u53) by (apply Rmult_le_compat_r; lra). lra.
    - replace u53 with (u53 * 1) at 1 by ring. apply Rmult_le_compat_l; lra. }
  assert (UW : u53 * w <= / 1000000 * w) by (apply Rmult_le_compat_r; lra).
  assert (M : R64 m <= 2 * w) by (apply Rabs_le_inv in EM; lra). specialize (PM ltac:(lra)).
  assert (EM' : Rabs (R64 m - w) <= 2 * u53 * w) by lra.
  assert (P : 0 <= R64 r * R64 m <= 3 * (2 * 4503599627370496)).
  { split; [now apply Rmult_le_pos|]. apply Rmult_le_compat; lra. }
  destruct (mul_near r m FR FM) as (FX & EX & PX); [rewrite Rabs_pos_eq; lra|]. specialize (PX ltac:(lra)).
  fold x in FX, EX, PX. split; [exact FX|]. split; [exact PX|]. rewrite (Rabs_pos_eq (R64 r * R64 m)) in EX by lra.
  clear FR FM FX FA PX BV. clearbody x m.
  assert (MW : R64 m <= 11 / 10 * w) by (apply Rabs_le_inv in EM'; lra).
  assert (RM : R64 r * R64 m <= 101 / 100 * (s + e) * (11 / 10 * w)) by (apply Rmult_le_compat; lra).
  assert (D : Rabs (R64 r * R64 m - w * Q) <= 101 / 100 * (s + e) * (2 * u53 * w) + w * (3 * e * (s + e))).
  { replace (R64 r * R64 m - w * Q) with (R64 r * (R64 m - w) + w * (R64 r - Q)) by ring. eapply Rle_trans; [apply Rabs_triang|].
    rewrite !Rabs_mult, (Rabs_pos_eq (R64 r)), (Rabs_pos_eq w) by lra.
    apply Rplus_le_compat; [apply Rmult_le_compat; auto using Rabs_pos; lra|apply Rmult_le_compat_l; lra]. }
  assert (T1 : u53 * (R64 r * R64 m) <= u53 * (101 / 100 * (s + e) * (11 / 10 * w))) by (apply Rmult_le_compat_l; lra).
  replace (R64 x - w * Q) with ((R64 x - R64 r * R64 m) + (R64 r * R64 m - w * Q)) by ring.
  eapply Rle_trans; [apply Rabs_triang|].
  set (k := (s + e) * w) in *. assert (K : 0 <= k) by (apply Rmult_le_pos; lra).
  assert (T2 : u53 * k <= e / 96 * k) by (apply Rmult_le_compat_r; lra).
  assert (T3 : e * e <= e * k).
  { apply Rmult_le_compat_l; [lra|]. unfold k. replace e with (e * 1) at 1 by ring. apply Rmult_le_compat; lra. }
  replace (u53 * (101 / 100 * (s + e) * (11 / 10 * w))) with (1111 / 1000 * (u53 * k)) in T1 by (unfold k; field).
  replace (101 / 100 * (s + e) * (2 * u53 * w) + w * (3 * e * (s + e))) with (202 / 100 * (u53 * k) + 3 * (e * k)) in D by (unfold k; field).
  replace (4 * e * (s + e) * w) with (4 * (e * k)) by (unfold k; ring).
  assert (0 <= e * k) by (apply Rmult_le_pos; lra). lra.
Qed.

(** quarter cells *)
Lemma quarter_near L G d H u v s : good_libm d L -> 0 <= d <= / 2000 -> good_radius (g_a G) ->
  in_range (H u v) -> in_range (H (u + 1)%nat v) -> in_range (H (u + 1)%nat (v + 1)%nat) -> in_range (H u (v + 1)%nat) ->
  let V u v := point (R64 (fst (H u v)), R64 (snd (H u v))) in
  chords s (V u v) (V (u + 1)%nat v) (V (u + 1)%nat (v + 1)%nat) (V u (v + 1)%nat) -> s <= 2 ->
  let x := quarter (b64ops L) G H true u v in
  let Q := quad (V u v) (V (u + 1)%nat v) (V (u + 1)%nat (v + 1)%nat) (V u (v + 1)%nat) in
  0 <= Q <= s /\
  finite x = true /\ 0 <= R64 x /\
  Rabs (R64 x - R64 (g_a G) * R64 (g_a G) * Q) <= 4 * e6 d * (s + e6 d) * (R64 (g_a G) * R64 (g_a G)).
Proof.
  intros GL D GR R1 R2 R3 R4. cbv zeta. intros CH S.
  destruct (planar_area_near L d _ _ _ _ s GL D R1 R2 R3 R4 CH S) as (F & P & E).
  assert (QB : 0 <= quad (point (R64 (fst (H u v)), R64 (snd (H u v)))) (point (R64 (fst (H (u + 1)%nat v)), R64 (snd (H (u + 1)%nat v))))
      (point (R64 (fst (H (u + 1)%nat (v + 1)%nat)), R64 (snd (H (u + 1)%nat (v + 1)%nat))))
      (point (R64 (fst (H u (v + 1)%nat)), R64 (snd (H u (v + 1)%nat)))) <= s).
  { destruct CH as (_ & S2 & _ & S4). unfold quad. revert S2 S4.
    match goal with |- context [vcross ?p ?q] => generalize p q end. intros p q S2 S4.
    pose proof (vnorm_nonneg (vcross p q)). pose proof (vnorm_cross p q). pose proof (vnorm_nonneg p). pose proof (vnorm_nonneg q).
    assert (vnorm p * vnorm q <= s * 2) by (apply Rmult_le_compat; lra). lra. }
  split; [exact QB|].
  unfold quarter. cbn [nmul b64ops].
  apply scaled_near; auto. unfold e6, e3. rewrite r49_value, u53_val. lra.
Qed.

Lemma not_zero x : finite x = true -> 0 < R64 x -> b64_eqb b64_zero x = false.
Proof.
  intros F P. destruct (b64_eqb b64_zero x) eqn:E; [|reflexivity]. apply b64_eqb_finite in E; [|reflexivity|exact F].
  cbn in E. lra.
Qed.

(** three additions *)
Lemma add3_near x y z t X Y Z T e s w : finite x = true -> finite y = true -> finite z = true -> finite t = true ->
  0 <= R64 x -> 0 <= R64 y -> 0 <= R64 z -> 0 <= R64 t ->
  0 <= X <= s -> 0 <= Y <= s -> 0 <= Z <= s -> 0 <= T <= s -> s <= 2 -> 1 <= w <= 4503599627370496 -> 96 * u53 <= e <= / 300 ->
  Rabs (R64 x - w * X) <= 4 * e * (s + e) * w -> Rabs (R64 y - w * Y) <= 4 * e * (s + e) * w ->
  Rabs (R64 z - w * Z) <= 4 * e * (s + e) * w -> Rabs (R64 t - w * T) <= 4 * e * (s + e) * w ->
  let r := b64_plus mode_NE (b64_plus mode_NE (b64_plus mode_NE x y) z) t in
  finite r = true /\ 0 <= R64 r /\ Rabs (R64 r - w * (X + Y + Z + T)) <= 17 * e * (s + e) * w.
Proof.
  intros FX FY FZ FT PX PY PZ PT BX BY BZ BT S W E EX EY EZ ET r. pose proof big_val as BV. pose proof u53_small as U.
  set (k := (s + e) * w) in *. replace (4 * e * (s + e) * w) with (4 * (e * k)) in * by (unfold k; ring). replace (17 * e * (s + e) * w) with (17 * (e * k)) by (unfold k; ring).
  assert (K : 0 <= k) by (apply Rmult_le_pos; lra). assert (KB : k <= 3 * 4503599627370496) by (apply Rmult_le_compat; lra).
  assert (EK : 4 * (e * k) <= / 50 * k).
  { replace (4 * (e * k)) with (4 * e * k) by ring. apply Rmult_le_compat_r; lra. }
  assert (IN : forall A, 0 <= A <= s -> w * A <= k).
  { intros A HA. unfold k. rewrite Rmult_comm. apply Rmult_le_compat; lra. }
  assert (M : forall v A, 0 <= A <= s -> Rabs (R64 v - w * A) <= 4 * (e * k) -> R64 v <= 51 / 50 * k).
  { intros v A HA Hv. apply Rabs_le_inv in Hv. pose proof (IN A HA). lra. }
  pose proof (M _ _ BX EX) as MX. pose proof (M _ _ BY EY) as MY. pose proof (M _ _ BZ EZ) as MZ. pose proof (M _ _ BT ET) as MT. clear M IN.
  destruct (add_near x y FX FY) as (F1 & E1); [rewrite Rabs_pos_eq; lra|]. rewrite (Rabs_pos_eq (R64 x + R64 y)) in E1 by lra.
  assert (V1 : u53 * (R64 x + R64 y) <= u53 * (51 / 25 * k)) by (apply Rmult_le_compat_l; lra).
  assert (U1 : u53 * k <= e * k / 96) by (replace (e * k / 96) with (e / 96 * k) by field; apply Rmult_le_compat_r; lra).
  assert (G0 : 0 <= R64 (b64_plus mode_NE x y)) by (apply Rabs_le_inv in E1; nra).
  set (p := b64_plus mode_NE x y) in *. assert (B1 : R64 p <= 21 / 10 * k) by (apply Rabs_le_inv in E1; lra).
  destruct (add_near p z F1 FZ) as (F2 & E2); [rewrite Rabs_pos_eq; lra|]. rewrite (Rabs_pos_eq (R64 p + R64 z)) in E2 by lra.
  assert (V2 : u53 * (R64 p + R64 z) <= u53 * (32 / 10 * k)) by (apply Rmult_le_compat_l; lra).
  assert (G1 : 0 <= R64 (b64_plus mode_NE p z)) by (apply Rabs_le_inv in E2; nra).
  set (q := b64_plus mode_NE p z) in *. assert (B2 : R64 q <= 33 / 10 * k) by (apply Rabs_le_inv in E2; lra).
  destruct (add_near q t F2 FT) as (F3 & E3); [rewrite Rabs_pos_eq; lra|]. rewrite (Rabs_pos_eq (R64 q + R64 t)) in E3 by lra.
  assert (V3 : u53 * (R64 q + R64 t) <= u53 * (44 / 10 * k)) by (apply Rmult_le_compat_l; lra).
  fold r in F3, E3. split; [exact F3|].
  split; [apply Rabs_le_inv in E3; nra|].
  apply Rabs_le. apply Rabs_le_inv in E1, E2, E3, EX, EY, EZ, ET. assert (0 <= e * k) by (apply Rmult_le_pos; lra). lra.
Qed.

(** the sum over four quarters whose areas are large enough to be seen *)
Lemma sum4_near L x y z t X Y Z T e s w : finite x = true -> finite y = true -> finite z = true -> finite t = true ->
  0 <= R64 x -> 0 <= R64 y -> 0 <= R64 z -> 0 <= R64 t ->
  0 <= X <= s -> 0 <= Y <= s -> 0 <= Z <= s -> 0 <= T <= s -> s <= 2 -> 1 <= w <= 4503599627370496 -> 96 * u53 <= e <= / 300 ->
  Rabs (R64 x - w * X) <= 4 * e * (s + e) * w -> Rabs (R64 y - w * Y) <= 4 * e * (s + e) * w ->
  Rabs (R64 z - w * Z) <= 4 * e * (s + e) * w -> Rabs (R64 t - w * T) <= 4 * e * (s + e) * w ->
  4 * e * (s + e) < X -> 4 * e * (s + e) < Y -> 4 * e * (s + e) < Z -> 4 * e * (s + e) < T ->
  let r := sum4 (b64ops L) x y z t in
  finite r = true /\ 0 <= R64 r /\ Rabs (R64 r - w * (X + Y + Z + T)) <= 17 * e * (s + e) * w.
Proof.
  intros FX FY FZ FT PX PY PZ PT BX BY BZ BT S W E EX EY EZ ET LX LY LZ LT r.
  assert (NZ : forall v A, finite v = true -> Rabs (R64 v - w * A) <= 4 * e * (s + e) * w -> 4 * e * (s + e) < A -> b64_eqb b64_zero v = false).
  { intros v A F D La. apply not_zero; [exact F|]. apply Rabs_le_inv in D. set (k := 4 * e * (s + e)) in *. clearbody k. nra. }
  unfold r, sum4, is0. cbn [neqb nzero nadd b64ops].
  rewrite (NZ x X), (NZ y Y), (NZ z Z), (NZ t T) by assumption. cbn [orb]. now apply add3_near.
Qed.
