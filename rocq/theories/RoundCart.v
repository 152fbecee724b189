(** Rounding errors of lonlat2cart, and of the planar areas computed from it. *)
From Coq Require Import Reals ZArith Lia Lra Psatz Bool.
From Flocq Require Import Core IEEE754.BinarySingleNaN IEEE754.Binary IEEE754.Bits.
From Verif Require Import Num Util Float64 PyFloatFacts FloorDivFacts RealInst RealFacts PiBounds RoundFacts SphereGeod.
Local Open Scope R_scope.

Lemma bounded_lipschitz f f' a b : (forall x, derivable_pt_lim f x (f' x)) -> (forall x, Rabs (f' x) <= 1) ->
  Rabs (f a - f b) <= Rabs (a - b).
Proof.
  intros D B.
  assert (G : forall a b, a < b -> Rabs (f b - f a) <= b - a).
  { intros x y L. destruct (MVT_cor2 f f' x y L (fun c _ => D c)) as (c & E & _). rewrite E, Rabs_mult, (Rabs_pos_eq (y - x)) by lra.
    rewrite <- (Rmult_1_l (y - x)) at 2. apply Rmult_le_compat_r; [lra|apply B]. }
  destruct (Rtotal_order a b) as [L|[->|L]].
  - rewrite (Rabs_minus_sym (f a)), (Rabs_minus_sym a), (Rabs_pos_eq (b - a)) by lra. now apply G.
  - unfold Rminus. rewrite !Rplus_opp_r. lra.
  - rewrite (Rabs_pos_eq (a - b)) by lra. now apply G.
Qed.

Lemma sin_lipschitz a b : Rabs (sin a - sin b) <= Rabs (a - b).
Proof. apply (bounded_lipschitz sin cos); [exact derivable_pt_lim_sin|]. intros x. apply Rabs_le. pose proof (COS_bound x). lra. Qed.
Lemma cos_lipschitz a b : Rabs (cos a - cos b) <= Rabs (a - b).
Proof.
  apply (bounded_lipschitz cos (fun x => - sin x)); [exact derivable_pt_lim_cos|]. intros x. rewrite Rabs_Ropp. apply Rabs_le.
  pose proof (SIN_bound x). lra.
Qed.

Lemma d2r_value : R64 b64_d2r = IZR 5030569068109113 / IZR (2 ^ 58).
Proof. vm_compute. lra. Qed.

Definition r49 : R := bpow radix2 (-49).
Lemma r49_value : r49 = / 562949953421312. Proof. reflexivity. Qed.

Lemma d2r_near : Rabs (R64 b64_d2r - PI / 180) <= / 576460752303423488.
Proof.
  rewrite d2r_value. change (2 ^ 58)%Z with 288230376151711744%Z. pose proof PI_decimals. apply Rabs_le. lra.
Qed.

Lemma radians_near L x : finite x = true -> Rabs (R64 x) <= 360 ->
  finite (radians (b64ops L) x) = true /\ Rabs (R64 (radians (b64ops L) x) - R64 x * (PI / 180)) <= r49.
Proof.
  intros F B. unfold radians. cbn [nmul nd2r b64ops]. pose proof d2r_near as D. pose proof PI_decimals as P.
  assert (DV : R64 b64_d2r <= 1 / 50) by (rewrite d2r_value; change (2 ^ 58)%Z with 288230376151711744%Z; lra).
  assert (DP : 0 <= R64 b64_d2r) by (rewrite d2r_value; change (2 ^ 58)%Z with 288230376151711744%Z; lra).
  assert (DB : R64 b64_d2r <= 17454 / 1000000) by (rewrite d2r_value; change (2 ^ 58)%Z with 288230376151711744%Z; lra).
  assert (XD : Rabs (R64 x * R64 b64_d2r) <= 360 * (17454 / 1000000)).
  { rewrite Rabs_mult, (Rabs_pos_eq (R64 b64_d2r)) by exact DP. apply Rmult_le_compat; [apply Rabs_pos|exact DP|exact B|exact DB]. }
  pose proof big_value. destruct (mul_near x b64_d2r F eq_refl) as (FM & E & _); [lra|]. split; [exact FM|].
  replace (R64 (b64_mult mode_NE x b64_d2r) - R64 x * (PI / 180))
    with ((R64 (b64_mult mode_NE x b64_d2r) - R64 x * R64 b64_d2r) + R64 x * (R64 b64_d2r - PI / 180)) by ring.
  eapply Rle_trans; [apply Rabs_triang|]. rewrite (Rabs_mult (R64 x)).
  assert (Rabs (R64 x) * Rabs (R64 b64_d2r - PI / 180) <= 360 * / 576460752303423488).
  { apply Rmult_le_compat; [apply Rabs_pos|apply Rabs_pos|exact B|exact D]. }
  assert (H75 : h75 <= bpow radix2 (-60)).
  { unfold h75. apply Rle_trans with (1 * bpow radix2 (-1074)); [apply Rmult_le_compat_r; [apply bpow_ge_0|lra]|]. rewrite Rmult_1_l. apply bpow_le. lia. }
  change (bpow radix2 (-60)) with (/ 1152921504606846976) in H75.
  assert (U : u53 = / 9007199254740992) by (rewrite u53_value; reflexivity).
  assert (u53 * Rabs (R64 x * R64 b64_d2r) <= / 9007199254740992 * (360 * (17454 / 1000000))).
  { rewrite U. apply Rmult_le_compat_l; lra. }
  rewrite r49_value. lra.
Qed.

(** What is required of the C library: finite results within d of the exact ones, for
    arguments of up to 7. *)
Definition accurate (d : R) (f : binary64 -> binary64) (g : R -> R) : Prop :=
  forall x, finite x = true -> Rabs (R64 x) <= 7 -> finite (f x) = true /\ Rabs (R64 (f x) - g (R64 x)) <= d.
Definition good_libm (d : R) (L : libm) : Prop := accurate d (lm_sin L) sin /\ accurate d (lm_cos L) cos.

Definition in_range (p : binary64 * binary64) : Prop :=
  finite (fst p) = true /\ Rabs (R64 (fst p)) <= 360 /\ finite (snd p) = true /\ Rabs (R64 (snd p)) <= 360.

(** The error of one coordinate. *)
Definition e3 (d : R) : R := 3 * (d + r49).

Lemma circular_near L d f g x : accurate d f g -> (forall a b, Rabs (g a - g b) <= Rabs (a - b)) ->
  finite x = true -> Rabs (R64 x) <= 360 ->
  finite (f (radians (b64ops L) x)) = true /\ Rabs (R64 (f (radians (b64ops L) x)) - g (R64 x * (PI / 180))) <= d + r49.
Proof.
  intros A G F B. destruct (radians_near L x F B) as (FR & E). pose proof PI_decimals as P. pose proof r49_value as R.
  destruct (A (radians (b64ops L) x) FR) as (FF & EF).
  { pose proof (near_abs _ _ _ E) as N. rewrite Rabs_mult, (Rabs_pos_eq (PI / 180)) in N by lra.
    assert (Rabs (R64 x) * (PI / 180) <= 360 * (PI / 180)) by (apply Rmult_le_compat_r; lra). lra. }
  split; [exact FF|].
  replace (R64 (f (radians (b64ops L) x)) - g (R64 x * (PI / 180)))
    with ((R64 (f (radians (b64ops L) x)) - g (R64 (radians (b64ops L) x))) + (g (R64 (radians (b64ops L) x)) - g (R64 x * (PI / 180)))) by ring.
  eapply Rle_trans; [apply Rabs_triang|]. pose proof (G (R64 (radians (b64ops L) x)) (R64 x * (PI / 180))). lra.
Qed.

Lemma product_near x y a b e : 0 <= e <= / 1000 -> 8 * u53 <= e -> finite x = true -> finite y = true ->
  Rabs (R64 x - a) <= e -> Rabs (R64 y - b) <= e -> Rabs a <= 1 -> Rabs b <= 1 ->
  bounded 2 (b64_mult mode_NE x y) /\ Rabs (R64 (b64_mult mode_NE x y) - a * b) <= 3 * e.
Proof.
  intros E UE FX FY X Y A B. pose proof (near_abs _ _ _ X) as NX. pose proof (near_abs _ _ _ Y) as NY.
  pose proof (Rabs_pos (R64 x)). pose proof (Rabs_pos (R64 y)). pose proof u53_small as U. pose proof big_value.
  assert (P : Rabs (R64 x * R64 y) <= 101 / 100 * (101 / 100)) by (rewrite Rabs_mult; apply Rmult_le_compat; lra).
  destruct (mul_near x y FX FY) as (FM & EM & _); [lra|].
  assert (D : Rabs (R64 x * R64 y - a * b) <= e * (1 + e) + e).
  { replace (R64 x * R64 y - a * b) with ((R64 x - a) * R64 y + a * (R64 y - b)) by ring. eapply Rle_trans; [apply Rabs_triang|].
    rewrite !Rabs_mult. pose proof (Rabs_pos (R64 x - a)). pose proof (Rabs_pos (R64 y - b)). pose proof (Rabs_pos a).
    apply Rplus_le_compat; [apply Rmult_le_compat; lra|]. rewrite <- (Rmult_1_l e). apply Rmult_le_compat; lra. }
  assert (HU : h75 <= u53).
  { rewrite u53_value. change (/ IZR (2 ^ 53)) with (bpow radix2 (-53)). unfold h75.
    apply Rle_trans with (1 * bpow radix2 (-1074)); [apply Rmult_le_compat_r; [apply bpow_ge_0|lra]|]. rewrite Rmult_1_l. apply bpow_le. lia. }
  assert (u53 * Rabs (R64 x * R64 y) <= u53 * (11 / 10)) by (apply Rmult_le_compat_l; lra).
  assert (e * e <= e * / 1000) by (apply Rmult_le_compat_l; lra).
  assert (T : Rabs (R64 (b64_mult mode_NE x y) - a * b) <= 3 * e).
  { replace (R64 (b64_mult mode_NE x y) - a * b) with ((R64 (b64_mult mode_NE x y) - R64 x * R64 y) + (R64 x * R64 y - a * b)) by ring.
    eapply Rle_trans; [apply Rabs_triang|]. lra. }
  split; [|exact T]. split; [exact FM|]. apply near_abs in T.
  assert (Rabs (a * b) <= 1 * 1) by (rewrite Rabs_mult; pose proof (Rabs_pos a); pose proof (Rabs_pos b); apply Rmult_le_compat; lra). lra.
Qed.

Lemma cart_near L d p : good_libm d L -> 0 <= d <= / 2000 -> in_range p ->
  let c := cart1 (b64ops L) (fst p) (snd p) in
  all3 (bounded 2) c /\ coords (fun a x => Rabs (a - x) <= e3 d) (val c) (point (R64 (fst p), R64 (snd p))).
Proof.
  intros (GS & GC) D (F1 & B1 & F2 & B2) c. pose proof r49_value as R.
  destruct (circular_near L d (lm_cos L) cos (fst p) GC cos_lipschitz F1 B1) as (C1 & E1).
  destruct (circular_near L d (lm_cos L) cos (snd p) GC cos_lipschitz F2 B2) as (C2 & E2).
  destruct (circular_near L d (lm_sin L) sin (fst p) GS sin_lipschitz F1 B1) as (C3 & E3).
  destruct (circular_near L d (lm_sin L) sin (snd p) GS sin_lipschitz F2 B2) as (C4 & E4).
  assert (SB : forall x, Rabs (sin x) <= 1) by (intros x; apply Rabs_le; pose proof (SIN_bound x); lra).
  assert (CB : forall x, Rabs (cos x) <= 1) by (intros x; apply Rabs_le; pose proof (COS_bound x); lra).
  assert (U : 8 * u53 <= d + r49) by (rewrite u53_value, R; change (2 ^ 53)%Z with 9007199254740992%Z; lra).
  assert (DR : 0 <= d + r49 <= / 1000) by (rewrite R; lra).
  destruct (product_near _ _ _ _ _ DR U C1 C2 E1 E2 (CB _) (CB _)) as (P1 & Q1).
  destruct (product_near _ _ _ _ _ DR U C3 C2 E3 E2 (SB _) (CB _)) as (P2 & Q2).
  unfold c, cart1, point, e3. cbn [nmul ncos nsin b64ops all3 val coords fst snd].
  split; [split; [exact P1|split; [exact P2|]]|split; [|split; [|]]].
  - split; [exact C4|]. apply near_abs in E4. pose proof (SB (R64 (snd p) * (PI / 180))). lra.
  - exact Q1.
  - exact Q2.
  - eapply Rle_trans; [exact E4|]. lra.
Qed.

(** ** Areas *)

(** Moving the corners by at most e. *)
Lemma quad_moved A B C D A' B' C' D' e : vnorm (vminus A' A) <= e -> vnorm (vminus B' B) <= e ->
  vnorm (vminus C' C) <= e -> vnorm (vminus D' D) <= e ->
  Rabs (quad A' B' C' D' - quad A B C D) <= e * (vnorm (vminus C A) + vnorm (vminus D B)) + 2 * (e * e).
Proof.
  intros EA EB EC ED. unfold quad. rewrite <- Rmult_minus_distr_l, Rabs_mult, (Rabs_pos_eq (/ 2)) by lra.
  set (p := vminus C A). set (q := vminus D B). set (p' := vminus C' A'). set (q' := vminus D' B').
  assert (P : vnorm (vminus p' p) <= 2 * e).
  { replace (vminus p' p) with (vplus (vminus C' C) (vscale (-1) (vminus A' A))).
    - eapply Rle_trans; [apply vnorm_plus|]. replace (vnorm (vscale (-1) (vminus A' A))) with (vnorm (vminus A' A)); [lra|].
      unfold vnorm. f_equal. clear. unfold vminus. vring.
    - unfold p', p. clear. vring. }
  assert (Q : vnorm (vminus q' q) <= 2 * e).
  { replace (vminus q' q) with (vplus (vminus D' D) (vscale (-1) (vminus B' B))).
    - eapply Rle_trans; [apply vnorm_plus|]. replace (vnorm (vscale (-1) (vminus B' B))) with (vnorm (vminus B' B)); [lra|].
      unfold vnorm. f_equal. clear. unfold vminus. vring.
    - unfold q', q. clear. vring. }
  assert (X : vnorm (vminus (vcross p' q') (vcross p q)) <= 2 * e * vnorm q + vnorm p * (2 * e) + 2 * e * (2 * e)).
  { replace (vminus (vcross p' q') (vcross p q))
      with (vplus (vplus (vcross (vminus p' p) q) (vcross p (vminus q' q))) (vcross (vminus p' p) (vminus q' q))).
    - eapply Rle_trans; [apply vnorm_plus|]. pose proof (vnorm_plus (vcross (vminus p' p) q) (vcross p (vminus q' q))).
      pose proof (vnorm_cross (vminus p' p) q). pose proof (vnorm_cross p (vminus q' q)). pose proof (vnorm_cross (vminus p' p) (vminus q' q)).
      pose proof (vnorm_nonneg p). pose proof (vnorm_nonneg q). pose proof (vnorm_nonneg (vminus p' p)). pose proof (vnorm_nonneg (vminus q' q)).
      assert (vnorm (vminus p' p) * vnorm q <= 2 * e * vnorm q) by (apply Rmult_le_compat_r; lra).
      assert (vnorm p * vnorm (vminus q' q) <= vnorm p * (2 * e)) by (apply Rmult_le_compat_l; lra).
      assert (vnorm (vminus p' p) * vnorm (vminus q' q) <= 2 * e * (2 * e)) by (apply Rmult_le_compat; lra). lra.
    - clear. generalize p q p' q'. vring. }
  pose proof (vnorm_near (vcross p' q') (vcross p q)). pose proof (Rabs_pos (vnorm (vcross p' q') - vnorm (vcross p q))). lra.
Qed.

(** The corners of a cell and a bound of their distances. *)
Definition chords (s : R) (A B C D : vec) : Prop :=
  vnorm (vminus B A) <= s /\ vnorm (vminus C A) <= s /\ vnorm (vminus D A) <= s /\ vnorm (vminus D B) <= s.

Lemma vnorm_moved u v u' v' e : vnorm (vminus u' u) <= e -> vnorm (vminus v' v) <= e -> vnorm (vminus u' v') <= vnorm (vminus u v) + 2 * e.
Proof.
  intros U V. replace (vminus u' v') with (vplus (vminus u v) (vplus (vminus u' u) (vscale (-1) (vminus v' v)))) by (clear; vring).
  eapply Rle_trans; [apply vnorm_plus|]. pose proof (vnorm_plus (vminus u' u) (vscale (-1) (vminus v' v))).
  replace (vnorm (vscale (-1) (vminus v' v))) with (vnorm (vminus v' v)) in H; [lra|].
  unfold vnorm. f_equal. clear. unfold vminus. vring.
Qed.

Definition e6 (d : R) : R := 2 * e3 d.

Lemma planar_moved L A B C D VA VB VC VD x s : all3 (bounded 2) A -> all3 (bounded 2) B -> all3 (bounded 2) C -> all3 (bounded 2) D ->
  vnorm (vminus (val A) VA) <= x -> vnorm (vminus (val B) VB) <= x -> vnorm (vminus (val C) VC) <= x -> vnorm (vminus (val D) VD) <= x ->
  chords s VA VB VC VD -> s <= 2 -> 6 * r49 <= x <= / 300 ->
  finite (pquad1 (b64ops L) A B C D) = true /\ 0 <= R64 (pquad1 (b64ops L) A B C D) /\
  Rabs (R64 (pquad1 (b64ops L) A B C D) - quad VA VB VC VD) <= 3 * x * (s + x).
Proof.
  intros BA BB BC BD EA EB EC ED (S1 & S2 & S3 & S4) S X0. rewrite r49_value in X0.
  destruct (planar_near L A B C D BA BB BC BD) as (F & P & E). cbv zeta in E.
  split; [exact F|]. split; [exact P|]. pose proof (quad_moved _ _ _ _ _ _ _ _ _ EA EB EC ED) as M.
  pose proof (vnorm_moved _ _ _ _ _ EC EA) as W1. pose proof (vnorm_moved _ _ _ _ _ EB EA) as W2. pose proof (vnorm_moved _ _ _ _ _ ED EA) as W3.
  clear F P EA EB EC ED. revert E. generalize (R64 (pquad1 (b64ops L) A B C D)). intros r E.
  pose proof (vnorm_nonneg (vminus (val C) (val A))) as N1. pose proof (vnorm_nonneg (vminus (val B) (val A))) as N2.
  pose proof (vnorm_nonneg (vminus (val D) (val A))) as N3. pose proof (vnorm_nonneg (vminus VB VA)) as N4.
  set (n1 := vnorm (vminus (val C) (val A))) in *. set (n2 := vnorm (vminus (val B) (val A))) in *. set (n3 := vnorm (vminus (val D) (val A))) in *.
  set (q := quad (val A) (val B) (val C) (val D)) in *. set (qv := quad VA VB VC VD) in *.
  set (m1 := vnorm (vminus VC VA)) in *. set (m2 := vnorm (vminus VD VB)) in *. set (m3 := vnorm (vminus VB VA)) in *. set (m4 := vnorm (vminus VD VA)) in *.
  clearbody n1 n2 n3 q qv m1 m2 m3 m4. clear BA BB BC BD.
  assert (W : n1 * (n2 + n3) <= (s + 2 * x) * (2 * (s + 2 * x))) by (apply Rmult_le_compat; lra).
  assert (U : 24 * u53 <= x / 4) by (rewrite u53_value; change (2 ^ 53)%Z with 9007199254740992%Z; lra).
  pose proof u53_small as US. pose proof g36_small as GS.
  assert (G : 2 * g36 <= / 1000 * (x * x)).
  { assert (GB : g36 <= bpow radix2 (-120)) by (apply bpow_le; lia). change (bpow radix2 (-120)) with (/ IZR (2 ^ 120)) in GB.
    assert (XX : / 562949953421312 * / 562949953421312 <= x * x) by (apply Rmult_le_compat; lra).
    change (2 ^ 120)%Z with 1329227995784915872903807060280344576%Z in GB. lra. }
  assert (W' : 12 * u53 * (n1 * (n2 + n3)) <= x / 4 * ((s + 2 * x) * (s + 2 * x))).
  { apply Rle_trans with (12 * u53 * ((s + 2 * x) * (2 * (s + 2 * x)))); [apply Rmult_le_compat_l; lra|].
    replace (12 * u53 * ((s + 2 * x) * (2 * (s + 2 * x)))) with (24 * u53 * ((s + 2 * x) * (s + 2 * x))) by ring.
    apply Rmult_le_compat_r; [exact (Rle_0_sqr _)|exact U]. }
  assert (SX : (s + 2 * x) * (s + 2 * x) <= 21 / 10 * s + x / 10).
  { assert (s * s <= 2 * s) by (apply Rmult_le_compat_r; lra). assert (s * x <= s * / 300) by (apply Rmult_le_compat_l; lra).
    assert (x * x <= / 300 * x) by (apply Rmult_le_compat_r; lra). lra. }
  assert (x / 4 * ((s + 2 * x) * (s + 2 * x)) <= x / 4 * (21 / 10 * s + x / 10)) by (apply Rmult_le_compat_l; [lra|exact SX]).
  assert (XM : x * (m1 + m2) <= x * (2 * s)) by (apply Rmult_le_compat_l; lra).
  replace (r - qv) with ((r - q) + (q - qv)) by ring.
  eapply Rle_trans; [apply Rabs_triang|]. assert (0 <= x * s) by (apply Rmult_le_pos; lra).
  assert (0 <= x * x) by exact (Rle_0_sqr x). lra.
Qed.

Lemma planar_area_near L d a b c e s : good_libm d L -> 0 <= d <= / 2000 ->
  in_range a -> in_range b -> in_range c -> in_range e ->
  let V p := point (R64 (fst p), R64 (snd p)) in
  let K p := cart1 (b64ops L) (fst p) (snd p) in
  chords s (V a) (V b) (V c) (V e) -> s <= 2 ->
  let r := pquad1 (b64ops L) (K a) (K b) (K c) (K e) in
  finite r = true /\ 0 <= R64 r /\ Rabs (R64 r - quad (V a) (V b) (V c) (V e)) <= 3 * e6 d * (s + e6 d).
Proof.
  intros GL D RA RB RC RE. cbv zeta. intros CH S.
  destruct (cart_near L d a GL D RA) as (BA & EA). destruct (cart_near L d b GL D RB) as (BB & EB).
  destruct (cart_near L d c GL D RC) as (BC & EC). destruct (cart_near L d e GL D RE) as (BE & EE).
  pose proof r49_value as R. assert (E3 : 0 <= e3 d) by (unfold e3; rewrite R; lra).
  apply (coords_norm _ _ _ E3) in EA. apply (coords_norm _ _ _ E3) in EB. apply (coords_norm _ _ _ E3) in EC. apply (coords_norm _ _ _ E3) in EE.
  apply planar_moved; try assumption. unfold e6, e3. rewrite R. lra.
Qed.
