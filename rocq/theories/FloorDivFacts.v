(** int(x//y) is the floor of the exact quotient. *)
From Coq Require Import Bool ZArith Reals Lia Lra Psatz.
From Flocq Require Import Core Plus_error Relative IEEE754.BinarySingleNaN IEEE754.Binary IEEE754.Bits.
From Verif Require Import Float64 PyFloat PyFloatFacts.
Local Open Scope R_scope.

Notation R64 := (B2R 53 1024).
Notation finite := (is_finite 53 1024).

Lemma fexp64_FLT : fexp64 = FLT_exp (-1074) 53.
Proof. reflexivity. Qed.

Lemma parts_spec x : finite x = true -> let '(m, e) := parts x in
  R64 x = IZR m * bpow radix2 e /\ (Z.abs m < 2 ^ 53)%Z /\ (-1074 <= e)%Z.
Proof.
  destruct x as [s|s|s pl P|s m e P]; try discriminate; intros _; cbn [parts B2R].
  - split; [lra|]. split; [reflexivity | lia].
  - assert (V : (if s then Z.neg m else Z.pos m) = cond_Zopp s (Z.pos m)) by now destruct s.
    rewrite V. split; [reflexivity|]. rewrite abs_cond_Zopp. cbn [Z.abs].
    unfold SpecFloat.bounded in P. apply andb_prop in P. destruct P as [C _].
    unfold SpecFloat.canonical_mantissa in C. apply Zeq_bool_eq in C.
    rewrite Digits.Zpos_digits2_pos in C.
    change (SpecFloat.fexp 53 1024) with (FLT_exp (-1074) 53) in C. unfold FLT_exp in C.
    split; [|lia]. change (2 ^ 53)%Z with (radix2 ^ 53)%Z. change (Z.pos m) with (Z.abs (Z.pos m)) at 1.
    apply Digits.Zpower_gt_Zdigits. lia.
Qed.

Lemma exact_normalize m e s : (Z.abs m < 2 ^ 53)%Z -> (-1074 <= e)%Z -> Rabs (IZR m * bpow radix2 e) < bpow radix2 1024 ->
  let f := Binary.binary_normalize 53 1024 eq_refl eq_refl mode_NE m e s in
  R64 f = IZR m * bpow radix2 e /\ finite f = true /\
  Bsign 53 1024 f = match Rcompare (IZR m * bpow radix2 e) 0 with Eq => s | Lt => true | Gt => false end.
Proof.
  intros M E B f. pose proof (Binary.binary_normalize_correct 53 1024 eq_refl eq_refl mode_NE m e s) as N. fold f in N.
  change (F2R (Float radix2 m e)) with (IZR m * bpow radix2 e) in N.
  rewrite round_generic in N.
  - rewrite Rlt_bool_true in N by assumption. exact N.
  - typeclasses eauto.
  - change (SpecFloat.fexp 53 1024) with (FLT_exp (-1074) 53). apply generic_format_FLT.
    exists (Float radix2 m e); [reflexivity | exact M | exact E].
Qed.

Lemma finite_lt_emax x : finite x = true -> Rabs (R64 x) < bpow radix2 1024.
Proof. intros F. apply abs_B2R_lt_emax. Qed.

Lemma rem_bounds a b : (0 < b)%Z ->
  (Z.abs (Z.rem a b) < b /\ Z.abs (Z.rem a b) <= Z.abs a /\ (0 <= a -> 0 <= Z.rem a b) /\ (a <= 0 -> Z.rem a b <= 0))%Z.
Proof.
  intros B. pose proof (Z.rem_bound_abs a b ltac:(lia)) as H. rewrite (Z.abs_eq b) in H by lia.
  split; [exact H|]. rewrite <- Z.rem_abs by lia. rewrite (Z.abs_eq b) by lia. split.
  - rewrite Z.rem_mod_nonneg by lia. apply Z.mod_le; lia.
  - split; intros A; [apply Z.rem_nonneg | apply Z.rem_nonpos]; lia.
Qed.

(** fmod is exact; n is the quotient cut off. *)
Lemma fmod_spec x y : finite x = true -> finite y = true -> 0 < R64 y ->
  exists n, n = Ztrunc (R64 x / R64 y) /\
    R64 (b64_fmod x y) = R64 x - IZR n * R64 y /\ finite (b64_fmod x y) = true /\
    (R64 (b64_fmod x y) <> 0 -> Bsign 53 1024 (b64_fmod x y) = Rlt_bool (R64 x) 0) /\
    (R64 (b64_fmod x y) = 0 <-> IZR n = R64 x / R64 y).
Proof.
  intros FX FY YP. pose proof (parts_spec x FX) as PX. pose proof (parts_spec y FY) as PY.
  unfold b64_fmod. destruct (parts x) as [m e]. destruct (parts y) as [n f].
  destruct PX as (VX & MX & EX). destruct PY as (VY & MY & EY).
  set (g := Z.min e f). set (M := (m * 2 ^ (e - g))%Z). set (D := (n * 2 ^ (f - g))%Z).
  assert (GE : (g <= e)%Z) by (unfold g; lia). assert (GF : (g <= f)%Z) by (unfold g; lia).
  assert (BG : 0 < bpow radix2 g) by apply bpow_gt_0.
  assert (XM : R64 x = IZR M * bpow radix2 g).
  { rewrite VX. unfold M. rewrite mult_IZR, Rmult_assoc, <- bpow_split by lia. do 2 f_equal. lia. }
  assert (YD : R64 y = IZR D * bpow radix2 g).
  { rewrite VY. unfold D. rewrite mult_IZR, Rmult_assoc, <- bpow_split by lia. do 2 f_equal. lia. }
  assert (DP : (0 < D)%Z).
  { apply lt_IZR. rewrite YD in YP. apply Rmult_lt_reg_r with (bpow radix2 g); [exact BG|]. lra. }
  assert (DR : 0 < IZR D) by now apply IZR_lt.
  destruct (rem_bounds M D DP) as (R1 & R2 & R3 & R4).
  assert (RS : (Z.abs (Z.rem M D) < 2 ^ 53)%Z).
  { destruct (Z.min_spec e f) as [(L & EQ)|(L & EQ)]; fold g in EQ.
    - assert (M = m) by (unfold M; rewrite EQ, Z.sub_diag; lia). lia.
    - assert (D = n) by (unfold D; rewrite EQ, Z.sub_diag; lia). lia. }
  assert (QU : R64 x / R64 y = IZR M / IZR D).
  { rewrite XM, YD. field. lra. }
  assert (RB : Rabs (IZR (Z.rem M D) * bpow radix2 g) < bpow radix2 1024).
  { eapply Rle_lt_trans; [|exact (finite_lt_emax x FX)]. rewrite XM, !Rabs_mult, <- !abs_IZR.
    apply Rmult_le_compat_r; [apply Rabs_pos | now apply IZR_le]. }
  destruct (exact_normalize (Z.rem M D) g (Bsign 53 1024 x) RS ltac:(lia) RB) as (N1 & N2 & N3).
  exists (Ztrunc (R64 x / R64 y)). split; [reflexivity|].
  rewrite QU, Ztrunc_div by lia.
  pose proof (Z.quot_rem' M D) as QR.
  assert (V : IZR (Z.rem M D) * bpow radix2 g = R64 x - IZR (M ÷ D) * R64 y).
  { rewrite XM, YD. replace (IZR M) with (IZR D * IZR (M ÷ D) + IZR (Z.rem M D)); [ring|].
    rewrite <- mult_IZR, <- plus_IZR. f_equal. lia. }
  split; [rewrite N1; exact V|]. split; [exact N2|]. split.
  - rewrite N1, N3. intros NZ.
    assert (RN : (Z.rem M D <> 0)%Z) by (intros Z0; apply NZ; rewrite Z0; ring).
    destruct (Z.lt_trichotomy M 0) as [ML|[M0|MG]].
    + assert (Z.rem M D < 0)%Z by lia. rewrite Rcompare_Lt.
      * rewrite Rlt_bool_true; [reflexivity|]. rewrite XM. apply IZR_lt in ML. nra.
      * apply IZR_lt in H. nra.
    + exfalso. apply RN. rewrite M0. apply Z.rem_0_l. lia.
    + assert (0 < Z.rem M D)%Z by lia. rewrite Rcompare_Gt.
      * rewrite Rlt_bool_false; [reflexivity|]. rewrite XM. apply IZR_lt in MG. nra.
      * apply IZR_lt in H. nra.
  - rewrite N1. split; intros H.
    + assert (RZ : IZR (Z.rem M D) = 0) by (apply Rmult_integral in H; destruct H; [assumption | lra]).
      apply eq_IZR in RZ. apply Rmult_eq_reg_r with (IZR D); [|lra]. unfold Rdiv. rewrite Rmult_assoc, Rinv_l, Rmult_1_r by lra.
      rewrite <- mult_IZR. f_equal. lia.
    + assert (E : IZR (M ÷ D * D) = IZR M) by (rewrite mult_IZR, H; field; lra).
      apply eq_IZR in E. assert (Z.rem M D = 0)%Z as -> by lia. ring.
Qed.

(** Close to an integer, the guarded floor gives it. *)
Lemma floor_guarded_near d n : finite d = true -> Rabs (R64 d - IZR n) < / 2 -> floor_guarded d = n.
Proof.
  intros F H. pose proof (parts_spec d F) as P. unfold floor_guarded. destruct (parts d) as [m e].
  destruct P as (V & _ & _). apply Rabs_lt_inv in H. destruct (Z.leb_spec 0 e) as [E|E].
  - rewrite V in H. change 2%Z with (radix_val radix2). rewrite <- IZR_Zpower in H by assumption. rewrite <- mult_IZR in H.
    set (z := (m * radix2 ^ e)%Z) in *. destruct (Z.lt_trichotomy z n) as [L|[->|G]]; [|reflexivity|]; exfalso.
    + apply Z.le_succ_l, IZR_le in L. unfold Z.succ in L. rewrite plus_IZR in L. lra.
    + apply Z.le_succ_l, IZR_le in G. unfold Z.succ in G. rewrite plus_IZR in G. lra.
  - set (p := (2 ^ (- e))%Z). assert (PP : (0 < p)%Z) by (apply Z.pow_pos_nonneg; lia).
    assert (PR : 0 < IZR p) by now apply IZR_lt.
    assert (BP : bpow radix2 e * IZR p = 1).
    { unfold p. change 2%Z with (radix_val radix2). rewrite IZR_Zpower, <- bpow_plus by lia. replace (e + - e)%Z with 0%Z by lia. reflexivity. }
    assert (VP : R64 d * IZR p = IZR m) by (rewrite V, Rmult_assoc, BP; ring).
    pose proof (Z.div_mod m p ltac:(lia)) as DM. pose proof (Z.mod_pos_bound m p PP) as MB.
    set (q := (m / p)%Z) in *. set (r := (m mod p)%Z) in *.
    assert (H1 : IZR (2 * n * p - p) < IZR (2 * m)).
    { rewrite minus_IZR, !mult_IZR, <- VP. nra. }
    assert (H2 : IZR (2 * m) < IZR (2 * n * p + p)).
    { rewrite plus_IZR, !mult_IZR, <- VP. nra. }
    apply lt_IZR in H1, H2. destruct (Z.ltb_spec p (2 * r)); nia.
Qed.

(** The largest number of steps the theorem is about. *)
Definition u53 : R := / 2 * bpow radix2 (-53 + 1).

Lemma u53_value : u53 = / IZR (2 ^ 53).
Proof. unfold u53. change (bpow radix2 (-53 + 1)) with (/ IZR (2 ^ 52)). change (2 ^ 53)%Z with (2 * 2 ^ 52)%Z. rewrite (mult_IZR 2). field. apply IZR_neq. discriminate. Qed.

#[local] Instance prec53 : Prec_gt_0 53 := eq_refl.

Lemma round_sum a b : generic_format radix2 fexp64 a -> generic_format radix2 fexp64 b ->
  Rabs (round radix2 fexp64 ZnearestE (a + b) - (a + b)) <= u53 * Rabs (a + b).
Proof.
  intros A B. destruct (FLT_plus_error_N_ex radix2 (-1074) 53 (fun z => negb (Z.even z)) a b A B) as (eps & E & V).
  change (FLT_exp (-1074) 53) with fexp64 in V. rewrite V.
  replace ((a + b) * (1 + eps) - (a + b)) with (eps * (a + b)) by ring. rewrite Rabs_mult.
  apply Rmult_le_compat_r; [apply Rabs_pos|]. eapply Rle_trans; [exact E|].
  assert (UP : 0 < u_ro radix2 53) by (apply Rmult_lt_0_compat; [lra | apply bpow_gt_0]).
  change u53 with (u_ro radix2 53). set (u := u_ro radix2 53) in *. apply Rmult_le_reg_r with (1 + u); [lra|].
  unfold Rdiv. rewrite Rmult_assoc, Rinv_l, Rmult_1_r by lra. nra.
Qed.

Lemma round_normal z : / 2 <= Rabs z ->
  Rabs (round radix2 fexp64 ZnearestE z - z) <= u53 * Rabs z.
Proof.
  intros H. apply (relative_error_N_FLT radix2 (-1074) 53 eq_refl (fun z => negb (Z.even z)) z).
  eapply Rle_trans; [|exact H]. change (/ 2) with (bpow radix2 (-1)). apply bpow_le. lia.
Qed.

Lemma minus_spec a b : finite a = true -> finite b = true -> Rabs (R64 a - R64 b) <= Rabs (R64 a) ->
  let w := b64_minus mode_NE a b in finite w = true /\ Rabs (R64 w - (R64 a - R64 b)) <= u53 * Rabs (R64 a - R64 b).
Proof.
  intros FA FB L w. pose proof (Binary.Bminus_correct 53 1024 eq_refl eq_refl binop_nan_pl64 mode_NE a b FA FB) as M.
  change (Binary.Bminus 53 1024 eq_refl eq_refl binop_nan_pl64 mode_NE a b) with w in M.
  change (round_mode mode_NE) with ZnearestE in M. change (SpecFloat.fexp 53 1024) with fexp64 in M.
  rewrite Rlt_bool_true in M.
  - destruct M as (V & F & _). split; [exact F|]. rewrite V.
    replace (R64 a - R64 b) with (R64 a + - R64 b) by ring.
    apply round_sum; [apply generic_format_B2R | apply generic_format_opp, generic_format_B2R].
  - eapply Rle_lt_trans; [|exact (finite_lt_emax a FA)].
    apply abs_round_le_generic; [typeclasses eauto | typeclasses eauto | apply generic_format_abs, generic_format_B2R | exact L].
Qed.

Lemma small_lt_emax z : Rabs z <= IZR (2 ^ 60) -> Rabs (round radix2 fexp64 ZnearestE z) < bpow radix2 1024.
Proof.
  intros H. apply Rle_lt_trans with (bpow radix2 60).
  - apply abs_round_le_generic; [typeclasses eauto | typeclasses eauto | | ].
    + apply generic_format_bpow. unfold fexp64, SpecFloat.fexp. reflexivity || (vm_compute; discriminate).
    + rewrite <- IZR_Zpower by lia. exact H.
  - apply bpow_lt. lia.
Qed.

Theorem floordiv_is_floor x y : finite x = true -> finite y = true -> 0 < R64 y ->
  Rabs (R64 x) <= IZR (2 ^ 49) * R64 y ->
  b64_floordiv x y = Whole_number (Zfloor (R64 x / R64 y)).
Proof.
  intros FX FY YP B.
  destruct (fmod_spec x y FX FY YP) as (n & NT & RV & FR & SR & RZ).
  set (r := b64_fmod x y) in *. set (Q := R64 x / R64 y) in *.
  assert (XQ : R64 x = Q * R64 y) by (unfold Q; field; lra).
  assert (QB : Rabs Q <= IZR (2 ^ 49)).
  { unfold Q, Rdiv. rewrite Rabs_mult, (Rabs_pos_eq (/ R64 y)) by (left; now apply Rinv_0_lt_compat).
    apply Rmult_le_reg_r with (R64 y); [exact YP|]. rewrite Rmult_assoc, Rinv_l, Rmult_1_r by lra. exact B. }
  assert (NA : Rabs (IZR n) <= Rabs Q).
  { rewrite NT. rewrite <- abs_IZR, <- Ztrunc_abs, Ztrunc_floor by apply Rabs_pos. apply Zfloor_lb. }
  assert (NB : Rabs (IZR n) <= IZR (2 ^ 49)) by lra.
  assert (XR : R64 x - R64 r = IZR n * R64 y) by (rewrite RV; ring).
  destruct (minus_spec x r FX FR) as (FW & EW).
  { rewrite XR, XQ, !Rabs_mult. apply Rmult_le_compat_r; [apply Rabs_pos | exact NA]. }
  set (w := b64_minus mode_NE x r) in *. rewrite XR in EW.
  assert (WQ : Rabs (R64 w / R64 y - IZR n) <= u53 * Rabs (IZR n)).
  { rewrite Rabs_mult, (Rabs_pos_eq (R64 y)) in EW by lra.
    replace (R64 w / R64 y - IZR n) with ((R64 w - IZR n * R64 y) * / R64 y) by (field; lra).
    rewrite Rabs_mult, (Rabs_pos_eq (/ R64 y)) by (left; now apply Rinv_0_lt_compat).
    apply Rmult_le_reg_r with (R64 y); [exact YP|]. rewrite Rmult_assoc, Rinv_l, Rmult_1_r by lra. lra. }
  assert (U : 0 < u53 /\ u53 * IZR (2 ^ 53) = 1 /\ IZR (2 ^ 53) = 16 * IZR (2 ^ 49) /\ 1000 <= IZR (2 ^ 49)).
  { rewrite u53_value. assert (0 < IZR (2 ^ 53)) by (apply IZR_lt; reflexivity). split; [now apply Rinv_0_lt_compat|].
    split; [field; lra|]. split; [change (2 ^ 53)%Z with (16 * 2 ^ 49)%Z; apply mult_IZR | apply IZR_le; apply Z.leb_le; reflexivity]. }
  destruct U as (U0 & U1 & U2 & U3).
  set (c := IZR (2 ^ 49)) in *. set (C := IZR (2 ^ 53)) in *.
  (* the quotient *)
  assert (DS : finite (b64_div mode_NE w y) = true /\ Rabs (R64 (b64_div mode_NE w y) - IZR n) <= 3 * u53 * Rabs (IZR n)).
  { assert (WA : Rabs (R64 w / R64 y) <= 2 * Rabs (IZR n)).
    { replace (R64 w / R64 y) with ((R64 w / R64 y - IZR n) + IZR n) by ring.
      eapply Rle_trans; [apply Rabs_triang|]. pose proof (Rabs_pos (IZR n)). nra. }
    pose proof (Binary.Bdiv_correct 53 1024 eq_refl eq_refl binop_nan_pl64 mode_NE w y ltac:(lra)) as DC.
    change (Binary.Bdiv 53 1024 eq_refl eq_refl binop_nan_pl64 mode_NE w y) with (b64_div mode_NE w y) in DC.
    change (round_mode mode_NE) with ZnearestE in DC. change (SpecFloat.fexp 53 1024) with fexp64 in DC.
    rewrite Rlt_bool_true in DC.
    2:{ apply small_lt_emax. change (2 ^ 60)%Z with (2048 * 2 ^ 49)%Z. rewrite mult_IZR. fold c. nra. }
    destruct DC as (V & F & _). split; [now rewrite F|]. rewrite V.
    destruct (Z.eq_dec n 0) as [N0|N0].
    - rewrite N0 in *. rewrite Rabs_R0 in *. assert (E : R64 w / R64 y = 0).
      { apply Rabs_eq_R0. pose proof (Rabs_pos (R64 w / R64 y)). lra. }
      rewrite E, round_0, Rminus_0_r, Rabs_R0 by typeclasses eauto. lra.
    - assert (N1 : 1 <= Rabs (IZR n)) by (rewrite <- abs_IZR; apply IZR_le; lia).
      assert (WL : / 2 <= Rabs (R64 w / R64 y)).
      { pose proof (Rabs_triang_inv (IZR n) (IZR n - R64 w / R64 y)) as T.
        replace (IZR n - (IZR n - R64 w / R64 y)) with (R64 w / R64 y) in T by ring.
        rewrite (Rabs_minus_sym (IZR n)) in T. nra. }
      pose proof (round_normal _ WL) as RN.
      replace (round radix2 fexp64 ZnearestE (R64 w / R64 y) - IZR n)
        with ((round radix2 fexp64 ZnearestE (R64 w / R64 y) - R64 w / R64 y) + (R64 w / R64 y - IZR n)) by ring.
      eapply Rle_trans; [apply Rabs_triang|]. nra. }
  destruct DS as (FD & ED). set (d := b64_div mode_NE w y) in *.
  (* the floor *)
  assert (FL : Zfloor Q = (if Req_bool (R64 r) 0 then n else if Rlt_bool (R64 x) 0 then n - 1 else n)%Z).
  { assert (TB : Rabs (Q - IZR n) < 1 /\ (0 <= Q -> 0 <= Q - IZR n) /\ (Q <= 0 -> Q - IZR n <= 0)).
    { rewrite NT. destruct (Rle_or_lt 0 Q) as [P|P].
      - rewrite Ztrunc_floor by assumption. pose proof (Zfloor_lb Q). pose proof (Zfloor_ub Q).
        split; [rewrite Rabs_pos_eq; lra|]. split; [lra|]. intros. assert (E : Q = 0) by lra. rewrite E, (Zfloor_IZR 0). lra.
      - rewrite Ztrunc_ceil by lra. pose proof (Zceil_ub Q). pose proof (Zceil_lb Q).
        split; [rewrite Rabs_left1; lra|]. split; lra. }
    destruct TB as (T1 & T2 & T3).
    destruct (Req_bool_spec (R64 r) 0) as [E|NE].
    - apply RZ in E. rewrite <- E. apply Zfloor_IZR.
    - assert (QN : Q - IZR n <> 0) by (intros E; apply NE, RZ; lra).
      apply Rabs_lt_inv in T1.
      destruct (Rlt_bool_spec (R64 x) 0) as [L|L].
      + assert (Q < 0) by nra. apply Zfloor_imp. rewrite minus_IZR, plus_IZR, minus_IZR. lra.
      + assert (0 <= Q) by nra. apply Zfloor_imp. rewrite plus_IZR. lra. }
  assert (MAIN : (let d' := match r with
                    | B754_finite _ _ s' _ _ _ => if Bool.eqb false s' then d else b64_minus mode_NE d b64_one
                    | _ => d
                    end in
          if finite d' then Whole_number (floor_guarded d') else Not_finite) = Whole_number (Zfloor Q)).
  { rewrite FL. clear FL.
    assert (NEAR : floor_guarded d = n).
    { apply floor_guarded_near; [exact FD|]. eapply Rle_lt_trans; [exact ED|]. nra. }
    destruct r as [s|s|s pl P|s m e P] eqn:ER; try discriminate FR.
    - cbn [B2R]. rewrite Req_bool_true by reflexivity. cbv zeta. now rewrite FD, NEAR.
    - assert (RNZ : R64 (B754_finite 53 1024 s m e P) <> 0).
      { cbn [B2R]. intros E. apply eq_0_F2R in E. now destruct s. }
      rewrite Req_bool_false by exact RNZ. specialize (SR RNZ). cbn [Bsign] in SR. subst s.
      destruct (Rlt_bool (R64 x) 0); cbn [Bool.eqb]; cbv zeta; [|now rewrite FD, NEAR].
      assert (DA : Rabs (R64 d) <= 2 * Rabs (IZR n)).
      { replace (R64 d) with ((R64 d - IZR n) + IZR n) by ring. eapply Rle_trans; [apply Rabs_triang|].
        pose proof (Rabs_pos (IZR n)). nra. }
      pose proof (Binary.Bminus_correct 53 1024 eq_refl eq_refl binop_nan_pl64 mode_NE d b64_one FD eq_refl) as M.
      change (Binary.Bminus 53 1024 eq_refl eq_refl binop_nan_pl64 mode_NE d b64_one) with (b64_minus mode_NE d b64_one) in M.
      change (round_mode mode_NE) with ZnearestE in M. change (SpecFloat.fexp 53 1024) with fexp64 in M.
      assert (ONE : R64 b64_one = 1) by (unfold b64_one; cbn; unfold F2R; cbn; lra).
      rewrite ONE in M.
      assert (D1 : Rabs (R64 d - 1) <= 2 * c + 1).
      { eapply Rle_trans; [apply Rabs_triang|]. rewrite Rabs_Ropp, Rabs_R1. lra. }
      rewrite Rlt_bool_true in M.
      2:{ apply small_lt_emax. change (2 ^ 60)%Z with (2048 * 2 ^ 49)%Z. rewrite mult_IZR. fold c. lra. }
      destruct M as (MV & MF & _). rewrite MF. f_equal. apply floor_guarded_near; [exact MF|]. rewrite MV, minus_IZR.
      assert (F1 : generic_format radix2 fexp64 (- (1))).
      { apply generic_format_opp. rewrite <- ONE. apply generic_format_B2R. }
      pose proof (round_sum (R64 d) (- (1)) (generic_format_B2R 53 1024 d) F1) as RS.
      replace (R64 d + - (1)) with (R64 d - 1) in RS by ring.
      replace (round radix2 fexp64 ZnearestE (R64 d - 1) - (IZR n - 1))
        with ((round radix2 fexp64 ZnearestE (R64 d - 1) - (R64 d - 1)) + (R64 d - IZR n)) by ring.
      eapply Rle_lt_trans; [apply Rabs_triang|]. 
      assert (D2 : Rabs (R64 d - 1) <= Rabs (IZR n) + 3 * u53 * Rabs (IZR n) + 1).
      { replace (R64 d - 1) with ((R64 d - IZR n) + (IZR n + - (1))) by ring. eapply Rle_trans; [apply Rabs_triang|].
        pose proof (Rabs_triang (IZR n) (- (1))) as T. rewrite Rabs_Ropp, Rabs_R1 in T. lra. }
      pose proof (Rabs_pos (IZR n)) as AP.
      assert (UA : u53 * Rabs (IZR n) <= / 16) by nra.
      assert (U4 : u53 <= / 1000) by nra.
      assert (D3 : u53 * Rabs (R64 d - 1) <= u53 * (Rabs (IZR n) + 3 * / 16 + 1)).
      { apply Rmult_le_compat_l; [lra|]. lra. }
      lra. }
  unfold b64_floordiv.
  destruct y as [sy|sy|sy pl P|sy my ey P]; try discriminate FY.
  - exfalso. cbn [B2R] in YP. lra.
  - assert (sy = false) as ->.
    { destruct sy; [|reflexivity]. exfalso. cbn [B2R] in YP. pose proof (F2R_lt_0 radix2 (Float radix2 (Z.neg my) ey) eq_refl) as L.
      cbn [cond_Zopp] in YP. change (- Z.pos my)%Z with (Z.neg my) in YP. lra. }
    destruct x as [sx|sx|sx pl' P'|sx mx ex P']; try discriminate FX; exact MAIN.
Qed.
