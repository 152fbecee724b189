(** Property C58: cells with coincident corners, in IEEE arithmetic. *)
From Coq Require Import ZArith Reals List Bool PeanoNat Lia Lra.
From Flocq Require Import IEEE754.BinarySingleNaN IEEE754.Binary IEEE754.Bits Core.
Import ListNotations.
From Verif Require Import Prelude Mat MatFacts Num Fields Util ComputeGrid Float64 Float64Facts SpecGrid SpecHalf TomitFacts TomitSpec
  MkGrid PropMkGrid Samples.

Local Open Scope nat_scope.

Notation nan64 x := (Binary.is_nan 53 1024 x = true).
Notation fin64 x := (Binary.is_finite 53 1024 x = true).
Notation val64 x := (Binary.B2R 53 1024 x).

(** What the C library promises at the points that matter: arccos is NaN above 1 and 0
    at 1; the sine of a zero is a zero, and no sine is infinite. *)
Record libm_ok (L : libm) : Prop := {
  acos_nan : forall x, nan64 x -> nan64 (lm_acos L x);
  acos_above : forall x, b64_ltb b64_one x = true -> nan64 (lm_acos L x);
  acos_one : forall x, b64_eqb x b64_one = true -> b64_eqb (lm_acos L x) b64_zero = true;
  sin_nan : forall x, nan64 x -> nan64 (lm_sin L x);
  sin_zero : forall x, b64_eqb x b64_zero = true -> b64_eqb (lm_sin L x) b64_zero = true;
  sin_bounded : forall x, fin64 (lm_sin L x) \/ nan64 (lm_sin L x)
}.

(** ** IEEE facts *)
Lemma plus_nan_l x y : nan64 x -> nan64 (b64_plus mode_NE x y).
Proof. destruct x; try discriminate. intros _. destruct y; reflexivity. Qed.
Lemma plus_nan_r x y : nan64 y -> nan64 (b64_plus mode_NE x y).
Proof. destruct y; try discriminate. intros _. destruct x; reflexivity. Qed.
Lemma minus_nan_l x y : nan64 x -> nan64 (b64_minus mode_NE x y).
Proof. destruct x; try discriminate. intros _. destruct y; reflexivity. Qed.
Lemma minus_nan_r x y : nan64 y -> nan64 (b64_minus mode_NE x y).
Proof. destruct y; try discriminate. intros _. destruct x; reflexivity. Qed.
Lemma mult_nan_l x y : nan64 x -> nan64 (b64_mult mode_NE x y).
Proof. destruct x; try discriminate. intros _. destruct y; reflexivity. Qed.
Lemma mult_nan_r x y : nan64 y -> nan64 (b64_mult mode_NE x y).
Proof. destruct y; try discriminate. intros _. destruct x; reflexivity. Qed.
Lemma div_nan_l x y : nan64 x -> nan64 (b64_div mode_NE x y).
Proof. destruct x; try discriminate. intros _. destruct y; reflexivity. Qed.
Lemma div_nan_r x y : nan64 y -> nan64 (b64_div mode_NE x y).
Proof. destruct y; try discriminate. intros _. destruct x; reflexivity. Qed.

Definition zero64 (x : binary64) : Prop := exists s, x = B754_zero 53 1024 s.

Lemma zero_of x : fin64 x -> val64 x = 0%R -> zero64 x.
Proof.
  destruct x as [s| | |s m e H]; try discriminate; [now exists s|]. intros _ E. exfalso.
  apply (F2R_neq_0 radix2 (Float radix2 (cond_Zopp s (Zpos m)) e)); [destruct s; discriminate | exact E].
Qed.
Lemma one_finite : fin64 b64_one.
Proof. vm_compute. reflexivity. Qed.
Lemma one_val : val64 b64_one = 1%R.
Proof. vm_compute. lra. Qed.
Lemma eqb_zero64 x : b64_eqb x b64_zero = true -> zero64 x.
Proof.
  unfold b64_eqb. destruct (b64_compare x b64_zero) as [[]|] eqn:E; try discriminate. intros _.
  destruct x as [s|s|s pl Hpl|s m e H]; [now exists s| | |].
  - destruct s; discriminate.
  - discriminate.
  - destruct s; discriminate.
Qed.
Lemma zero64_eqb x : zero64 x -> b64_eqb x b64_zero = true.
Proof. intros (s & ->). reflexivity. Qed.
Lemma eqb_finite x : b64_eqb x b64_one = true -> fin64 x.
Proof. destruct x as [s|s|s pl Hpl|s m e H]; try reflexivity; try discriminate; destruct s; discriminate. Qed.
Lemma eqb_one x : b64_eqb x b64_one = true -> fin64 x /\ val64 x = 1%R.
Proof.
  intros E. pose proof (eqb_finite _ E) as F. split; auto.
  apply b64_eqb_finite in E; auto using one_finite. now rewrite one_val in E.
Qed.

(** a value that is not below 1 is NaN, above 1, or equal to 1 *)
Lemma not_below x : b64_ltb x b64_one = false -> nan64 x \/ b64_ltb b64_one x = true \/ b64_eqb x b64_one = true.
Proof.
  intros E. destruct x as [s|s|s pl Hpl|s m e H].
  - discriminate.
  - destruct s; [discriminate|]. right. left. reflexivity.
  - left. reflexivity.
  - right. set (x := B754_finite 53 1024 s m e H) in *.
    assert (F : fin64 x) by reflexivity. clearbody x.
    destruct (Rtotal_order (val64 x) 1) as [H1 | [H1 | H1]].
    + exfalso. rewrite (proj2 (b64_ltb_finite _ _ F one_finite)) in E; [discriminate | now rewrite one_val].
    + right. apply b64_eqb_finite; auto using one_finite. now rewrite one_val.
    + left. apply b64_ltb_finite; auto using one_finite. now rewrite one_val.
Qed.

(** equal up to the payload of a NaN *)
Definition same (x y : binary64) : Prop := x = y \/ (nan64 x /\ nan64 y).
Lemma same_plus x y x' y' : same x x' -> same y y' -> same (b64_plus mode_NE x y) (b64_plus mode_NE x' y').
Proof.
  intros [<- | (A & B)] [<- | (C & D)]; try (left; reflexivity); right; split;
    auto using plus_nan_l, plus_nan_r.
Qed.
Lemma same_mult x y : same (b64_mult mode_NE x y) (b64_mult mode_NE y x).
Proof.
  destruct x as [sx|sx|sx px Hx|sx mx ex Hx], y as [sy|sy|sy py Hy|sy my ey Hy];
    try (right; split; reflexivity); try (left; cbn; now rewrite xorb_comm).
  left. set (x := B754_finite 53 1024 sx mx ex Hx). set (y := B754_finite 53 1024 sy my ey Hy).
  assert (Fx : fin64 x) by reflexivity. assert (Fy : fin64 y) by reflexivity. clearbody x y.
  unfold b64_mult.
  pose proof (Binary.Bmult_correct 53 1024 eq_refl eq_refl binop_nan_pl64 mode_NE x y) as A.
  pose proof (Binary.Bmult_correct 53 1024 eq_refl eq_refl binop_nan_pl64 mode_NE y x) as B.
  rewrite (Rmult_comm (val64 y)) in B. rewrite (xorb_comm (Binary.Bsign _ _ y)) in B.
  set (a := Binary.Bmult _ _ _ _ _ _ x y) in *. set (b := Binary.Bmult _ _ _ _ _ _ y x) in *.
  clearbody a b. destruct (Rlt_bool _ _).
  - destruct A as (A1 & A2 & A3), B as (B1 & B2 & B3). rewrite Fx, Fy in A2, B2. cbn [andb] in A2, B2.
    apply B2R_Bsign_inj; auto; [congruence|].
    assert (N : forall z : binary64, fin64 z -> Binary.is_nan 53 1024 z = false) by (intros [] ?; easy).
    rewrite A3, B3; auto.
  - apply B2FF_inj. congruence.
Qed.

Lemma times_one v x : fin64 v -> b64_eqb x b64_one = true ->
  fin64 (b64_mult mode_NE v x) /\ val64 (b64_mult mode_NE v x) = val64 v.
Proof.
  intros Fv E. apply eqb_one in E. destruct E as (Fx & Vx).
  pose proof (Binary.Bmult_correct 53 1024 eq_refl eq_refl binop_nan_pl64 mode_NE v x) as A.
  rewrite Vx, Rmult_1_r, round_generic in A by (first [apply valid_rnd_round_mode | apply generic_format_B2R]).
  rewrite Rlt_bool_true in A by apply abs_B2R_lt_emax.
  destruct A as (A1 & A2 & _). unfold b64_mult. rewrite A1, A2, Fv, Fx. auto.
Qed.

Lemma minus_self u w : fin64 u -> fin64 w -> val64 u = val64 w -> zero64 (b64_minus mode_NE u w).
Proof.
  intros Fu Fw E. unfold b64_minus.
  pose proof (Binary.Bminus_correct 53 1024 eq_refl eq_refl binop_nan_pl64 mode_NE u w Fu Fw) as A.
  replace (val64 u - val64 w)%R with 0%R in A by lra.
  rewrite round_0 in A by apply valid_rnd_round_mode.
  rewrite Rabs_R0, Rlt_bool_true in A by apply bpow_gt_0.
  destruct A as (A1 & A2 & _). now apply zero_of.
Qed.

(** u - v*1 for u and v the same: NaN or zero *)
Lemma difference u v x : same u v -> b64_eqb x b64_one = true ->
  let d := b64_minus mode_NE u (b64_mult mode_NE v x) in nan64 d \/ zero64 d.
Proof.
  intros [<- | (Nu & _)] E d; [|left; now apply minus_nan_l].
  destruct (Binary.is_finite 53 1024 u) eqn:Fu.
  - right. destruct (times_one u x Fu E) as (A & B). apply minus_self; auto.
  - left. destruct (eqb_one _ E) as (_ & V). subst d.
    destruct u as [|s|s pl H|]; try discriminate; [|reflexivity].
    destruct x as [sx|sx|sx px Hx|sx m e Hx]; try reflexivity; try (cbn in V; lra).
    destruct sx.
    + exfalso. unfold Binary.B2R in V. assert (F2R (Float radix2 (Zneg m) e) < 0)%R by now apply F2R_lt_0. cbn [cond_Zopp Z.opp] in V. lra.
    + destruct s; reflexivity.
Qed.

Lemma zero_times s z : fin64 s \/ nan64 s -> zero64 z ->
  (nan64 (b64_mult mode_NE s z) \/ zero64 (b64_mult mode_NE s z)) /\
  (nan64 (b64_mult mode_NE z s) \/ zero64 (b64_mult mode_NE z s)).
Proof.
  intros H (b & ->). destruct s as [s|s|s pl Hp|s m e Hm]; try (destruct H; discriminate).
  - split; right; eexists; reflexivity.
  - split; left; reflexivity.
  - split; right; eexists; reflexivity.
Qed.

Lemma zero_over_zero n d : nan64 n \/ zero64 n -> nan64 d \/ zero64 d -> nan64 (b64_div mode_NE n d).
Proof.
  intros [H | (a & ->)]; [intros _; now apply div_nan_l|]. intros [H | (b & ->)]; [now apply div_nan_r|]. reflexivity.
Qed.

Section Area.
Variable L : libm.
Hypothesis HL : libm_ok L.
Notation N := (b64ops L).

(** the angle computed from a side of length acos x, x not below 1 *)
Lemma angle_nan u v w x y s :
  same u v -> b64_ltb x b64_one = false -> fin64 s \/ nan64 s ->
  w = b64_mult mode_NE v x \/ w = b64_mult mode_NE x v ->
  (y = b64_mult mode_NE s (lm_sin L (lm_acos L x)) \/ y = b64_mult mode_NE (lm_sin L (lm_acos L x)) s) ->
  nan64 (lm_acos L (b64_div mode_NE (b64_minus mode_NE u w) y)).
Proof.
  intros S X Hs Hw Hy. apply (acos_nan _ HL).
  assert (A : nan64 x \/ b64_ltb b64_one x = true -> nan64 y).
  { intros A. assert (B : nan64 (lm_sin L (lm_acos L x))).
    { apply (sin_nan _ HL). destruct A as [A | A]; [now apply acos_nan | now apply acos_above]. }
    destruct Hy as [-> | ->]; [now apply mult_nan_r | now apply mult_nan_l]. }
  destruct (not_below x X) as [B | [B | B]]; try (apply div_nan_r; apply A; tauto).
  apply zero_over_zero.
  - destruct Hw as [-> | ->]; [now apply difference|].
    destruct (same_mult x v) as [E | (E & _)]; [rewrite E; now apply difference | left; now apply minus_nan_r].
  - assert (Z : zero64 (lm_sin L (lm_acos L x))) by (apply eqb_zero64, (sin_zero _ HL), (acos_one _ HL), B).
    destruct (zero_times s _ Hs Z). destruct Hy as [-> | ->]; auto.
Qed.

Lemma same_refl x : same x x. Proof. now left. Qed.
Lemma dot_same a b : same (dot N a b) (dot N b a).
Proof.
  destruct a as ((a1 & a2) & a3), b as ((b1 & b2) & b3). unfold dot. cbn [nadd nmul b64ops].
  repeat apply same_plus; apply same_mult.
Qed.

(** two corners that coincide, with a computed self product that is not below 1 *)
Definition touch (a b : binary64 * binary64 * binary64) : Prop := a = b /\ b64_ltb (dot N a a) b64_one = false.

Lemma tri_nan a b c : touch a b \/ touch b c \/ touch a c ->
  let '(A, B, C) := tri_angles N a b c in nan64 A \/ nan64 B \/ nan64 C.
Proof.
  intros [(E & H) | [(E & H) | (E & H)]]; unfold tri_angles; cbn [nacos nsin ndiv nsub nmul b64ops]; subst.
  - left. apply angle_nan with (v := dot N b c) (x := dot N b b) (s := lm_sin L (lm_acos L (dot N b c))); auto.
    + apply same_refl.
    + apply (sin_bounded _ HL).
  - right. left. apply angle_nan with (v := dot N a c) (x := dot N c c) (s := lm_sin L (lm_acos L (dot N a c))); auto.
    + apply same_refl.
    + apply (sin_bounded _ HL).
  - left. apply angle_nan with (v := dot N c b) (x := dot N c c) (s := lm_sin L (lm_acos L (dot N c b))); auto.
    + apply dot_same.
    + apply (sin_bounded _ HL).
Qed.

Lemma squad_nan A B C D :
  touch A B \/ touch B C \/ touch A C \/ touch C D \/ touch A D -> nan64 (squad1 N A B C D).
Proof.
  intros H. assert (T : (touch A B \/ touch B C \/ touch A C) \/ (touch A C \/ touch C D \/ touch A D)) by tauto.
  unfold squad1. pose proof (tri_nan A B C) as T1. pose proof (tri_nan A C D) as T2.
  destruct (tri_angles N A B C) as ((A1 & B1) & C1), (tri_angles N A C D) as ((A2 & B2) & C2).
  cbn [nsub nadd b64ops]. apply minus_nan_l.
  destruct T as [T | T].
  - do 3 apply plus_nan_l. destruct (T1 T) as [X | [X | X]].
    + now do 2 apply plus_nan_l.
    + apply plus_nan_l. now apply plus_nan_r.
    + now apply plus_nan_r.
  - destruct (T2 T) as [X | [X | X]].
    + do 2 apply plus_nan_l. now apply plus_nan_r.
    + apply plus_nan_l. now apply plus_nan_r.
    + now apply plus_nan_r.
Qed.

Lemma sum4_nan x y z t : nan64 x \/ nan64 y \/ nan64 z \/ nan64 t ->
  b64_eqb x b64_zero = false -> b64_eqb y b64_zero = false -> b64_eqb z b64_zero = false -> b64_eqb t b64_zero = false ->
  nan64 (sum4 N x y z t).
Proof.
  intros H X Y Z T. unfold sum4, is0. cbn [neqb nzero nadd b64ops].
  assert (S : forall w, b64_eqb w b64_zero = false -> b64_eqb b64_zero w = false).
  { intros w Hw. destruct (b64_eqb b64_zero w) eqn:E; auto. rewrite <- Hw. symmetry. apply zero64_eqb.
    destruct w as [s|s|s pl Hp|s m e Hm]; [now exists s | | |]; try discriminate; destruct s; discriminate. }
  rewrite (S x), (S y), (S z), (S t) by auto. cbn [orb].
  destruct H as [H | [H | [H | H]]].
  - now do 3 apply plus_nan_l.
  - do 2 apply plus_nan_l. now apply plus_nan_r.
  - apply plus_nan_l. now apply plus_nan_r.
  - now apply plus_nan_r.
Qed.
End Area.

(** ** C58 *)

(** The spherical area of a quarter cell two of whose corners coincide (neighbours, or the
    two on the diagonal along which it is cut) is NaN, whatever the other corners are. *)
Theorem C58_coincident_corners : forall L A B C D, libm_ok L ->
  touch L A B \/ touch L B C \/ touch L A C \/ touch L C D \/ touch L A D ->
  nan64 (squad1 (b64ops L) A B C D).
Proof. intros. now apply squad_nan. Qed.

(** A quarter of NaN area. *)
Lemma nan_quarter_RAC L G (cg : mat (binary64 * binary64)) p q i j a b :
  mrows cg = 2 * p + 3 -> mcols cg = 2 * q + 3 -> i < p -> j < q -> a <= 1 -> b <= 1 ->
  let H u v := mat_at cg (1 + u) (1 + v) in
  flat_enough (b64ops L) G H p q = false ->
  nan64 (quarter (b64ops L) G H false (2 * i + a) (2 * j + b)) ->
  exists g, tomitgrid64 L G cg 0 1 (1 + 2 * p) (1 + 2 * p + 1) 0 1 (1 + 2 * q) (1 + 2 * q + 1) = Ok g /\
    (nan64 (mat_at (g RAC) i j) \/
     exists a' b', a' <= 1 /\ b' <= 1 /\ (a', b') <> (a, b) /\
       b64_eqb (quarter (b64ops L) G H false (2 * i + a') (2 * j + b')) b64_zero = true).
Proof.
  intros Hr Hc Hi Hj Ha Hb H Hf Q.
  destruct (tomitgrid64_ok L G cg p q Hr Hc) as (g & E & Hg). exists g. split; auto.
  pose proof (grid_of_areas _ _ _ _ _ _ Hg) as (A1 & _). rewrite (A1 i j Hi Hj). clear A1.
  fold H. rewrite Hf.
  set (Z w := b64_eqb w b64_zero).
  set (qq a b := quarter (b64ops L) G H false (2 * i + a) (2 * j + b)). 
  assert (D : forall a' b', a' <= 1 -> b' <= 1 -> Z (qq a' b') = false \/
    exists a' b', a' <= 1 /\ b' <= 1 /\ (a', b') <> (a, b) /\ Z (qq a' b') = true).
  { intros a' b' Ha' Hb'. destruct (Z (qq a' b')) eqn:Ez; auto. right. exists a', b'. repeat split; auto.
    intros X. injection X as -> ->. unfold qq, Z in Ez.
    destruct (quarter (b64ops L) G H false (2 * i + a) (2 * j + b)); discriminate. }
  destruct (D 0 0) as [D00 | X]; auto. destruct (D 1 0) as [D10 | X]; auto.
  destruct (D 1 1) as [D11 | X]; auto. destruct (D 0 1) as [D01 | X]; auto.
  left.
  assert (P : nan64 (qq 0 0) \/ nan64 (qq 1 0) \/ nan64 (qq 1 1) \/ nan64 (qq 0 1)).
  { fold (qq a b) in Q. destruct a as [|[|a]], b as [|[|b]]; try lia; auto. }
  pose proof (sum4_nan L (qq 0 0) (qq 1 0) (qq 1 1) (qq 0 1) P D00 D10 D11 D01) as R.
  unfold qq in R. rewrite !Nat.add_0_r in R. exact R.
Qed.

(** In a grid: the tracer cell containing such a quarter has RAC = NaN.  The zero test does
    not catch the NaN; only a different quarter of area exactly zero makes it 0. *)
Theorem C58_degenerate_RAC : forall L G (cg : mat (binary64 * binary64)) p q i j a b,
  libm_ok L -> mrows cg = 2 * p + 3 -> mcols cg = 2 * q + 3 -> i < p -> j < q -> a <= 1 -> b <= 1 ->
  let H u v := mat_at cg (1 + u) (1 + v) in
  let c u v := cart1 (b64ops L) (fst (H u v)) (snd (H u v)) in
  let u := 2 * i + a in let v := 2 * j + b in
  flat_enough (b64ops L) G H p q = false ->
  touch L (c u v) (c (u + 1) v) \/ touch L (c (u + 1) v) (c (u + 1) (v + 1)) \/
    touch L (c u v) (c (u + 1) (v + 1)) \/ touch L (c (u + 1) (v + 1)) (c u (v + 1)) \/ touch L (c u v) (c u (v + 1)) ->
  exists g, tomitgrid64 L G cg 0 1 (1 + 2 * p) (1 + 2 * p + 1) 0 1 (1 + 2 * q) (1 + 2 * q + 1) = Ok g /\
    (nan64 (mat_at (g RAC) i j) \/
     exists a' b', a' <= 1 /\ b' <= 1 /\ (a', b') <> (a, b) /\
       b64_eqb (quarter (b64ops L) G H false (2 * i + a') (2 * j + b')) b64_zero = true).
Proof.
  intros L G cg p q i j a b HL Hr Hc Hi Hj Ha Hb H c u v Hf Ht. apply nan_quarter_RAC; auto.
  unfold quarter. cbn [nmul b64ops]. apply mult_nan_l. now apply squad_nan.
Qed.

(** A C library that meets the contract. *)
Definition lib58 : libm :=
  {| lm_sin := fun x => if Binary.is_finite 53 1024 x then x else b64_nan;
     lm_cos := fun x => if b64_eqb x b64_zero then b64_one else b64_half;
     lm_acos := fun x => if b64_ltb x b64_one then b64_half else if b64_eqb x b64_one then b64_zero else b64_nan;
     lm_mean := fun l => nth 0 l b64_zero |}.
Example lib58_ok : libm_ok lib58.
Proof.
  split; cbn [lm_acos lm_sin lib58].
  - intros [| | |] E; try discriminate. reflexivity.
  - intros x E. destruct (b64_ltb x b64_one) eqn:F.
    { pose proof (b64_ltb_trans x b64_one x F E) as X. rewrite b64_ltb_irrefl in X. discriminate. }
    destruct (b64_eqb x b64_one) eqn:G; [|reflexivity].
    exfalso. apply eqb_one in G. destruct G as (Fx & V). apply b64_ltb_finite in E; auto using one_finite.
    rewrite one_val in E. lra.
  - intros x E. destruct (b64_ltb x b64_one) eqn:F; [|now rewrite E].
    apply eqb_one in E. destruct E as (Fx & V). apply b64_ltb_finite in F; auto using one_finite. rewrite one_val in F. lra.
  - intros [| | |] E; try discriminate. reflexivity.
  - intros x E. apply eqb_zero64 in E. destruct E as (s & ->). reflexivity.
  - intros x. destruct (Binary.is_finite 53 1024 x) eqn:E; auto.
Qed.

(** Longitudes 0, 0, 1, 2, 3 and latitudes 0, 1, 2, 3, 4 at the five half-cell positions: the
    quarter at the origin is degenerate. *)
Definition cg58 : mat (binary64 * binary64) :=
  mkmat 7 7 (fun i j => (ex_int (Z.of_nat (i - 2)), ex_int (Z.of_nat (j - 1)))).
Definition geod58 : geod binary64 :=
  {| g_inv := fun p q => b64_1e10; g_npt := fun p _ _ _ => p; g_a := ex_int 1 |}.
Definition nans (L : libm) (G : geod binary64) (cg : mat (binary64 * binary64)) p q : option (list (list bool)) :=
  match tomitgrid64 L G cg 0 1 (1 + 2 * p) (1 + 2 * p + 1) 0 1 (1 + 2 * q) (1 + 2 * q + 1) with
  | Ok g => Some (map (fun i => map (fun j => Binary.is_nan 53 1024 (mat_at (g RAC) i j)) (seq 0 q)) (seq 0 p))
  | Err _ => None
  end.
Example C58_case :
  let H u v := mat_at cg58 (1 + u) (1 + v) in
  let c u v := cart1 (b64ops lib58) (fst (H u v)) (snd (H u v)) in
  flat_enough (b64ops lib58) geod58 H 2 2 = false /\ touch lib58 (c 0 0) (c 1 0) /\
  nans lib58 geod58 cg58 2 2 = Some [[true; false]; [false; false]].
Proof.
  split; [vm_compute; reflexivity|]. split; [|vm_compute; reflexivity].
  split; [reflexivity | vm_compute; reflexivity].
Qed.
