(** Properties C10-C12: filling a compute grid. *)
From Coq Require Import ZArith String List Bool PeanoNat Lia Permutation Reals Lra.
From Flocq Require Import IEEE754.BinarySingleNaN IEEE754.Binary IEEE754.Bits Core.
Import ListNotations.
From Verif Require Import Prelude PreludeFacts Mat MatFacts Num Float64 Float64Facts Util ComputeGrid
  ComputeGridFacts SpecHalf RefineFacts Samples PropUtil.
Local Open Scope nat_scope.
Local Open Scope list_scope.
Local Arguments Nat.mul : simpl never.

(** fill at binary64; [o1], [o2] give the visiting order of its two loops. *)
Definition fill64 (L : libm) (G : geod binary64) := fill_ord (b64ops L) G.

Definition layouts (o : nat -> nat -> list (nat * nat)) : Prop := forall r c, layout (o r c) r c.

Lemma layouts_order_ok o : layouts o -> order_ok o.
Proof. intros H r c. apply layout_perm, H. Qed.
Lemma layouts_indices : layouts indices.
Proof. intros r c. apply perm_layout. apply Permutation_refl. Qed.

(** The region to be filled: m x n cells from (ilb,jlb), inside the array. *)
Definition region (g : mat (binary64 * binary64)) ilb jlb ls lt m n : Prop :=
  1 <= ls /\ 1 <= lt /\ 1 <= m /\ 1 <= n /\
  ilb + 2 * ls * m < mrows g /\ jlb + 2 * lt * n < mcols g.

(** ** C10 *)
Theorem C10_fill_preserves : forall (L : libm) (G : geod binary64) o1 o2 g ilb jlb ls lt m n,
  layouts o1 -> layouts o2 -> region g ilb jlb ls lt m n ->
  exists g', fill64 L G o1 o2 g ilb (ilb + 2 * ls * m) jlb (jlb + 2 * lt * n) ls lt = Ok g' /\
    mrows g' = mrows g /\ mcols g' = mcols g /\
    (forall a b, a <= m -> b <= n ->
       mat_at g' (ilb + 2 * ls * a) (jlb + 2 * lt * b) =
       mat_at g (ilb + 2 * ls * a) (jlb + 2 * lt * b)) /\
    (forall i j, (i < ilb \/ ilb + 2 * ls * m < i \/ j < jlb \/ jlb + 2 * lt * n < j) ->
       mat_at g' i j = mat_at g i j).
Proof.
  intros L G o1 o2 g ilb jlb ls lt m n Ho1 Ho2 (H1 & H2 & H3 & H4 & H5 & H6).
  destruct (fill_ok (b64ops L) G g ilb jlb ls lt m n o1 o2) as (g' & E & Hr & Hc & Hin & Hout);
    auto using layouts_order_ok.
  exists g'. repeat split; auto. intros a b Ha Hb. rewrite Hin by nia.
  destruct (fillXY_subdivides (b64ops L) G (lon0to360 (b64ops L) g) g ilb jlb ls lt m n) as (S1 & _); auto.
Qed.

(** A 1x1 region of a 4x4 compute grid inside a zero ring. *)
Definition ex_cg : mat (binary64 * binary64) :=
  mkmat 7 5 (fun i j => if (i mod 4 =? 1) && (j mod 2 =? 1)
                        then (ex_int (Z.of_nat i), ex_int (Z.of_nat j)) else (b64_zero, b64_zero)).
Definition ptbits (r : res (mat (binary64 * binary64))) i j : option (Z * Z) :=
  match r with Ok g => Some (bits_of_b64 (fst (mat_at g i j)), bits_of_b64 (snd (mat_at g i j)))
  | Err _ => None end.
Definition ibits (z : Z) : Z := bits_of_b64 (ex_int z).

Example C10_case :
  region ex_cg 1 1 2 1 1 1 /\
  let r := fill64 ex_libm ex_geod indices indices ex_cg 1 5 1 3 2 1 in
  ptbits r 5 3 = Some (ibits 5, ibits 3) /\ ptbits r 3 2 = Some (ibits 3, ibits 2) /\
  ptbits r 6 3 = Some (0, 0)%Z.
Proof. split; [unfold region; simpl; lia|]. vm_compute. auto. Qed.

(** ** C11 *)
Theorem C11_fill_subdivides : forall (L : libm) (G : geod binary64) o1 o2 g ilb jlb ls lt m n,
  layouts o1 -> layouts o2 -> region g ilb jlb ls lt m n ->
  exists g', fill64 L G o1 o2 g ilb (ilb + 2 * ls * m) jlb (jlb + 2 * lt * n) ls lt = Ok g' /\
    let pos := negb (existsb (fun p => b64_ltb (fst p) b64_zero) (entries g)) in
    subdivides (b64ops L) G pos
      (fun a b => mat_at g (ilb + 2 * ls * a) (jlb + 2 * lt * b)) ls lt m n
      (fun u v => mat_at g' (ilb + u) (jlb + v)).
Proof.
  intros L G o1 o2 g ilb jlb ls lt m n Ho1 Ho2 (H1 & H2 & H3 & H4 & H5 & H6).
  destruct (fill_ok (b64ops L) G g ilb jlb ls lt m n o1 o2) as (g' & E & Hr & Hc & Hin & Hout);
    auto using layouts_order_ok.
  exists g'. split; auto. intros pos.
  destruct (fillXY_subdivides (b64ops L) G (lon0to360 (b64ops L) g) g ilb jlb ls lt m n) as (S1 & S2 & S3); auto.
  split; [|split].
  - intros a b Ha Hb. rewrite Hin by nia. apply S1; auto.
  - intros a b k Ha Hb Hk. rewrite Hin by nia. rewrite S2 by auto. reflexivity.
  - intros u b l Hu Hb Hl. rewrite !Hin by nia. rewrite S3 by auto. reflexivity.
Qed.

Theorem C11_fill_order_independent : forall (L : libm) (G : geod binary64) o1 o2 o1' o2' g ilb jlb ls lt m n,
  layouts o1 -> layouts o2 -> layouts o1' -> layouts o2' -> region g ilb jlb ls lt m n ->
  exists g1 g2,
    fill64 L G o1 o2 g ilb (ilb + 2 * ls * m) jlb (jlb + 2 * lt * n) ls lt = Ok g1 /\
    fill64 L G o1' o2' g ilb (ilb + 2 * ls * m) jlb (jlb + 2 * lt * n) ls lt = Ok g2 /\
    meq g1 g2.
Proof.
  intros L G o1 o2 o1' o2' g ilb jlb ls lt m n Ho1 Ho2 Ho1' Ho2' (H1 & H2 & H3 & H4 & H5 & H6).
  destruct (fill_ok (b64ops L) G g ilb jlb ls lt m n o1 o2) as (g1 & E1 & Hr1 & Hc1 & Hin1 & Hout1);
    auto using layouts_order_ok.
  destruct (fill_ok (b64ops L) G g ilb jlb ls lt m n o1' o2') as (g2 & E2 & Hr2 & Hc2 & Hin2 & Hout2);
    auto using layouts_order_ok.
  exists g1, g2. split; auto. split; auto. split; [congruence|]. split; [congruence|].
  intros i j Hi Hj.
  assert (Hd : (ilb <= i <= ilb + 2 * ls * m /\ jlb <= j <= jlb + 2 * lt * n) \/
    (i < ilb \/ ilb + 2 * ls * m < i \/ j < jlb \/ jlb + 2 * lt * n < j)) by lia.
  destruct Hd as [Hd|Hd].
  - replace i with (ilb + (i - ilb)) by lia. replace j with (jlb + (j - jlb)) by lia.
    rewrite Hin1, Hin2 by lia. reflexivity.
  - rewrite Hout1, Hout2 by auto. reflexivity.
Qed.

Example C11_case :
  layouts (fun r c => rev (indices r c)) /\ region ex_cg 1 1 2 1 1 1 /\
  ptbits (fill64 ex_libm ex_geod (fun r c => rev (indices r c)) indices ex_cg 1 5 1 3 2 1) 2 2
  = Some (ibits 2, ibits 2).
Proof.
  split; [|split; [unfold region; simpl; lia|vm_compute; reflexivity]].
  intros r c. apply perm_layout. apply Permutation_sym, Permutation_rev.
Qed.

(** ** C12 *)
Lemma add360_nonneg (x : binary64) :
  is_finite 53 1024 x = true -> (-180 <= B2R 53 1024 x)%R -> b64_ltb x b64_zero = true ->
  b64_ltb (b64_plus mode_NE x b64_360) b64_zero = false.
Proof.
  intros Hf Hlo Hneg.
  apply b64_ltb_finite in Hneg; auto. change (B2R 53 1024 b64_zero) with 0%R in Hneg.
  assert (E360 : B2R 53 1024 b64_360 = 360%R).
  { unfold b64_360, b64_of_bits, B2R, binary_float_of_bits. cbn.
    unfold F2R. cbn. unfold IZR, IPR, IPR_2. cbn. lra. }
  pose proof (Bplus_correct 53 1024 eq_refl eq_refl binop_nan_pl64 mode_NE x b64_360 Hf eq_refl) as Hp.
  rewrite E360 in Hp.
  set (v := round radix2 (SpecFloat.fexp 53 1024) (round_mode mode_NE) (B2R 53 1024 x + 360)) in *.
  assert (Hlow : (0 <= v)%R).
  { apply round_ge_generic; [apply fexp_correct; reflexivity|apply valid_rnd_round_mode|apply generic_format_0|lra]. }
  assert (Hhigh : (v <= 360)%R).
  { apply round_le_generic; [apply fexp_correct; reflexivity|apply valid_rnd_round_mode| |lra].
    rewrite <- E360. apply generic_format_B2R. }
  rewrite Rlt_bool_true in Hp.
  2:{ rewrite Rabs_pos_eq by auto. apply Rle_lt_trans with 360%R; auto.
      rewrite <- E360. apply Rle_lt_trans with (Rabs (B2R 53 1024 b64_360)); [apply Rle_abs|].
      apply abs_B2R_lt_emax. }
  destruct Hp as (HR & Hfin & _).
  apply not_true_iff_false. intros H. apply b64_ltb_finite in H; auto.
  change (B2R 53 1024 b64_zero) with 0%R in H.
  change (b64_plus mode_NE x b64_360) with (Bplus 53 1024 eq_refl eq_refl binop_nan_pl64 mode_NE x b64_360) in H.
  rewrite HR in H. lra.
Qed.

(** The geodesic library returns finite longitudes in [-180,180]. *)
Definition lon_range (G : geod binary64) : Prop := forall p q n k,
  is_finite 53 1024 (fst (g_npt G p q n k)) = true /\
  (-180 <= B2R 53 1024 (fst (g_npt G p q n k)) <= 180)%R.

Theorem C12_longitudes_0_360 : forall (L : libm) (G : geod binary64) o1 o2 g ilb jlb ls lt m n,
  layouts o1 -> layouts o2 -> region g ilb jlb ls lt m n -> lon_range G ->
  (forall i j, i < mrows g -> j < mcols g -> b64_ltb (fst (mat_at g i j)) b64_zero = false) ->
  exists g', fill64 L G o1 o2 g ilb (ilb + 2 * ls * m) jlb (jlb + 2 * lt * n) ls lt = Ok g' /\
  forall i j, i < mrows g' -> j < mcols g' -> b64_ltb (fst (mat_at g' i j)) b64_zero = false.
Proof.
  intros L G o1 o2 g ilb jlb ls lt m n Ho1 Ho2 Hreg HG Hpos.
  pose proof Hreg as (H1 & H2 & H3 & H4 & H5 & H6).
  destruct (fill_ok (b64ops L) G g ilb jlb ls lt m n o1 o2) as (g' & E & Hr & Hc & Hin & Hout);
    auto using layouts_order_ok.
  exists g'. split; auto. intros i j Hi Hj.
  assert (Hw : lon0to360 (b64ops L) g = true).
  { unfold lon0to360. apply negb_true_iff, not_true_iff_false. intros Hex. apply existsb_exists in Hex.
    destruct Hex as (x & Hx & Hneg). unfold entries in Hx. apply in_map_iff in Hx.
    destruct Hx as ((a, b) & <- & Hab). apply in_indices in Hab. cbn [fst snd] in Hneg.
    change (b64_ltb (fst (mat_at g a b)) b64_zero = true) in Hneg.
    rewrite Hpos in Hneg by tauto. discriminate. }
  assert (Hfix : forall p q n k, b64_ltb (fst (fix_lon (b64ops L) true (g_npt G p q n k))) b64_zero = false).
  { intros p q n0 k. unfold fix_lon. cbn [andb]. change (nltb (b64ops L)) with b64_ltb.
    change (nzero (b64ops L)) with b64_zero.
    destruct (b64_ltb (fst (g_npt G p q n0 k)) b64_zero) eqn:En; [|exact En].
    apply add360_nonneg; auto; apply HG. }
  assert (Hsub : forall p q n k, b64_ltb (fst p) b64_zero = false ->
    b64_ltb (fst (subdiv (b64ops L) G true p q n k)) b64_zero = false).
  { intros p q n0 [|k] Hp; cbn [subdiv]; auto. }
  assert (Hd : (ilb <= i <= ilb + 2 * ls * m /\ jlb <= j <= jlb + 2 * lt * n) \/
    (i < ilb \/ ilb + 2 * ls * m < i \/ j < jlb \/ jlb + 2 * lt * n < j)) by lia.
  destruct Hd as [Hd|Hd].
  - replace i with (ilb + (i - ilb)) by lia. replace j with (jlb + (j - jlb)) by lia.
    rewrite Hin by lia. rewrite Hw. apply Hsub. apply Hsub. apply Hpos.
    + pose proof (Nat.div_mod (i - ilb) (2 * ls)). nia.
    + pose proof (Nat.div_mod (j - jlb) (2 * lt)). nia.
  - rewrite Hout by auto. apply Hpos; lia.
Qed.

(** With a negative longitude anywhere in the grid, the library's points are stored as they are. *)
Theorem C12_longitudes_unchanged : forall (L : libm) (G : geod binary64) o1 o2 g ilb jlb ls lt m n i0 j0,
  layouts o1 -> layouts o2 -> region g ilb jlb ls lt m n ->
  i0 < mrows g -> j0 < mcols g -> b64_ltb (fst (mat_at g i0 j0)) b64_zero = true ->
  exists g', fill64 L G o1 o2 g ilb (ilb + 2 * ls * m) jlb (jlb + 2 * lt * n) ls lt = Ok g' /\
    (forall a b k, a < m -> b <= n -> 0 < k < 2 * ls ->
       mat_at g' (ilb + (2 * ls * a + k)) (jlb + 2 * lt * b) =
       g_npt G (mat_at g (ilb + 2 * ls * a) (jlb + 2 * lt * b))
               (mat_at g (ilb + 2 * ls * (a + 1)) (jlb + 2 * lt * b)) (2 * ls - 1) (k - 1)) /\
    (forall u b l, u <= 2 * ls * m -> b < n -> 0 < l < 2 * lt ->
       mat_at g' (ilb + u) (jlb + (2 * lt * b + l)) =
       g_npt G (mat_at g' (ilb + u) (jlb + 2 * lt * b))
               (mat_at g' (ilb + u) (jlb + 2 * lt * (b + 1))) (2 * lt - 1) (l - 1)).
Proof.
  intros L G o1 o2 g ilb jlb ls lt m n i0 j0 Ho1 Ho2 Hreg Hi0 Hj0 Hneg.
  destruct (C11_fill_subdivides L G o1 o2 g ilb jlb ls lt m n Ho1 Ho2 Hreg) as (g' & E & Hs).
  cbv zeta in Hs.
  assert (Hw : existsb (fun p => b64_ltb (fst p) b64_zero) (entries g) = true).
  { apply existsb_exists. exists (mat_at g i0 j0). split; auto. unfold entries. apply in_map_iff.
    exists (i0, j0). split; auto. apply in_indices. auto. }
  rewrite Hw in Hs. destruct Hs as (_ & S2 & S3). exists g'. split; auto.
Qed.

Definition ex_cg_neg : mat (binary64 * binary64) :=
  mkmat 5 5 (fun i j => if (i mod 2 =? 1) && (j mod 2 =? 1)
                        then (ex_int (Z.of_nat i - 2), ex_int (Z.of_nat j)) else (b64_zero, b64_zero)).
(** A geodesic that always answers longitude -1. *)
Definition ex_m1 : binary64 := B754_finite 53 1024 true 4503599627370496 (-52) eq_refl.
Definition ex_geod_w : geod binary64 :=
  {| g_inv := g_inv ex_geod; g_npt := fun _ _ _ _ => (ex_m1, ex_int 0); g_a := ex_int 1 |}.
Example C12_case :
  lon_range ex_geod_w /\
  region ex_cg 1 1 2 1 1 1 /\
  ptbits (fill64 ex_libm ex_geod_w indices indices ex_cg 1 5 1 3 2 1) 2 2 = Some (ibits 359, ibits 0) /\
  region ex_cg_neg 1 1 1 1 1 1 /\ b64_ltb (fst (mat_at ex_cg_neg 1 1)) b64_zero = true /\
  ptbits (fill64 ex_libm ex_geod_w indices indices ex_cg_neg 1 3 1 3 1 1) 2 2 = Some (ibits (-1), ibits 0).
Proof.
  split.
  { intros p q n k. cbn [g_npt ex_geod_w fst]. split; [reflexivity|].
    unfold ex_m1, B2R, F2R. cbn. lra. }
  split; [unfold region; simpl; lia|].
  split; [vm_compute; reflexivity|].
  split; [unfold region; simpl; lia|].
  split; vm_compute; reflexivity.
Qed.
