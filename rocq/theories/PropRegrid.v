(** Properties C18-C25: regrid. *)
From Coq Require Import ZArith String List Bool PeanoNat Lia Permutation Init.Byte.
From Flocq Require Import IEEE754.Binary IEEE754.Bits.
Import ListNotations.
From Verif Require Import Prelude PreludeFacts Mat MatFacts Num Fields GridIO Float64 Float64Facts Util UtilFacts
  ComputeGrid ComputeGridFacts SpecGrid SpecHalf GridIOProofs TomitFacts TomitSpec Refine MkGrid RefineFacts Regrid
  RegridFacts SpecRegrid SourceFacts Samples PropUtil PropFill PropMkGrid.
Local Open Scope nat_scope.
Local Open Scope list_scope.
Local Arguments Nat.mul : simpl never.

(** The source supplies two usable matrices of corner points. *)
Definition usable (L : libm) loadtxt fs (a : regrid_args binary64) (xg yg : mat binary64) : Prop :=
  exists d, supplies (b64ops L) b64codec loadtxt fs a d /\ d XG = Arr xg /\ d YG = Arr yg /\ same_shape xg yg.

(** The points found for the two requested corners. *)
Definition corners_at (G : geod binary64) (lay : nat -> nat -> list (nat * nat)) (a : regrid_args binary64)
    (xg yg : mat binary64) (i1 j1 i2 j2 : nat) : Prop :=
  is_nearest G (lay (mrows xg) (mcols xg)) (ra_lon1 a) (ra_lat1 a) xg yg i1 j1 /\
  is_nearest G (lay (mrows xg) (mcols xg)) (ra_lon2 a) (ra_lat2 a) xg yg i2 j2.

Definition subscales (a : regrid_args binary64) (ls lt : nat) : Prop :=
  ra_lon_subscale a = Z.of_nat ls /\ ra_lat_subscale a = Z.of_nat lt /\ 1 <= ls /\ 1 <= lt.

(** [m'] is [m] after [k] quarter turns counterclockwise (np.rot90). *)
Definition is_turned {A} (k : nat) (m m' : mat A) : Prop :=
  match k with
  | 0 => mat_is m' (mrows m) (mcols m) (fun i j => mat_at m i j)
  | 1 => mat_is m' (mcols m) (mrows m) (fun i j => mat_at m j (mcols m - 1 - i))
  | 2 => mat_is m' (mrows m) (mcols m) (fun i j => mat_at m (mrows m - 1 - i) (mcols m - 1 - j))
  | _ => mat_is m' (mcols m) (mrows m) (fun i j => mat_at m (mrows m - 1 - j) i)
  end.

Lemma turned_iter {A} k (m : mat A) : k <= 3 -> is_turned k m (Nat.iter k rot90 m).
Proof.
  intros Hk. destruct k as [|[|[|[|]]]]; try lia; cbn [Nat.iter nat_rect is_turned];
    (repeat split; cbn [rot90 mrows mcols mat_at]; auto); intros i j Hi Hj; f_equal; lia.
Qed.

Lemma turns_eq i1 j1 i2 j2 : turns i1 j1 i2 j2 = quarter_turns i1 j1 i2 j2.
Proof. unfold turns, quarter_turns. destruct (i1 <? i2), (j2 <? j1); reflexivity. Qed.
Lemma pick_eq i1 j1 i2 j2 a b : pick i1 j1 i2 j2 a b = source_index i1 j1 i2 j2 a b.
Proof. unfold pick, source_index. destruct (i1 <? i2), (j2 <? j1); reflexivity. Qed.
Lemma cells_i_eq i1 j1 i2 j2 : cells_i i1 j1 i2 j2 = out_ni i1 j1 i2 j2.
Proof. unfold cells_i, out_ni, gap, distance. destruct (Bool.eqb _ _); lia. Qed.
Lemma cells_j_eq i1 j1 i2 j2 : cells_j i1 j1 i2 j2 = out_nj i1 j1 i2 j2.
Proof. unfold cells_j, out_nj, gap, distance. destruct (Bool.eqb _ _); lia. Qed.

Lemma xg_yg_of {F} (d d' : griddict F) xg yg : (forall f, d' f = d f) -> d XG = Arr xg -> d YG = Arr yg ->
  xg_yg d' = Ok (xg, yg).
Proof. intros E Ex Ey. unfold xg_yg. rewrite !E, Ex, Ey. reflexivity. Qed.

(** What a successful regrid produces. *)
Lemma regrid64_ok L G loadtxt fs lay o3 fuel a d xg yg i1 j1 i2 j2 ls lt :
  layouts lay -> layouts o3 ->
  supplies (b64ops L) b64codec loadtxt fs a d -> d XG = Arr xg -> d YG = Arr yg -> same_shape xg yg ->
  corners_at G lay a xg yg i1 j1 i2 j2 -> i1 <> i2 -> j1 <> j2 -> subscales a ls lt ->
  quarter_turns i1 j1 i2 j2 <= fuel ->
  let n := out_ni i1 j1 i2 j2 in let m := out_nj i1 j1 i2 j2 in let k := quarter_turns i1 j1 i2 j2 in
  let C := fun a b => (mat_at xg (fst (source_index i1 j1 i2 j2 a b)) (snd (source_index i1 j1 i2 j2 a b)),
                       mat_at yg (fst (source_index i1 j1 i2 j2 a b)) (snd (source_index i1 j1 i2 j2 a b))) in
  exists g H dd, regrid64 L G loadtxt fs lay o3 fuel a = Ok (mk_regrid_result g (ls * n) (lt * m) dd) /\
    subdivides (b64ops L) G (corners_pos (b64ops L) C n m) C ls lt n m H /\
    grid_of (b64ops L) G H (ls * n) (lt * m) g /\
    dd XG = Arr (Nat.iter k rot90 xg) /\ dd YG = Arr (Nat.iter k rot90 yg) /\
    forall f, f <> XG -> f <> YG -> dd f = d f.
Proof.
  intros Hlay Ho3 Hs Ex Ey Hsh (Hn1 & Hn2) Hi Hj (Els & Elt & Hls & Hlt) Hf n m k C.
  destruct (source_complete _ _ _ _ _ _ Hs) as (d' & Es & Ed).
  pose proof (nearest_of_is_nearest L G _ _ _ _ _ _ _ (Hlay _ _) Hsh Hn1) as E1.
  pose proof (nearest_of_is_nearest L G _ _ _ _ _ _ _ (Hlay _ _) Hsh Hn2) as E2.
  pose proof Hlay as Hlay'. apply layouts_order_ok in Hlay', Ho3.
  destruct (regrid_ok (b64ops L) (b64_laws L) G b64codec loadtxt fs lay o3 Hlay' Ho3 fuel a d' xg yg i1 j1 i2 j2 ls lt)
    as (g & H & Er & HS & Hg); auto.
  { eapply xg_yg_of; eauto. }
  { eexists _, _. split; [exact E1|exact E2]. }
  rewrite cells_i_eq, cells_j_eq, turns_eq in *.
  exists g, H. eexists. split; [exact Er|]. split.
  { unfold pick_at in HS. unfold C.
    replace (fun a b => (mat_at xg (fst (source_index i1 j1 i2 j2 a b)) (snd (source_index i1 j1 i2 j2 a b)),
                       mat_at yg (fst (source_index i1 j1 i2 j2 a b)) (snd (source_index i1 j1 i2 j2 a b))))
      with (fun a b => (mat_at xg (fst (pick i1 j1 i2 j2 a b)) (snd (pick i1 j1 i2 j2 a b)),
                       mat_at yg (fst (pick i1 j1 i2 j2 a b)) (snd (pick i1 j1 i2 j2 a b)))); auto.
  }
  split; auto. split; [reflexivity|]. split; [reflexivity|].
  intros f H1 H2. unfold setd. rewrite <- Ed.
  destruct (field_beq f YG) eqn:B1; [destruct f; discriminate || congruence|].
  destruct (field_beq f XG) eqn:B2; [destruct f; discriminate || congruence|]. reflexivity.
Qed.

(** ** C19 *)
Theorem C19_regrid_preserves_corners :
  forall L G loadtxt fs lay o3 fuel a xg yg i1 j1 i2 j2 ls lt,
  layouts lay -> layouts o3 -> usable L loadtxt fs a xg yg ->
  corners_at G lay a xg yg i1 j1 i2 j2 -> i1 <> i2 -> j1 <> j2 -> subscales a ls lt -> 3 <= fuel ->
  let n := out_ni i1 j1 i2 j2 in let m := out_nj i1 j1 i2 j2 in
  exists rr, regrid64 L G loadtxt fs lay o3 fuel a = Ok rr /\
    rr_ni rr = ls * n /\ rr_nj rr = lt * m /\
    (* every point of the selected rectangle is in the output, at a multiple of the subscales *)
    forall s t, Nat.min i1 i2 <= s <= Nat.max i1 i2 -> Nat.min j1 j2 <= t <= Nat.max j1 j2 ->
      exists a b, a <= n /\ b <= m /\ source_index i1 j1 i2 j2 a b = (s, t) /\
        mat_at (rr_grid rr XG) (ls * a) (lt * b) = mat_at xg s t /\
        mat_at (rr_grid rr YG) (ls * a) (lt * b) = mat_at yg s t.
Proof.
  intros L G loadtxt fs lay o3 fuel a xg yg i1 j1 i2 j2 ls lt Hlay Ho3 (d & Hs & Ex & Ey & Hsh) Hc Hi Hj Hss Hf n m.
  assert (Hk : quarter_turns i1 j1 i2 j2 <= 3) by (unfold quarter_turns; destruct (i1 <? i2), (j2 <? j1); lia).
  destruct (regrid64_ok L G loadtxt fs lay o3 fuel a d xg yg i1 j1 i2 j2 ls lt)
    as (g & H & dd & Er & HS & Hg & _); auto; try lia.
  eexists. split; [exact Er|]. cbn [rr_ni rr_nj rr_grid]. split; auto. split; auto.
  intros s t Hsr Htr.
  assert (Hab : exists a b, a <= n /\ b <= m /\ source_index i1 j1 i2 j2 a b = (s, t)).
  { unfold n, m, out_ni, out_nj, source_index, distance.
    destruct (Nat.ltb_spec i1 i2), (Nat.ltb_spec j2 j1); cbn [Bool.eqb].
    - exists (s - i1), (t - j2). repeat split; try lia. f_equal; lia.
    - exists (t - j1), (i2 - s). repeat split; try lia. f_equal; lia.
    - exists (j1 - t), (s - i2). repeat split; try lia. f_equal; lia.
    - exists (i1 - s), (j2 - t). repeat split; try lia. f_equal; lia. }
  destruct Hab as (a0 & b0 & Ha & Hb & E). exists a0, b0. split; auto. split; auto. split; auto.
  destruct (grid_of_positions _ _ _ _ _ _ Hg) as (Hp & _). destruct HS as (S1 & _).
  destruct Hss as (_ & _ & Hls & Hlt).
  specialize (Hp (ls * a0) (lt * b0)). fold n m in Hp.
  specialize (Hp ltac:(apply Nat.mul_le_mono_l; auto) ltac:(apply Nat.mul_le_mono_l; auto)).
  rewrite !Nat.mul_assoc in Hp. rewrite S1 in Hp by auto. rewrite E in Hp. cbn [fst snd] in Hp.
  apply pair_equal_spec in Hp. auto.
Qed.

(** ** C20 *)
Theorem C20_regrid_aligns_diagonal :
  forall L G loadtxt fs lay o3 fuel a xg yg i1 j1 i2 j2 ls lt,
  layouts lay -> layouts o3 -> usable L loadtxt fs a xg yg ->
  corners_at G lay a xg yg i1 j1 i2 j2 -> i1 <> i2 -> j1 <> j2 -> subscales a ls lt -> 3 <= fuel ->
  exists rr, regrid64 L G loadtxt fs lay o3 fuel a = Ok rr /\
    let g := rr_grid rr in let ni := rr_ni rr in let nj := rr_nj rr in
    mat_at (g XG) 0 nj = mat_at xg i1 j1 /\ mat_at (g YG) 0 nj = mat_at yg i1 j1 /\
    mat_at (g XG) ni 0 = mat_at xg i2 j2 /\ mat_at (g YG) ni 0 = mat_at yg i2 j2.
Proof.
  intros L G loadtxt fs lay o3 fuel a xg yg i1 j1 i2 j2 ls lt Hlay Ho3 (d & Hs & Ex & Ey & Hsh) Hc Hi Hj Hss Hf.
  assert (Hk : quarter_turns i1 j1 i2 j2 <= 3) by (unfold quarter_turns; destruct (i1 <? i2), (j2 <? j1); lia).
  destruct (regrid64_ok L G loadtxt fs lay o3 fuel a d xg yg i1 j1 i2 j2 ls lt)
    as (g & H & dd & Er & HS & Hg & _); auto; try lia.
  eexists. split; [exact Er|]. cbn [rr_ni rr_nj rr_grid].
  destruct (grid_of_positions _ _ _ _ _ _ Hg) as (Hp & _). destruct HS as (S1 & _).
  set (n := out_ni i1 j1 i2 j2) in *. set (m := out_nj i1 j1 i2 j2) in *.
  assert (E1 : source_index i1 j1 i2 j2 0 m = (i1, j1)).
  { unfold m, out_nj, source_index, distance.
    destruct (Nat.ltb_spec i1 i2), (Nat.ltb_spec j2 j1); cbn [Bool.eqb]; f_equal; lia. }
  assert (E2 : source_index i1 j1 i2 j2 n 0 = (i2, j2)).
  { unfold n, out_ni, source_index, distance.
    destruct (Nat.ltb_spec i1 i2), (Nat.ltb_spec j2 j1); cbn [Bool.eqb]; f_equal; lia. }
  pose proof (Hp 0 (lt * m)) as P1. pose proof (Hp (ls * n) 0) as P2.
  specialize (P1 ltac:(lia) ltac:(lia)). specialize (P2 ltac:(lia) ltac:(lia)).
  replace (2 * 0) with (2 * ls * 0) in P1 by lia. replace (2 * 0) with (2 * lt * 0) in P2 by lia.
  rewrite !Nat.mul_assoc in P1, P2. rewrite S1 in P1, P2 by lia. rewrite E1 in P1. rewrite E2 in P2.
  cbn [fst snd] in P1, P2. apply pair_equal_spec in P1, P2. tauto.
Qed.

(** ** C21 *)
Theorem C21_at_most_three_rotations :
  forall L G loadtxt fs lay o3 a xg yg i1 j1 i2 j2 ls lt,
  layouts lay -> layouts o3 -> usable L loadtxt fs a xg yg ->
  corners_at G lay a xg yg i1 j1 i2 j2 -> i1 <> i2 -> j1 <> j2 -> subscales a ls lt ->
  let k := quarter_turns i1 j1 i2 j2 in
  k <= 3 /\
  (exists rr, forall fuel, k <= fuel -> regrid64 L G loadtxt fs lay o3 fuel a = Ok rr) /\
  (forall fuel, fuel < k -> regrid64 L G loadtxt fs lay o3 fuel a = Err OutOfFuel).
Proof.
  intros L G loadtxt fs lay o3 a xg yg i1 j1 i2 j2 ls lt Hlay Ho3 (d & Hs & Ex & Ey & Hsh) (Hn1 & Hn2) Hi Hj Hss k.
  assert (Hk : k <= 3) by (unfold k, quarter_turns; destruct (i1 <? i2), (j2 <? j1); lia).
  split; auto.
  destruct (source_complete _ _ _ _ _ _ Hs) as (d' & Es & Ed).
  pose proof (nearest_of_is_nearest L G _ _ _ _ _ _ _ (Hlay _ _) Hsh Hn1) as E1.
  pose proof (nearest_of_is_nearest L G _ _ _ _ _ _ _ (Hlay _ _) Hsh Hn2) as E2.
  pose proof Hlay as Hlay'. pose proof Ho3 as Ho3'. apply layouts_order_ok in Hlay', Ho3'.
  assert (Hf : found (b64ops L) G lay a xg yg (Z.of_nat i1, Z.of_nat j1) (Z.of_nat i2, Z.of_nat j2)).
  { eexists _, _. split; [exact E1|exact E2]. }
  assert (Exy : xg_yg d' = Ok (xg, yg)) by (eapply xg_yg_of; eauto).
  split.
  - assert (Hrot : forall f1 f2 l, k <= f1 -> k <= f2 -> linv (b64ops L) G a l -> real_pair l i1 j1 i2 j2 ->
      rot_loop (b64ops L) G f1 a l = rot_loop (b64ops L) G f2 a l).
    { intros f1 f2 l H1 H2 Hl Hp. rewrite !(rot_loop_turns (b64ops L) G a l i1 j1 i2 j2); auto;
        rewrite turns_eq; auto. }
    destruct (regrid64_ok L G loadtxt fs lay o3 k a d xg yg i1 j1 i2 j2 ls lt)
      as (g & H & dd & Er & _); auto; [split; auto|].
    eexists. intros fuel Hfu. rewrite <- Er.
    unfold regrid64, regrid, regrid_from. rewrite Es. cbn [rbind]. rewrite Exy. cbn [rbind].
    pose proof (found_locate _ _ _ _ _ _ _ _ Hf) as El. rewrite El. cbn [rbind].
    destruct (locate_cases _ (b64_laws L) _ _ _ _ _ _ Hlay' El) as (Hl & _).
    rewrite (Hrot fuel k); auto.
    unfold real_pair. cbn [lc_nw lc_se lc_xg]. destruct Hn1 as (? & ? & _), Hn2 as (? & ? & _). tauto.
  - intros fuel Hfu. apply (regrid_short (b64ops L) (b64_laws L) G b64codec loadtxt fs lay o3 Hlay' fuel a d' xg yg i1 j1 i2 j2); auto.
Qed.

(** ** C22 *)
Theorem C22_one_unmatched_corner_hangs :
  forall L G loadtxt fs lay o3 a xg yg i j,
  layouts lay -> usable L loadtxt fs a xg yg ->
  let near lon lat := is_nearest G (lay (mrows xg) (mcols xg)) lon lat xg yg i j in
  let far lon lat := none_near G lon lat xg yg in
  (near (ra_lon1 a) (ra_lat1 a) /\ far (ra_lon2 a) (ra_lat2 a)) \/
  (far (ra_lon1 a) (ra_lat1 a) /\ near (ra_lon2 a) (ra_lat2 a)) ->
  forall fuel, regrid64 L G loadtxt fs lay o3 fuel a = Err OutOfFuel.
Proof.
  intros L G loadtxt fs lay o3 a xg yg i j Hlay (d & Hs & Ex & Ey & Hsh) near far H fuel.
  destruct (source_complete _ _ _ _ _ _ Hs) as (d' & Es & Ed).
  assert (Exy : xg_yg d' = Ok (xg, yg)) by (eapply xg_yg_of; eauto).
  pose proof Hlay as Hlay'. apply layouts_order_ok in Hlay'.
  destruct H as [(Hn & Hf)|(Hf & Hn)];
    pose proof (nearest_of_is_nearest L G _ _ _ _ _ _ _ (Hlay _ _) Hsh Hn) as E1;
    pose proof (nearest_of_none L G _ _ _ _ _ (Hlay _ _) Hsh Hf) as E2.
  - apply (regrid_hangs (b64ops L) (b64_laws L) G b64codec loadtxt fs lay o3 Hlay' fuel a d' xg yg
      (Z.of_nat i, Z.of_nat j) (-1, -1)%Z); auto.
    + eexists _, _. split; [exact E1|exact E2].
    + right. split; auto. intros Hq. apply pair_equal_spec in Hq. lia.
  - apply (regrid_hangs (b64ops L) (b64_laws L) G b64codec loadtxt fs lay o3 Hlay' fuel a d' xg yg
      (-1, -1)%Z (Z.of_nat i, Z.of_nat j)); auto.
    + eexists _, _. split; [exact E2|exact E1].
    + left. split; auto. intros Hq. apply pair_equal_spec in Hq. lia.
Qed.

(** ** C23 *)
Definition with_pair {F} (a : regrid_args F) (x y : option string) : regrid_args F :=
  mk_regrid_args (ra_mitgridfile a) x y (ra_matrices a) (ra_ni a) (ra_nj a)
    (ra_lon1 a) (ra_lat1 a) (ra_lon2 a) (ra_lat2 a) (ra_lon_subscale a) (ra_lat_subscale a) (ra_strict a).
Definition with_matrices {F} (a : regrid_args F) (m : option (griddict F)) : regrid_args F :=
  mk_regrid_args (ra_mitgridfile a) (ra_xg_file a) (ra_yg_file a) m (ra_ni a) (ra_nj a)
    (ra_lon1 a) (ra_lat1 a) (ra_lon2 a) (ra_lat2 a) (ra_lon_subscale a) (ra_lat_subscale a) (ra_strict a).

(** The source depends only on the fields it reads, the loop only on the corners. *)
Lemma regrid_args_ext L G loadtxt fs lay o3 fuel (a a' : regrid_args binary64) :
  source (b64ops L) b64codec loadtxt fs a = source (b64ops L) b64codec loadtxt fs a' ->
  ra_lon1 a = ra_lon1 a' -> ra_lat1 a = ra_lat1 a' -> ra_lon2 a = ra_lon2 a' -> ra_lat2 a = ra_lat2 a' ->
  ra_lon_subscale a = ra_lon_subscale a' -> ra_lat_subscale a = ra_lat_subscale a' ->
  regrid64 L G loadtxt fs lay o3 fuel a = regrid64 L G loadtxt fs lay o3 fuel a'.
Proof.
  intros Es E1 E2 E3 E4 E5 E6.
  assert (El : forall xg yg o, locate (b64ops L) G a xg yg o = locate (b64ops L) G a' xg yg o).
  { intros. unfold locate. rewrite E1, E2, E3, E4. reflexivity. }
  assert (Er : forall fuel l, rot_loop (b64ops L) G fuel a l = rot_loop (b64ops L) G fuel a' l).
  { induction fuel0 as [|f IH]; intros l; cbn [rot_loop]; auto. destruct (aligned l); auto.
    rewrite El. destruct (locate _ _ _ _ _ _); cbn [rbind]; auto. }
  unfold regrid64, regrid, regrid_from. rewrite Es. destruct (source _ _ _ _ a') as [d|]; cbn [rbind]; auto.
  destruct (xg_yg d) as [(xg, yg)|]; cbn [rbind]; auto. rewrite El.
  destruct (locate _ _ _ _ _ _) as [l0|]; cbn [rbind]; auto. rewrite Er, E5, E6. reflexivity.
Qed.

Theorem C23_mitgridfile_first : forall L G loadtxt fs lay o3 fuel a p x y m,
  given_str (ra_mitgridfile a) p ->
  regrid64 L G loadtxt fs lay o3 fuel (with_matrices (with_pair a x y) m) =
  regrid64 L G loadtxt fs lay o3 fuel a.
Proof.
  intros L G loadtxt fs lay o3 fuel a p x y m Hp. apply regrid_args_ext; try reflexivity.
  unfold source. cbn [with_matrices with_pair ra_mitgridfile ra_ni ra_nj ra_strict].
  apply str_arg_some in Hp. rewrite Hp. reflexivity.
Qed.

Theorem C23_pair_before_matrices : forall L G loadtxt fs lay o3 fuel a px py m,
  given_str (ra_xg_file a) px -> given_str (ra_yg_file a) py ->
  regrid64 L G loadtxt fs lay o3 fuel (with_matrices a m) = regrid64 L G loadtxt fs lay o3 fuel a.
Proof.
  intros L G loadtxt fs lay o3 fuel a px py m Hx Hy. apply regrid_args_ext; try reflexivity.
  unfold source. cbn [with_matrices ra_mitgridfile ra_ni ra_nj ra_strict ra_xg_file ra_yg_file].
  apply str_arg_some in Hx, Hy. rewrite Hx, Hy. reflexivity.
Qed.

Definition counts_missing (a : regrid_args binary64) : Prop := no_num (ra_ni a) \/ no_num (ra_nj a).
Definition no_source (a : regrid_args binary64) : Prop :=
  no_str (ra_mitgridfile a) /\ (no_str (ra_xg_file a) \/ no_str (ra_yg_file a)) /\
  (ra_matrices a = None \/ exists d, ra_matrices a = Some d /\ forall f, d f = Missing).
Definition usage_error (a : regrid_args binary64) : Prop :=
  (exists p, given_str (ra_mitgridfile a) p /\ counts_missing a) \/
  (exists px py, no_str (ra_mitgridfile a) /\ given_str (ra_xg_file a) px /\ given_str (ra_yg_file a) py /\
     counts_missing a) \/
  no_source a.

(** The three messages of regrid.py:139, 149 and 168. *)
Definition usage_messages : list string :=
  ["ni, nj required if mitgridfile specified"; "ni, nj required if xg/yg_file specified";
   "Either mitgridfile, xg_file/yg_file pair, or mitgrid_matrices must be provided."]%string.

Lemma dict_empty_iff {F} (d : griddict F) : dict_empty d = true <-> forall f, d f = Missing.
Proof.
  unfold dict_empty. rewrite forallb_forall. split; intros H f.
  - specialize (H f). destruct (d f); auto; [exfalso|exfalso]; assert (false = true) by (apply H; destruct f; cbn; tauto);
      discriminate.
  - intros _. rewrite H. reflexivity.
Qed.

Lemma raises_message_neq {A} (r : res A) m m' : r = Err (ValueError m) -> m <> m' -> r <> Err (ValueError m').
Proof. congruence. Qed.

Lemma given_no s p : given_str s p -> no_str s -> False.
Proof. intros (-> & H) [E|E]; congruence. Qed.
Lemma num_dec n : (exists k, given_num n k) \/ no_num n.
Proof.
  unfold given_num, no_num. destruct n as [[|k]|]; auto. left. exists (S k). auto.
Qed.
Lemma num_missing_err {A} (n m : option nat) (f : nat -> nat -> res A) e : no_num n \/ no_num m ->
  match num_arg n, num_arg m with Some a, Some b => f a b | _, _ => Err e end = Err e.
Proof.
  intros [H|H]; apply num_arg_none in H; rewrite H; auto. destruct (num_arg n); auto.
Qed.

Definition not_usage {A} (r : res A) : Prop := forall msg, In msg usage_messages -> r <> Err (ValueError msg).

Lemma not_usage_bind {A B} (r : res A) (f : A -> res B) : not_usage r -> (forall x, r = Ok x -> not_usage (f x)) ->
  not_usage (rbind r f).
Proof.
  intros Hr Hf msg Hin E. destruct r as [x|e]; cbn [rbind] in E.
  - eapply Hf; eauto.
  - apply (Hr msg Hin). inversion E. reflexivity.
Qed.
Lemma not_usage_ok {A} (x : A) : not_usage (Ok x).
Proof. intros msg _. discriminate. Qed.
Lemma not_usage_val {A} m : ~ In m usage_messages -> not_usage (@Err A (ValueError m)).
Proof. intros Hm msg Hin E. inversion E. congruence. Qed.
Ltac not_msg := let H := fresh in intros H; cbn in H; intuition discriminate.

Lemma reshape_not_usage {F} (N : numops F) v r c : not_usage (reshapeF N v r c).
Proof.
  unfold reshapeF. destruct (_ =? _); [apply not_usage_ok|]. apply not_usage_val. not_msg.
Qed.
Lemma foldM_not_usage {A B} (f : A -> B -> res A) l x : (forall x y, not_usage (f x y)) -> not_usage (foldM f l x).
Proof.
  intros H. revert x. induction l as [|b l IH]; intros x; cbn [foldM]; [apply not_usage_ok|].
  apply not_usage_bind; auto.
Qed.
Lemma not_usage_other {A} e : (forall m, e <> ValueError m) -> not_usage (@Err A e).
Proof. intros H msg _ E. inversion E. congruence. Qed.
Ltac nu := repeat first
  [ apply not_usage_ok | apply not_usage_val; not_msg | apply not_usage_other; discriminate
  | apply not_usage_bind; [|intros ? _]
  | apply foldM_not_usage; intros ? ?
  | match goal with
    | |- not_usage (if ?b then _ else _) => destruct b
    | |- not_usage (let '(_, _) := ?x in _) => destruct x
    | |- not_usage (match ?x with _ => _ end) => destruct x
    end ].
Lemma nearest_not_usage {F} (N : numops F) G o lon lat xs ys : not_usage (nearest_ord N G o lon lat xs ys).
Proof. unfold nearest_ord. nu. Qed.
Lemma locate_not_usage {F} (N : numops F) G a xg yg o : not_usage (locate N G a xg yg o).
Proof.
  unfold locate. apply not_usage_bind; [apply nearest_not_usage|]. intros ((? & ?) & ?) _.
  apply not_usage_bind; [apply nearest_not_usage|]. intros ((? & ?) & ?) _. apply not_usage_ok.
Qed.
Lemma rot_not_usage {F} (N : numops F) G fuel a l : not_usage (rot_loop N G fuel a l).
Proof.
  revert l. induction fuel as [|f IH]; intros l; cbn [rot_loop]; destruct (aligned l); try apply not_usage_ok.
  - apply not_usage_other. discriminate.
  - apply not_usage_bind; [apply locate_not_usage|]. intros l' _. apply IH.
Qed.
Lemma read_not_usage {F} (N : numops F) C bs ni nj s : not_usage (read_mitgrid N C bs ni nj s).
Proof.
  unfold read_mitgrid. apply foldM_not_usage. intros x y. unfold read_field. apply not_usage_bind; [apply reshape_not_usage|].
  intros m _. nu.
Qed.
Lemma mset_not_usage {A} (m : mat A) i j x : not_usage (mset m i j x).
Proof. unfold mset. nu. Qed.
Lemma mget_not_usage {A} (m : mat A) i j : not_usage (mget m i j).
Proof. unfold mget. nu. Qed.
Lemma finish_not_usage {F} (N : numops F) G cg p q ls lt : not_usage (finish N G cg p q ls lt).
Proof.
  unfold finish. apply not_usage_bind.
  - unfold fill, fill_ord, nditer, fill_x_step, fill_y_step.
    nu; try apply mset_not_usage; try apply mget_not_usage.
  - intros g _. unfold tomitgrid, edges, areas, sum2_field, sum4_field, mset_block, lonlat2cart.
    nu; try apply mset_not_usage; try apply mget_not_usage; unfold edges_x_step, edges_y_step;
      nu; try apply mset_not_usage; try apply mget_not_usage.
Qed.

Lemma source_usage L loadtxt fs a : usage_error a ->
  exists msg, In msg usage_messages /\ source (b64ops L) b64codec loadtxt fs a = Err (ValueError msg).
Proof.
  unfold source. intros [(p & Hp & Hc)|[(px & py & Hp & Hx & Hy & Hc)|(Hp & Hx & Hm)]].
  - apply str_arg_some in Hp. rewrite Hp, num_missing_err by auto. eexists. split; [|reflexivity]. cbn. tauto.
  - apply str_arg_none in Hp. apply str_arg_some in Hx, Hy. rewrite Hp, Hx, Hy, num_missing_err by auto.
    eexists. split; [|reflexivity]. cbn. tauto.
  - apply str_arg_none in Hp. rewrite Hp.
    assert (E : match ra_matrices a with
      | Some d => if dict_empty d
          then Err (ValueError "Either mitgridfile, xg_file/yg_file pair, or mitgrid_matrices must be provided.")
          else match d XC with Missing => Err KeyError | NoneVal => Err AttributeError | Arr _ => Ok d end
      | None => Err (ValueError "Either mitgridfile, xg_file/yg_file pair, or mitgrid_matrices must be provided.")
      end = Err (ValueError "Either mitgridfile, xg_file/yg_file pair, or mitgrid_matrices must be provided.")).
    { destruct Hm as [->|(d & -> & Hd)]; auto. rewrite (proj2 (dict_empty_iff d)) by auto. reflexivity. }
    eexists. split; [|].
    2:{ destruct Hx as [Hx|Hx]; apply str_arg_none in Hx; rewrite Hx; [exact E|].
        destruct (str_arg (ra_xg_file a)); exact E. }
    cbn. tauto.
Qed.

Lemma source_not_usage L loadtxt fs a : (forall bs, not_usage (loadtxt bs)) -> ~ usage_error a ->
  not_usage (source (b64ops L) b64codec loadtxt fs a).
Proof.
  intros Hl Hu. unfold source.
  destruct (str_arg (ra_mitgridfile a)) as [p|] eqn:Ep.
  - apply str_arg_some in Ep.
    destruct (num_dec (ra_ni a)) as [(ni & Hi)|Hi]; [|exfalso; apply Hu; left; exists p; split; auto; left; auto].
    destruct (num_dec (ra_nj a)) as [(nj & Hj)|Hj]; [|exfalso; apply Hu; left; exists p; split; auto; right; auto].
    apply num_arg_some in Hi, Hj. rewrite Hi, Hj. apply not_usage_bind.
    + unfold read_bytes. nu.
    + intros bs _. apply not_usage_bind; [apply read_not_usage|]. intros. nu.
  - apply str_arg_none in Ep.
    assert (Hmat : no_str (ra_xg_file a) \/ no_str (ra_yg_file a) -> not_usage (
      match ra_matrices a with
      | Some d => if dict_empty d
          then Err (ValueError "Either mitgridfile, xg_file/yg_file pair, or mitgrid_matrices must be provided.")
          else match d XC with Missing => Err KeyError | NoneVal => Err AttributeError | Arr _ => Ok d end
      | None => Err (ValueError "Either mitgridfile, xg_file/yg_file pair, or mitgrid_matrices must be provided.")
      end)).
    { intros Hn. destruct (ra_matrices a) as [d|] eqn:Em.
      - destruct (dict_empty d) eqn:Ed.
        + exfalso. apply Hu. right. right. split; auto. split; auto. right. exists d. split; auto.
          apply dict_empty_iff. auto.
        + nu.
      - exfalso. apply Hu. right. right. split; auto. }
    destruct (str_arg (ra_xg_file a)) as [px|] eqn:Ex.
    2:{ apply Hmat. left. apply str_arg_none. auto. }
    destruct (str_arg (ra_yg_file a)) as [py|] eqn:Ey.
    2:{ apply Hmat. right. apply str_arg_none. auto. }
    apply str_arg_some in Ex, Ey.
    destruct (num_dec (ra_ni a)) as [(ni & Hi)|Hi];
      [|exfalso; apply Hu; right; left; exists px, py; repeat (split; auto); left; auto].
    destruct (num_dec (ra_nj a)) as [(nj & Hj)|Hj];
      [|exfalso; apply Hu; right; left; exists px, py; repeat (split; auto); right; auto].
    apply num_arg_some in Hi, Hj. rewrite Hi, Hj. unfold read_pair, read_bytes.
    nu; try apply Hl; apply reshape_not_usage.
Qed.

(** The usage errors come exactly from missing arguments.  [loadtxt] is assumed not to
    produce one of regrid's own messages. *)
Theorem C23_usage_errors : forall L G loadtxt fs lay o3 fuel a,
  (forall bs msg, In msg usage_messages -> loadtxt bs <> Err (ValueError msg)) ->
  ((exists msg, In msg usage_messages /\
      regrid64 L G loadtxt fs lay o3 fuel a = Err (ValueError msg)) <-> usage_error a).
Proof.
  intros L G loadtxt fs lay o3 fuel a Hl. split.
  - intros (msg & Hin & E).
    assert (Hd : usage_error a \/ ~ usage_error a).
    { unfold usage_error, no_source, counts_missing.
      destruct (str_arg (ra_mitgridfile a)) as [p|] eqn:Ep.
      - apply str_arg_some in Ep.
        destruct (num_dec (ra_ni a)) as [(ni & Hi)|Hi]; [|left; left; exists p; auto].
        destruct (num_dec (ra_nj a)) as [(nj & Hj)|Hj]; [|left; left; exists p; auto].
        right. assert (Hc : ~ (no_num (ra_ni a) \/ no_num (ra_nj a))).
        { unfold given_num, no_num in *. destruct Hi as (Hi & ?), Hj as (Hj & ?). rewrite Hi, Hj.
          intros [[|]|[|]]; congruence. }
        intros [(? & _ & H)|[(? & ? & _ & _ & _ & H)|(H & _)]]; auto. eapply given_no; eauto.
      - apply str_arg_none in Ep.
        destruct (str_arg (ra_xg_file a)) as [px|] eqn:Ex; [|apply str_arg_none in Ex].
        + destruct (str_arg (ra_yg_file a)) as [py|] eqn:Ey; [|apply str_arg_none in Ey].
          * apply str_arg_some in Ex, Ey.
            destruct (num_dec (ra_ni a)) as [(ni & Hi)|Hi]; [|left; right; left; exists px, py; auto].
            destruct (num_dec (ra_nj a)) as [(nj & Hj)|Hj]; [|left; right; left; exists px, py; auto].
            right. assert (Hc : ~ (no_num (ra_ni a) \/ no_num (ra_nj a))).
            { unfold given_num, no_num in *. destruct Hi as (Hi & ?), Hj as (Hj & ?). rewrite Hi, Hj.
              intros [[|]|[|]]; congruence. }
            intros [(? & _ & H)|[(? & ? & _ & _ & _ & H)|(_ & [H|H] & _)]]; auto; [apply (given_no _ _ Ex H)|apply (given_no _ _ Ey H)].
          * destruct (ra_matrices a) as [d|] eqn:Em; [|left; right; right; auto].
            destruct (dict_empty d) eqn:Ed.
            { left. right. right. split; auto. split; auto. right. exists d. split; auto. apply dict_empty_iff. auto. }
            right. intros [(? & H & _)|[(? & ? & _ & _ & H & _)|(_ & _ & [H|(d' & H & Hd')])]]; try discriminate.
            { eapply given_no; eauto. }
            { eapply given_no; eauto. }
            inversion H. subst d'. apply dict_empty_iff in Hd'. congruence.
        + destruct (ra_matrices a) as [d|] eqn:Em; [|left; right; right; auto].
          destruct (dict_empty d) eqn:Ed.
          { left. right. right. split; auto. split; auto. right. exists d. split; auto. apply dict_empty_iff. auto. }
          right. intros [(? & H & _)|[(? & ? & _ & H & _ & _)|(_ & _ & [H|(d' & H & Hd')])]]; try discriminate.
          { eapply given_no; eauto. }
          { eapply given_no; eauto. }
          inversion H. subst d'. apply dict_empty_iff in Hd'. congruence. }
    destruct Hd as [|Hd]; auto. exfalso. revert E.
    assert (Hn : not_usage (regrid64 L G loadtxt fs lay o3 fuel a)).
    { unfold regrid64, regrid, regrid_from. apply not_usage_bind; [apply source_not_usage; auto|]. intros d _.
      apply not_usage_bind; [unfold xg_yg; nu|]. intros (xg & yg) _.
      apply not_usage_bind; [apply locate_not_usage|]. intros l0 _.
      destruct (_ || _); [apply not_usage_val; not_msg|].
      apply not_usage_bind; [apply rot_not_usage|]. intros l _.
      apply not_usage_bind; [unfold cg_check; nu|]. intros [] _.
      apply not_usage_bind; [unfold scatter; apply foldM_not_usage; intros; apply mset_not_usage|]. intros cg _.
      apply not_usage_bind; [apply finish_not_usage|]. intros g _. apply not_usage_ok. }
    apply Hn. auto.
  - intros Hu. destruct (source_usage L loadtxt fs a Hu) as (msg & Hin & E). exists msg. split; auto.
    unfold regrid64, regrid, regrid_from. rewrite E. reflexivity.
Qed.

(** ** C25 *)
Theorem C25_degenerate_regions_rejected :
  forall L G loadtxt fs lay o3 fuel a xg yg ls lt,
  layouts lay -> layouts o3 -> usable L loadtxt fs a xg yg -> subscales a ls lt -> 3 <= fuel ->
  let r := regrid64 L G loadtxt fs lay o3 fuel a in
  (raises_value r <->
   (exists i1 j1 i2 j2, corners_at G lay a xg yg i1 j1 i2 j2 /\ (i1 = i2 \/ j1 = j2)) \/
   (none_near G (ra_lon1 a) (ra_lat1 a) xg yg /\ none_near G (ra_lon2 a) (ra_lat2 a) xg yg)) /\
  (is_ok r <-> exists i1 j1 i2 j2, corners_at G lay a xg yg i1 j1 i2 j2 /\ i1 <> i2 /\ j1 <> j2).
Proof.
  intros L G loadtxt fs lay o3 fuel a xg yg ls lt Hlay Ho3 Hu Hss Hf r.
  pose proof Hu as (d & Hs & Ex & Ey & Hsh).
  destruct (source_complete _ _ _ _ _ _ Hs) as (d' & Es & Ed).
  assert (Exy : xg_yg d' = Ok (xg, yg)) by (eapply xg_yg_of; eauto).
  assert (Huniq : forall lon lat i j i' j',
    is_nearest G (lay (mrows xg) (mcols xg)) lon lat xg yg i j ->
    is_nearest G (lay (mrows xg) (mcols xg)) lon lat xg yg i' j' -> i = i' /\ j = j').
  { intros lon lat i j i' j' H1 H2.
    pose proof (nearest_of_is_nearest L G _ _ _ _ _ _ _ (Hlay _ _) Hsh H1) as E1.
    pose proof (nearest_of_is_nearest L G _ _ _ _ _ _ _ (Hlay _ _) Hsh H2) as E2.
    rewrite E1 in E2. inversion E2 as [[Ha Hb Hc]]. apply Nat2Z.inj in Ha, Hb. auto. }
  assert (Hexcl : forall lon lat i j,
    is_nearest G (lay (mrows xg) (mcols xg)) lon lat xg yg i j -> none_near G lon lat xg yg -> False).
  { intros lon lat i j (Hi & Hj & Hlt & _) Hn. specialize (Hn i j Hi Hj). congruence. }
  destruct (nearest_cases L G (lay (mrows xg) (mcols xg)) (ra_lon1 a) (ra_lat1 a) xg yg (Hlay _ _) Hsh)
    as [N1|(i1 & j1 & N1)];
  destruct (nearest_cases L G (lay (mrows xg) (mcols xg)) (ra_lon2 a) (ra_lat2 a) xg yg (Hlay _ _) Hsh)
    as [N2|(i2 & j2 & N2)].
  - (* neither found *)
    pose proof (nearest_of_none L G _ _ _ _ _ (Hlay _ _) Hsh N1) as E1.
    pose proof (nearest_of_none L G _ _ _ _ _ (Hlay _ _) Hsh N2) as E2.
    destruct (regrid_not_diagonal (b64ops L) G b64codec loadtxt fs lay o3 fuel a d' xg yg (-1, -1)%Z (-1, -1)%Z)
      as (msg & Er); auto.
    { eexists _, _. split; [exact E1|exact E2]. }
    change (r = Err (ValueError msg)) in Er. rewrite Er. split.
    + split; auto. intros _. eexists. reflexivity.
    + split; [intros (x & Hx); discriminate|]. intros (i1 & j1 & i2 & j2 & (H1 & _) & _). exfalso. eauto.
  - (* only the second *)
    assert (Er : r = Err OutOfFuel)
      by (apply (C22_one_unmatched_corner_hangs L G loadtxt fs lay o3 a xg yg i2 j2 Hlay Hu); auto).
    rewrite Er. split.
    + split; [intros (m & Hm); discriminate|].
      intros [(a1 & b1 & a2 & b2 & (H1 & _) & _)|(_ & H2)]; exfalso; eauto.
    + split; [intros (x & Hx); discriminate|]. intros (a1 & b1 & a2 & b2 & (H1 & _) & _). exfalso. eauto.
  - assert (Er : r = Err OutOfFuel)
      by (apply (C22_one_unmatched_corner_hangs L G loadtxt fs lay o3 a xg yg i1 j1 Hlay Hu); auto).
    rewrite Er. split.
    + split; [intros (m & Hm); discriminate|].
      intros [(a1 & b1 & a2 & b2 & (_ & H1) & _)|(H2 & _)]; exfalso; eauto.
    + split; [intros (x & Hx); discriminate|]. intros (a1 & b1 & a2 & b2 & (_ & H1) & _). exfalso. eauto.
  - assert (Hc : corners_at G lay a xg yg i1 j1 i2 j2) by (split; auto).
    assert (Hcu : forall a1 b1 a2 b2, corners_at G lay a xg yg a1 b1 a2 b2 -> a1 = i1 /\ b1 = j1 /\ a2 = i2 /\ b2 = j2).
    { intros a1 b1 a2 b2 (H1 & H2). destruct (Huniq _ _ _ _ _ _ H1 N1). destruct (Huniq _ _ _ _ _ _ H2 N2). auto. }
    destruct (Nat.eq_dec i1 i2) as [Hi|Hi]; [|destruct (Nat.eq_dec j1 j2) as [Hj|Hj]].
    1,2: pose proof (nearest_of_is_nearest L G _ _ _ _ _ _ _ (Hlay _ _) Hsh N1) as E1;
      pose proof (nearest_of_is_nearest L G _ _ _ _ _ _ _ (Hlay _ _) Hsh N2) as E2;
      destruct (regrid_not_diagonal (b64ops L) G b64codec loadtxt fs lay o3 fuel a d' xg yg
        (Z.of_nat i1, Z.of_nat j1) (Z.of_nat i2, Z.of_nat j2)) as (msg & Er); auto;
      [eexists _, _; split; [exact E1|exact E2]|subst; cbn [fst snd]; auto|];
      change (r = Err (ValueError msg)) in Er; rewrite Er; split;
      [split; [intros _; left; exists i1, j1, i2, j2; auto|intros _; eexists; reflexivity]
      |split; [intros (x & Hx); discriminate|intros (a1 & b1 & a2 & b2 & H & H' & H'');
        apply Hcu in H; exfalso; intuition congruence]].
    destruct (C20_regrid_aligns_diagonal L G loadtxt fs lay o3 fuel a xg yg i1 j1 i2 j2 ls lt)
      as (rr & Er & _); auto.
    change (r = Ok rr) in Er. rewrite Er. split.
    + split; [intros (m & Hm); discriminate|].
      intros [(a1 & b1 & a2 & b2 & H & H')|(H & _)]; exfalso; [|eauto].
      apply Hcu in H. intuition congruence.
    + split; [intros _; exists i1, j1, i2, j2; auto|intros _; eexists; reflexivity].
Qed.

(** ** C24 *)
Theorem C24_callers_matrices_rotated :
  forall L G loadtxt fs lay o3 fuel a d xg yg i1 j1 i2 j2 ls lt,
  layouts lay -> layouts o3 ->
  no_str (ra_mitgridfile a) -> no_str (ra_xg_file a) \/ no_str (ra_yg_file a) ->
  ra_matrices a = Some d -> (exists xc, d XC = Arr xc) -> d XG = Arr xg -> d YG = Arr yg -> same_shape xg yg ->
  corners_at G lay a xg yg i1 j1 i2 j2 -> i1 <> i2 -> j1 <> j2 -> subscales a ls lt -> 3 <= fuel ->
  let k := quarter_turns i1 j1 i2 j2 in
  exists rr xg' yg', regrid64 L G loadtxt fs lay o3 fuel a = Ok rr /\
    rr_dict rr XG = Arr xg' /\ rr_dict rr YG = Arr yg' /\
    is_turned k xg xg' /\ is_turned k yg yg' /\
    (forall f, f <> XG -> f <> YG -> rr_dict rr f = d f).
Proof.
  intros L G loadtxt fs lay o3 fuel a d xg yg i1 j1 i2 j2 ls lt Hlay Ho3 Hm Hp Ed (xc & Ec) Ex Ey Hsh Hc Hi Hj Hss Hf k.
  assert (Hk : k <= 3) by (unfold k, quarter_turns; destruct (i1 <? i2), (j2 <? j1); lia).
  destruct (regrid64_ok L G loadtxt fs lay o3 fuel a d xg yg i1 j1 i2 j2 ls lt)
    as (g & H & dd & Er & _ & _ & E1 & E2 & E3); auto; try (fold k; lia).
  { eapply from_matrices; eauto. }
  eexists _, _, _. split; [exact Er|]. cbn [rr_dict]. split; [exact E1|]. split; [exact E2|].
  split; [apply turned_iter; auto|]. split; [apply turned_iter; auto|]. auto.
Qed.

(** The found points are strictly nearer than all others. *)
Definition strictly_nearest (G : geod binary64) (lon lat : binary64) (xg yg : mat binary64) (i j : nat) : Prop :=
  forall a b, a < mrows xg -> b < mcols xg -> (a, b) <> (i, j) ->
    b64_leb (dist_to G lon lat xg yg (a, b)) (dist_to G lon lat xg yg (i, j)) = false.

(** Turned matrices with both found points unique are not the originals. *)
Lemma turned_differs G order lon1 lat1 lon2 lat2 (xg yg xg' yg' : mat binary64) i1 j1 i2 j2 :
  is_nearest G order lon1 lat1 xg yg i1 j1 -> is_nearest G order lon2 lat2 xg yg i2 j2 -> same_shape xg yg ->
  strictly_nearest G lon1 lat1 xg yg i1 j1 -> strictly_nearest G lon2 lat2 xg yg i2 j2 ->
  i1 <> i2 -> j1 <> j2 ->
  is_turned (quarter_turns i1 j1 i2 j2) xg xg' -> is_turned (quarter_turns i1 j1 i2 j2) yg yg' ->
  (meq xg' xg /\ meq yg' yg <-> quarter_turns i1 j1 i2 j2 = 0).
Proof.
  intros N1 N2 (Sr & Sc & _) U1 U2 Hi Hj T1 T2.
  pose proof N1 as (Hi1 & Hj1 & L1 & _). pose proof N2 as (Hi2 & Hj2 & L2 & _).
  assert (Hrefl : forall d, b64_ltb d b64_1e10 = true -> b64_leb d d = true).
  { intros d Hd. destruct (b64_leb d d) eqn:E; auto.
    pose proof (b64_leb_total d d b64_1e10 Hd Hd E). rewrite b64_ltb_irrefl in H. discriminate. }
  (* an entry equal to the found one is the found one *)
  assert (Hsame : forall lon lat i j a b, i < mrows xg -> j < mcols xg -> a < mrows xg -> b < mcols xg ->
    b64_ltb (dist_to G lon lat xg yg (i, j)) b64_1e10 = true ->
    strictly_nearest G lon lat xg yg i j ->
    mat_at xg a b = mat_at xg i j -> mat_at yg a b = mat_at yg i j -> a = i /\ b = j).
  { intros lon lat i j a b _ _ Ha Hb Hlt Hu Ex Ey.
    destruct (Nat.eq_dec a i) as [->|Hne]; [destruct (Nat.eq_dec b j) as [->|Hne]; auto|]; exfalso.
    - assert (Hp : (i, b) <> (i, j)) by congruence. specialize (Hu i b Ha Hb Hp).
      unfold dist_to in Hu at 1. cbn [fst snd] in Hu. rewrite Ex, Ey in Hu.
      change (b64_leb (dist_to G lon lat xg yg (i, j)) (dist_to G lon lat xg yg (i, j)) = false) in Hu.
      rewrite Hrefl in Hu; congruence.
    - assert (Hp : (a, b) <> (i, j)) by congruence. specialize (Hu a b Ha Hb Hp).
      unfold dist_to in Hu at 1. cbn [fst snd] in Hu. rewrite Ex, Ey in Hu.
      change (b64_leb (dist_to G lon lat xg yg (i, j)) (dist_to G lon lat xg yg (i, j)) = false) in Hu.
      rewrite Hrefl in Hu; congruence. }
  assert (Hk : quarter_turns i1 j1 i2 j2 = 0 \/ quarter_turns i1 j1 i2 j2 = 1 \/
    quarter_turns i1 j1 i2 j2 = 2 \/ quarter_turns i1 j1 i2 j2 = 3)
    by (unfold quarter_turns; destruct (i1 <? i2), (j2 <? j1); auto).
  destruct Hk as [Hk|Hk].
  - rewrite Hk in *. cbn [is_turned] in *. split; auto. intros _.
    destruct T1 as (A1 & A2 & A3), T2 as (B1 & B2 & B3).
    split; (split; [auto|split; [auto|intros i j Ha Hb]]); [apply A3|apply B3]; congruence.
  - split; [|intros H; lia]. intros ((M1 & M2 & M3) & (M4 & M5 & M6)). exfalso.
    assert (Hq : forall i1' j1' i2' j2', i1' < mrows xg -> j1' < mcols xg -> i2' < mrows xg -> j2' < mcols xg ->
      mat_at xg i1' j1' = mat_at xg i1 j1 -> mat_at yg i1' j1' = mat_at yg i1 j1 ->
      mat_at xg i2' j2' = mat_at xg i2 j2 -> mat_at yg i2' j2' = mat_at yg i2 j2 ->
      i1' = i1 /\ j1' = j1 /\ i2' = i2 /\ j2' = j2).
    { intros. destruct (Hsame lon1 lat1 i1 j1 i1' j1'); auto. destruct (Hsame lon2 lat2 i2 j2 i2' j2'); auto. }
    destruct Hk as [Hk|[Hk|Hk]]; rewrite Hk in T1, T2; cbn [is_turned] in T1, T2;
      destruct T1 as (A1 & A2 & A3), T2 as (B1 & B2 & B3).
    + destruct (Hq (mcols xg - 1 - j1) i1 (mcols xg - 1 - j2) i2) as (E1 & E2 & E3 & E4); try lia.
      all: try (rewrite <- M3 by lia; rewrite A3 by lia; f_equal; lia).
      all: try (rewrite <- M6 by lia; rewrite B3 by lia; f_equal; lia).
    + destruct (Hq (mrows xg - 1 - i1) (mcols xg - 1 - j1) (mrows xg - 1 - i2) (mcols xg - 1 - j2)) as (E1 & E2 & E3 & E4); try lia.
      all: try (rewrite <- M3 by lia; rewrite A3 by lia; f_equal; lia).
      all: try (rewrite <- M6 by lia; rewrite B3 by lia; f_equal; lia).
    + destruct (Hq j1 (mrows xg - 1 - i1) j2 (mrows xg - 1 - i2)) as (E1 & E2 & E3 & E4); try lia.
      all: try (rewrite <- M3 by lia; rewrite A3 by lia; f_equal; lia).
      all: try (rewrite <- M6 by lia; rewrite B3 by lia; f_equal; lia).
Qed.

Theorem C24_unchanged_iff_no_rotation :
  forall L G loadtxt fs lay o3 fuel a d xg yg i1 j1 i2 j2 ls lt,
  layouts lay -> layouts o3 ->
  no_str (ra_mitgridfile a) -> no_str (ra_xg_file a) \/ no_str (ra_yg_file a) ->
  ra_matrices a = Some d -> (exists xc, d XC = Arr xc) -> d XG = Arr xg -> d YG = Arr yg -> same_shape xg yg ->
  corners_at G lay a xg yg i1 j1 i2 j2 -> i1 <> i2 -> j1 <> j2 -> subscales a ls lt -> 3 <= fuel ->
  strictly_nearest G (ra_lon1 a) (ra_lat1 a) xg yg i1 j1 ->
  strictly_nearest G (ra_lon2 a) (ra_lat2 a) xg yg i2 j2 ->
  exists rr xg' yg', regrid64 L G loadtxt fs lay o3 fuel a = Ok rr /\
    rr_dict rr XG = Arr xg' /\ rr_dict rr YG = Arr yg' /\
    (meq xg' xg /\ meq yg' yg <-> i1 < i2 /\ j2 < j1).
Proof.
  intros L G loadtxt fs lay o3 fuel a d xg yg i1 j1 i2 j2 ls lt Hlay Ho3 Hm Hp Ed Ec Ex Ey Hsh Hc Hi Hj Hss Hf U1 U2.
  destruct (C24_callers_matrices_rotated L G loadtxt fs lay o3 fuel a d xg yg i1 j1 i2 j2 ls lt)
    as (rr & xg' & yg' & Er & E1 & E2 & T1 & T2 & _); auto.
  exists rr, xg', yg'. repeat (split; [assumption|]). destruct Hc as (N1 & N2).
  rewrite (turned_differs G _ _ _ _ _ xg yg xg' yg' i1 j1 i2 j2 N1 N2 Hsh U1 U2 Hi Hj T1 T2).
  unfold quarter_turns. destruct (Nat.ltb_spec i1 i2), (Nat.ltb_spec j2 j1); lia.
Qed.

(** ** C18 *)
(** (x,y) is strictly nearest to the corner at (i,j) of the box. *)
Definition own_corner (G : geod binary64) lon1 lat1 lon2 lat2 (i j : nat) : Prop :=
  let C := box_corner lon1 lat1 lon2 lat2 in
  b64_ltb (g_inv G (C i j) (C i j)) b64_1e10 = true /\
  forall a b, a <= 1 -> b <= 1 -> (a, b) <> (i, j) ->
    b64_leb (g_inv G (C i j) (C a b)) (g_inv G (C i j) (C i j)) = false.

Lemma lt_le (x y : binary64) : b64_ltb x y = true -> b64_leb x y = true.
Proof. unfold b64_ltb, b64_leb. destruct (b64_compare x y) as [[]|]; congruence. Qed.

Theorem C18_mkgrid_is_regrid_of_one_cell :
  forall L G loadtxt fs lay o3 fuel lon1 lat1 lon2 lat2 p q g1 a,
  layouts lay -> layouts o3 -> 1 <= p -> 1 <= q -> 3 <= fuel ->
  own_corner G lon1 lat1 lon2 lat2 0 1 -> own_corner G lon1 lat1 lon2 lat2 1 0 ->
  mkgrid64 L G lon1 lat1 lon2 lat2 1 1 = Ok (g1, 1, 1) ->
  no_str (ra_mitgridfile a) -> no_str (ra_xg_file a) -> no_str (ra_yg_file a) ->
  ra_matrices a = Some (dict_of_grid g1) ->
  (ra_lon1 a, ra_lat1 a, ra_lon2 a, ra_lat2 a) = (lon1, lat1, lon2, lat2) ->
  ra_lon_subscale a = Z.of_nat p -> ra_lat_subscale a = Z.of_nat q ->
  exists g rr, mkgrid64 L G lon1 lat1 lon2 lat2 (Z.of_nat p) (Z.of_nat q) = Ok (g, p, q) /\
    regrid64 L G loadtxt fs lay o3 fuel a = Ok rr /\
    geq (rr_grid rr) g /\ rr_ni rr = p /\ rr_nj rr = q.
Proof.
  intros L G loadtxt fs lay o3 fuel lon1 lat1 lon2 lat2 p q g1 a Hlay Ho3 Hp Hq Hf O1 O2 Eg1 F1 F2 F3 Em Ea Ep Eq.
  set (C := box_corner lon1 lat1 lon2 lat2) in *.
  destruct (mkgrid64_ok L G lon1 lat1 lon2 lat2 1 1) as (g1' & H1 & E1 & (S1 & _) & Hg1); auto.
  change (Z.of_nat 1) with 1%Z in E1. rewrite Eg1 in E1. inversion E1. subst g1'. clear E1.
  destruct (grid_of_positions _ _ _ _ _ _ Hg1) as (P1 & _).
  pose proof (grid_of_shaped _ _ _ _ _ _ Hg1) as Hsh.
  assert (HC : forall i j, i <= 1 -> j <= 1 -> (mat_at (g1 XG) i j, mat_at (g1 YG) i j) = C i j).
  { intros i j Hi Hj. rewrite P1 by auto. apply (S1 i j Hi Hj). }
  destruct (Hsh XG) as (R1 & R2). destruct (Hsh YG) as (R3 & R4).
  rewrite rows_of_delta in R1, R3. rewrite cols_of_delta in R2, R4. cbn [ni_delta nj_delta Nat.add] in R1, R2, R3, R4.
  assert (Hss : same_shape (g1 XG) (g1 YG)) by (unfold same_shape; lia).
  apply pair_equal_spec in Ea. destruct Ea as (Ea & A4). apply pair_equal_spec in Ea. destruct Ea as (Ea & A3).
  apply pair_equal_spec in Ea. destruct Ea as (A1 & A2).
  assert (Hnear : forall i j, i <= 1 -> j <= 1 -> own_corner G lon1 lat1 lon2 lat2 i j ->
    is_nearest G (lay (mrows (g1 XG)) (mcols (g1 XG))) (fst (C i j)) (snd (C i j)) (g1 XG) (g1 YG) i j).
  { intros i j Hi Hj (O & O'). fold C in O, O'. unfold is_nearest.
    assert (Hd : forall a b, a <= 1 -> b <= 1 ->
      dist_to G (fst (C i j)) (snd (C i j)) (g1 XG) (g1 YG) (a, b) = g_inv G (C i j) (C a b)).
    { intros a0 b0 Ha Hb. unfold dist_to. cbn [fst snd]. rewrite HC by auto. rewrite <- surjective_pairing. reflexivity. }
    rewrite R1, R2. split; [lia|]. split; [lia|]. rewrite Hd by auto. split; [auto|]. split.
    - intros a0 b0 Ha Hb. rewrite Hd by lia. destruct (pair_dec (a0, b0) (i, j)) as [Hab|Hne].
      + inversion Hab. subst. apply b64_ltb_irrefl.
      + specialize (O' a0 b0 ltac:(lia) ltac:(lia) Hne). apply not_true_iff_false. intros Hlt.
        apply lt_le in Hlt. congruence.
    - destruct (Hlay 2 2) as (Hnd & Hin). pose proof (proj2 (Hin i j) ltac:(lia)) as Hij.
      apply in_split in Hij. destruct Hij as (pre & post & Eo). exists pre, post. split; auto.
      intros (a0, b0) Hq0. assert (Hab : a0 < 2 /\ b0 < 2) by (apply Hin; rewrite Eo; apply in_or_app; auto).
      rewrite Hd by lia. apply O'; try lia. intros Hab'. inversion Hab'. subst a0 b0.
      rewrite Eo in Hnd. apply NoDup_remove_2 in Hnd. apply Hnd. apply in_or_app. auto. }
  assert (Hc : corners_at G lay a (g1 XG) (g1 YG) 0 1 1 0).
  { split; [rewrite A1, A2|rewrite A3, A4].
    - apply (Hnear 0 1); auto.
    - apply (Hnear 1 0); auto. }
  destruct (regrid64_ok L G loadtxt fs lay o3 fuel a (dict_of_grid g1) (g1 XG) (g1 YG) 0 1 1 0 p q)
    as (g & H & dd & Er & HS & Hg & _); auto.
  { eapply from_matrices; eauto. reflexivity. }
  { unfold subscales. auto. }
  { unfold quarter_turns. cbn. lia. }
  destruct (mkgrid64_ok L G lon1 lat1 lon2 lat2 p q) as (g' & H' & E' & HS' & Hg'); auto. fold C in HS'.
  exists g'. eexists. split; [exact E'|]. split; [exact Er|]. cbn [rr_grid rr_ni rr_nj].
  change (out_ni 0 1 1 0) with 1 in *. change (out_nj 0 1 1 0) with 1 in *. rewrite !Nat.mul_1_r in *.
  split; auto.
  assert (HCC : forall a0 b0, a0 <= 1 -> b0 <= 1 ->
    (fun a b => (mat_at (g1 XG) (fst (source_index 0 1 1 0 a b)) (snd (source_index 0 1 1 0 a b)),
                 mat_at (g1 YG) (fst (source_index 0 1 1 0 a b)) (snd (source_index 0 1 1 0 a b)))) a0 b0 = C a0 b0).
  { intros a0 b0 Ha Hb. change (source_index 0 1 1 0 a0 b0) with (0 + a0, 0 + b0). cbn [fst snd Nat.add]. apply HC; auto. }
  assert (Hpos : corners_pos (b64ops L)
    (fun a b => (mat_at (g1 XG) (fst (source_index 0 1 1 0 a b)) (snd (source_index 0 1 1 0 a b)),
                 mat_at (g1 YG) (fst (source_index 0 1 1 0 a b)) (snd (source_index 0 1 1 0 a b)))) 1 1 =
    corners_pos (b64ops L) C 1 1).
  { unfold corners_pos. apply eq_true_iff_eq. rewrite !forallb_forall.
    split; intros Hx (a0, b0) Hin; specialize (Hx (a0, b0) Hin); apply in_prod_iff in Hin; rewrite !in_seq in Hin;
      cbn [fst snd] in *.
    - rewrite <- HCC by lia. exact Hx.
    - rewrite <- HCC in Hx by lia. exact Hx. }
  rewrite Hpos in HS.
  eapply grid_of_geq; [exact Hg|]. eapply grid_of_ext; [|exact Hg'].
  intros u v Hu Hv. symmetry. apply (subdivides_unique (b64ops L) G _ _ _ p q 1 1 H H' Hp Hq ltac:(auto) ltac:(auto) HCC HS HS');
    rewrite Nat.mul_1_r; auto.
Qed.

(** ** a concrete source *)
(** 2 x 3 cells, stored with longitude falling along j and latitude rising along i: the
    corner (0,2) is stored at (2,3) and (3,0) at (0,0), one quarter turn off. *)
Definition ex_xg := ex_mat [[3; 2; 1; 0]; [3; 2; 1; 0]; [3; 2; 1; 0]]%Z.
Definition ex_yg := ex_mat [[0; 0; 0; 0]; [1; 1; 1; 1]; [2; 2; 2; 2]]%Z.
Definition ex_dict : griddict binary64 :=
  fun f => match f with XG => Arr ex_xg | YG => Arr ex_yg | _ => Arr (ex_mat [[7]]%Z) end.
Definition ex_args (lon1 lat1 lon2 lat2 : binary64) (m : option (griddict binary64)) : regrid_args binary64 :=
  mk_regrid_args None None None m None None lon1 lat1 lon2 lat2 2 1 true.
Definition ex_a := ex_args (ex_int 0) (ex_int 2) (ex_int 3) (ex_int 0) (Some ex_dict).
Definition no_files : string -> option (list byte) := fun _ => None.
Definition no_loadtxt : list byte -> res (option (mat binary64)) := fun _ => Err OSError.
Definition ex_regrid (a : regrid_args binary64) :=
  regrid64 ex_libm ex_geod no_loadtxt no_files indices indices 3 a.
(** counts and entries of a result, computed once *)
Definition rgbits (r : res (regrid_result binary64)) (l : list (field * nat * nat)) : option (nat * nat * list Z) :=
  match r with
  | Ok rr => Some (rr_ni rr, rr_nj rr, map (fun x => bits_of_b64 (mat_at (rr_grid rr (fst (fst x))) (snd (fst x)) (snd x))) l)
  | Err _ => None
  end.

Lemma is_nearest_bits L G order lon lat lons lats i j b :
  layout order (mrows lons) (mcols lons) ->
  nbits (nearest64 L G order lon lat lons lats) = Some (Z.of_nat i, Z.of_nat j, b) ->
  is_nearest G order lon lat lons lats i j.
Proof.
  intros Hl. unfold nbits. destruct (nearest64 L G order lon lat lons lats) as [((x & y) & z)|] eqn:E; [|discriminate].
  intros H. inversion H. subst. eapply is_nearest_of_nearest; eauto.
Qed.

Lemma ex_usable : usable ex_libm no_loadtxt no_files ex_a ex_xg ex_yg.
Proof.
  exists ex_dict. split; [|split; [reflexivity|split; [reflexivity|]]].
  - eapply from_matrices; [left; reflexivity|left; left; reflexivity|reflexivity|reflexivity].
  - unfold same_shape. cbn. lia.
Qed.
Lemma ex_corners : corners_at ex_geod indices ex_a ex_xg ex_yg 2 3 0 0.
Proof.
  split; (eapply (is_nearest_bits ex_libm); [apply layouts_indices|vm_compute; reflexivity]).
Qed.
Lemma ex_subscales : subscales ex_a 2 1.
Proof. unfold subscales. cbn. lia. Qed.

(** The output point (2,2), the two requested corners, and a new point between corners. *)
Example C19_case :
  usable ex_libm no_loadtxt no_files ex_a ex_xg ex_yg /\
  corners_at ex_geod indices ex_a ex_xg ex_yg 2 3 0 0 /\ subscales ex_a 2 1 /\
  source_index 2 3 0 0 1 2 = (2, 2) /\
  rgbits (ex_regrid ex_a) [(XG, 2, 2); (YG, 2, 2); (XG, 0, 2); (YG, 0, 2); (XG, 6, 0); (YG, 6, 0); (XC, 1, 0)]
    = Some (6, 2, [ibits 1; ibits 2; ibits 0; ibits 2; ibits 3; ibits 0; bits_of_b64 (b64_of_bits 4604930618986332160)]).
Proof.
  split; [apply ex_usable|]. split; [apply ex_corners|]. split; [apply ex_subscales|]. split; [reflexivity|].
  vm_compute. reflexivity.
Qed.

(** C20, C21: see C19_case; here one rotation is needed and none is not enough. *)
Example C21_case :
  quarter_turns 2 3 0 0 = 1 /\
  match regrid64 ex_libm ex_geod no_loadtxt no_files indices indices 0 ex_a with Err OutOfFuel => true | _ => false end = true.
Proof. split; vm_compute; reflexivity. Qed.

(** A NaN corner. *)
Definition ex_a_nan := ex_args b64_nan (ex_int 2) (ex_int 3) (ex_int 0) (Some ex_dict).
Example C22_case :
  none_near ex_geod (ra_lon1 ex_a_nan) (ra_lat1 ex_a_nan) ex_xg ex_yg /\
  is_nearest ex_geod (indices 3 4) (ra_lon2 ex_a_nan) (ra_lat2 ex_a_nan) ex_xg ex_yg 0 0 /\
  match regrid64 ex_libm ex_geod no_loadtxt no_files indices indices 50 ex_a_nan with Err OutOfFuel => true | _ => false end = true.
Proof.
  split; [|split].
  - intros i j Hi Hj. cbn in Hi, Hj.
    do 3 (destruct i as [|i]; [do 4 (destruct j as [|j]; [reflexivity|]); lia|]). lia.
  - eapply (is_nearest_bits ex_libm); [apply layouts_indices|vm_compute; reflexivity].
  - vm_compute. reflexivity.
Qed.

(** ni missing; an empty file name counts as absent; an empty dictionary counts as absent. *)
Example C23_case :
  usage_error (mk_regrid_args (Some "a.mitgrid"%string) None None (Some ex_dict) (Some 0) (Some 3)
    (ex_int 0) (ex_int 0) (ex_int 0) (ex_int 0) 1 1 true) /\
  usage_error (mk_regrid_args (Some ""%string) (Some "x.csv"%string) None (Some (fun _ => Missing)) (Some 2) (Some 3)
    (ex_int 0) (ex_int 0) (ex_int 0) (ex_int 0) 1 1 true) /\
  ~ usage_error ex_a.
Proof.
  split; [|split].
  - left. exists "a.mitgrid"%string. split; [split; [reflexivity|discriminate]|]. left. right. reflexivity.
  - right. right. split; [right; reflexivity|]. split; [right; left; reflexivity|]. right. eexists. split; reflexivity.
  - intros [(p & (H & _) & _)|[(p & q & _ & (H & _) & _)|(_ & _ & [H|(d & H & Hd)])]]; try discriminate.
    cbn [ra_matrices ex_a ex_args] in H. inversion H. subst d. specialize (Hd XC). discriminate.
Qed.

(** After the call the caller's 3 x 4 XG is 4 x 3. *)
Example C24_case :
  match ex_regrid ex_a with
  | Ok rr => match rr_dict rr XG with
             | Arr m => (mrows m, mcols m, bits_of_b64 (mat_at m 0 0), bits_of_b64 (mat_at m 3 0))
             | _ => (0, 0, 0%Z, 0%Z) end
  | Err _ => (0, 0, 0%Z, 0%Z)
  end = (4, 3, ibits 0, ibits 3) /\
  strictly_nearest ex_geod (ra_lon1 ex_a) (ra_lat1 ex_a) ex_xg ex_yg 2 3 /\
  strictly_nearest ex_geod (ra_lon2 ex_a) (ra_lat2 ex_a) ex_xg ex_yg 0 0.
Proof.
  split; [vm_compute; reflexivity|].
  split; intros i j Hi Hj Hne; cbn in Hi, Hj;
    do 3 (destruct i as [|i]; [do 4 (destruct j as [|j]; [vm_compute; congruence|]); lia|]); lia.
Qed.

(** Both corners nearest to points of one row. *)
Definition ex_a_row := ex_args (ex_int 0) (ex_int 0) (ex_int 3) (ex_int 0) (Some ex_dict).
Example C25_case :
  corners_at ex_geod indices ex_a_row ex_xg ex_yg 0 3 0 0 /\ raises_value (ex_regrid ex_a_row).
Proof.
  split.
  - split; (eapply (is_nearest_bits ex_libm); [apply layouts_indices|vm_compute; reflexivity]).
  - eexists. vm_compute. reflexivity.
Qed.

Example C18_case :
  own_corner ex_geod (ex_int 0) (ex_int 2) (ex_int 8) (ex_int 0) 0 1 /\
  own_corner ex_geod (ex_int 0) (ex_int 2) (ex_int 8) (ex_int 0) 1 0.
Proof.
  split; (split; [vm_compute; reflexivity|]); intros a b Ha Hb Hne;
    (destruct a as [|[|a]]; [| |lia]); (destruct b as [|[|b]]; [| |lia]); vm_compute; congruence.
Qed.
