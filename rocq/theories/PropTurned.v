(** Property C104: how regrid's result depends on the orientation of the matrices given. *)
From Coq Require Import String List Bool PeanoNat ZArith Lia.
From Flocq Require Import IEEE754.Binary IEEE754.Bits.
Import ListNotations.
From Verif Require Import Prelude PreludeFacts Num Mat MatFacts Fields GridIO Float64 Float64Facts
  SpecGrid SpecHalf TomitFacts TomitSpec Refine RefineFacts MkGrid Regrid RegridFacts SpecRegrid SourceFacts
  MatchEdgesFacts Samples PropUtil PropFill PropMkGrid PropRegrid PropGlobe.
Local Open Scope nat_scope.
Local Arguments Nat.mul : simpl never.

(** ** specification *)

(** Point (i,j) of the grid is measured to be closer to p than every other one. *)
Definition only_closest (G : geod binary64) (p : binary64 * binary64) (xg yg : mat binary64) (i j : nat) : Prop :=
  i < mrows xg /\ j < mcols xg /\ closest G p xg yg i j /\
  forall a b, a < mrows xg -> b < mcols xg -> closest G p xg yg a b -> a = i /\ b = j.

(** The two points asked for. *)
Definition asked (G : geod binary64) (a : regrid_args binary64) (xg yg : mat binary64) (i1 j1 i2 j2 : nat) : Prop :=
  only_closest G (ra_lon1 a, ra_lat1 a) xg yg i1 j1 /\ only_closest G (ra_lon2 a, ra_lat2 a) xg yg i2 j2.

(** Two calls that ask for the same. *)
Definition same_request (a a' : regrid_args binary64) : Prop :=
  (ra_lon1 a, ra_lat1 a, ra_lon2 a, ra_lat2 a) = (ra_lon1 a', ra_lat1 a', ra_lon2 a', ra_lat2 a') /\
  ra_lon_subscale a = ra_lon_subscale a' /\ ra_lat_subscale a = ra_lat_subscale a'.

(** [m'] is [m] with rows and columns exchanged. *)
Definition is_transposed {A} (m m' : mat A) : Prop :=
  mat_is m' (mcols m) (mrows m) (fun i j => mat_at m j i).

(** ** proofs *)

(** Entry (i,j) of an r x c matrix moves to [T i j]. *)
Definition moved (r c : nat) (T : nat -> nat -> nat * nat) (m m' : mat binary64) : Prop :=
  (forall i j, i < r -> j < c -> fst (T i j) < mrows m' /\ snd (T i j) < mcols m' /\
     mat_at m' (fst (T i j)) (snd (T i j)) = mat_at m i j) /\
  (forall i' j', i' < mrows m' -> j' < mcols m' -> exists i j, i < r /\ j < c /\ T i j = (i', j')).

Definition turn (k r c i j : nat) : nat * nat :=
  match k with
  | 0 => (i, j)
  | 1 => (c - 1 - j, i)
  | 2 => (r - 1 - i, c - 1 - j)
  | _ => (j, r - 1 - i)
  end.

Lemma turned_moved k (m m' : mat binary64) : is_turned k m m' -> moved (mrows m) (mcols m) (turn k (mrows m) (mcols m)) m m'.
Proof.
  destruct k as [|[|[|k]]]; intros (R & C & E); unfold moved, turn; rewrite R, C; cbn [fst snd]; split.
  - intros i j Hi Hj. rewrite E by lia. auto.
  - intros i j Hi Hj. exists i, j. auto.
  - intros i j Hi Hj. rewrite E by lia. repeat split; try lia. f_equal; lia.
  - intros i j Hi Hj. exists j, (mcols m - 1 - i). repeat split; try lia. f_equal; lia.
  - intros i j Hi Hj. rewrite E by lia. repeat split; try lia. f_equal; lia.
  - intros i j Hi Hj. exists (mrows m - 1 - i), (mcols m - 1 - j). repeat split; try lia. f_equal; lia.
  - intros i j Hi Hj. rewrite E by lia. repeat split; try lia. f_equal; lia.
  - intros i j Hi Hj. exists (mrows m - 1 - j), i. repeat split; try lia. f_equal; lia.
Qed.

Lemma transposed_moved (m m' : mat binary64) : is_transposed m m' -> moved (mrows m) (mcols m) (fun i j => (j, i)) m m'.
Proof.
  intros (R & C & E). unfold moved. rewrite R, C. cbn [fst snd]. split.
  - intros i j Hi Hj. rewrite E by lia. auto.
  - intros i j Hi Hj. exists j, i. auto.
Qed.

Lemma closest_moved G p T xg yg xg' yg' i j : same_shape xg yg -> same_shape xg' yg' ->
  moved (mrows xg) (mcols xg) T xg xg' -> moved (mrows yg) (mcols yg) T yg yg' ->
  only_closest G p xg yg i j -> only_closest G p xg' yg' (fst (T i j)) (snd (T i j)).
Proof.
  intros (S1 & S2 & _) (S3 & S4 & _) (X1 & X2) (Y1 & Y2) (Hi & Hj & (C1 & C2) & U).
  assert (D : forall a b, a < mrows xg -> b < mcols xg ->
    dist_to G (fst p) (snd p) xg' yg' (T a b) = dist_to G (fst p) (snd p) xg yg (a, b)).
  { intros a b Ha Hb. unfold dist_to. destruct (X1 a b Ha Hb) as (_ & _ & E1). destruct (Y1 a b) as (_ & _ & E2); [lia..|].
    destruct (T a b) as (u, v). cbn [fst snd] in *. now rewrite E1, E2. }
  destruct (X1 i j Hi Hj) as (B1 & B2 & _). repeat split; auto.
  - rewrite <- surjective_pairing, D by auto. exact C1.
  - intros a b Ha Hb. destruct (X2 a b Ha Hb) as (u & v & Hu & Hv & <-). rewrite <- surjective_pairing, !D by auto. auto.
  - destruct (X2 a b H H0) as (u & v & Hu & Hv & E).
    assert (K : u = i /\ v = j).
    { apply U; auto. destruct H1 as (K1 & K2). rewrite <- E, D in K1 by auto. split; [exact K1|].
      intros a' b' Ha' Hb'. specialize (K2 (fst (T a' b')) (snd (T a' b'))). rewrite <- surjective_pairing, <- E, !D in K2 by auto.
      apply K2; apply X1; auto. }
    destruct K as (-> & ->). rewrite E. reflexivity.
  - destruct (X2 a b H H0) as (u & v & Hu & Hv & E).
    assert (K : u = i /\ v = j).
    { apply U; auto. destruct H1 as (K1 & K2). rewrite <- E, D in K1 by auto. split; [exact K1|].
      intros a' b' Ha' Hb'. specialize (K2 (fst (T a' b')) (snd (T a' b'))). rewrite <- surjective_pairing, <- E, !D in K2 by auto.
      apply K2; apply X1; auto. }
    destruct K as (-> & ->). rewrite E. reflexivity.
Qed.

Lemma only_found (L : libm) G lay a xg yg i1 j1 i2 j2 : layouts lay -> same_shape xg yg ->
  asked G a xg yg i1 j1 i2 j2 -> corners_at G lay a xg yg i1 j1 i2 j2.
Proof.
  intros Hl Hs ((I1 & J1 & C1 & U1) & (I2 & J2 & C2 & U2)).
  destruct (closest_found L G lay _ xg yg i1 j1 Hl Hs I1 J1 C1) as (a1 & b1 & F1).
  destruct (closest_found L G lay _ xg yg i2 j2 Hl Hs I2 J2 C2) as (a2 & b2 & F2).
  destruct (U1 a1 b1) as (-> & ->); [apply F1|apply F1|eapply found_closest; exact F1|].
  destruct (U2 a2 b2) as (-> & ->); [apply F2|apply F2|eapply found_closest; exact F2|].
  split; assumption.
Qed.

Lemma source_inside r c i1 j1 i2 j2 a b : i1 < r -> i2 < r -> j1 < c -> j2 < c -> i1 <> i2 -> j1 <> j2 ->
  a <= out_ni i1 j1 i2 j2 -> b <= out_nj i1 j1 i2 j2 ->
  fst (source_index i1 j1 i2 j2 a b) < r /\ snd (source_index i1 j1 i2 j2 a b) < c.
Proof.
  intros. unfold out_ni, out_nj, source_index, distance in *.
  destruct (Nat.ltb_spec i1 i2), (Nat.ltb_spec j2 j1); cbn [Bool.eqb fst snd] in *; lia.
Qed.

Lemma turn_source k r c i1 j1 i2 j2 : i1 < r -> i2 < r -> j1 < c -> j2 < c -> i1 <> i2 -> j1 <> j2 ->
  let i1' := fst (turn k r c i1 j1) in let j1' := snd (turn k r c i1 j1) in
  let i2' := fst (turn k r c i2 j2) in let j2' := snd (turn k r c i2 j2) in
  i1' <> i2' /\ j1' <> j2' /\ out_ni i1' j1' i2' j2' = out_ni i1 j1 i2 j2 /\ out_nj i1' j1' i2' j2' = out_nj i1 j1 i2 j2 /\
  forall a b, a <= out_ni i1 j1 i2 j2 -> b <= out_nj i1 j1 i2 j2 ->
    source_index i1' j1' i2' j2' a b
    = turn k r c (fst (source_index i1 j1 i2 j2 a b)) (snd (source_index i1 j1 i2 j2 a b)).
Proof.
  intros. destruct k as [|[|[|k]]]; cbn [turn fst snd] in *; subst i1' j1' i2' j2';
    (split; [lia|split; [lia|]]); unfold out_ni, out_nj, source_index, distance;
    repeat match goal with |- context [?x <? ?y] => destruct (Nat.ltb_spec x y); try (exfalso; lia) end; cbn [Bool.eqb fst snd];
    (split; [lia|split; [lia|]]); intros a b Ha Hb; f_equal; lia.
Qed.

(** ** C104 *)

(** Turned matrices, as numpy's rot90 turns them: the same result, bit for bit. *)
Theorem C104_turned_input_same_grid :
  forall L G loadtxt fs lay o3 fuel loadtxt' fs' lay' o3' fuel' a a' xg yg xg' yg' i1 j1 i2 j2 ls lt k,
  layouts lay -> layouts o3 -> layouts lay' -> layouts o3' -> 3 <= fuel -> 3 <= fuel' ->
  usable L loadtxt fs a xg yg -> usable L loadtxt' fs' a' xg' yg' -> same_request a a' ->
  asked G a xg yg i1 j1 i2 j2 -> i1 <> i2 -> j1 <> j2 -> subscales a ls lt ->
  is_turned k xg xg' -> is_turned k yg yg' ->
  exists rr rr', regrid64 L G loadtxt fs lay o3 fuel a = Ok rr /\ regrid64 L G loadtxt' fs' lay' o3' fuel' a' = Ok rr' /\
    geq (rr_grid rr') (rr_grid rr) /\ rr_ni rr' = rr_ni rr /\ rr_nj rr' = rr_nj rr.
Proof.
  intros L G loadtxt fs lay o3 fuel loadtxt' fs' lay' o3' fuel' a a' xg yg xg' yg' i1 j1 i2 j2 ls lt k
    Hl Ho Hl' Ho' Hf Hf' (d & Hs & Ex & Ey & Sh) (d' & Hs' & Ex' & Ey' & Sh') (Rq & Rs & Rt) Ha Hi Hj Hss Tx Ty.
  pose proof Sh as (Sr & Sc & _).
  apply turned_moved in Tx, Ty. set (T := turn k (mrows xg) (mcols xg)) in *.
  assert (Ty' : moved (mrows yg) (mcols yg) T yg yg') by (unfold T; rewrite <- Sr, <- Sc; exact Ty). clear Ty.
  assert (Ha' : asked G a' xg' yg' (fst (T i1 j1)) (snd (T i1 j1)) (fst (T i2 j2)) (snd (T i2 j2))).
  { apply pair_equal_spec in Rq. destruct Rq as (Rq & Q4). apply pair_equal_spec in Rq. destruct Rq as (Rq & Q3).
    apply pair_equal_spec in Rq. destruct Rq as (Q1 & Q2). unfold asked. rewrite <- Q1, <- Q2, <- Q3, <- Q4.
    destruct Ha as (A1 & A2). split; apply closest_moved with (xg := xg) (yg := yg); auto. }
  pose proof Ha as ((I1 & J1 & _) & (I2 & J2 & _)).
  destruct (turn_source k (mrows xg) (mcols xg) i1 j1 i2 j2 I1 I2 J1 J2 Hi Hj) as (Hi' & Hj' & On & Om & Src). fold T in Hi', Hj', On, Om, Src.
  assert (Hss' : subscales a' ls lt) by (unfold subscales in *; rewrite <- Rs, <- Rt; exact Hss).
  assert (Q : forall a b c d, quarter_turns a b c d <= 3).
  { intros. unfold quarter_turns. repeat match goal with |- context [if ?x then _ else _] => destruct x end; lia. }
  destruct (regrid64_ok L G loadtxt fs lay o3 fuel a d xg yg i1 j1 i2 j2 ls lt) as (g & H & dd & Er & HS & Hg & _); auto;
    [eapply only_found; eauto|etransitivity; [apply Q|exact Hf]|].
  destruct (regrid64_ok L G loadtxt' fs' lay' o3' fuel' a' d' xg' yg' (fst (T i1 j1)) (snd (T i1 j1)) (fst (T i2 j2)) (snd (T i2 j2)) ls lt)
    as (g' & H' & dd' & Er' & HS' & Hg' & _); auto; [eapply only_found; eauto|etransitivity; [apply Q|exact Hf']|].
  eexists _, _. split; [exact Er|]. split; [exact Er'|]. cbn [rr_grid rr_ni rr_nj]. rewrite On, Om in *.
  set (n := out_ni i1 j1 i2 j2) in *. set (m := out_nj i1 j1 i2 j2) in *.
  split; [|auto].
  match type of HS with subdivides _ _ _ ?c _ _ _ _ _ => set (Cn := c) in * end.
  match type of HS' with subdivides _ _ _ ?c _ _ _ _ _ => set (Cn' := c) in * end.
  assert (HC : forall x y, x <= n -> y <= m -> Cn' x y = Cn x y).
  { intros x y Hx Hy. unfold Cn', Cn. rewrite Src by auto.
    destruct (source_inside (mrows xg) (mcols xg) i1 j1 i2 j2 x y) as (K1 & K2); auto.
    destruct Tx as (X1 & _), Ty' as (Y1 & _). destruct (X1 _ _ K1 K2) as (_ & _ & ->).
    rewrite <- Sr in K1. rewrite <- Sc in K2. destruct (Y1 _ _ K1 K2) as (_ & _ & ->). reflexivity. }
  rewrite (corners_pos_ext (b64ops L) Cn' Cn n m HC) in HS'.
  destruct Hss as (_ & _ & L1 & L2).
  assert (N1 : 1 <= n /\ 1 <= m).
  { unfold n, m, out_ni, out_nj, distance. destruct (Bool.eqb _ _); lia. }
  destruct N1 as (N1 & M1).
  eapply grid_of_geq; [exact Hg'|]. eapply grid_of_ext; [|exact Hg].
  intros u v Hu Hv. symmetry.
  apply (subdivides_unique (b64ops L) G (corners_pos (b64ops L) Cn n m) Cn' Cn ls lt n m H' H); auto; rewrite <- Nat.mul_assoc; assumption.
Qed.

(** Transposed matrices: the result is the mirror image; its corners along i are those along
    j from the other end.  So it depends on the orientation of the matrices given whether
    the result is right-handed. *)
Theorem C104_transposed_input_mirrored :
  forall L G loadtxt fs lay o3 fuel loadtxt' fs' lay' o3' fuel' a a' xg yg xg' yg' i1 j1 i2 j2 ls lt,
  layouts lay -> layouts o3 -> layouts lay' -> layouts o3' -> 3 <= fuel -> 3 <= fuel' ->
  usable L loadtxt fs a xg yg -> usable L loadtxt' fs' a' xg' yg' -> same_request a a' ->
  asked G a xg yg i1 j1 i2 j2 -> i1 <> i2 -> j1 <> j2 -> subscales a ls lt ->
  is_transposed xg xg' -> is_transposed yg yg' ->
  let n := out_ni i1 j1 i2 j2 in let m := out_nj i1 j1 i2 j2 in
  exists rr rr', regrid64 L G loadtxt fs lay o3 fuel a = Ok rr /\ regrid64 L G loadtxt' fs' lay' o3' fuel' a' = Ok rr' /\
    (rr_ni rr, rr_nj rr) = (ls * n, lt * m) /\ (rr_ni rr', rr_nj rr') = (ls * m, lt * n) /\
    forall x y, x <= m -> y <= n ->
      mat_at (rr_grid rr' XG) (ls * x) (lt * y) = mat_at (rr_grid rr XG) (ls * (n - y)) (lt * (m - x)) /\
      mat_at (rr_grid rr' YG) (ls * x) (lt * y) = mat_at (rr_grid rr YG) (ls * (n - y)) (lt * (m - x)).
Proof.
  intros L G loadtxt fs lay o3 fuel loadtxt' fs' lay' o3' fuel' a a' xg yg xg' yg' i1 j1 i2 j2 ls lt
    Hl Ho Hl' Ho' Hf Hf' (d & Hs & Ex & Ey & Sh) (d' & Hs' & Ex' & Ey' & Sh') (Rq & Rs & Rt) Ha Hi Hj Hss Tx Ty n m.
  pose proof Sh as (Sr & Sc & _).
  apply transposed_moved in Tx, Ty. set (T := fun i j : nat => (j, i)) in *.
  assert (Ha' : asked G a' xg' yg' j1 i1 j2 i2).
  { apply pair_equal_spec in Rq. destruct Rq as (Rq & Q4). apply pair_equal_spec in Rq. destruct Rq as (Rq & Q3).
    apply pair_equal_spec in Rq. destruct Rq as (Q1 & Q2). unfold asked. rewrite <- Q1, <- Q2, <- Q3, <- Q4.
    destruct Ha as (A1 & A2). split.
    - apply (closest_moved G _ T xg yg xg' yg' i1 j1); auto.
    - apply (closest_moved G _ T xg yg xg' yg' i2 j2); auto. }
  pose proof Ha as ((I1 & J1 & _) & (I2 & J2 & _)).
  assert (Hss' : subscales a' ls lt) by (unfold subscales in *; rewrite <- Rs, <- Rt; exact Hss).
  assert (Q : forall a b c d, quarter_turns a b c d <= 3).
  { intros. unfold quarter_turns. repeat match goal with |- context [if ?x then _ else _] => destruct x end; lia. }
  destruct (regrid64_ok L G loadtxt fs lay o3 fuel a d xg yg i1 j1 i2 j2 ls lt) as (g & H & dd & Er & (S1 & _) & Hg & _); auto;
    [eapply only_found; eauto|etransitivity; [apply Q|exact Hf]|].
  destruct (regrid64_ok L G loadtxt' fs' lay' o3' fuel' a' d' xg' yg' j1 i1 j2 i2 ls lt)
    as (g' & H' & dd' & Er' & (S1' & _) & Hg' & _); auto; [eapply only_found; eauto|etransitivity; [apply Q|exact Hf']|].
  assert (On : out_ni j1 i1 j2 i2 = m /\ out_nj j1 i1 j2 i2 = n).
  { unfold m, n, out_ni, out_nj, distance.
    destruct (Nat.ltb_spec i1 i2), (Nat.ltb_spec j2 j1), (Nat.ltb_spec j1 j2), (Nat.ltb_spec i2 i1); cbn [Bool.eqb]; lia. }
  destruct On as (On & Om). rewrite On, Om in Er', Hg', S1'. fold n m in Er, Hg, S1.
  eexists _, _. split; [exact Er|]. split; [exact Er'|]. cbn [rr_grid rr_ni rr_nj]. split; [reflexivity|]. split; [reflexivity|].
  intros x y Hx Hy.
  destruct (grid_of_positions _ _ _ _ _ _ Hg) as (P & _). destruct (grid_of_positions _ _ _ _ _ _ Hg') as (P' & _).
  apply pair_equal_spec. rewrite P by (apply Nat.mul_le_mono_l; lia). rewrite P' by (apply Nat.mul_le_mono_l; lia).
  rewrite !Nat.mul_assoc, S1, S1' by lia.
  assert (Src : source_index j1 i1 j2 i2 x y
    = (snd (source_index i1 j1 i2 j2 (n - y) (m - x)), fst (source_index i1 j1 i2 j2 (n - y) (m - x)))).
  { revert Hx Hy. unfold m, n, out_ni, out_nj, source_index, distance.
    destruct (Nat.ltb_spec i1 i2), (Nat.ltb_spec j2 j1), (Nat.ltb_spec j1 j2), (Nat.ltb_spec i2 i1); cbn [Bool.eqb fst snd];
      intros; try lia; f_equal; lia. }
  rewrite Src. cbn [fst snd].
  destruct (source_inside (mrows xg) (mcols xg) i1 j1 i2 j2 (n - y) (m - x)) as (K1 & K2); auto; try (fold n m; lia).
  destruct Tx as (X1 & _), Ty as (Y1 & _). destruct (X1 _ _ K1 K2) as (_ & _ & X). cbn [fst snd T] in X. rewrite X.
  rewrite <- Sr in K1. rewrite <- Sc in K2. destruct (Y1 _ _ K1 K2) as (_ & _ & Y). cbn [fst snd T] in Y. rewrite Y. reflexivity.
Qed.

(** ** cases *)

(** The sample source turned once, and transposed; all with the corner (0,2) north-west
    and (3,0) south-east. *)
Definition ex_xg1 := ex_mat [[0; 0; 0]; [1; 1; 1]; [2; 2; 2]; [3; 3; 3]]%Z.
Definition ex_yg1 := ex_mat [[0; 1; 2]; [0; 1; 2]; [0; 1; 2]; [0; 1; 2]]%Z.
Definition ex_xgt := ex_mat [[3; 3; 3]; [2; 2; 2]; [1; 1; 1]; [0; 0; 0]]%Z.
Definition ex_ygt := ex_mat [[0; 1; 2]; [0; 1; 2]; [0; 1; 2]; [0; 1; 2]]%Z.
Definition ex_with (x y : mat binary64) : regrid_args binary64 :=
  ex_args (ex_int 0) (ex_int 2) (ex_int 3) (ex_int 0)
    (Some (fun f => match f with XG => Arr x | YG => Arr y | _ => Arr (ex_mat [[7]]%Z) end)).

Lemma ex_with_usable x y : same_shape x y -> usable ex_libm no_loadtxt no_files (ex_with x y) x y.
Proof.
  intros S. exists (fun f => match f with XG => Arr x | YG => Arr y | _ => Arr (ex_mat [[7]]%Z) end).
  split; [|split; [reflexivity|split; [reflexivity|exact S]]].
  eapply from_matrices; [left; reflexivity|left; left; reflexivity|reflexivity|reflexivity].
Qed.

(** [only_closest], decided *)
Definition only_closest_b (G : geod binary64) p xg yg i j : bool :=
  closest_b G p xg yg i j &&
  forallb (fun a => forallb (fun b => negb (closest_b G p xg yg a b) || ((a =? i) && (b =? j)))
    (seq 0 (mcols xg))) (seq 0 (mrows xg)).

Lemma only_closest_bits G p xg yg i j : i < mrows xg -> j < mcols xg ->
  only_closest_b G p xg yg i j = true -> only_closest G p xg yg i j.
Proof.
  intros Hi Hj H. apply andb_prop in H. destruct H as (H1 & H2). split; [auto|]. split; [auto|].
  split; [now apply closest_iff|]. intros a b Ha Hb Hc. apply closest_iff in Hc.
  rewrite forallb_forall in H2. specialize (H2 a). rewrite in_seq in H2. specialize (H2 ltac:(lia)).
  rewrite forallb_forall in H2. specialize (H2 b). rewrite in_seq in H2. specialize (H2 ltac:(lia)).
  rewrite Hc in H2. cbn [negb orb] in H2. apply andb_prop in H2. destruct H2 as (A & B).
  apply Nat.eqb_eq in A, B. auto.
Qed.

Example C104_turned_case :
  usable ex_libm no_loadtxt no_files (ex_with ex_xg ex_yg) ex_xg ex_yg /\
  usable ex_libm no_loadtxt no_files (ex_with ex_xg1 ex_yg1) ex_xg1 ex_yg1 /\
  same_request (ex_with ex_xg ex_yg) (ex_with ex_xg1 ex_yg1) /\
  asked ex_geod (ex_with ex_xg ex_yg) ex_xg ex_yg 2 3 0 0 /\ subscales (ex_with ex_xg ex_yg) 2 1 /\
  is_turned 1 ex_xg ex_xg1 /\ is_turned 1 ex_yg ex_yg1.
Proof.
  split; [apply ex_with_usable; unfold same_shape; cbn; lia|].
  split; [apply ex_with_usable; unfold same_shape; cbn; lia|].
  split; [repeat split|].
  split; [split; (apply only_closest_bits; [cbn; lia..|vm_compute; reflexivity])|].
  split; [unfold subscales; cbn; lia|].
  split; (split; [reflexivity|]; split; [reflexivity|]; cbn [ex_xg ex_yg mrows mcols]; intros i j Hi Hj; cbn in Hi, Hj;
    do 4 (destruct i as [|i]; [do 3 (destruct j as [|j]; [reflexivity|]); lia|]); lia).
Qed.

(** The grid from the transposed source is 4 x 3 instead of 6 x 2.  Both have (0,2) at the
    north-west and (3,0) at the south-east, but where the first has (3,2) at the north-east and
    (0,0) at the south-west the second has them the other way round. *)
Example C104_transposed_case :
  usable ex_libm no_loadtxt no_files (ex_with ex_xgt ex_ygt) ex_xgt ex_ygt /\
  same_request (ex_with ex_xg ex_yg) (ex_with ex_xgt ex_ygt) /\
  is_transposed ex_xg ex_xgt /\ is_transposed ex_yg ex_ygt /\
  rgbits (ex_regrid (ex_with ex_xg ex_yg)) [(XG, 0, 2); (YG, 0, 2); (XG, 6, 2); (YG, 6, 2); (XG, 0, 0); (YG, 0, 0)]
    = Some (6, 2, [ibits 0; ibits 2; ibits 3; ibits 2; ibits 0; ibits 0]) /\
  rgbits (ex_regrid (ex_with ex_xgt ex_ygt)) [(XG, 0, 3); (YG, 0, 3); (XG, 4, 3); (YG, 4, 3); (XG, 0, 0); (YG, 0, 0)]
    = Some (4, 3, [ibits 0; ibits 2; ibits 0; ibits 0; ibits 3; ibits 2]).
Proof.
  split; [apply ex_with_usable; unfold same_shape; cbn; lia|].
  split; [repeat split|].
  split; [|split; [|split; vm_compute; reflexivity]];
  (split; [reflexivity|]; split; [reflexivity|]; intros i j Hi Hj; cbn in Hi, Hj;
    do 4 (destruct i as [|i]; [do 3 (destruct j as [|j]; [reflexivity|]); lia|]); lia).
Qed.
