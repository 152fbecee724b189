(** Property C102: what getobcs hands to the interpolation library: the positions of the
    parent's and the region's points of each kind, and the numbers at the parent's. *)
From Coq Require Import Ascii String List Bool PeanoNat ZArith Lia Init.Byte.
From Flocq Require Import IEEE754.Binary IEEE754.Bits.
Import ListNotations.
From Verif Require Import Prelude PreludeFacts Num Mat MatFacts Fields GridIO Float64 Float64Facts Float32
  SpecGrid SpecHalf TomitFacts TomitSpec Refine MkGrid Regrid RegridFacts SpecRegrid SourceFacts
  MdsMeta Mds MdsFacts SpecMds GetObcs SpecObcs GetObcsFacts MatchEdgesFacts Samples PropUtil PropFill PropMkGrid PropRegrid PropMds PropObcs.
Local Open Scope nat_scope.
Local Open Scope list_scope.
Local Arguments Nat.mul : simpl never.

(** ** specification *)

(** A grid of ni x nj cells whose corners are all found by regrid. *)
Definition grid_with (G : geod binary64) lay (d : griddict binary64) (ni nj : nat)
    (xc yc xg yg : mat binary64) : Prop :=
  1 <= ni /\ 1 <= nj /\ d XC = Arr xc /\ d YC = Arr yc /\ d XG = Arr xg /\ d YG = Arr yg /\
  (mrows xc, mcols xc) = (ni, nj) /\ (mrows xg, mcols xg) = (ni + 1, nj + 1) /\
  (mrows yg, mcols yg) = (ni + 1, nj + 1) /\ own_corners G lay xg yg.

(** The middle of three points cutting the geodesic from x to y into four; if no corner of
    the grid has a negative longitude, its own is brought into 0..360. *)
Definition middle (L : libm) (G : geod binary64) (xg : mat binary64) (x y : binary64 * binary64)
    : binary64 * binary64 :=
  let z := g_npt G x y 3 1 in
  if existsb (fun i => existsb (fun j => b64_ltb (mat_at xg i j) b64_zero) (seq 0 (mcols xg))) (seq 0 (mrows xg))
  then z
  else if b64_ltb (fst z) b64_zero then (nadd (b64ops L) (fst z) (n360 (b64ops L)), snd z) else z.

(** Where point (i,j) of a kind is: tracer points as given; U points halfway between the
    corners (i,j) and (i,j+1); V points halfway between the corners (i,j) and (i+1,j). *)
Definition position (L : libm) (G : geod binary64) (xc yc xg yg : mat binary64) (k : kind) (i j : nat)
    : binary64 * binary64 :=
  let corner i j := (mat_at xg i j, mat_at yg i j) in
  match k with
  | Tracer => (mat_at xc i j, mat_at yc i j)
  | Upoint => middle L G xg (corner i j) (corner i (j + 1))
  | Vpoint => middle L G xg (corner i j) (corner (i + 1) j)
  end.

(** The number at (i,j) of a field of MITgcm results, i last: zero beyond its extents. *)
Definition result_at (A : nd binary64) (d i j : nat) : binary64 :=
  match shape A with
  | [ny; nx] => if (i <? nx) && (j <? ny) then at_ A [j; i] else b64_zero
  | [_; ny; nx] => if (i <? nx) && (j <? ny) then at_ A [d; j; i] else b64_zero
  | _ => b64_zero
  end.

(** Extents of a field, i first *)
Definition extents (A : nd binary64) : option (nat * nat) :=
  match shape A with
  | [ny; nx] | [_; ny; nx] => Some (nx, ny)
  | _ => None
  end.
Definition has_depth (A : nd binary64) (d : nat) : Prop :=
  match shape A with [nz; _; _] => d < nz | _ => True end.

(** Fields acceptable for points of a kind: exactly the parent's tracer points; at most the
    parent's U or V points. *)
Definition fits (pi pj : nat) (k : kind) (A : nd binary64) (d : nat) : Prop :=
  has_depth A d /\
  exists e, extents A = Some e /\
    match k with
    | Tracer => e = (pi, pj)
    | _ => fst e <= fst (points pi pj k) /\ snd e <= snd (points pi pj k)
    end.

(** ** proofs *)

Lemma pos_eq L (xg yg : mat binary64) ni nj :
  mrows xg = ni + 1 -> mcols xg = nj + 1 ->
  corners_pos (b64ops L) (fun a b => (mat_at xg a b, mat_at yg a b)) ni nj
  = negb (existsb (fun i => existsb (fun j => b64_ltb (mat_at xg i j) b64_zero) (seq 0 (mcols xg))) (seq 0 (mrows xg))).
Proof.
  intros Er Ec. rewrite Er, Ec. unfold corners_pos. apply eq_true_iff_eq. rewrite forallb_forall, negb_true_iff.
  rewrite <- not_true_iff_false, existsb_exists. split.
  - intros K (i & Ii & Hi). rewrite existsb_exists in Hi. destruct Hi as (j & Ij & Hj).
    specialize (K (i, j)). cbn [fst snd] in K. rewrite negb_true_iff in K.
    change (nltb (b64ops L)) with b64_ltb in K. change (nzero (b64ops L)) with b64_zero in K.
    rewrite K in Hj; [discriminate|]. apply in_prod; auto.
  - intros K (i, j) I. apply in_prod_iff in I. destruct I as (Ii & Ij). cbn [fst snd]. rewrite negb_true_iff.
    apply not_true_iff_false. intros Hj. apply K. exists i. split; auto. apply existsb_exists. eauto.
Qed.

Lemma middle_eq L G xg yg ni nj x y : mrows xg = ni + 1 -> mcols xg = nj + 1 ->
  wrap (b64ops L) (corners_pos (b64ops L) (fun a b => (mat_at xg a b, mat_at yg a b)) ni nj) (g_npt G x y 3 1)
  = middle L G xg x y.
Proof.
  intros Er Ec. rewrite (pos_eq L xg yg ni nj) by auto. unfold wrap, middle.
  destruct (existsb _ _); cbn [negb andb]; [reflexivity|].
  change (nltb (b64ops L)) with b64_ltb. change (nzero (b64ops L)) with b64_zero. reflexivity.
Qed.

(** The grid at twice the resolution holds the U and V points. *)
Lemma doubled_points L G lay o3 fuel (d : griddict binary64) ni nj xc yc xg yg g :
  layouts lay -> layouts o3 -> grid_with G lay d ni nj xc yc xg yg ->
  doubled (b64ops L) b64codec G lay o3 fuel d ni nj = Ok g ->
  (mrows (g XG) = 2 * ni + 1 /\ mcols (g XG) = 2 * nj + 1 /\
   mrows (g YG) = 2 * ni + 1 /\ mcols (g YG) = 2 * nj + 1) /\
  (forall i j, i <= ni -> j < nj ->
     (mat_at (g XG) (2 * i) (2 * j + 1), mat_at (g YG) (2 * i) (2 * j + 1)) = position L G xc yc xg yg Upoint i j) /\
  (forall i j, i < ni -> j <= nj ->
     (mat_at (g XG) (2 * i + 1) (2 * j), mat_at (g YG) (2 * i + 1) (2 * j)) = position L G xc yc xg yg Vpoint i j).
Proof.
  intros Hlay Ho3 (Hi & Hj & Exc & _ & Ex & Ey & _ & Sx & Sy & Hown) H.
  injection Sx as Rx Cx. injection Sy as Ry Cy.
  assert (Hsh : same_shape xg yg) by (unfold same_shape; lia).
  destruct (doubled_shape L G lay o3 fuel d ni nj xc xg yg g) as ((X1 & X2) & Y1 & Y2); auto.
  split; [auto|]. destruct Hown as (N1 & N2).
  unfold doubled, corner_nw, corner_se, matrix in H. rewrite Ex, Ey in H. cbn [rbind] in H.
  rewrite Rx, Cx, Ry, Cy in H. rewrite Rx, Cx in N1, N2. cbn zeta in N1, N2.
  replace (ni + 1 =? 0) with false in H by (symmetry; apply Nat.eqb_neq; lia).
  replace (nj + 1 =? 0) with false in H by (symmetry; apply Nat.eqb_neq; lia).
  cbn [orb rbind] in H. mok H. injection H as <-.
  replace (ni + 1 - 1) with ni in * by lia. replace (nj + 1 - 1) with nj in * by lia.
  set (args := mk_regrid_args None None None (Some d) (Some ni) (Some nj) (mat_at xg 0 nj)
    (mat_at yg 0 nj) (mat_at xg ni 0) (mat_at yg ni 0) 2 2 false) in *.
  assert (Hs : supplies (b64ops L) b64codec (fun _ => Err OSError) (fun _ => None) args d).
  { eapply from_matrices; [left; reflexivity|left; left; reflexivity|reflexivity|exact Exc]. }
  assert (Hc : corners_at G lay args xg yg 0 nj ni 0) by (split; rewrite Rx, Cx; auto).
  assert (Li : (0 <? ni) = true) by (apply Nat.ltb_lt; lia).
  assert (Lj : (0 <? nj) = true) by (apply Nat.ltb_lt; lia).
  assert (Q0 : quarter_turns 0 nj ni 0 = 0) by (unfold quarter_turns; now rewrite Li, Lj).
  destruct (regrid64_ok L G (fun _ => Err OSError) (fun _ => None) lay o3 fuel args d xg yg
    0 nj ni 0 2 2) as (g & HH & dd & Eg & HS & Hg & _); auto; try lia.
  { unfold subscales. cbn. lia. }
  unfold regrid64 in Eg. rewrite Eg in Ha. injection Ha as <-. cbn [rr_grid] in *.
  assert (On : out_ni 0 nj ni 0 = ni) by (unfold out_ni, distance; rewrite Li, Lj; cbn [Bool.eqb]; lia).
  assert (Om : out_nj 0 nj ni 0 = nj) by (unfold out_nj, distance; rewrite Li, Lj; cbn [Bool.eqb]; lia).
  rewrite On, Om in Hg, HS.
  destruct (grid_of_positions _ _ _ _ _ _ Hg) as (Hp & _).
  assert (Src : forall a b, source_index 0 nj ni 0 a b = (a, b)).
  { intros a b. unfold source_index. rewrite Li, Lj. f_equal; lia. }
  destruct HS as (S1 & S2 & S3). rewrite ?(pos_eq L xg yg ni nj) in * by auto.
  assert (Ec : corners_pos (b64ops L) (fun a b : nat => (mat_at xg (fst (source_index 0 nj ni 0 a b)) (snd (source_index 0 nj ni 0 a b)),
                       mat_at yg (fst (source_index 0 nj ni 0 a b)) (snd (source_index 0 nj ni 0 a b)))) ni nj
             = corners_pos (b64ops L) (fun a b => (mat_at xg a b, mat_at yg a b)) ni nj).
  { apply corners_pos_ext. intros. now rewrite Src. }
  split; intros i j Li' Lj'.
  - rewrite Hp by lia. replace (2 * (2 * i)) with (2 * 2 * i) by lia.
    replace (2 * (2 * j + 1)) with (2 * 2 * j + 2) by lia.
    rewrite S3 by lia. rewrite !S1 by lia. rewrite !Src, Ec. cbn [fst snd].
    apply middle_eq; auto.
  - rewrite Hp by lia. replace (2 * (2 * i + 1)) with (2 * 2 * i + 2) by lia.
    replace (2 * (2 * j)) with (2 * 2 * j) by lia.
    rewrite S2 by lia. rewrite !Src, Ec. cbn [fst snd].
    apply middle_eq; auto.
Qed.

Lemma new_regridder_inv {W} (xw : _ -> _ -> _ -> _ -> res W) ws f (a b c d : mat binary64) ws' r :
  new_regridder xw ws f a b c d = (ws', Ok r) ->
  rg_in r = (mrows a, mcols a) /\ rg_out r = (mrows c, mcols c) /\
  (mrows a = mrows b /\ mcols a = mcols b /\ mrows c = mrows d /\ mcols c = mcols d) /\
  match dget ws f with Some w => rg_weights r = w | None => xw a b c d = Ok (rg_weights r) end /\
  forall f', f' <> f -> dget ws' f' = dget ws f'.
Proof.
  unfold new_regridder.
  destruct (negb _) eqn:E; [discriminate|]. rewrite negb_false_iff, !andb_true_iff, !Nat.eqb_eq in E.
  destruct E as (((E1 & E2) & E3) & E4).
  destruct (dget ws f) eqn:D; [|destruct (xw a b c d) eqn:X]; intros [= <- <-]; cbn [rg_weights rg_in rg_out]; repeat split; auto.
  intros f' Hf. now apply dget_dset_other.
Qed.

Lemma other_names {F} m (a b a' b' : mat F) rt rt' e out : rt <> rt' ->
  path_join out (weightfilename m a b rt e) <> path_join out (weightfilename m a' b' rt' e).
Proof.
  intros H K. destruct (path_join_app out) as (q & Hq). rewrite !Hq in K. apply app_inv_head in K.
  apply C52_name_determines_shapes in K. tauto.
Qed.

(** the strided matrices *)
Lemma every2_u L G lay d ni nj xc yc xg yg (g : grid binary64) :
  grid_with G lay d ni nj xc yc xg yg ->
  (mrows (g XG) = 2 * ni + 1 /\ mcols (g XG) = 2 * nj + 1 /\ mrows (g YG) = 2 * ni + 1 /\ mcols (g YG) = 2 * nj + 1) ->
  (forall i j, i <= ni -> j < nj ->
     (mat_at (g XG) (2 * i) (2 * j + 1), mat_at (g YG) (2 * i) (2 * j + 1)) = position L G xc yc xg yg Upoint i j) ->
  mat_is (every2 (g XG) 0 1) (ni + 1) nj (fun i j => fst (position L G xc yc xg yg Upoint i j)) /\
  mat_is (every2 (g YG) 0 1) (ni + 1) nj (fun i j => snd (position L G xc yc xg yg Upoint i j)).
Proof.
  intros _ (X1 & X2 & Y1 & Y2) K. unfold every2, mat_is. cbn [mrows mcols mat_at]. rewrite X1, X2, Y1, Y2.
  replace (2 * ni + 1 - 0 + 1) with ((ni + 1) * 2) by lia. replace (2 * nj + 1 - 1 + 1) with (1 + nj * 2) by lia.
  rewrite Nat.div_mul by lia. rewrite Nat.div_add by lia.
  split; (split; [reflexivity|]; split; [reflexivity|]); intros i j Li Lj; rewrite <- K by lia; cbn [fst snd]; f_equal; lia.
Qed.
Lemma every2_v L G lay d ni nj xc yc xg yg (g : grid binary64) :
  grid_with G lay d ni nj xc yc xg yg ->
  (mrows (g XG) = 2 * ni + 1 /\ mcols (g XG) = 2 * nj + 1 /\ mrows (g YG) = 2 * ni + 1 /\ mcols (g YG) = 2 * nj + 1) ->
  (forall i j, i < ni -> j <= nj ->
     (mat_at (g XG) (2 * i + 1) (2 * j), mat_at (g YG) (2 * i + 1) (2 * j)) = position L G xc yc xg yg Vpoint i j) ->
  mat_is (every2 (g XG) 1 0) ni (nj + 1) (fun i j => fst (position L G xc yc xg yg Vpoint i j)) /\
  mat_is (every2 (g YG) 1 0) ni (nj + 1) (fun i j => snd (position L G xc yc xg yg Vpoint i j)).
Proof.
  intros _ (X1 & X2 & Y1 & Y2) K. unfold every2, mat_is. cbn [mrows mcols mat_at]. rewrite X1, X2, Y1, Y2.
  replace (2 * nj + 1 - 0 + 1) with ((nj + 1) * 2) by lia. replace (2 * ni + 1 - 1 + 1) with (1 + ni * 2) by lia.
  rewrite Nat.div_mul by lia. rewrite Nat.div_add by lia.
  split; (split; [reflexivity|]; split; [reflexivity|]); intros i j Li Lj; rewrite <- K by lia; cbn [fst snd]; f_equal; lia.
Qed.

(** ** C102 *)

Definition kind_name (k : kind) : text :=
  match k with Tracer => lit "tracer" | Upoint => lit "U" | Vpoint => lit "V" end.

(** Each of the three interpolations goes from the parent's points of its kind to the
    region's: its weights are those computed from these four matrices, unless its weight
    file existed before the run. *)
Theorem C102_from_where_to_where :
  forall W L G lay o3 fuel (xw : _ -> _ -> _ -> _ -> res W) ws out p pi pj r ni nj ws' rg
         pxc pyc pxg pyg rxc ryc rxg ryg,
  layouts lay -> layouts o3 ->
  grid_with G lay p pi pj pxc pyc pxg pyg -> grid_with G lay r ni nj rxc ryc rxg ryg ->
  regridders64 L G lay o3 fuel xw ws out p pi pj r ni nj = (ws', Ok rg) ->
  forall k, exists plon plat rlon rlat,
    mat_is plon (fst (points pi pj k)) (snd (points pi pj k)) (fun i j => fst (position L G pxc pyc pxg pyg k i j)) /\
    mat_is plat (fst (points pi pj k)) (snd (points pi pj k)) (fun i j => snd (position L G pxc pyc pxg pyg k i j)) /\
    mat_is rlon (fst (points ni nj k)) (snd (points ni nj k)) (fun i j => fst (position L G rxc ryc rxg ryg k i j)) /\
    mat_is rlat (fst (points ni nj k)) (snd (points ni nj k)) (fun i j => snd (position L G rxc ryc rxg ryg k i j)) /\
    rg_in (rg k) = points pi pj k /\ rg_out (rg k) = points ni nj k /\
    match dget ws (path_join out (weightfilename method plon rlon (kind_name k) netcdf)) with
    | Some w => rg_weights (rg k) = w
    | None => xw plon plat rlon rlat = Ok (rg_weights (rg k))
    end.
Proof.
  intros W L G lay o3 fuel xw ws out p pi pj r ni nj ws' rg pxc pyc pxg pyg rxc ryc rxg ryg Hlay Ho3 Hp Hr H.
  edestruct @regridders_inv as (plon & plat & rlon & rlat & p2 & r2 & ws1 & ws2 & P1 & P2 & R1 & R2 & D1 & D2 & T & U & V); [exact H|].
  destruct (doubled_points L G lay o3 fuel p pi pj pxc pyc pxg pyg p2) as (PS & PU & PV); auto.
  destruct (doubled_points L G lay o3 fuel r ni nj rxc ryc rxg ryg r2) as (RS & RU & RV); auto.
  destruct (every2_u L G lay p pi pj pxc pyc pxg pyg p2 Hp PS PU) as (A1 & A2).
  destruct (every2_u L G lay r ni nj rxc ryc rxg ryg r2 Hr RS RU) as (A3 & A4).
  destruct (every2_v L G lay p pi pj pxc pyc pxg pyg p2 Hp PS PV) as (B1 & B2).
  destruct (every2_v L G lay r ni nj rxc ryc rxg ryg r2 Hr RS RV) as (B3 & B4).
  unfold velocity_regridder in U, V.
  apply new_regridder_inv in T. destruct T as (T1 & T2 & (T3 & T4 & T5 & T6) & T7 & T8).
  apply new_regridder_inv in U. destruct U as (U1 & U2 & _ & U7 & U8).
  apply new_regridder_inv in V. destruct V as (V1 & V2 & _ & V7 & V8).
  rewrite T8 in U7 by (apply other_names; discriminate).
  rewrite U8, T8 in V7 by (apply other_names; discriminate).
  destruct Hp as (_ & _ & X1 & X2 & _ & _ & X3 & _), Hr as (_ & _ & Y1 & Y2 & _ & _ & Y3 & _).
  rewrite X1 in P1. injection P1 as <-. rewrite X2 in P2. injection P2 as <-.
  rewrite Y1 in R1. injection R1 as <-. rewrite Y2 in R2. injection R2 as <-.
  intros [| |].
  - exists pxc, pyc, rxc, ryc. injection X3 as M1 M2. injection Y3 as M3 M4. cbn [points fst snd position].
    repeat split; auto; congruence.
  - exists (every2 (p2 XG) 0 1), (every2 (p2 YG) 0 1), (every2 (r2 XG) 0 1), (every2 (r2 YG) 0 1).
    cbn [points fst snd]. do 4 (split; [assumption|]). split; [|split; [|exact U7]].
    + rewrite U1. destruct A1 as (-> & -> & _). reflexivity.
    + rewrite U2. destruct A3 as (-> & -> & _). reflexivity.
  - exists (every2 (p2 XG) 1 0), (every2 (p2 YG) 1 0), (every2 (r2 XG) 1 0), (every2 (r2 YG) 1 0).
    cbn [points fst snd]. do 4 (split; [assumption|]). split; [|split; [|exact V7]].
    + rewrite V1. destruct B1 as (-> & -> & _). reflexivity.
    + rewrite V2. destruct B3 as (-> & -> & _). reflexivity.
Qed.

(** What is interpolated: the field at this depth, extended by zeros to the parent's U or V
    points; anything that does not fit is refused. *)
Theorem C102_what_is_interpolated :
  forall W L (xv : W -> _) (rg : kind -> regridder W) k pi pj A d,
  rg_in (rg k) = points pi pj k ->
  (fits pi pj k A d ->
   exists B, mat_is B (fst (points pi pj k)) (snd (points pi pj k)) (result_at A d) /\
     exists R, interpolate64 L xv rg k A d = Ok R /\
       mat_is R (fst (rg_out (rg k))) (snd (rg_out (rg k))) (xv (rg_weights (rg k)) B)) /\
  (~ fits pi pj k A d -> ~ is_ok (interpolate64 L xv rg k A d)).
Proof.
  intros W L xv rg k pi pj A d Hin.
  assert (AD : match at_depth A d with
               | Ok m => has_depth A d /\ extents A = Some (mrows m, mcols m) /\
                   (forall i j, result_at A d i j = if (i <? mrows m) && (j <? mcols m) then mat_at m i j else b64_zero)
               | Err _ => ~ has_depth A d \/ extents A = None end).
  { unfold at_depth, has_depth, extents, result_at.
    destruct (shape A) as [|a [|b [|c [|? ?]]]]; cbn [mrows mcols mat_at]; auto.
    destruct (Nat.ltb_spec d a); cbn [mrows mcols mat_at]; auto. left. lia. }
  unfold interpolate64, interpolate, fits.
  destruct (at_depth A d) as [m|e]; cbn [rbind].
  2:{ split; [|intros _ [? ?]; discriminate]. intros (D & e' & E & _). destruct AD; [contradiction|congruence]. }
  destruct AD as (D & E & V).
  assert (Body : forall m', (mrows m', mcols m') = points pi pj k ->
    exists R, apply_regridder xv (rg k) m' = Ok R /\
       mat_is R (fst (rg_out (rg k))) (snd (rg_out (rg k))) (xv (rg_weights (rg k)) m')).
  { intros m' S. unfold apply_regridder. rewrite Hin, <- S. cbn [fst snd]. rewrite !Nat.eqb_refl. cbn [andb].
    eexists. split; [reflexivity|]. repeat split. }
  assert (Same : (mrows m, mcols m) = points pi pj k ->
     mat_is m (fst (points pi pj k)) (snd (points pi pj k)) (result_at A d)).
  { intros S. rewrite <- S. cbn [fst snd]. repeat split. intros i j Li Lj. rewrite V.
    apply Nat.ltb_lt in Li, Lj. now rewrite Li, Lj. }
  assert (Pad : k <> Tracer ->
    (mrows m <= fst (points pi pj k) /\ mcols m <= snd (points pi pj k) ->
     exists B, pad_to (b64ops L) (rg_in (rg k)) m = Ok B /\
       mat_is B (fst (points pi pj k)) (snd (points pi pj k)) (result_at A d)) /\
    (~ (mrows m <= fst (points pi pj k) /\ mcols m <= snd (points pi pj k)) ->
     ~ is_ok (pad_to (b64ops L) (rg_in (rg k)) m))).
  { intros _. rewrite Hin. unfold pad_to. destruct (points pi pj k) as (u, v) eqn:Ep. cbn [fst snd] in *.
    destruct ((mrows m =? u) && (mcols m =? v)) eqn:E1.
    - rewrite andb_true_iff, !Nat.eqb_eq in E1. destruct E1 as (E1 & E2). split.
      + intros _. exists m. split; [reflexivity|]. apply Same. congruence.
      + intros K. exfalso. apply K. lia.
    - split.
      + intros (L1 & L2). apply Nat.leb_le in L1, L2. rewrite L1, L2. cbn [andb]. eexists. split; [reflexivity|].
        repeat split. intros i j _ _. cbn [mat_at]. rewrite V. reflexivity.
      + intros K. destruct ((mrows m <=? u) && (mcols m <=? v)) eqn:E2.
        * rewrite andb_true_iff, !Nat.leb_le in E2. contradiction.
        * intros [? ?]. discriminate. }
  rewrite E. destruct k.
  - cbn [rbind]. split.
    + intros (_ & e & [= <-] & S). exists m. split; [apply Same; exact S|]. apply Body. exact S.
    + intros K [R HR]. apply K. split; auto. eexists. split; [reflexivity|].
      unfold apply_regridder in HR. rewrite Hin in HR. cbn [points fst snd] in HR.
      destruct (_ && _) eqn:E1; [|discriminate]. rewrite andb_true_iff, !Nat.eqb_eq in E1. destruct E1. congruence.
  - destruct (Pad ltac:(discriminate)) as (Q1 & Q2). split.
    + intros (_ & e & [= <-] & S). destruct (Q1 S) as (B & -> & HB). exists B. split; auto. cbn [rbind]. apply Body.
      destruct HB as (-> & -> & _). reflexivity.
    + intros K [R HR]. destruct (pad_to _ _ m) eqn:Ep; [|discriminate].
      apply K. split; auto. eexists. split; [reflexivity|]. cbn [fst snd].
      destruct (le_dec (mrows m) (fst (points pi pj Upoint))), (le_dec (mcols m) (snd (points pi pj Upoint))); auto;
        (exfalso; apply Q2; [lia|eexists; reflexivity]).
  - destruct (Pad ltac:(discriminate)) as (Q1 & Q2). split.
    + intros (_ & e & [= <-] & S). destruct (Q1 S) as (B & -> & HB). exists B. split; auto. cbn [rbind]. apply Body.
      destruct HB as (-> & -> & _). reflexivity.
    + intros K [R HR]. destruct (pad_to _ _ m) eqn:Ep; [|discriminate].
      apply K. split; auto. eexists. split; [reflexivity|]. cbn [fst snd].
      destruct (le_dec (mrows m) (fst (points pi pj Vpoint))), (le_dec (mcols m) (snd (points pi pj Vpoint))); auto;
        (exfalso; apply Q2; [lia|eexists; reflexivity]).
Qed.

(** MITgcm writes one number per cell for velocities too: the parent's easternmost U points
    and northernmost V points are then interpolated from as if the water stood still. *)
Theorem C102_outermost_velocities_zero :
  forall pi pj A d, extents A = Some (pi, pj) -> has_depth A d ->
  fits pi pj Upoint A d /\ fits pi pj Vpoint A d /\
  (forall j, result_at A d pi j = b64_zero) /\ (forall i, result_at A d i pj = b64_zero).
Proof.
  intros pi pj A d E D. unfold fits.
  split; [|split]; [split; auto; eexists; split; [exact E|cbn; lia]..|].
  unfold extents, result_at in *. destruct (shape A) as [|a [|b [|c [|? ?]]]]; try discriminate; injection E as <- <-;
    rewrite ?Nat.ltb_irrefl; split; intros; rewrite ?Nat.ltb_irrefl, ?andb_false_r; reflexivity.
Qed.

(** ** cases *)

(** A parent of 2 x 1 cells, and results of as many numbers. *)
Example C102_case :
  grid_with ex_geod indices ex_og 2 1 (ex_mat [[5]; [6]]%Z) (ex_mat [[5]; [6]]%Z)
    (ex_mat [[0; 0]; [1; 1]; [2; 2]]%Z) (ex_mat [[0; 1]; [0; 1]; [0; 1]]%Z) /\
  layouts indices /\
  (exists ws' rg, regridders64 ex_libm ex_geod indices indices 3 ex_xw [] (lit "out") ex_og 2 1 ex_og 2 1 = (ws', Ok rg)).
Proof.
  split; [|split; [apply layouts_indices|]].
  - unfold grid_with. do 9 (split; [first [lia|reflexivity]|]). apply C50_found_case.
  - destruct (regridders64 _ _ _ _ _ _ _ _ _ _ _ _ _ _) as (ws', [rg|e]) eqn:E; [eauto|].
    apply (f_equal (fun x => failure (snd x))) in E. vm_compute in E. discriminate E.
Qed.

Definition ex_field : nd binary64 := mk_nd [2; 1; 2] (fun idx => ex_dbl (offset [2; 1; 2] idx)).
Example C102_field_case :
  fits 2 1 Tracer ex_field 1 /\ fits 2 1 Upoint ex_field 1 /\ ~ fits 3 1 Tracer ex_field 1 /\ ~ fits 2 1 Tracer ex_field 2 /\
  map (fun i => bits_of_b64 (result_at ex_field 1 i 0)) [0; 1; 2] = [dbits 2; dbits 3; 0%Z].
Proof.
  split; [|split; [|split; [|split]]].
  - split; [cbn; lia|]. eexists. split; reflexivity.
  - split; [cbn; lia|]. eexists. split; [reflexivity|]. cbn. lia.
  - intros (_ & e & [= <-] & K). discriminate K.
  - intros (K & _). cbn in K. lia.
  - vm_compute. reflexivity.
Qed.
