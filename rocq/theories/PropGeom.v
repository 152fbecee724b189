(** Properties C41-C43: geometry on the sphere, in exact arithmetic. *)
From Coq Require Import Reals Ratan List Bool Lra Psatz.
From Flocq Require Import IEEE754.Binary.
Import ListNotations.
From Verif Require Import Prelude Mat MatFacts Num Util Float64 RealInst RealFacts SphereFacts.
Local Open Scope R_scope.

(** ** C41 *)

Theorem C41_unit_sphere : forall P lons lats rad cart,
  lonlat2cart (r_ops P) lons lats rad = Ok cart ->
  mrows cart = mrows lons /\ mcols cart = mcols lons /\ forall i j, unit (mat_at cart i j).
Proof.
  intros P lons lats rad cart H. unfold lonlat2cart in H. destruct (negb _); [discriminate|]. injection H as <-.
  split; [reflexivity|]. split; [reflexivity|]. intros i j.
  unfold unit, cart1, radians. cbn [mat_at vdot nmul ncos nsin nd2r r_ops].
  set (l := mat_at lons i j * (PI / 180)). set (t := mat_at lats i j * (PI / 180)).
  pose proof (sin2_cos2 l) as A. pose proof (sin2_cos2 t) as B. unfold Rsqr in *. nra.
Qed.

(** The cosine of the angle between two points: the spherical law of cosines. *)
Theorem C41_angles : forall P lons lats rad cart i j k l,
  lonlat2cart (r_ops P) lons lats rad = Ok cart ->
  let r x := x * (PI / 180) in
  vdot (mat_at cart i j) (mat_at cart k l)
  = sin (r (mat_at lats i j)) * sin (r (mat_at lats k l))
    + cos (r (mat_at lats i j)) * cos (r (mat_at lats k l)) * cos (r (mat_at lons i j - mat_at lons k l)).
Proof.
  intros P lons lats rad cart i j k l H r. unfold lonlat2cart in H. destruct (negb _); [discriminate|]. injection H as <-.
  unfold cart1, radians. cbn [mat_at vdot nmul ncos nsin nd2r r_ops]. unfold r.
  rewrite Rmult_minus_distr_r, cos_minus. ring.
Qed.

Lemma cos_turn x : cos (x + 2 * PI) = cos x.
Proof. rewrite cos_plus, cos_2PI, sin_2PI. ring. Qed.
Lemma sin_turn x : sin (x + 2 * PI) = sin x.
Proof. rewrite sin_plus, cos_2PI, sin_2PI. ring. Qed.
Lemma periodic_360 x : cos ((x + 360) * (PI / 180)) = cos (x * (PI / 180)) /\ sin ((x + 360) * (PI / 180)) = sin (x * (PI / 180)).
Proof.
  replace ((x + 360) * (PI / 180)) with (x * (PI / 180) + 2 * PI) by field.
  split; [apply cos_turn | apply sin_turn].
Qed.

Theorem C41_longitude_mod_360 : forall P lons lons' lats rad cart cart',
  lonlat2cart (r_ops P) lons lats rad = Ok cart -> lonlat2cart (r_ops P) lons' lats rad = Ok cart' ->
  (forall i j, mat_at lons' i j = mat_at lons i j \/ mat_at lons' i j = mat_at lons i j + 360) ->
  forall i j, mat_at cart' i j = mat_at cart i j.
Proof.
  intros P lons lons' lats rad cart cart' H H' E i j. unfold lonlat2cart in *.
  destruct (negb _); [discriminate|]. injection H as <-. destruct (negb _); [discriminate|]. injection H' as <-.
  unfold cart1, radians. cbn [mat_at nmul ncos nsin nd2r r_ops].
  destruct (E i j) as [-> | ->]; [reflexivity|]. destruct (periodic_360 (mat_at lons i j)) as (-> & ->). reflexivity.
Qed.

(** rad has no influence, in any arithmetic. *)
Theorem C41_rad_ignored : forall F (N : numops F) lons lats rad rad',
  lonlat2cart N lons lats rad = lonlat2cart N lons lats rad'.
Proof. reflexivity. Qed.

(** Documented: the points lie on the sphere of radius rad.  They do for no rad but 1. *)
Theorem C41_rad_refuted : forall P lons lats rad cart i j,
  lonlat2cart (r_ops P) lons lats rad = Ok cart -> 0 <= rad -> rad <> 1 -> vnorm (mat_at cart i j) <> rad.
Proof.
  intros P lons lats rad cart i j H Hr H1 E. apply C41_unit_sphere in H. destruct H as (_ & _ & U).
  apply H1. rewrite <- E. unfold vnorm. rewrite U. apply sqrt_1.
Qed.

Theorem C41_shapes : forall F (N : numops F) lons lats rad,
  is_ok (lonlat2cart N lons lats rad) <-> mrows lons = mrows lats /\ mcols lons = mcols lats.
Proof.
  intros F N lons lats rad. unfold lonlat2cart, shapes_equal, is_ok.
  destruct (Nat.eqb_spec (mrows lons) (mrows lats)), (Nat.eqb_spec (mcols lons) (mcols lats)); cbn [andb negb];
    split; try (intros (? & ?); discriminate); try tauto; eauto.
Qed.

(** The pole, a point on the equator, and the same point a full turn further. *)
Example C41_case :
  let lons := mkmat 1 3 (fun _ j => match j with 0%nat => 17 | 1%nat => 90 | _ => 450 end) in
  let lats := mkmat 1 3 (fun _ j => match j with 0%nat => 90 | _ => 0 end) in
  exists cart, lonlat2cart (r_ops coq_partial) lons lats 1 = Ok cart /\
    mat_at cart 0 0 = (0, 0, 1) /\ mat_at cart 0 1 = (0, 1, 0) /\ mat_at cart 0 2 = (0, 1, 0).
Proof.
  eexists. split; [reflexivity|]. unfold cart1, radians. cbn [mat_at nmul ncos nsin nd2r r_ops].
  replace (90 * (PI / 180)) with (PI / 2) by field. replace (0 * (PI / 180)) with 0 by field.
  replace (450 * (PI / 180)) with (PI / 2 + 2 * PI) by field.
  rewrite cos_turn, sin_turn, cos_PI2, sin_PI2, sin_0, cos_0, !Rmult_0_r, !Rmult_1_r. auto.
Qed.

(** ** C42 *)

(** Half the length of the cross product of the diagonals. *)
Definition quad_area (A B C D : vec) : R := / 2 * vnorm (vcross (vminus C A) (vminus D B)).
Definition tri_area (A B C : vec) : R := / 2 * vnorm (vcross (vminus B A) (vminus C A)).

Theorem C42_half_the_diagonals : forall P, exact P -> forall cart x y,
  let c i j := mat_at cart i j in
  mat_at (pquad_uarea (r_ops P) cart) x y
  = quad_area (c x y) (c (x + 1)%nat y) (c (x + 1)%nat (y + 1)%nat) (c x (y + 1)%nat).
Proof.
  intros P EP cart x y c. unfold pquad_uarea, per_cell, pquad1. cbn [mat_at nmul nhalf r_ops].
  rewrite !vsub_r, !cross_r, vadd_r, norm_r by auto. unfold quad_area, c. f_equal. f_equal.
  vdes. destruct (mat_at cart x y) as [[? ?] ?], (mat_at cart (x + 1) y) as [[? ?] ?],
    (mat_at cart (x + 1) (y + 1)) as [[? ?] ?], (mat_at cart x (y + 1)) as [[? ?] ?].
  vring.
Qed.

Theorem C42_shape : forall F (N : numops F) cart,
  mrows (pquad_uarea N cart) = (mrows cart - 1)%nat /\ mcols (pquad_uarea N cart) = (mcols cart - 1)%nat.
Proof. split; reflexivity. Qed.

Theorem C42_nonneg : forall A B C D, 0 <= quad_area A B C D.
Proof. intros. unfold quad_area. pose proof (vnorm_nonneg (vcross (vminus C A) (vminus D B))). lra. Qed.

Lemma vnorm_opp u v : (forall w, vdot u w = - vdot v w) -> vnorm u = vnorm v.
Proof. intros H. unfold vnorm. rewrite H, vdot_sym, H. f_equal. ring. Qed.

(** The order of the corners: cyclic relabelling and reversal. *)
Theorem C42_relabelling : forall A B C D,
  quad_area B C D A = quad_area A B C D /\ quad_area D C B A = quad_area A B C D.
Proof.
  intros A B C D. unfold quad_area. split; f_equal.
  - f_equal. vring.
  - apply vnorm_opp. vring.
Qed.

Theorem C42_translation : forall A B C D t,
  quad_area (vplus A t) (vplus B t) (vplus C t) (vplus D t) = quad_area A B C D.
Proof. intros. unfold quad_area. do 2 f_equal. vring. Qed.

Theorem C42_scaling : forall A B C D k,
  quad_area (vscale k A) (vscale k B) (vscale k C) (vscale k D) = k * k * quad_area A B C D.
Proof.
  intros. unfold quad_area, vnorm.
  replace (vdot (vcross (vminus (vscale k C) (vscale k A)) (vminus (vscale k D) (vscale k B)))
     (vcross (vminus (vscale k C) (vscale k A)) (vminus (vscale k D) (vscale k B))))
    with ((k * k) * (k * k) * vdot (vcross (vminus C A) (vminus D B)) (vcross (vminus C A) (vminus D B))) by vring.
  rewrite sqrt_mult, sqrt_square; try nra; try apply vdot_nonneg. 
Qed.

(** The area only depends on the lengths of the diagonals and the angle between them, so it
    is unchanged by rotations and reflections. *)
Theorem C42_rigid_motions : forall f A B C D, (forall u v, vdot (f u) (f v) = vdot u v) ->
  quad_area (f A) (f B) (f C) (f D) = quad_area A B C D.
Proof.
  intros f A B C D H. unfold quad_area, vnorm. rewrite !lagrange. do 2 f_equal.
  repeat rewrite ?vdot_minus_l, ?vdot_minus_r, ?H. reflexivity.
Qed.

(** Exact for parallelograms, and for every flat quadrilateral cut by its diagonal AC into
    two triangles on opposite sides. *)
Theorem C42_parallelogram : forall A u v,
  quad_area A (vplus A u) (vplus (vplus A u) v) (vplus A v) = vnorm (vcross u v).
Proof.
  intros A u v. unfold quad_area.
  assert (E : vcross (vminus (vplus (vplus A u) v) A) (vminus (vplus A v) (vplus A u)) = vscale 2 (vcross u v))
    by vring.
  rewrite E. unfold vnorm. rewrite vdot_scale_l, vdot_scale_r, <- Rmult_assoc, sqrt_mult;
    [|lra|apply vdot_nonneg]. rewrite sqrt_square by lra. field.
Qed.

Theorem C42_flat_convex : forall A B C D e s t, unit e -> 0 <= s -> 0 <= t ->
  vcross (vminus B A) (vminus C A) = vscale s e -> vcross (vminus C A) (vminus D A) = vscale t e ->
  quad_area A B C D = tri_area A B C + tri_area A C D.
Proof.
  intros A B C D e s t U S T E1 E2. unfold quad_area, tri_area. rewrite E1, E2.
  assert (N : forall k, 0 <= k -> vnorm (vscale k e) = k).
  { intros k K. unfold vnorm. rewrite vdot_scale_l, vdot_scale_r, U, Rmult_1_r. now apply sqrt_square. }
  assert (E : vcross (vminus C A) (vminus D B) = vscale (s + t) e).
  { transitivity (vplus (vcross (vminus B A) (vminus C A)) (vcross (vminus C A) (vminus D A))); [vring|].
    rewrite E1, E2. vring. }
  rewrite E, !N by lra. lra.
Qed.

Lemma triangle_inequality u v : vnorm (vplus u v) <= vnorm u + vnorm v.
Proof.
  apply Rsqr_incr_0_var.
  - unfold Rsqr. rewrite vnorm_sq.
    replace ((vnorm u + vnorm v) * (vnorm u + vnorm v)) with (vnorm u * vnorm u + 2 * (vnorm u * vnorm v) + vnorm v * vnorm v) by ring.
    rewrite !vnorm_sq, vdot_plus_l, !vdot_plus_r, (vdot_sym v u).
    assert (vdot u v <= vnorm u * vnorm v).
    { pose proof (cauchy u v) as C. rewrite <- (vnorm_sq u), <- (vnorm_sq v) in C.
      pose proof (vnorm_nonneg u). pose proof (vnorm_nonneg v).
      assert (0 <= vnorm u * vnorm v) by nra. nra. }
    lra.
  - pose proof (vnorm_nonneg u). pose proof (vnorm_nonneg v). lra.
Qed.

(** In general (corners not in a plane) it never exceeds the two triangles' area. *)
Theorem C42_at_most_two_triangles : forall A B C D,
  quad_area A B C D <= tri_area A B C + tri_area A C D.
Proof.
  intros A B C D. unfold quad_area, tri_area.
  replace (vcross (vminus C A) (vminus D B))
    with (vplus (vcross (vminus B A) (vminus C A)) (vcross (vminus C A) (vminus D A))) by vring.
  pose proof (triangle_inequality (vcross (vminus B A) (vminus C A)) (vcross (vminus C A) (vminus D A))). lra.
Qed.

(** The unit square. *)
Example C42_case :
  let cart := mkmat 2 2 (fun i j => (INR i, INR j, 5)) in
  mat_at (pquad_uarea (r_ops coq_partial) cart) 0 0 = 1 /\
  (exists s t, unit (0, 0, 1) /\ 0 <= s /\ 0 <= t /\
     vcross (vminus (1, 0, 5) (0, 0, 5)) (vminus (1, 1, 5) (0, 0, 5)) = vscale s (0, 0, 1) /\
     vcross (vminus (1, 1, 5) (0, 0, 5)) (vminus (0, 1, 5) (0, 0, 5)) = vscale t (0, 0, 1)).
Proof.
  split.
  - rewrite (C42_half_the_diagonals _ coq_exact). cbn [mat_at INR Nat.add].
    unfold quad_area, vnorm. cbn [vcross vminus vdot].
    match goal with |- / 2 * sqrt ?e = 1 => replace e with (2 * 2) by (cbn; ring) end. rewrite sqrt_square by lra. lra.
  - exists 1, 1. unfold unit. cbn [vdot vcross vminus vscale]. repeat split; try lra; repeat (f_equal; try lra).
Qed.

(** ** C43 *)

(** Girard's formula.  That it holds whatever the operations give outside their domains
    means that no arccosine of a number outside [-1,1] and no division by zero is involved. *)
Theorem C43_two_excesses : forall P, exact P -> forall cart x y,
  let A := mat_at cart x y in let B := mat_at cart (x + 1)%nat y in
  let C := mat_at cart (x + 1)%nat (y + 1)%nat in let D := mat_at cart x (y + 1)%nat in
  unit A -> unit B -> unit C -> unit D ->
  apart A B -> apart B C -> apart A C -> apart C D -> apart A D ->
  mat_at (squad_uarea (r_ops P) cart) x y = excess A B C + excess A C D.
Proof.
  intros P EP cart x y A B C D UA UB UC UD AB BC AC CD AD.
  assert (K : forall A B C, unit A -> unit B -> unit C -> apart A B -> apart B C -> apart A C ->
    tri_angles (r_ops P) A B C = (angle_at A B C, angle_at B A C, angle_at C A B)).
  { clear - EP. intros A B C UA UB UC AB BC AC.
    pose proof (apart_dot _ _ UA UB AB) as Hc. pose proof (apart_dot _ _ UB UC BC) as Ha. pose proof (apart_dot _ _ UA UC AC) as Hb.
    rewrite !angle_at_cos by auto. unfold tri_angles. rewrite !dot_r. cbn [ndiv nsub nmul nsin nacos r_ops].
    rewrite !(ex_acos EP) with (x := vdot _ _) by lra. rewrite !sin_acos by lra. unfold Rsqr.
    rewrite (vdot_sym B A), (vdot_sym C B), (vdot_sym C A).
    set (a := vdot B C) in *. set (b := vdot A C) in *. set (c := vdot A B) in *.
    pose proof (sin_from a Ha) as Pa. pose proof (sin_from b Hb) as Pb. pose proof (sin_from c Hc) as Pc.
    assert (HT : triple A B C * triple A B C = 1 + 2 * a * b * c - a * a - b * b - c * c) by (rewrite gram_unit by auto; unfold a, b, c; ring).
    rewrite !(ex_div EP) by (apply Rgt_not_eq, Rlt_gt, Rmult_lt_0_compat; assumption).
    rewrite !(ex_acos EP); [reflexivity|..]; eapply cos_at_range with (T := triple A B C); auto; rewrite HT; ring. }
  unfold squad_uarea, per_cell, squad1. cbn [mat_at]. fold A B C D. rewrite !K by auto.
  cbn [nsub nadd nmul n2 npi r_ops]. unfold excess.
  unfold A, B, C, D. change vec with (R * R * R)%type. ring.
Qed.

(** The value depends on dot products only. *)
Theorem C43_rigid_motions : forall f A B C, (forall u v, vdot (f u) (f v) = vdot u v) ->
  unit A -> unit B -> unit C -> excess (f A) (f B) (f C) = excess A B C.
Proof.
  intros f A B C H UA UB UC. unfold excess.
  rewrite !angle_at_cos by (unfold unit in *; rewrite ?H; auto). rewrite !H. reflexivity.
Qed.

(** It is an area: never negative, positive for proper triangles, at most that of a
    hemisphere. *)
Theorem C43_excess_range : forall A B C, unit A -> unit B -> unit C ->
  apart A B -> apart B C -> apart A C ->
  0 <= excess A B C <= 2 * PI /\ (triple A B C <> 0 -> 0 < excess A B C).
Proof.
  intros. split; [split; [now apply excess_nonneg|apply excess_le]|]. intros. now apply excess_pos.
Qed.

Theorem C43_areas_not_negative : forall P, exact P -> forall cart x y,
  let A := mat_at cart x y in let B := mat_at cart (x + 1)%nat y in
  let C := mat_at cart (x + 1)%nat (y + 1)%nat in let D := mat_at cart x (y + 1)%nat in
  unit A -> unit B -> unit C -> unit D ->
  apart A B -> apart B C -> apart A C -> apart C D -> apart A D ->
  0 <= mat_at (squad_uarea (r_ops P) cart) x y <= 4 * PI /\
  (triple A B C <> 0 \/ triple A C D <> 0 -> 0 < mat_at (squad_uarea (r_ops P) cart) x y).
Proof.
  intros P EP cart x y A B C D UA UB UC UD AB BC AC CD AD.
  rewrite (C43_two_excesses P EP) by assumption. fold A B C D.
  pose proof (C43_excess_range A B C UA UB UC AB BC AC) as ((L1 & U1) & P1).
  pose proof (C43_excess_range A C D UA UC UD AC CD AD) as ((L2 & U2) & P2).
  split; [lra|]. intros [H|H]; [apply P1 in H|apply P2 in H]; lra.
Qed.

(** Two octants: a quarter of the sphere, area pi. *)
Example C43_case :
  let A := (1, 0, 0) in let B := (0, 1, 0) in let C := (0, 0, 1) in let D := (0, -1, 0) in
  (unit A /\ unit B /\ unit C /\ unit D) /\
  (apart A B /\ apart B C /\ apart A C /\ apart C D /\ apart A D) /\
  excess A B C = PI / 2 /\ excess A C D = PI / 2.
Proof.
  intros A B C D.
  assert (U : unit A /\ unit B /\ unit C /\ unit D) by (unfold unit, A, B, C, D; cbn [vdot]; lra).
  destruct U as (UA & UB & UC & UD). split; [auto|]. split.
  - unfold apart, A, B, C, D. cbn [vcross]. repeat split; intros E; injection E; lra.
  - unfold excess. rewrite !angle_at_cos by auto.
    assert (Z : cos_at 0 0 0 = 0) by (unfold cos_at, Rdiv; ring).
    assert (E : forall u v, (u, v) = (A, B) \/ (u, v) = (A, C) \/ (u, v) = (B, C) \/ (u, v) = (A, D) \/ (u, v) = (C, D) ->
      vdot u v = 0 /\ vdot v u = 0).
    { intros u v H. decompose [or] H; match goal with K : (u, v) = _ |- _ => injection K as -> -> end;
        unfold A, B, C, D; cbn [vdot]; lra. }
    destruct (E A B) as (-> & ->); auto. destruct (E A C) as (-> & ->); auto. destruct (E B C) as (-> & ->); auto.
    destruct (E A D) as (-> & ->); auto. destruct (E C D) as (-> & ->); auto 6.
    rewrite !Z, acos_0. lra.
Qed.
