(** Properties C08, C09: the nearest-point search. *)
From Coq Require Import ZArith String List Bool PeanoNat Lia Permutation.
From Flocq Require Import IEEE754.Binary IEEE754.Bits.
Import ListNotations.
From Verif Require Import Prelude PreludeFacts Mat MatFacts Num Float64 Float64Facts Util UtilFacts Samples.
Local Open Scope nat_scope.
Local Open Scope list_scope.

Definition nearest64 (L : libm) (G : geod binary64) := nearest_ord (b64ops L) G.

(** Distance from the search origin to entry (i,j). *)
Definition dist_to (G : geod binary64) (lon lat : binary64) (lons lats : mat binary64)
    (ij : nat * nat) : binary64 :=
  g_inv G (lon, lat) (mat_at lons (fst ij) (snd ij), mat_at lats (fst ij) (snd ij)).

(** A memory layout: each entry of an r x c array is visited once. *)
Definition layout (order : list (nat * nat)) (r c : nat) : Prop :=
  NoDup order /\ forall i j, In (i, j) order <-> i < r /\ j < c.

Lemma layout_perm order r c : layout order r c -> Permutation order (indices r c).
Proof.
  intros [Hn Hi]. apply NoDup_Permutation; auto using NoDup_indices.
  intros (i, j). rewrite in_indices. apply Hi.
Qed.

Lemma perm_layout order r c : Permutation order (indices r c) -> layout order r c.
Proof.
  intros Hp. split.
  - eapply Permutation_NoDup; [apply Permutation_sym; exact Hp|]. apply NoDup_indices.
  - intros i j. rewrite <- in_indices. split; apply Permutation_in; auto using Permutation_sym.
Qed.

(** A result with its distance as bits, for the examples. *)
Definition nbits (r : res (Z * Z * binary64)) : option (Z * Z * Z) :=
  match r with Ok (i, j, d) => Some (i, j, bits_of_b64 d) | Err _ => None end.

(** ** C08 *)
Theorem C08_nearest_is_a_minimiser :
  forall (L : libm) (G : geod binary64) order lon lat (lons lats : mat binary64) i j d,
  layout order (mrows lons) (mcols lons) ->
  nearest64 L G order lon lat lons lats = Ok (i, j, d) -> (i, j) <> ((-1)%Z, (-1)%Z) ->
  exists a b pre post,
    i = Z.of_nat a /\ j = Z.of_nat b /\ a < mrows lons /\ b < mcols lons /\
    d = dist_to G lon lat lons lats (a, b) /\
    (forall a' b', a' < mrows lons -> b' < mcols lons ->
       b64_ltb (dist_to G lon lat lons lats (a', b')) d = false) /\
    order = pre ++ (a, b) :: post /\
    (forall q, In q pre -> b64_leb (dist_to G lon lat lons lats q) d = false).
Proof.
  intros L G order lon lat lons lats i j d [Hn Hl] He Hne.
  destruct (nearest_spec (b64ops L) (b64_laws L) G _ _ _ _ _ _ He)
    as [(E & _)|(pre & a & b & post & Eo & E & _ & Hmin & Hpre)].
  - inversion E; subst. congruence.
  - inversion E; subst i j d. exists a, b, pre, post.
    assert (Hin : In (a, b) order) by (rewrite Eo; apply in_or_app; right; left; auto).
    apply Hl in Hin. repeat split; try tauto.
    + intros a' b' Ha Hb. apply Hmin. apply Hl. auto.
Qed.

(** Two entries are equally near; which one is found depends on the layout. *)
Example C08_case :
  let lons := ex_mat [[0; 4]; [4; 9]]%Z in
  let lats := ex_mat [[0; 0]; [0; 0]]%Z in
  layout [(0,0); (1,0); (0,1); (1,1)] 2 2 /\
  nbits (nearest64 ex_libm ex_geod [(0,0); (1,0); (0,1); (1,1)] (ex_int 5) (ex_int 0) lons lats)
    = Some (1%Z, 0%Z, bits_of_b64 (ex_int 1)) /\
  nbits (nearest64 ex_libm ex_geod [(0,0); (0,1); (1,0); (1,1)] (ex_int 5) (ex_int 0) lons lats)
    = Some (0%Z, 1%Z, bits_of_b64 (ex_int 1)).
Proof.
  split; [|split; vm_compute; reflexivity].
  apply perm_layout. simpl. apply perm_skip. apply perm_swap.
Qed.

(** ** C09 *)
Theorem C09_nearest_outside_domain :
  forall (L : libm) (G : geod binary64) order lon lat (lons lats : mat binary64),
  layout order (mrows lons) (mcols lons) ->
  let wrong := mrows lons <> mrows lats \/ mcols lons <> mcols lats \/
               mrows lons = 0 \/ mcols lons = 0 in
  let r := nearest64 L G order lon lat lons lats in
  (raises_value r <-> wrong) /\ (is_ok r <-> ~ wrong) /\
  (~ wrong ->
    (r = Ok ((-1)%Z, (-1)%Z, b64_1e10) <->
     forall i j, i < mrows lons -> j < mcols lons ->
       b64_ltb (dist_to G lon lat lons lats (i, j)) b64_1e10 = false)).
Proof.
  intros L G order lon lat lons lats [Hn Hl] wrong r.
  assert (Hok : ~ wrong -> exists v, r = Ok v).
  { intros Hw. apply nearest_total; unfold wrong in Hw; lia. }
  assert (Herr : wrong -> raises_value r) by (intros Hw; apply nearest_shape_err; exact Hw).
  assert (Hdec : wrong \/ ~ wrong) by (unfold wrong; lia).
  split; [|split].
  - split; auto. intros (m & E). destruct Hdec as [|Hw]; auto.
    destruct (Hok Hw) as (v & E'). rewrite E' in E. discriminate.
  - split.
    + intros Hr Hw. destruct (Herr Hw) as (m & E). rewrite E in Hr. destruct Hr. discriminate.
    + intros Hw. destruct (Hok Hw) as (v & E'). rewrite E'. eexists; reflexivity.
  - intros Hw. destruct (Hok Hw) as (v & E).
    pose proof (nearest_spec (b64ops L) (b64_laws L) G _ _ _ _ _ _ E) as Hs.
    split.
    + intros Er i j Hi Hj. rewrite E in Er. inversion Er; subst v.
      destruct Hs as [(_ & Hs)|(pre & a & b & post & _ & Ev & _)].
      * apply Hs. apply Hl. auto.
      * exfalso. inversion Ev. lia.
    + intros Hall. destruct Hs as [(Ev & _)|(pre & a & b & post & Eo & _ & Hlt & _)].
      * rewrite E, Ev. reflexivity.
      * exfalso. assert (Hin : In (a, b) order) by (rewrite Eo; apply in_or_app; right; left; auto).
        apply Hl in Hin. specialize (Hall a b (proj1 Hin) (proj2 Hin)).
        change (b64_ltb (dist_to G lon lat lons lats (a, b)) b64_1e10 = true) in Hlt. congruence.
Qed.

(** A NaN origin: every distance is NaN. *)
Example C09_case :
  nbits (nearest64 ex_libm ex_geod (indices 2 2) b64_nan (ex_int 0)
    (ex_mat [[0; 4]; [4; 9]]%Z) (ex_mat [[0; 0]; [0; 0]]%Z))
    = Some ((-1)%Z, (-1)%Z, bits_of_b64 b64_1e10) /\
  raises_value (nearest64 ex_libm ex_geod (indices 2 2) b64_nan (ex_int 0)
    (ex_mat [[0; 4]; [4; 9]]%Z) (ex_mat [[0; 0]]%Z)).
Proof. split; [vm_compute; reflexivity|eexists; vm_compute; reflexivity]. Qed.

(** ** what "the nearest point" means *)
(** (i,j) is the point found for (lon,lat): closer than 1e10, none strictly closer, and the
    first such in the visiting order. *)
Definition is_nearest (G : geod binary64) (order : list (nat * nat)) (lon lat : binary64)
    (lons lats : mat binary64) (i j : nat) : Prop :=
  let d := dist_to G lon lat lons lats in
  i < mrows lons /\ j < mcols lons /\
  b64_ltb (d (i, j)) b64_1e10 = true /\
  (forall a b, a < mrows lons -> b < mcols lons -> b64_ltb (d (a, b)) (d (i, j)) = false) /\
  exists pre post, order = pre ++ (i, j) :: post /\
    forall q, In q pre -> b64_leb (d q) (d (i, j)) = false.

(** no point of the matrix is closer than 1e10 *)
Definition none_near (G : geod binary64) (lon lat : binary64) (lons lats : mat binary64) : Prop :=
  forall i j, i < mrows lons -> j < mcols lons ->
    b64_ltb (dist_to G lon lat lons lats (i, j)) b64_1e10 = false.

(** Two matrices that nearest accepts. *)
Definition same_shape (lons lats : mat binary64) : Prop :=
  mrows lats = mrows lons /\ mcols lats = mcols lons /\ 1 <= mrows lons /\ 1 <= mcols lons.

Lemma nearest_of_is_nearest L G order lon lat lons lats i j :
  layout order (mrows lons) (mcols lons) -> same_shape lons lats ->
  is_nearest G order lon lat lons lats i j ->
  nearest64 L G order lon lat lons lats =
    Ok ((Z.of_nat i, Z.of_nat j), dist_to G lon lat lons lats (i, j)).
Proof.
  intros [Hn Hl] (S1 & S2 & S3 & S4) (Hi & Hj & Hlt & Hmin & pre & post & Eo & Hpre).
  destruct (nearest_total (b64ops L) G order lon lat lons lats) as (r & Er); auto.
  change (nearest64 L G order lon lat lons lats = Ok r) in Er. rewrite Er. f_equal.
  pose proof (nearest_spec (b64ops L) (b64_laws L) G _ _ _ _ _ _ Er) as Hs.
  assert (Hin : In (i, j) order) by (apply Hl; auto).
  destruct Hs as [(-> & Hs)|(pre' & a & b & post' & Eo' & -> & Hlt' & Hmin' & Hpre')].
  - specialize (Hs _ Hin).
    change (b64_ltb (dist_to G lon lat lons lats (i, j)) b64_1e10 = false) in Hs. congruence.
  - change (ndist G (lon, lat) lons lats) with (dist_to G lon lat lons lats) in *.
    change (nltb (b64ops L)) with b64_ltb in *. change (nleb (b64ops L)) with b64_leb in *.
    change (n1e10 (b64ops L)) with b64_1e10 in *.
    assert (Hab : (a, b) = (i, j)).
    { rewrite Eo in Eo'. clear Er.
      assert (Hcase : In (a, b) pre \/ (a, b) = (i, j) \/ In (i, j) pre').
      { clear - Eo'. revert pre' Eo'. induction pre as [|x pre IH]; intros [|y pre'] E; simpl in E;
          inversion E; subst; auto.
        - right. right. left. reflexivity.
        - left. left. reflexivity.
        - destruct (IH _ H1) as [H|[H|H]]; [left; right; auto|right; left; auto|right; right; right; auto]. }
      assert (Hinab : In (a, b) order).
      { rewrite Eo, Eo'. apply in_or_app. right. left. auto. }
      destruct Hcase as [H|[H|H]]; auto; exfalso.
      - specialize (Hpre _ H). specialize (Hmin' _ Hin).
        pose proof (b64_leb_total _ _ _ Hlt' Hlt Hpre). congruence.
      - specialize (Hpre' _ H). apply Hl in Hinab. specialize (Hmin a b (proj1 Hinab) (proj2 Hinab)).
        pose proof (b64_leb_total _ _ _ Hlt Hlt' Hpre'). congruence. }
    inversion Hab. reflexivity.
Qed.

Lemma is_nearest_of_nearest L G order lon lat lons lats i j d :
  layout order (mrows lons) (mcols lons) ->
  nearest64 L G order lon lat lons lats = Ok ((Z.of_nat i, Z.of_nat j), d) ->
  is_nearest G order lon lat lons lats i j /\ same_shape lons lats.
Proof.
  intros [Hn Hl] E. pose proof (nearest_ok_iff _ _ _ _ _ _ _ _ E) as (S1 & S2 & S3 & S4 & _).
  pose proof (nearest_spec (b64ops L) (b64_laws L) G _ _ _ _ _ _ E) as Hs.
  split; [|unfold same_shape; auto].
  destruct Hs as [(Ev & _)|(pre & a & b & post & Eo & Ev & Hlt & Hmin & Hpre)].
  - inversion Ev. lia.
  - inversion Ev as [[Ha Hb Hd]]. apply Nat2Z.inj in Ha, Hb. subst a b.
    assert (Hin : In (i, j) order) by (rewrite Eo; apply in_or_app; right; left; auto).
    apply Hl in Hin. destruct Hin. repeat split; auto.
    + intros a b Ha Hb. apply Hmin. apply Hl. auto.
    + exists pre, post. auto.
Qed.

Lemma nearest_of_none L G order lon lat lons lats :
  layout order (mrows lons) (mcols lons) -> same_shape lons lats ->
  none_near G lon lat lons lats ->
  nearest64 L G order lon lat lons lats = Ok (((-1)%Z, (-1)%Z), b64_1e10).
Proof.
  intros Hl (S1 & S2 & S3 & S4) Hn.
  destruct (C09_nearest_outside_domain L G order lon lat lons lats Hl) as (_ & _ & H).
  apply H; auto. lia.
Qed.

Lemma nearest_cases (L : libm) (G : geod binary64) order lon lat lons lats :
  layout order (mrows lons) (mcols lons) -> same_shape lons lats ->
  none_near G lon lat lons lats \/ exists i j, is_nearest G order lon lat lons lats i j.
Proof.
  intros Hl Hs. pose proof Hs as (S1 & S2 & S3 & S4). destruct Hl as [Hn Hl].
  destruct (nearest_total (b64ops L) G order lon lat lons lats) as (r & Er); auto.
  pose proof (nearest_spec (b64ops L) (b64_laws L) G _ _ _ _ _ _ Er) as H.
  destruct H as [(-> & H)|(pre & a & b & post & Eo & -> & _)].
  - left. intros i j Hi Hj. apply H. apply Hl. auto.
  - right. exists a, b. apply (is_nearest_of_nearest L G order lon lat lons lats a b _ (conj Hn Hl) Er).
Qed.
