(** Properties C30-C33: addfringe. *)
From Coq Require Import ZArith String List Bool PeanoNat Lia Init.Byte.
From Flocq Require Import IEEE754.BinarySingleNaN IEEE754.Binary IEEE754.Bits.
Import ListNotations.
From Verif Require Import Prelude PreludeFacts Mat MatFacts Num Fields GridIO Float64 Float64Facts SpecGrid SpecHalf
  GridIOProofs MatchEdges SpecTiles MatchEdgesFacts AddFringe FringeFacts Samples PropGridIO PropMkGrid PropMatchEdges.
Local Open Scope nat_scope.
Local Open Scope list_scope.
Local Arguments Nat.mul : simpl never.

Definition addfringe64 (L : libm) (G : geod binary64) := addfringe (b64ops L) b64codec G.
Definition files := string -> option (list byte).

(** file [path] holds tile [a] of ni x nj cells *)
Definition holds_tile (L : libm) (fs : files) (path : string) (ni nj : nat) (strict : bool) (a : grid binary64) : Prop :=
  exists bs, fs path = Some bs /\ read64 L bs ni nj strict = Ok a.
Definition tile_a (L : libm) (fs : files) (t : two_tiles) := holds_tile L fs (tt_a t) (tt_nia t) (tt_nja t) (tt_strict t).
Definition tile_b (L : libm) (fs : files) (t : two_tiles) := holds_tile L fs (tt_b t) (tt_nib t) (tt_njb t) (tt_strict t).

Definition is_zero (x : binary64) : bool := b64_eqb b64_zero x.

Lemma read_tile_holds L fs p ni nj strict a :
  read_tile (b64ops L) b64codec fs p ni nj strict = Ok a <-> holds_tile L fs p ni nj strict a.
Proof.
  unfold read_tile, holds_tile. split.
  - destruct (fs p) as [bs|]; [|discriminate]. intros H. exists bs. auto.
  - intros (bs & -> & H). exact H.
Qed.

Lemma addfringe64_tiles L G fs t r : addfringe64 L G fs t = Ok r ->
  exists a b, tile_a L fs t a /\ tile_b L fs t b /\ fringe (b64ops L) G a b = Ok r /\
    shaped a (tt_nia t) (tt_nja t) /\ shaped b (tt_nib t) (tt_njb t).
Proof.
  intros H. unfold addfringe64, addfringe in H. mok H. mok H. exists a, a0.
  apply read_tile_holds in Ha, Ha0. split; [exact Ha|]. split; [exact Ha0|]. split; [exact H|].
  destruct Ha as (bs & _ & R). destruct Ha0 as (bs' & _ & R').
  split; [exact (proj1 (read_spec _ _ _ _ _ _ _ R))|exact (proj1 (read_spec _ _ _ _ _ _ _ R'))].
Qed.

Lemma holds_tile_fun L fs p ni nj strict a a' :
  holds_tile L fs p ni nj strict a -> holds_tile L fs p ni nj strict a' -> a = a'.
Proof. intros (bs & E & R) (bs' & E' & R'). congruence. Qed.

(** ** C30 *)
Theorem C30_addfringe_keeps_tile_a : forall (L : libm) (G : geod binary64) fs t ea eb g a,
  addfringe64 L G fs t = Ok (ea, eb, g) -> tile_a L fs t a ->
  shaped g (tt_nia t) (tt_nja t) /\
  (forall f i j, inside f (tt_nia t) (tt_nja t) i j ->
     is_zero (mat_at (a f) i j) = false -> mat_at (g f) i j = mat_at (a f) i j) /\
  (forall i j, i <= tt_nia t -> j <= tt_nja t ->
     mat_at (g XG) i j = mat_at (a XG) i j /\ mat_at (g YG) i j = mat_at (a YG) i j).
Proof.
  intros L G fs t ea eb g a E Ta.
  destruct (addfringe64_tiles L G fs t _ E) as (a' & b & Ta' & _ & Ef & Hs & _).
  assert (a' = a) as -> by (eapply holds_tile_fun; eauto).
  split; [exact (fringe_shaped _ (b64_laws L) G a b _ _ _ _ _ Hs Ef)|].
  split; [|exact (fringe_corners _ (b64_laws L) G a b _ _ _ _ _ Hs Ef)].
  intros f i j [Hi Hj] Hz.
  destruct (fringe_char _ (b64_laws L) G a b _ _ _ _ _ Hs Ef)
    as (m & s & H & new & _ & _ & _ & _ & _ & _ & _ & _ & _ & Hk).
  destruct (Hk f) as (_ & _ & V). rewrite V by auto. unfold kept.
  change (neqb (b64ops L) (nzero (b64ops L)) (mat_at (a f) i j)) with (is_zero (mat_at (a f) i j)).
  rewrite Hz. reflexivity.
Qed.

(** ** C31 *)
Theorem C31_fringe_never_computed : forall (L : libm) (G : geod binary64) fs t ea eb g a,
  addfringe64 L G fs t = Ok (ea, eb, g) -> tile_a L fs t a ->
  forall f i j, inside f (tt_nia t) (tt_nja t) i j -> straddles (tt_nia t) (tt_nja t) f i j ->
    is_zero (mat_at (a f) i j) = true -> mat_at (g f) i j = b64_zero.
Proof.
  intros L G fs t ea eb g a E Ta f i j [Hi Hj] Hst Hz.
  destruct (addfringe64_tiles L G fs t _ E) as (a' & b & Ta' & _ & Ef & Hs & _).
  assert (a' = a) as -> by (eapply holds_tile_fun; eauto).
  destruct (fringe_char _ (b64_laws L) G a b _ _ _ _ _ Hs Ef)
    as (m & s & H & new & _ & _ & _ & _ & _ & _ & _ & _ & Hg & Hk).
  destruct (Hk f) as (_ & _ & V). rewrite V by auto. unfold kept.
  change (neqb (b64ops L) (nzero (b64ops L)) (mat_at (a f) i j)) with (is_zero (mat_at (a f) i j)).
  rewrite Hz. cbn [negb]. exact (grid_of_zero _ _ _ _ _ _ Hg f i j Hi Hj Hst).
Qed.

(** ** C32 *)
Definition negative (x : point64) : bool := b64_ltb (fst x) b64_zero.
Definition west_of_greenwich (a : grid binary64) (p q : nat) : Prop :=
  exists i j, i <= p /\ j <= q /\ b64_ltb (mat_at (a XG) i j) b64_zero = true.

(** Two runs for the same tile A: whatever the two tiles B, the grids are the same if the
    middle lines of B's edge cells agree on containing a negative longitude, or A has one. *)
Theorem C32_result_independent_of_tile_b : forall (L : libm) (G : geod binary64) fs fs' t t' ea eb g ea' eb' g' a b b' m m',
  addfringe64 L G fs t = Ok (ea, eb, g) -> addfringe64 L G fs' t' = Ok (ea', eb', g') ->
  tile_a L fs t a -> tile_a L fs' t' a -> tt_nia t' = tt_nia t -> tt_nja t' = tt_nja t ->
  tile_b L fs t b -> tile_b L fs' t' b' ->
  matchedges64 L G (tile_points a) (tile_points b) = Ok m ->
  matchedges64 L G (tile_points a) (tile_points b') = Ok m' ->
  west_of_greenwich a (tt_nia t) (tt_nja t) \/ existsb negative (me_edge m) = existsb negative (me_edge m') ->
  geq g g'.
Proof.
  intros L G fs fs' t t' ea eb g ea' eb' g' a b b' m m' E E' Ta Ta' Hni Hnj Tb Tb' Em Em' Hneg.
  destruct (addfringe64_tiles L G fs t _ E) as (a1 & b1 & T1 & U1 & Ef & Hs & _).
  assert (a1 = a) as -> by (eapply holds_tile_fun; eauto). assert (b1 = b) as -> by (eapply holds_tile_fun; eauto).
  destruct (addfringe64_tiles L G fs' t' _ E') as (a1 & b1 & T1' & U1' & Ef' & Hs' & _).
  assert (a1 = a) as -> by (eapply holds_tile_fun; eauto). assert (b1 = b') as -> by (eapply holds_tile_fun; eauto).
  rewrite Hni, Hnj in Hs'. set (p := tt_nia t) in *. set (q := tt_nja t) in *.
  destruct (fringe_char _ (b64_laws L) G a b _ _ _ _ _ Hs Ef)
    as (m1 & s & H & new & Em1 & Hp & Hq & _ & _ & _ & _ & Hsub & Hg & Hk).
  destruct (fringe_char _ (b64_laws L) G a b' _ _ _ _ _ Hs' Ef')
    as (m2 & s' & H' & new' & Em2 & _ & _ & _ & _ & _ & _ & Hsub' & Hg' & Hk').
  assert (m1 = m) as -> by (unfold matchedges64 in Em; congruence).
  assert (m2 = m') as -> by (unfold matchedges64 in Em'; congruence).
  assert (Hflag : fringe_flag (b64ops L) a p q (me_edge m) = fringe_flag (b64ops L) a p q (me_edge m')).
  { unfold fringe_flag. destruct Hneg as [(i & j & Hi & Hj & Hn)|Hn].
    - assert (Hc : corners_pos (b64ops L) (mat_at (tile_points a)) p q = false).
      { apply not_true_iff_false. intros K. unfold corners_pos in K. rewrite forallb_forall in K.
        specialize (K (i, j)). cbn [fst snd] in K.
        assert (Hin : In (i, j) (list_prod (seq 0 (p + 1)) (seq 0 (q + 1))))
          by (apply in_prod_iff; rewrite !in_seq; lia).
        apply K in Hin. apply negb_true_iff in Hin.
        change (b64_ltb (mat_at (a XG) i j) b64_zero = false) in Hin. congruence. }
      rewrite Hc. reflexivity.
    - f_equal.
      assert (Hx : forall l, forallb (fun x => negb (nltb (b64ops L) (fst x) (nzero (b64ops L)))) l =
        negb (existsb negative l)).
      { induction l as [|x l IH]; [reflexivity|]. cbn [forallb existsb]. rewrite IH, negb_orb. reflexivity. }
      rewrite !Hx, Hn. reflexivity. }
  assert (Hn : geq new new').
  { refine (fresh_unique (b64ops L) G (mat_at (tile_points a)) (mat_at (tile_points a)) _ p q H H' new new' Hp Hq _ Hsub _ Hg Hg');
    [auto|]. rewrite Hflag. exact Hsub'. }
  intros f. destruct (Hk f) as (R & C0 & V). destruct (Hk' f) as (R' & C' & V').
  split; [congruence|]. split; [congruence|]. intros i j Hi Hj. rewrite V, V' by congruence.
  destruct (Hg f) as (Gr & Gc & _). rewrite (proj2 (proj2 (Hn f))) by congruence. reflexivity.
Qed.

(** ** C33 *)
(** the result is written to a file and becomes tile A of the next run *)
Theorem C33_addfringe_idempotent : forall (L : libm) (G : geod binary64) fs t ea eb g fs' t' bs,
  addfringe64 L G fs t = Ok (ea, eb, g) ->
  write64 L (dict_of_grid g) (tt_nia t) (tt_nja t) = (bs, Ok tt) ->
  fs' (tt_a t') = Some bs -> tt_nia t' = tt_nia t -> tt_nja t' = tt_nja t ->
  fs' (tt_b t') = fs (tt_b t) -> tt_nib t' = tt_nib t -> tt_njb t' = tt_njb t -> tt_strict t' = tt_strict t ->
  exists g', addfringe64 L G fs' t' = Ok (ea, eb, g') /\ geq g' g.
Proof.
  intros L G fs t ea eb g fs' t' bs E Hw Hfa Hni Hnj Hfb Hnb Hnb' Hst.
  destruct (addfringe64_tiles L G fs t _ E) as (a & b & Ta & Tb & Ef & Hs & Hsb).
  pose proof (fringe_shaped _ (b64_laws L) G a b _ _ _ _ _ Hs Ef) as Hsg.
  destruct (C01_write_read_roundtrip L g (tt_nia t) (tt_nja t) (tt_strict t) Hsg) as (bs' & g1 & Hw' & Hr & Hg1).
  rewrite Hw in Hw'. inversion Hw'. subst bs'.
  destruct (fringe_idem _ (b64_laws L) G a b _ _ _ _ _ Hs Ef) as (g2 & E2 & Hg2).
  assert (Hs1 : shaped g1 (tt_nia t) (tt_nja t)) by (intros f; destruct (Hg1 f) as (R & C0 & _); auto).
  assert (Hgg : geq g g1).
  { intros f. destruct (Hg1 f) as (R & C0 & V). destruct (Hsg f) as (R' & C').
    split; [congruence|]. split; [congruence|]. intros i j Hi Hj. symmetry. apply V; congruence. }
  destruct (fringe_geq _ (b64_laws L) G g b g1 b _ _ _ _ _ _ _ Hsg Hs1 Hsb Hsb Hgg (fun f => meq_refl _) E2)
    as (g3 & E3 & Hg3).
  exists g3. split.
  - unfold addfringe64, addfringe, read_tile. rewrite Hfa, Hni, Hnj, Hst.
    unfold read64 in Hr. rewrite Hr. cbn [rbind].
    destruct Tb as (bb & Eb & Rb). rewrite Hfb, Eb, Hnb, Hnb'. unfold read64 in Rb. rewrite Rb. cbn [rbind].
    exact E3.
  - intros f. eapply meq_trans; [apply meq_sym, Hg3|apply Hg2].
Qed.

(** ** a concrete run: B lies east of A *)
Definition straddlesb (p q : nat) (f : field) (i j : nat) : bool :=
  match f with
  | DXC | DXV | RAW => (i =? 0) || (i =? p)
  | DYC | DYU | RAS => (j =? 0) || (j =? q)
  | RAZ => (i =? 0) || (i =? p) || (j =? 0) || (j =? q)
  | _ => false
  end.
(** tile of p x q unit cells with lower-left corner (x,y); entries on the rim are zero, the
    others differ between fields and positions *)
Definition ex_tile_grid (x y : Z) (p q : nat) : grid binary64 := fun f =>
  mkmat (rows_of f p) (cols_of f q) (fun i j =>
    match f with
    | XG => ex_int (x + Z.of_nat i)
    | YG => ex_int (y + Z.of_nat j)
    | _ => if straddlesb p q f i j then b64_zero else ex_dbl (file_pos f * 100 + i * 10 + j)
    end).
Definition ex_file (x y : Z) (p q : nat) : list byte :=
  fst (write64 ex_libm (dict_of_grid (ex_tile_grid x y p q)) p q).
Definition ex_fs : files := fun s =>
  if String.eqb s "a"%string then Some (ex_file 1 1 2 2)
  else if String.eqb s "b"%string then Some (ex_file 3 1 1 2)
  else if String.eqb s "c"%string then Some (ex_file 3 1 4 2) else None.
Definition ex_ab : two_tiles := mk_two_tiles "a"%string 2 2 "b"%string 1 2 true.
Definition ex_ac : two_tiles := mk_two_tiles "a"%string 2 2 "c"%string 4 2 true.
Definition run_bits (L : libm) (G : geod binary64) (fs : files) (t : two_tiles) : option (nat * nat * list (list Z)) :=
  match addfringe64 L G fs t with
  | Ok (ea, eb, g) => Some (ea, eb, map (fun f => map (fun ij => bits_of_b64 (mat_at (g f) (fst ij) (snd ij)))
      (list_prod (seq 0 (mrows (g f))) (seq 0 (mcols (g f))))) fields)
  | Err _ => None
  end.
Definition ex_run := run_bits ex_libm ex_geod.

(** the run returns; a non-zero RAZ entry is kept, a zero one on the common edge stays zero *)
Definition ran (L : libm) (G : geod binary64) (fs : files) (t : two_tiles) (P : nat -> nat -> grid binary64 -> Prop) : Prop :=
  match addfringe64 L G fs t with Ok (ea, eb, g) => P ea eb g | Err _ => False end.
Example C30_C31_case :
  ran ex_libm ex_geod ex_fs ex_ab (fun ea eb g => (ea, eb) = (2, 3) /\
      bits_of_b64 (mat_at (g RAZ) 1 1) = bits_of_b64 (ex_dbl (file_pos RAZ * 100 + 11)) /\
      bits_of_b64 (mat_at (g RAZ) 2 1) = bits_of_b64 b64_zero) /\
  straddles 2 2 RAZ 2 1 /\ straddles 2 2 DXC 2 0.
Proof. split; [vm_compute; auto|]. cbn. auto. Qed.

(** two different tiles B on the same side of A: the same result *)
Example C32_case : ex_run ex_fs ex_ab = ex_run ex_fs ex_ac /\ ex_run ex_fs ex_ab <> None.
Proof. vm_compute. split; [reflexivity|discriminate]. Qed.

(** tile A with zeros everywhere except in XG, YG: the first run fills the interior, the
    second changes nothing *)
Definition ex_bare (x y : Z) (p q : nat) : grid binary64 := fun f =>
  mkmat (rows_of f p) (cols_of f q) (fun i j =>
    match f with XG => ex_int (x + Z.of_nat i) | YG => ex_int (y + Z.of_nat j) | _ => b64_zero end).
Definition ex_fs_bare : files := fun s =>
  if String.eqb s "a"%string then Some (fst (write64 ex_libm (dict_of_grid (ex_bare 1 1 2 2)) 2 2)) else ex_fs s.
Definition rewritten (L : libm) (G : geod binary64) (fs : files) (t : two_tiles) : option (list byte) :=
  match addfringe64 L G fs t with
  | Ok (_, _, g) => Some (fst (write64 L (dict_of_grid g) (tt_nia t) (tt_nja t)))
  | Err _ => None
  end.
Definition ex_fs_again : files := fun s =>
  if String.eqb s "a"%string then rewritten ex_libm ex_geod ex_fs_bare ex_ab else ex_fs s.
Example C33_case :
  ex_run ex_fs_again ex_ab = ex_run ex_fs_bare ex_ab /\ ex_run ex_fs_bare ex_ab <> None /\
  ex_fs_again "a"%string <> ex_fs_bare "a"%string.
Proof. vm_compute. repeat split; discriminate. Qed.
