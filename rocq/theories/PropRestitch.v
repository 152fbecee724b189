(** Property C96: stitched tiles stitched again. *)
From Coq Require Import ZArith String List Bool PeanoNat Lia Init.Byte.
From Flocq Require Import IEEE754.BinarySingleNaN IEEE754.Binary IEEE754.Bits.
Import ListNotations.
From Verif Require Import Prelude PreludeFacts Mat MatFacts Num Fields GridIO Float64 Float64Facts SpecGrid SpecHalf TomitFacts
  GridIOProofs MatchEdges SpecTiles MatchEdgesFacts AddFringe FringeFacts Stitch SpecStitch StitchFacts Samples
  PropGridIO PropMkGrid PropMatchEdges PropFringe PropStitch.
Local Open Scope nat_scope.
Local Open Scope list_scope.
Local Arguments Nat.mul : simpl never.

(** ** What addfringe makes of a tile *)

(** [new] is computed afresh from the corner points of [a], between which the half-cell points
    lie; [w] is the convention for their longitudes. *)
Definition recomputed (L : libm) (G : geod binary64) (a : grid binary64) (p q : nat) (w : bool) (new : grid binary64) : Prop :=
  shaped new p q /\
  exists H, subdivides (b64ops L) G w (fun i j => (mat_at (a XG) i j, mat_at (a YG) i j)) 1 1 p q H /\
    positions_documented H p q new /\ edges_documented (b64ops L) G H p q new /\
    areas_documented (b64ops L) G H p q new (flat_enough (b64ops L) G H p q) /\ boundary_zero (b64ops L) p q new.

(** Every zero of the tile is replaced by the value computed afresh, which is zero at the
    tile's boundary; everything else is kept. *)
Theorem C96_zeros_computed :
  forall (L : libm) (G : geod binary64) fs t ea eb g a,
  addfringe64 L G fs t = Ok (ea, eb, g) -> tile_a L fs t a ->
  exists w new, recomputed L G a (tt_nia t) (tt_nja t) w new /\
    (west_of_greenwich a (tt_nia t) (tt_nja t) -> w = false) /\
    forall f i j, inside f (tt_nia t) (tt_nja t) i j ->
      mat_at (g f) i j = if is_zero (mat_at (a f) i j) then mat_at (new f) i j else mat_at (a f) i j.
Proof.
  intros L G fs t ea eb g a E Ta.
  destruct (addfringe64_tiles L G fs t _ E) as (a' & b & Ta' & _ & Ef & Hs & _).
  assert (a' = a) as -> by (eapply holds_tile_fun; eauto).
  destruct (fringe_char _ (b64_laws L) G a b _ _ _ _ _ Hs Ef)
    as (m & s & H & new & _ & _ & _ & _ & _ & _ & _ & Hsub & Hg & Hk).
  exists (fringe_flag (b64ops L) a (tt_nia t) (tt_nja t) (me_edge m)), new. split; [|split].
  - split; [eapply grid_of_shaped; eauto|]. exists H. split; [exact Hsub|].
    split; [eapply grid_of_positions; eauto|]. split; [eapply grid_of_edges; eauto|].
    split; [eapply grid_of_areas; eauto|eapply grid_of_zero; eauto].
  - intros (i & j & Hi & Hj & Hn). unfold fringe_flag. apply andb_false_iff. left. apply not_true_iff_false. intros K.
    unfold corners_pos in K. rewrite forallb_forall in K. specialize (K (i, j)). cbn [fst snd] in K.
    assert (Hin : In (i, j) (list_prod (seq 0 (tt_nia t + 1)) (seq 0 (tt_nja t + 1)))) by (apply in_prod_iff; rewrite !in_seq; lia).
    apply K in Hin. apply negb_true_iff in Hin. change (b64_ltb (mat_at (a XG) i j) b64_zero = false) in Hin. congruence.
  - intros f i j (Hi & Hj). destruct (Hk f) as (_ & _ & V). rewrite V by auto. unfold kept.
    change (neqb (b64ops L) (nzero (b64ops L)) (mat_at (a f) i j)) with (is_zero (mat_at (a f) i j)).
    destruct (is_zero (mat_at (a f) i j)); reflexivity.
Qed.

(** ** A stitched tile as one of the two *)

(** [c] has been written to [path] *)
Definition saved (L : libm) (fs : files) (path : string) (c : grid binary64) (ni nj : nat) : Prop :=
  exists bs, write64 L (dict_of_grid c) ni nj = (bs, Ok tt) /\ fs path = Some bs.

Lemma saved_tile L fs path c ni nj strict : saved L fs path c ni nj -> shaped c ni nj ->
  exists c', holds_tile L fs path ni nj strict c' /\ shaped c' ni nj /\
    forall f i j, inside f ni nj i j -> mat_at (c' f) i j = mat_at (c f) i j.
Proof.
  intros (bs & W & E) Hs. destruct (C01_write_read_roundtrip L c ni nj strict Hs) as (bs' & c' & W' & R & Hg).
  rewrite W in W'. injection W' as <-. exists c'. split; [exists bs; auto|].
  assert (Hs' : shaped c' ni nj) by (exact (proj1 (read_spec _ _ _ _ _ _ _ R))).
  split; [exact Hs'|]. intros f i j (Hi & Hj). destruct (Hg f) as (Hr & Hc & V). destruct (Hs' f). apply V; congruence.
Qed.

Lemma recomputed_ext L G (c c' : grid binary64) p q w new :
  (forall f i j, inside f p q i j -> mat_at (c' f) i j = mat_at (c f) i j) ->
  recomputed L G c' p q w new -> recomputed L G c p q w new.
Proof.
  intros E (Hs & H & (S1 & S2 & S3) & D). split; [exact Hs|]. exists H. split; [|exact D].
  assert (EP : forall i j, i <= p -> j <= q -> (mat_at (c' XG) i j, mat_at (c' YG) i j) = (mat_at (c XG) i j, mat_at (c YG) i j)).
  { intros i j Hi Hj. rewrite !E by (split; cbn; lia). reflexivity. }
  split; [|split]; [intros u v Hu Hv; rewrite S1 by assumption; now apply EP| |exact S3].
  intros u v k Hu Hv Hk. rewrite S2 by assumption. rewrite !EP by lia. reflexivity.
Qed.

Lemma stitched_shape L G fs t c ni nj : stitch64 L G fs t = Ok (c, ni, nj) -> shaped c ni nj.
Proof. intros E. now destruct (C34_stitch_places_every_entry L G fs t c ni nj E) as (s & a' & b & _ & _ & _ & _ & _ & Hs & _). Qed.

Definition zero_boundary (a : grid binary64) (p q : nat) : Prop :=
  forall f i j, inside f p q i j -> straddles p q f i j -> is_zero (mat_at (a f) i j) = true.

(** The combined tile is written and becomes the first tile of another stitch: what was left
    zero on the common line is now computed from the corner points of the combined tile. *)
Theorem C96_seam_computed_next_time :
  forall (L : libm) (G : geod binary64) fs t s eb a a' c ni nj fs2 t2 s2 eb2 a2 c2 ni2 nj2,
  stitch64 L G fs t = Ok (c, ni, nj) -> addfringe64 L G fs t = Ok (side_code s, eb, a') ->
  tile_a L fs t a -> zero_boundary a (tt_nia t) (tt_nja t) ->
  saved L fs2 (tt_a t2) c ni nj -> tt_nia t2 = ni -> tt_nja t2 = nj ->
  stitch64 L G fs2 t2 = Ok (c2, ni2, nj2) -> addfringe64 L G fs2 t2 = Ok (side_code s2, eb2, a2) ->
  exists w new, recomputed L G c ni nj w new /\
    forall f i j i2 j2, straddles_seam s f = true -> inside f ni nj i j ->
      on_seam_line s (tt_nia t) (tt_nja t) (tt_nib t) (tt_njb t) i j ->
      located (origin_a s2 (tt_nib t2) (tt_njb t2)) (i, j) (i2, j2) ->
      mat_at (c2 f) i2 j2 = mat_at (new f) i j.
Proof.
  intros L G fs t s eb a a' c ni nj fs2 t2 s2 eb2 a2 c2 ni2 nj2 E Ea Ta Za Sv N1 N2 E2 Ea2.
  destruct (saved_tile L fs2 (tt_a t2) c ni nj (tt_strict t2) Sv (stitched_shape _ _ _ _ _ _ _ E)) as (c' & Tc & Hc' & Vc).
  assert (Tc' : tile_a L fs2 t2 c') by (unfold tile_a; now rewrite N1, N2).
  destruct (C96_zeros_computed L G fs2 t2 _ _ _ c' Ea2 Tc') as (w & new & R & _ & V). rewrite N1, N2 in *.
  exists w, new. split; [now apply (recomputed_ext L G c c')|].
  intros f i j i2 j2 Sf Hin On Loc.
  destruct (C34_stitch_places_every_entry L G fs2 t2 c2 ni2 nj2 E2) as (s0 & a1 & b1 & Ea2' & _ & _ & _ & _ & _ & (P1 & _ & _)).
  rewrite Ea2 in Ea2'. injection Ea2' as Es _ <-. apply side_code_inj in Es. subst s0. rewrite N1, N2 in P1.
  rewrite (P1 f i j i2 j2 Hin Loc), V by exact Hin.
  rewrite Vc by exact Hin. rewrite (C37_seam_not_computed L G fs t c ni nj a s eb a' E Ta Ea Za f i j Sf Hin On). reflexivity.
Qed.

(** If it becomes the second tile, they stay zero. *)
Theorem C96_seam_left_as_second_tile :
  forall (L : libm) (G : geod binary64) fs t s eb a a' c ni nj fs2 t2 s2 eb2 a2 c2 ni2 nj2,
  stitch64 L G fs t = Ok (c, ni, nj) -> addfringe64 L G fs t = Ok (side_code s, eb, a') ->
  tile_a L fs t a -> zero_boundary a (tt_nia t) (tt_nja t) ->
  saved L fs2 (tt_b t2) c ni nj -> tt_nib t2 = ni -> tt_njb t2 = nj ->
  stitch64 L G fs2 t2 = Ok (c2, ni2, nj2) -> addfringe64 L G fs2 t2 = Ok (side_code s2, eb2, a2) ->
  forall f i j i2 j2, straddles_seam s f = true -> inside f ni nj i j ->
    on_seam_line s (tt_nia t) (tt_nja t) (tt_nib t) (tt_njb t) i j ->
    located (origin_b s2 (tt_nia t2) (tt_nja t2)) (i, j) (i2, j2) ->
    ~ in_a s2 (tt_nia t2) (tt_nja t2) ni nj f i2 j2 ->
    mat_at (c2 f) i2 j2 = b64_zero.
Proof.
  intros L G fs t s eb a a' c ni nj fs2 t2 s2 eb2 a2 c2 ni2 nj2 E Ea Ta Za Sv N1 N2 E2 Ea2 f i j i2 j2 Sf Hin On Loc Off.
  destruct (saved_tile L fs2 (tt_b t2) c ni nj (tt_strict t2) Sv (stitched_shape _ _ _ _ _ _ _ E)) as (c' & Tc & Hc' & Vc).
  destruct (C34_stitch_places_every_entry L G fs2 t2 c2 ni2 nj2 E2) as (s0 & a1 & b1 & Ea2' & Tb & _ & _ & _ & _ & (_ & P2 & _)).
  rewrite Ea2 in Ea2'. injection Ea2' as Es _ _. apply side_code_inj in Es. subst s0. rewrite N1, N2 in P2.
  assert (b1 = c') as -> by (unfold tile_b in Tb; rewrite N1, N2 in Tb; eapply holds_tile_fun; eauto).
  rewrite (P2 f i j i2 j2 Hin Loc Off), Vc by exact Hin.
  exact (C37_seam_not_computed L G fs t c ni nj a s eb a' E Ta Ea Za f i j Sf Hin On).
Qed.

(** ** Three tiles in a row *)

(** [c] is what stitching the tiles [a] and [b] of p x q and p' x q' cells gives, b lying on
    side [s] of a *)
Definition stitches (L : libm) (G : geod binary64) (s : side) (a : grid binary64) (p q : nat) (b : grid binary64) (p' q' : nat)
    (c : grid binary64) (ni nj : nat) : Prop :=
  exists fs t eb a', tt_nia t = p /\ tt_nja t = q /\ tt_nib t = p' /\ tt_njb t = q' /\
    saved L fs (tt_a t) a p q /\ saved L fs (tt_b t) b p' q' /\
    stitch64 L G fs t = Ok (c, ni, nj) /\ addfringe64 L G fs t = Ok (side_code s, eb, a').

Lemma stitches_inv L G s a p q b p' q' c ni nj : shaped a p q -> shaped b p' q' -> stitches L G s a p q b p' q' c ni nj ->
  along_a s p q = along_b s p' q' /\ ni = total_ni s p p' /\ nj = total_nj s q q' /\ shaped c ni nj /\
  exists a' w new, recomputed L G a p q w new /\
    (forall f i j, inside f p q i j -> mat_at (a' f) i j = if is_zero (mat_at (a f) i j) then mat_at (new f) i j else mat_at (a f) i j) /\
    combines s p q p' q' a' b c.
Proof.
  intros Hsa Hsb (fs & t & eb & a' & <- & <- & <- & <- & Sa & Sb & E & Ea).
  destruct (saved_tile L fs _ a _ _ (tt_strict t) Sa Hsa) as (a0 & Ta & _ & Va).
  destruct (saved_tile L fs _ b _ _ (tt_strict t) Sb Hsb) as (b0 & Tb & _ & Vb).
  destruct (C34_stitch_places_every_entry L G fs t c ni nj E) as (s0 & a1 & b1 & Ea' & Tb1 & Hal & Hni & Hnj & Hs & (P1 & P2 & P3)).
  rewrite Ea in Ea'. injection Ea' as Es _ <-. apply side_code_inj in Es. subst s0.
  assert (b1 = b0) as -> by (eapply holds_tile_fun; [exact Tb1|exact Tb]).
  do 4 (split; [assumption|]). exists a'.
  destruct (C96_zeros_computed L G fs t _ _ _ a0 Ea Ta) as (w & new & R & _ & V). exists w, new.
  split; [now apply (recomputed_ext L G a a0)|]. split.
  - intros f i j Hin. rewrite V, Va by exact Hin. reflexivity.
  - split; [exact P1|]. split; [|exact P3]. intros f k l i j Hin Loc Off. rewrite (P2 f k l i j Hin Loc Off). now apply Vb.
Qed.

Lemma in_a_dec s p q p' q' f i j : in_a s p q p' q' f i j \/ ~ in_a s p q p' q' f i j.
Proof.
  set (o := origin_a s p' q').
  assert (K : in_a s p q p' q' f i j <-> fst o <= i /\ i - fst o < rows_of f p /\ snd o <= j /\ j - snd o < cols_of f q).
  { unfold in_a, inside, located. fold o. cbn [fst snd]. split.
    - intros (k & l & (H1 & H2) & H3 & H4). lia.
    - intros (H1 & H2 & H3 & H4). exists (i - fst o), (j - snd o). lia. }
  rewrite K. destruct (le_dec (fst o) i), (lt_dec (i - fst o) (rows_of f p)), (le_dec (snd o) j), (lt_dec (j - snd o) (cols_of f q)); tauto || lia.
Qed.

Ltac placing :=
  unfold in_a, in_b, inside, located, along_a, along_b, total_ni, total_nj, origin_a, origin_b in *;
  cbn [zonal fst snd] in *; rewrite ?drops_row_rows, ?drops_col_cols in *.

(** No zeros but +0.0 on the positions that straddle the tile's boundary, and there all. *)
Definition fresh (a : grid binary64) (p q : nat) : Prop := filled a p q /\ zero_boundary a p q.

Lemma recomputed_corners L G (a : grid binary64) p q w new : recomputed L G a p q w new ->
  forall f i j, f = XG \/ f = YG -> inside f p q i j -> mat_at (new f) i j = mat_at (a f) i j.
Proof.
  intros (_ & H & (S1 & _) & (D1 & _) & _) f i j C Hin.
  assert (i <= p /\ j <= q) as (Hi & Hj) by (destruct C; subst f; destruct Hin; cbn in *; lia).
  specialize (D1 i j Hi Hj). specialize (S1 i j Hi Hj). rewrite !Nat.mul_1_r in S1. rewrite S1 in D1. injection D1 as E1 E2.
  destruct C; subst f; assumption.
Qed.

Lemma recomputed_boundary L G (a : grid binary64) p q w new : recomputed L G a p q w new ->
  forall f i j, inside f p q i j -> straddles p q f i j -> mat_at (new f) i j = b64_zero.
Proof. intros (_ & H & _ & _ & _ & _ & D4) f i j (Hi & Hj) St. now apply D4. Qed.

Lemma filled_value L G (a : grid binary64) p q w new : filled a p q -> recomputed L G a p q w new ->
  forall f i j, inside f p q i j -> (if is_zero (mat_at (a f) i j) then mat_at (new f) i j else mat_at (a f) i j) = mat_at (a f) i j.
Proof.
  intros Fa R f i j Hin. destruct (is_zero (mat_at (a f) i j)) eqn:Z; [|reflexivity].
  destruct (field_eq_dec f XG) as [X|X]; [now apply (recomputed_corners L G a p q w new R); auto|].
  destruct (field_eq_dec f YG) as [Y|Y]; [now apply (recomputed_corners L G a p q w new R); auto|].
  destruct (Fa f i j Hin X Y Z) as (St & ->). now apply (recomputed_boundary L G a p q w new R).
Qed.

(** entry (i,j) of the row of three lies on the line between a and b, as entry (k,l) of their
    combination *)
Definition between_ab (s : side) (pa qa pb qb pd qd : nat) (f : field) (k l i j : nat) : Prop :=
  inside f (total_ni s pa pb) (total_nj s qa qb) k l /\ located (origin_a s pd qd) (k, l) (i, j) /\ on_seam_line s pa qa pb qb k l.

(** The tiles a, b, d follow each other in one direction.  Stitching a to b and the result to d,
    or a to the result of stitching b to d, gives the same but for what straddles the line
    between a and b: the first way computes it in the second step, the second way leaves it
    zero.  What straddles the line between b and d is zero both ways. *)
Theorem C96_three_in_a_row :
  forall (L : libm) (G : geod binary64) s a pa qa b pb qb d pd qd c1 n1 m1 c2 n2 m2 e1 x1 y1 e2 x2 y2,
  shaped a pa qa -> shaped b pb qb -> shaped d pd qd ->
  fresh a pa qa -> fresh b pb qb ->
  stitches L G s a pa qa b pb qb c1 n1 m1 -> stitches L G s c1 n1 m1 d pd qd e1 x1 y1 ->
  stitches L G s b pb qb d pd qd c2 n2 m2 -> stitches L G s a pa qa c2 n2 m2 e2 x2 y2 ->
  x1 = x2 /\ y1 = y2 /\
  exists w new, recomputed L G c1 n1 m1 w new /\
  forall f i j, inside f x1 y1 i j ->
    (* on the line between a and b, entry (k,l) of their combination *)
    (forall k l, between_ab s pa qa pb qb pd qd f k l i j -> straddles_seam s f = true ->
       mat_at (e1 f) i j = mat_at (new f) k l /\ mat_at (e2 f) i j = b64_zero) /\
    (* on the line between b and d *)
    (on_seam_line s n1 m1 pd qd i j -> straddles_seam s f = true -> mat_at (e1 f) i j = b64_zero) /\
    ((forall k l, between_ab s pa qa pb qb pd qd f k l i j -> straddles_seam s f = false) ->
       mat_at (e1 f) i j = mat_at (e2 f) i j).
Proof.
  intros L G s a pa qa b pb qb d pd qd c1 n1 m1 c2 n2 m2 e1 x1 y1 e2 x2 y2 Ha Hb Hd (Fa & Za) (Fb & Zb) S1 S2 S3 S4.
  destruct (stitches_inv _ _ _ _ _ _ _ _ _ _ _ _ Ha Hb S1) as (A1 & N1 & M1 & H1 & a1 & w1 & r1 & R1 & V1 & (P1 & P2 & P3)).
  destruct (stitches_inv _ _ _ _ _ _ _ _ _ _ _ _ H1 Hd S2) as (A2 & N2 & M2 & H2 & g1 & w2 & new & R2 & V2 & (Q1 & Q2 & Q3)).
  destruct (stitches_inv _ _ _ _ _ _ _ _ _ _ _ _ Hb Hd S3) as (A3 & N3 & M3 & H3 & b1 & w3 & r3 & R3 & V3 & (T1 & T2 & T3)).
  destruct (stitches_inv _ _ _ _ _ _ _ _ _ _ _ _ Ha H3 S4) as (A4 & N4 & M4 & H4 & a2 & w4 & r4 & R4 & V4 & (U1 & U2 & U3)).
  clear S1 S2 S3 S4.
  assert (K1 : forall f i j, inside f pa qa i j -> mat_at (a1 f) i j = mat_at (a f) i j)
    by (intros; rewrite V1 by assumption; now apply (filled_value L G a pa qa w1 r1)).
  assert (K2 : forall f i j, inside f pa qa i j -> mat_at (a2 f) i j = mat_at (a f) i j)
    by (intros; rewrite V4 by assumption; now apply (filled_value L G a pa qa w4 r4)).
  assert (K3 : forall f i j, inside f pb qb i j -> mat_at (b1 f) i j = mat_at (b f) i j)
    by (intros; rewrite V3 by assumption; now apply (filled_value L G b pb qb w3 r3)).
  clear V1 V4 V3 R1 R3 R4.
  split; [subst; clear; destruct s; cbn; lia|]. split; [subst; clear; destruct s; cbn; lia|].
  exists w2, new. split; [exact R2|]. intros f i j Hin.
  (* the result of the second way *)
  assert (EA : forall k l, inside f pa qa k l -> located (origin_a s n2 m2) (k, l) (i, j) -> mat_at (e2 f) i j = mat_at (a f) k l)
    by (intros k l I Lo; rewrite (U1 f k l i j I Lo); now apply K2).
  split; [|split].
  { (* between a and b *)
    intros k l (Ikl & Lkl & On) Sf. rewrite <- N1, <- M1 in Ikl.
    set (x := k - fst (origin_a s pb qb)). set (y := l - snd (origin_a s pb qb)).
    assert (PL : inside f pa qa x y /\ located (origin_a s pb qb) (x, y) (k, l) /\ straddles pa qa f x y).
    { subst x y n1 m1. clear - Ikl On Sf A1. unfold straddles_seam, on_seam_line, seam_line in *.
      destruct s; placing; destruct f; cbn [straddles drops_row drops_col place_of] in *; try discriminate Sf; lia. }
    destruct PL as (Ix & Lx & Sx).
    assert (X : f <> XG) by (intros ->; destruct s; discriminate Sf).
    assert (Y : f <> YG) by (intros ->; destruct s; discriminate Sf).
    destruct (Fa f x y Ix X Y (Za f x y Ix Sx)) as (_ & A0).
    assert (C1 : mat_at (c1 f) k l = b64_zero) by (rewrite (P1 f x y k l Ix Lx), K1 by exact Ix; exact A0).
    assert (Z0 : is_zero b64_zero = true) by reflexivity. split.
    - rewrite (Q1 f k l i j Ikl Lkl), V2 by exact Ikl. rewrite C1, Z0. reflexivity.
    - rewrite <- A0. apply EA; [exact Ix|]. subst n2 m2. clear - Lkl Lx. destruct s; placing; lia. }
  { (* between b and d *)
    intros On Sf. set (k := i - fst (origin_a s pd qd)). set (l := j - snd (origin_a s pd qd)).
    set (x := k - fst (origin_b s pa qa)). set (y := l - snd (origin_b s pa qa)).
    assert (PL : inside f n1 m1 k l /\ located (origin_a s pd qd) (k, l) (i, j) /\ straddles n1 m1 f k l).
    { subst k l x1 y1. clear - Hin On Sf A2. unfold straddles_seam, on_seam_line, seam_line in *.
      destruct s; placing; destruct f; cbn [straddles drops_row drops_col place_of] in *; try discriminate Sf; lia. }
    destruct PL as (Ik & Lk & Sk).
    rewrite (Q1 f k l i j Ik Lk), V2 by exact Ik. destruct (is_zero (mat_at (c1 f) k l)) eqn:Z; [now apply (recomputed_boundary _ _ _ _ _ _ _ R2)|].
    exfalso. enough (C : mat_at (c1 f) k l = b64_zero) by (rewrite C in Z; discriminate Z).
    assert (X : f <> XG) by (intros ->; destruct s; discriminate Sf).
    assert (Y : f <> YG) by (intros ->; destruct s; discriminate Sf).
    destruct (in_a_dec s pa qa pb qb f k l) as [(k' & l' & I' & L')|NI'].
    - rewrite (P1 f k' l' k l I' L'), K1 by exact I'. apply (Fa f k' l' I' X Y). apply (Za f k' l' I').
      subst n1 m1. clear - Sk I' L' Ik A1. destruct s; placing; destruct f; cbn [straddles drops_row drops_col place_of] in *; lia.
    - destruct (P3 f k l ltac:(subst n1 m1; exact Ik)) as [Q|(k' & l' & I' & L')]; [elim (NI' Q)|].
      rewrite (P2 f k' l' k l I' L' NI'). apply (Fb f k' l' I' X Y). apply (Zb f k' l' I').
      assert (NA : forall x y, inside f pa qa x y -> ~ located (origin_a s pb qb) (x, y) (k, l))
        by (intros x0 y0 Ix Lx; apply NI'; exists x0, y0; auto).
      specialize (NA (k - fst (origin_a s pb qb)) (l - snd (origin_a s pb qb))).
      clear x y. subst n1 m1. clearbody k l. clear - Sk I' L' Ik A1 NA.
      destruct s; placing; destruct f; cbn [straddles drops_row drops_col place_of] in *; lia. }
  intros Off. destruct (in_a_dec s n1 m1 pd qd f i j) as [(k & l & Ikl & Lkl)|NI].
  - rewrite (Q1 f k l i j Ikl Lkl), V2 by exact Ikl.
    destruct (in_a_dec s pa qa pb qb f k l) as [(k' & l' & I' & L')|NI'].
    + (* in a *)
      assert (L2 : located (origin_a s n2 m2) (k', l') (i, j))
        by (subst n2 m2; clear - Lkl L'; destruct s; placing; lia).
      rewrite (EA k' l' I' L2).
      assert (C1 : mat_at (c1 f) k l = mat_at (a f) k' l') by (rewrite (P1 f k' l' k l I' L'); now apply K1).
      destruct (is_zero (mat_at (c1 f) k l)) eqn:Z; [|exact C1].
      destruct (field_eq_dec f XG) as [X|X]; [rewrite (recomputed_corners _ _ _ _ _ _ _ R2) by auto; exact C1|].
      destruct (field_eq_dec f YG) as [Y|Y]; [rewrite (recomputed_corners _ _ _ _ _ _ _ R2) by auto; exact C1|].
      rewrite C1 in Z. destruct (Fa f k' l' I' X Y Z) as (St & A0). rewrite A0.
      assert (D : straddles n1 m1 f k l \/ straddles_seam s f = true /\ on_seam_line s pa qa pb qb k l).
      { subst n1 m1. clear - St L'. unfold straddles_seam, on_seam_line, seam_line.
        destruct s; placing; destruct f; cbn [straddles] in *; lia. }
      destruct D as [D|(D1 & D2)]; [now apply (recomputed_boundary _ _ _ _ _ _ _ R2)|].
      rewrite (Off k l) in D1; [discriminate D1|]. split; [rewrite <- N1, <- M1; exact Ikl|]. split; [exact Lkl|exact D2].
    + (* in b *)
      destruct (P3 f k l ltac:(subst; exact Ikl)) as [X|(k' & l' & I' & L')]; [elim (NI' X)|].
      assert (C1 : mat_at (c1 f) k l = mat_at (b f) k' l') by (apply (P2 f k' l' k l I' L' NI')).
      assert (E2 : mat_at (e2 f) i j = mat_at (b f) k' l').
      { set (u := fst (origin_a s pd qd) + k'). set (v := snd (origin_a s pd qd) + l').
        assert (Iu : inside f n2 m2 u v) by (subst n2 m2 u v; clear - I' A3; destruct s; placing; lia).
        assert (Lu : located (origin_b s pa qa) (u, v) (i, j)) by (subst u v; clear - L' Lkl; destruct s; placing; lia).
        assert (NA : ~ in_a s pa qa n2 m2 f i j).
        { intros (x & y & Ix & Lx). apply NI'. exists x, y. split; [exact Ix|].
          subst n2 m2. clear - Lx Lkl. destruct s; placing; lia. }
        rewrite (U2 f u v i j Iu Lu NA). rewrite (T1 f k' l' u v I'); [now apply K3|]. subst u v. split; reflexivity. }
      rewrite E2. destruct (is_zero (mat_at (c1 f) k l)) eqn:Z; [|exact C1].
      destruct (field_eq_dec f XG) as [X|X]; [rewrite (recomputed_corners _ _ _ _ _ _ _ R2) by auto; exact C1|].
      destruct (field_eq_dec f YG) as [Y|Y]; [rewrite (recomputed_corners _ _ _ _ _ _ _ R2) by auto; exact C1|].
      rewrite C1 in Z. destruct (Fb f k' l' I' X Y Z) as (St & ->).
      apply (recomputed_boundary _ _ _ _ _ _ _ R2); [exact Ikl|].
      subst n1 m1. assert (NA : forall x y, inside f pa qa x y -> ~ located (origin_a s pb qb) (x, y) (k, l))
        by (intros x y Ix Lx; apply NI'; exists x, y; auto).
      clear - St L' I' NA A1. specialize (NA (k - fst (origin_a s pb qb)) (l - snd (origin_a s pb qb))).
      destruct s; placing; destruct f; cbn [straddles drops_row drops_col place_of] in *; try contradiction; lia.
  - (* in d *)
    destruct (Q3 f i j ltac:(subst; exact Hin)) as [X|(k & l & Ikl & Lkl)]; [elim (NI X)|].
    rewrite (Q2 f k l i j Ikl Lkl NI).
    set (u := fst (origin_b s pb qb) + k). set (v := snd (origin_b s pb qb) + l).
    assert (Iu : inside f n2 m2 u v) by (subst n2 m2 u v; clear - Ikl A3; destruct s; placing; lia).
    assert (Lu : located (origin_b s pa qa) (u, v) (i, j)) by (subst u v n1 m1; clear - Lkl; destruct s; placing; lia).
    assert (NA : ~ in_a s pa qa n2 m2 f i j).
    { intros (x & y & Ix & Lx). apply NI. exists (fst (origin_a s pb qb) + x), (snd (origin_a s pb qb) + y).
      subst n1 m1 n2 m2. clear - Ix Lx A1. destruct s; placing; lia. }
    assert (NB : ~ in_a s pb qb pd qd f u v).
    { intros (x & y & Ix & Lx). apply NI. exists (fst (origin_b s pa qa) + x), (snd (origin_b s pa qa) + y).
      subst n1 m1 u v. clear - Ix Lx Lu A1. destruct s; placing; lia. }
    rewrite (U2 f u v i j Iu Lu NA). symmetry. apply (T2 f k l u v Ikl); [split; reflexivity|exact NB].
Qed.

(** ** concrete runs: the tiles "a" (2 x 2 cells), "b" and "d" (1 x 2 cells each) in a row from west
    to east, and what is written after stitching the first two and the last two *)
Definition ex_row_tiles : files := fun s =>
  if String.eqb s "a"%string then Some (ex_file 1 1 2 2)
  else if String.eqb s "b"%string then Some (ex_file 3 1 1 2)
  else if String.eqb s "d"%string then Some (ex_file 4 1 1 2) else None.
Definition written_stitch (t : two_tiles) : option (list byte) :=
  match stitch64 ex_libm ex_geod ex_row_tiles t with
  | Ok (c, ni, nj) => Some (fst (write64 ex_libm (dict_of_grid c) ni nj))
  | Err _ => None
  end.
Definition ex_row : files := fun s =>
  if String.eqb s "ab"%string then written_stitch (mk_two_tiles "a"%string 2 2 "b"%string 1 2 true)
  else if String.eqb s "bd"%string then written_stitch (mk_two_tiles "b"%string 1 2 "d"%string 1 2 true)
  else ex_row_tiles s.
Definition ex_ab_d : two_tiles := mk_two_tiles "ab"%string 3 2 "d"%string 1 2 true.
Definition ex_a_bd : two_tiles := mk_two_tiles "a"%string 2 2 "bd"%string 2 2 true.

(** the bits of an entry of the result, and the side found *)
Definition entry_after (t : two_tiles) (f : field) (i j : nat) : option Z :=
  match stitch64 ex_libm ex_geod ex_row t with Ok (c, _, _) => Some (at_bits c f i j) | Err _ => None end.
Definition side_found (t : two_tiles) : option nat :=
  match addfringe64 ex_libm ex_geod ex_row t with Ok (ea, _, _) => Some ea | Err _ => None end.

(** (ab)d computes what straddles the line between a and b (here at corner (2,1)), a(bd) and
    d(ab) leave it zero; what straddles the line between b and d is zero either way; elsewhere
    the values are the tiles' *)
Example C96_row_case :
  (entry_after ex_ab_d DXC 2 1, entry_after ex_ab_d RAZ 2 1) = (Some 4602678819172646912, Some 4534994228513322580)%Z /\
  map (fun t => (entry_after t DXC 2 1, entry_after t RAZ 2 1)) [ex_a_bd; swapped ex_ab_d] = [(Some 0, Some 0); (Some 0, Some 0)]%Z /\
  map (fun t => (entry_after t DXC 3 1, entry_after t RAZ 3 1)) [ex_ab_d; ex_a_bd; swapped ex_ab_d]
    = [(Some 0, Some 0); (Some 0, Some 0); (Some 0, Some 0)]%Z /\
  entry_after ex_ab_d RAC 2 1 = Some (at_bits (ex_tile_grid 3 1 1 2) RAC 0 1) /\
  entry_after ex_a_bd RAC 2 1 = Some (at_bits (ex_tile_grid 3 1 1 2) RAC 0 1).
Proof. repeat split; vm_compute; reflexivity. Qed.

(** the sides found *)
Example C96_sides_case :
  map side_found [ex_ab_d; ex_a_bd; mk_two_tiles "b"%string 1 2 "d"%string 1 2 true; mk_two_tiles "a"%string 2 2 "b"%string 1 2 true]
    = let e := Some (side_code East) in [e; e; e; e].
Proof. vm_compute. reflexivity. Qed.

(** the tiles are fresh *)
Lemma straddlesb_true p q f i j : straddles p q f i j -> straddlesb p q f i j = true.
Proof. destruct f; cbn; rewrite ?orb_true_iff, ?Nat.eqb_eq; tauto. Qed.
Example C96_fresh_case : forall x y p q, p <= 2 -> q <= 2 -> fresh (ex_tile_grid x y p q) p q.
Proof.
  intros x y p q Hp Hq. split.
  - intros f i j (Hi & Hj) N1 N2 Hz.
    assert (Hsb : straddlesb p q f i j = true).
    { destruct (straddlesb p q f i j) eqn:Es; [reflexivity|exfalso].
      assert (Hm : mat_at (ex_tile_grid x y p q f) i j = ex_dbl (file_pos f * 100 + i * 10 + j)).
      { destruct f; try contradiction; unfold ex_tile_grid; cbn [mat_at]; rewrite Es; reflexivity. }
      rewrite Hm in Hz. clear Hm Es N1 N2.
      assert (Hi3 : i < 3) by (destruct f; cbn in Hi; lia).
      assert (Hj3 : j < 3) by (destruct f; cbn in Hj; lia).
      assert (Hall : forallb (fun f => forallb (fun i => forallb (fun j =>
         negb (is_zero (ex_dbl (file_pos f * 100 + i * 10 + j)))) (seq 0 3)) (seq 0 3)) fields = true)
        by (vm_compute; reflexivity).
      rewrite forallb_forall in Hall. specialize (Hall f (in_fields f)).
      rewrite forallb_forall in Hall. specialize (Hall i). rewrite in_seq in Hall.
      specialize (Hall ltac:(lia)). rewrite forallb_forall in Hall. specialize (Hall j).
      rewrite in_seq in Hall. specialize (Hall ltac:(lia)). rewrite Hz in Hall. discriminate Hall. }
    split; [apply straddlesb_ok; exact Hsb|].
    destruct f; try contradiction; unfold ex_tile_grid; cbn [mat_at]; rewrite Hsb; reflexivity.
  - intros f i j _ Hs. pose proof (straddlesb_true p q f i j Hs) as Hb.
    destruct f; try (elim Hs; fail); unfold ex_tile_grid; cbn [mat_at]; rewrite Hb; reflexivity.
Qed.
