(** Properties C34-C37: stitch. *)
From Coq Require Import ZArith String List Bool PeanoNat Lia Init.Byte.
From Flocq Require Import IEEE754.BinarySingleNaN IEEE754.Binary IEEE754.Bits.
Import ListNotations.
From Verif Require Import Prelude PreludeFacts Mat MatFacts Num Fields GridIO Float64 Float64Facts SpecGrid SpecHalf
  GridIOProofs MatchEdges SpecTiles MatchEdgesFacts AddFringe FringeFacts Stitch SpecStitch StitchFacts Samples
  PropGridIO PropMkGrid PropMatchEdges PropFringe.
Local Open Scope nat_scope.
Local Open Scope list_scope.
Local Arguments Nat.mul : simpl never.

Definition stitch64 (L : libm) (G : geod binary64) := stitch (b64ops L) b64codec G.

Lemma addfringe64_side L G fs t ea eb g : addfringe64 L G fs t = Ok (ea, eb, g) ->
  exists s, ea = side_code s /\ eb = side_code (opposite s).
Proof.
  intros E. destruct (addfringe64_tiles L G fs t _ E) as (a & b & _ & _ & Ef & Hs & _).
  destruct (fringe_char _ (b64_laws L) G a b _ _ _ _ _ Hs Ef) as (m & s & _ & _ & _ & _ & _ & _ & _ & E1 & E2 & _).
  eauto.
Qed.

Lemma stitch64_parts L G fs t r : stitch64 L G fs t = Ok r ->
  exists s a' b, addfringe64 L G fs t = Ok (side_code s, side_code (opposite s), a') /\ tile_b L fs t b /\
    shaped a' (tt_nia t) (tt_nja t) /\ shaped b (tt_nib t) (tt_njb t) /\ join (edges_of s) a' b = Ok r.
Proof.
  intros E. unfold stitch64, stitch in E. mok E. destruct a as [[ea eb] a']. mok E. rename a into b.
  destruct (addfringe64_side L G fs t ea eb a' Ha) as (s & -> & ->).
  exists s, a', b. split; [exact Ha|]. apply read_tile_holds in Ha0. split; [exact Ha0|].
  destruct (addfringe64_tiles L G fs t _ Ha) as (a & b1 & _ & Tb & Ef & Hs & Hsb).
  split; [exact (fringe_shaped _ (b64_laws L) G a b1 _ _ _ _ _ Hs Ef)|].
  assert (b1 = b) as -> by (eapply holds_tile_fun; eauto). auto.
Qed.

(** ** C34 *)
(** side [s] of A is the edge addfringe found; [a'] is the tile addfringe returned *)
Theorem C34_stitch_places_every_entry : forall (L : libm) (G : geod binary64) fs t c ni nj,
  stitch64 L G fs t = Ok (c, ni, nj) ->
  exists s a' b,
    addfringe64 L G fs t = Ok (side_code s, side_code (opposite s), a') /\ tile_b L fs t b /\
    along_a s (tt_nia t) (tt_nja t) = along_b s (tt_nib t) (tt_njb t) /\
    ni = total_ni s (tt_nia t) (tt_nib t) /\ nj = total_nj s (tt_nja t) (tt_njb t) /\
    shaped c ni nj /\ combines s (tt_nia t) (tt_nja t) (tt_nib t) (tt_njb t) a' b c.
Proof.
  intros L G fs t c ni nj E. destruct (stitch64_parts L G fs t _ E) as (s & a' & b & Ea & Tb & Hs & Hsb & Ej).
  exists s, a', b. destruct (join_inv _ _ _ _ s a' b c ni nj Hs Hsb Ej) as (K1 & K2 & K3 & K4 & K5).
  repeat (split; [assumption|]). exact K5.
Qed.

(** ** C35 *)
Theorem C35_stitch_rejects_different_widths : forall (L : libm) (G : geod binary64) fs t,
  (forall s eb a', addfringe64 L G fs t = Ok (side_code s, eb, a') ->
     along_a s (tt_nia t) (tt_nja t) <> along_b s (tt_nib t) (tt_njb t)) ->
  exists e, stitch64 L G fs t = Err e.
Proof.
  intros L G fs t H. destruct (stitch64 L G fs t) as [[[c ni] nj]|e] eqn:E; [|eauto].
  destruct (C34_stitch_places_every_entry L G fs t c ni nj E) as (s & a' & b & Ea & _ & Hal & _).
  exfalso. exact (H _ _ _ Ea Hal).
Qed.
(** and only those: every other pair addfringe accepts is combined *)
Theorem C35_stitch_accepts_equal_widths : forall (L : libm) (G : geod binary64) fs t s eb a',
  addfringe64 L G fs t = Ok (side_code s, eb, a') ->
  along_a s (tt_nia t) (tt_nja t) = along_b s (tt_nib t) (tt_njb t) ->
  exists c, stitch64 L G fs t = Ok (c, total_ni s (tt_nia t) (tt_nib t), total_nj s (tt_nja t) (tt_njb t)).
Proof.
  intros L G fs t s eb a' E Hal.
  destruct (addfringe64_side L G fs t _ _ _ E) as (s' & Es & ->). apply side_code_inj in Es. subst s'.
  destruct (addfringe64_tiles L G fs t _ E) as (a & b & _ & Tb & Ef & Hs & Hsb).
  pose proof (fringe_shaped _ (b64_laws L) G a b _ _ _ _ _ Hs Ef) as Hs'.
  destruct (join_ok _ _ _ _ s a' b Hs' Hsb Hal) as ([[c ni] nj] & Ej).
  destruct (join_inv _ _ _ _ s a' b c ni nj Hs' Hsb Ej) as (_ & -> & -> & _).
  exists c. unfold stitch64, stitch. unfold addfringe64 in E. rewrite E. cbn [rbind].
  apply read_tile_holds in Tb. rewrite Tb. cbn [rbind]. exact Ej.
Qed.

(** ** C36 *)
(** no zeros except +0.0 on the positions that straddle the tile's boundary *)
Definition filled (a : grid binary64) (p q : nat) : Prop :=
  forall f i j, inside f p q i j -> f <> XG -> f <> YG -> is_zero (mat_at (a f) i j) = true ->
    straddles p q f i j /\ mat_at (a f) i j = b64_zero.

Lemma filled_kept L G fs t ea eb g a : addfringe64 L G fs t = Ok (ea, eb, g) -> tile_a L fs t a ->
  filled a (tt_nia t) (tt_nja t) ->
  forall f i j, inside f (tt_nia t) (tt_nja t) i j -> mat_at (g f) i j = mat_at (a f) i j.
Proof.
  intros E Ta Hf f i j Hin.
  destruct (C30_addfringe_keeps_tile_a L G fs t ea eb g a E Ta) as (_ & K1 & K2).
  destruct (is_zero (mat_at (a f) i j)) eqn:Z; [|apply K1; auto].
  destruct (field_eq_dec f XG) as [->|N1].
  { destruct Hin. cbn in *. apply K2; lia. }
  destruct (field_eq_dec f YG) as [->|N2].
  { destruct Hin. cbn in *. apply K2; lia. }
  destruct (Hf f i j Hin N1 N2 Z) as (Hst & ->).
  eapply C31_fringe_never_computed; eauto.
Qed.

(** the same two files, the other way round *)
Definition swapped (t : two_tiles) : two_tiles :=
  mk_two_tiles (tt_b t) (tt_nib t) (tt_njb t) (tt_a t) (tt_nia t) (tt_nja t) (tt_strict t).

Lemma opposite_involutive s : opposite (opposite s) = s.
Proof. destruct s; reflexivity. Qed.
Lemma zonal_opposite s : zonal (opposite s) = zonal s.
Proof. destruct s; reflexivity. Qed.
Lemma origin_swap s p q : origin_a (opposite s) p q = origin_b s p q.
Proof. destruct s; reflexivity. Qed.
Lemma origin_swap' s p q : origin_b (opposite s) p q = origin_a s p q.
Proof. destruct s; reflexivity. Qed.

Theorem C36_stitch_symmetric : forall (L : libm) (G : geod binary64) fs t s c ni nj c' ni' nj' a b a1 b1,
  stitch64 L G fs t = Ok (c, ni, nj) -> stitch64 L G fs (swapped t) = Ok (c', ni', nj') ->
  addfringe64 L G fs t = Ok (side_code s, side_code (opposite s), a1) ->
  addfringe64 L G fs (swapped t) = Ok (side_code (opposite s), side_code s, b1) ->
  tile_a L fs t a -> tile_b L fs t b -> filled a (tt_nia t) (tt_nja t) -> filled b (tt_nib t) (tt_njb t) ->
  ni' = ni /\ nj' = nj /\
  forall f i j, inside f ni nj i j ->
    ~ on_seam s (tt_nia t) (tt_nja t) (tt_nib t) (tt_njb t) f i j ->
    mat_at (c' f) i j = mat_at (c f) i j.
Proof.
  intros L G fs t s c ni nj c' ni' nj' a b a1 b1 E E' Ea Eb Ta Tb Fa Fb.
  destruct (C34_stitch_places_every_entry L G fs t c ni nj E)
    as (s0 & a1' & b0 & Ea' & Tb0 & Hal & Hni & Hnj & Hsc & (P1 & P2 & P3)).
  rewrite Ea in Ea'. assert (s0 = s) as -> by (apply side_code_inj; congruence).
  assert (a1' = a1) as -> by congruence. clear Ea'.
  assert (b0 = b) as -> by (eapply holds_tile_fun; eauto). clear Tb0.
  destruct (C34_stitch_places_every_entry L G fs (swapped t) c' ni' nj' E')
    as (s0 & b1' & a0 & Eb' & Ta0 & Hal' & Hni' & Hnj' & Hsc' & (Q1 & Q2 & Q3)).
  rewrite Eb in Eb'. assert (s0 = opposite s) as -> by (apply side_code_inj; congruence).
  assert (b1' = b1) as -> by congruence. clear Eb'.
  assert (a0 = a) as -> by (eapply holds_tile_fun; [exact Ta0|exact Ta]). clear Ta0.
  pose proof (filled_kept L G fs t _ _ _ a Ea Ta Fa) as Ka.
  pose proof (filled_kept L G fs (swapped t) _ _ _ b Eb Tb Fb) as Kb.
  cbn [swapped tt_nia tt_nja tt_nib tt_njb] in *.
  set (p := tt_nia t) in *. set (q := tt_nja t) in *. set (p' := tt_nib t) in *. set (q' := tt_njb t) in *.
  assert (Hn : ni' = ni /\ nj' = nj).
  { subst ni ni' nj nj'. unfold along_a, along_b, total_ni, total_nj in *. rewrite zonal_opposite in *.
    destruct (zonal s); lia. }
  destruct Hn as (Hn1 & Hn2). split; [exact Hn1|]. split; [exact Hn2|].
  intros f i j Hin Hoff. rewrite Hni, Hnj in Hin.
  destruct (P3 f i j Hin) as [(k & l & Hkl & Hloc)|(k & l & Hkl & Hloc)].
  - assert (Hnb : ~ in_b s p q p' q' f i j).
    { intros Hb. apply Hoff. split; [exists k, l; auto|exact Hb]. }
    rewrite (P1 f k l i j Hkl Hloc), Ka by assumption.
    apply Q2; [assumption|rewrite origin_swap'; assumption|].
    intros (k' & l' & Hk' & Hl'). apply Hnb. exists k', l'. rewrite origin_swap in Hl'. auto.
  - assert (Hna : ~ in_a s p q p' q' f i j).
    { intros Ha. apply Hoff. split; [exact Ha|exists k, l; auto]. }
    rewrite (P2 f k l i j Hkl Hloc Hna).
    rewrite (Q1 f k l i j Hkl) by (rewrite origin_swap; exact Hloc). apply Kb. exact Hkl.
Qed.

(** For adjacent tiles of equal counts along the edge (see C27) both runs succeed. *)
Lemma adjacent_fringe L G fs t s a b :
  (forall e n, on_side s e n -> g_inv G (corner_of (tile_points a) e n) (corner_of (tile_points a) e n) = b64_zero) ->
  tile_a L fs t a -> tile_b L fs t b -> shaped a (tt_nia t) (tt_nja t) -> shaped b (tt_nib t) (tt_njb t) ->
  1 <= tt_nia t -> 1 <= tt_nja t -> 1 <= tt_nib t -> 1 <= tt_njb t ->
  along_a s (tt_nia t) (tt_nja t) = along_b s (tt_nib t) (tt_njb t) ->
  b64_leb b64_zero (limit64 L G (tile_points a) (tile_points b)) = true ->
  b64_leb b64_inf (limit64 L G (tile_points a) (tile_points b)) = false ->
  adjacent L G (tile_points a) (tile_points b) s ->
  exists a', addfringe64 L G fs t = Ok (side_code s, side_code (opposite s), a').
Proof.
  intros Hd Ta Tb Hsa Hsb Hp Hq Hp' Hq' Hal H0 Hi Hadj.
  assert (Ra : mrows (tile_points a) = tt_nia t + 1) by apply (Hsa XG).
  assert (Ca : mcols (tile_points a) = tt_nja t + 1) by apply (Hsa XG).
  assert (Rb : mrows (tile_points b) = tt_nib t + 1) by apply (Hsb XG).
  assert (Cb : mcols (tile_points b) = tt_njb t + 1) by apply (Hsb XG).
  assert (Hne : nonempty (tile_points a) (tile_points b)) by (unfold nonempty; lia).
  assert (Hbig : big_enough (tile_points a) (tile_points b) s).
  { unfold big_enough, along_a, along_b in *. destruct (zonal s); lia. }
  destruct (C27_adjacent_tiles_accepted L G _ _ s Hd H0 Hi Hne Hbig Hadj) as (m & Em & Es & _).
  destruct (matchedges_inv _ (b64_laws L) G _ _ m Em) as (s' & _ & _ & K1 & K2).
  destruct (matched_facts L G _ _ m Em) as (s2 & _ & Hbig2 & (Es2 & _) & _ & K1' & _).
  assert (s2 = s') as -> by congruence.
  assert (s' = s) as -> by (apply side_code_inj; congruence). clear Es2 K1' Hbig2.
  destruct (matchedges_ok _ (b64_laws L) G _ _ s Hne Hbig K1 K2) as (m' & E' & E1 & E2 & E3 & E4 & E5 & Hm).
  unfold matchedges64 in Em. assert (m' = m) as -> by congruence.
  destruct (fringe_ok _ (b64_laws L) G a b m s (tt_nia t) (tt_nja t) Hsa Hp Hq Em E5) as (H & new & g & Ef & _).
  { destruct Hm as (H & _ & ->). rewrite map_length, seq_length. unfold ring_len, side_len.
    rewrite Ra, Ca. destruct (zonal s); lia. }
  exists g. unfold addfringe64, addfringe. apply read_tile_holds in Ta, Tb. rewrite Ta. cbn [rbind].
  rewrite Tb. cbn [rbind]. rewrite Ef, E1, E3. reflexivity.
Qed.

Theorem C36_adjacent_tiles_stitch_both_ways : forall (L : libm) (G : geod binary64) fs t s a b,
  (forall e n, g_inv G (corner_of (tile_points a) e n) (corner_of (tile_points a) e n) = b64_zero) ->
  (forall e n, g_inv G (corner_of (tile_points b) e n) (corner_of (tile_points b) e n) = b64_zero) ->
  tile_a L fs t a -> tile_b L fs t b ->
  1 <= tt_nia t -> 1 <= tt_nja t -> 1 <= tt_nib t -> 1 <= tt_njb t ->
  along_a s (tt_nia t) (tt_nja t) = along_b s (tt_nib t) (tt_njb t) ->
  b64_leb b64_zero (limit64 L G (tile_points a) (tile_points b)) = true ->
  b64_leb b64_inf (limit64 L G (tile_points a) (tile_points b)) = false ->
  b64_leb b64_zero (limit64 L G (tile_points b) (tile_points a)) = true ->
  b64_leb b64_inf (limit64 L G (tile_points b) (tile_points a)) = false ->
  adjacent L G (tile_points a) (tile_points b) s -> adjacent L G (tile_points b) (tile_points a) (opposite s) ->
  filled a (tt_nia t) (tt_nja t) -> filled b (tt_nib t) (tt_njb t) ->
  exists c c',
    let ni := total_ni s (tt_nia t) (tt_nib t) in let nj := total_nj s (tt_nja t) (tt_njb t) in
    stitch64 L G fs t = Ok (c, ni, nj) /\ stitch64 L G fs (swapped t) = Ok (c', ni, nj) /\
    forall f i j, inside f ni nj i j ->
      ~ on_seam s (tt_nia t) (tt_nja t) (tt_nib t) (tt_njb t) f i j ->
      mat_at (c' f) i j = mat_at (c f) i j.
Proof.
  intros L G fs t s a b Hd Hd' Ta Tb Hp Hq Hp' Hq' Hal A0 A1 B0 B1 Hadj Hadj' Fa Fb.
  assert (Hsa : shaped a (tt_nia t) (tt_nja t))
    by (destruct Ta as (bs & _ & R); exact (proj1 (read_spec _ _ _ _ _ _ _ R))).
  assert (Hsb : shaped b (tt_nib t) (tt_njb t))
    by (destruct Tb as (bs & _ & R); exact (proj1 (read_spec _ _ _ _ _ _ _ R))).
  destruct (adjacent_fringe L G fs t s a b) as (a1 & Ea); auto.
  assert (Hal' : along_a (opposite s) (tt_nib t) (tt_njb t) = along_b (opposite s) (tt_nia t) (tt_nja t)).
  { unfold along_a, along_b in *. rewrite zonal_opposite. auto. }
  destruct (adjacent_fringe L G fs (swapped t) (opposite s) b a) as (b1 & Eb); auto.
  rewrite opposite_involutive in Eb.
  destruct (C35_stitch_accepts_equal_widths L G fs t s _ a1 Ea Hal) as (c & E).
  destruct (C35_stitch_accepts_equal_widths L G fs (swapped t) (opposite s) _ b1 Eb Hal') as (c' & E').
  destruct (C36_stitch_symmetric L G fs t s _ _ _ _ _ _ a b a1 b1 E E' Ea Eb Ta Tb Fa Fb) as (H1 & H2 & H3).
  exists c, c'. split; [exact E|]. split; [|exact H3]. rewrite <- H1, <- H2. exact E'.
Qed.

(** ** C37 *)
(** If A's entries on the common line are zero, the combined tile's are +0.0. *)
Theorem C37_seam_not_computed : forall (L : libm) (G : geod binary64) fs t c ni nj a s eb a',
  stitch64 L G fs t = Ok (c, ni, nj) -> tile_a L fs t a ->
  addfringe64 L G fs t = Ok (side_code s, eb, a') ->
  (forall f i j, inside f (tt_nia t) (tt_nja t) i j -> straddles (tt_nia t) (tt_nja t) f i j ->
     is_zero (mat_at (a f) i j) = true) ->
  forall f i j, straddles_seam s f = true -> inside f ni nj i j ->
    on_seam_line s (tt_nia t) (tt_nja t) (tt_nib t) (tt_njb t) i j ->
    mat_at (c f) i j = b64_zero.
Proof.
  intros L G fs t c ni nj a s eb a' E Ta Ea Hz f i j Hf Hin Hon.
  destruct (C34_stitch_places_every_entry L G fs t c ni nj E)
    as (s0 & a1' & b0 & Ea' & Tb0 & Hal & Hni & Hnj & Hsc & (P1 & P2 & P3)).
  rewrite Ea in Ea'. assert (s0 = s) as -> by (apply side_code_inj; congruence).
  assert (a1' = a') as -> by congruence. clear Ea'. subst ni nj.
  set (p := tt_nia t) in *. set (q := tt_nja t) in *. set (p' := tt_nib t) in *. set (q' := tt_njb t) in *.
  assert (exists k l, inside f p q k l /\ located (origin_a s p' q') (k, l) (i, j) /\ straddles p q f k l)
    as (k & l & Hkl & Hloc & Hst).
  { unfold inside, on_seam_line, located, along_a, along_b, total_ni, total_nj in *.
    rewrite drops_row_rows, drops_col_cols in *.
    destruct s; cbn [zonal origin_a fst snd seam_line] in *.
    - exists i, j. destruct f; try discriminate Hf; cbn in *; lia.
    - exists i, (j - q'). destruct f; try discriminate Hf; cbn in *; lia.
    - exists i, j. destruct f; try discriminate Hf; cbn in *; lia.
    - exists (i - p'), j. destruct f; try discriminate Hf; cbn in *; lia. }
  rewrite (P1 f k l i j Hkl Hloc). eapply C31_fringe_never_computed; eauto.
Qed.

(** ** concrete runs on the tiles of PropFringe: "b" (1 x 2 cells) lies east of "a" (2 x 2) *)
Definition stitched (L : libm) (G : geod binary64) (fs : files) (t : two_tiles)
  (P : grid binary64 -> nat -> nat -> Prop) : Prop :=
  match stitch64 L G fs t with Ok (c, ni, nj) => P c ni nj | Err _ => False end.
Definition at_bits (g : grid binary64) (f : field) (i j : nat) : Z := bits_of_b64 (mat_at (g f) i j).

Example C34_case : stitched ex_libm ex_geod ex_fs ex_ab (fun c ni nj =>
  (ni, nj) = (3, 2) /\ mrows (c DXC) = 4 /\
  at_bits c DXC 1 1 = at_bits (ex_tile_grid 1 1 2 2) DXC 1 1 /\
  at_bits c DXF 2 1 = at_bits (ex_tile_grid 3 1 1 2) DXF 0 1 /\
  at_bits c DYG 3 1 = at_bits (ex_tile_grid 3 1 1 2) DYG 1 1 /\
  at_bits c XG 3 1 = bits_of_b64 (ex_int 4)).
Proof. vm_compute. repeat split; reflexivity. Qed.

(** A to the east of B *)
Example C34_west_case : stitched ex_libm ex_geod ex_fs (swapped ex_ab) (fun c ni nj =>
  (ni, nj) = (3, 2) /\
  at_bits c DXC 1 1 = at_bits (ex_tile_grid 1 1 2 2) DXC 1 1 /\
  at_bits c DXF 2 1 = at_bits (ex_tile_grid 3 1 1 2) DXF 0 1 /\
  at_bits c XG 3 1 = bits_of_b64 (ex_int 4)).
Proof. vm_compute. repeat split; reflexivity. Qed.

(** B's edge is longer than A's but its corners coincide: addfringe accepts, stitch does not *)
Definition ex_fs_bent : files := fun s =>
  if String.eqb s "a"%string then Some (ex_file 1 1 2 2)
  else if String.eqb s "b"%string
  then Some (fst (write64 ex_libm (dict_of_grid (fun f =>
    mkmat (rows_of f 1) (cols_of f 3) (fun i j => match f with
      | XG => ex_int (3 + Z.of_nat i) | YG => ex_int (if j =? 3 then 3 else 1 + Z.of_nat (j / 2)) | _ => b64_zero end))) 1 3))
  else None.
Definition ex_bent_t := mk_two_tiles "a"%string 2 2 "b"%string 1 3 true.
Example C35_case :
  ran ex_libm ex_geod ex_fs_bent ex_bent_t (fun ea eb _ => (ea, eb) = (2, 3)) /\
  along_a East 2 2 <> along_b East 1 3 /\
  ~ stitched ex_libm ex_geod ex_fs_bent ex_bent_t (fun _ _ _ => True).
Proof. vm_compute. repeat split; intros; try discriminate; auto. Qed.

(** the tiles of the example are filled, and the two runs find opposite edges *)
Lemma straddlesb_ok p q f i j : straddlesb p q f i j = true -> straddles p q f i j.
Proof.
  destruct f; cbn; rewrite ?orb_true_iff, ?Nat.eqb_eq; try discriminate; tauto.
Qed.
Example C36_filled : filled (ex_tile_grid 1 1 2 2) 2 2.
Proof.
  intros f i j (Hi & Hj) N1 N2 Hz.
  assert (Hsb : straddlesb 2 2 f i j = true).
  { destruct (straddlesb 2 2 f i j) eqn:Es; [reflexivity|exfalso].
    assert (Hm : mat_at (ex_tile_grid 1 1 2 2 f) i j = ex_dbl (file_pos f * 100 + i * 10 + j)).
    { destruct f; try contradiction; unfold ex_tile_grid; cbn [mat_at]; rewrite Es; reflexivity. }
    rewrite Hm in Hz. clear Hm Es N1 N2.
    assert (Hi3 : i < 3) by (destruct f; cbn in Hi; lia).
    assert (Hj3 : j < 3) by (destruct f; cbn in Hj; lia).
    assert (Hall : forallb (fun f => forallb (fun i => forallb (fun j =>
       negb (is_zero (ex_dbl (file_pos f * 100 + i * 10 + j)))) (seq 0 3)) (seq 0 3)) fields = true)
      by (vm_compute; reflexivity).
    rewrite forallb_forall in Hall. specialize (Hall f (in_fields f)).
    rewrite forallb_forall in Hall. specialize (Hall i). rewrite in_seq in Hall.
    specialize (Hall ltac:(lia)). rewrite forallb_forall in Hall. specialize (Hall j).
    rewrite in_seq in Hall. specialize (Hall ltac:(lia)). rewrite Hz in Hall. discriminate. }
  split; [apply straddlesb_ok; exact Hsb|].
  destruct f; try contradiction; unfold ex_tile_grid; cbn [mat_at]; rewrite Hsb; reflexivity.
Qed.
Example C36_case :
  ran ex_libm ex_geod ex_fs ex_ab (fun ea eb _ => (ea, eb) = (2, 3)) /\
  ran ex_libm ex_geod ex_fs (swapped ex_ab) (fun ea eb _ => (ea, eb) = (3, 2)) /\
  let a := ex_tile 1 1 3 3 in let b := ex_tile 3 1 2 3 in
  adjacent ex_libm ex_geod a b East /\ adjacent ex_libm ex_geod b a West.
Proof.
  split; [vm_compute; reflexivity|]. split; [vm_compute; reflexivity|].
  intros a b. split; split.
  - intros e n He. simpl in He. subst e. destruct n; reflexivity.
  - intros e n e' n' K.
    apply (near_dec _ _ a b (fun e n e' n' => e && negb e')) in K.
    + apply andb_true_iff in K. destruct K as [K1 K2]. apply negb_true_iff in K2. split; assumption.
    + clear. intros [] [] [] []; simpl; intros K; try discriminate K; vm_compute; reflexivity.
  - intros e n He. simpl in He. subst e. destruct n; reflexivity.
  - intros e n e' n' K.
    apply (near_dec _ _ b a (fun e n e' n' => negb e && e')) in K.
    + apply andb_true_iff in K. destruct K as [K1 K2]. apply negb_true_iff in K1. split; assumption.
    + clear. intros [] [] [] []; simpl; intros K; try discriminate K; vm_compute; reflexivity.
Qed.

Example C37_case : stitched ex_libm ex_geod ex_fs ex_ab (fun c ni nj =>
  at_bits c RAZ 2 1 = bits_of_b64 b64_zero /\ at_bits c DXC 2 1 = bits_of_b64 b64_zero) /\
  straddles_seam East RAZ = true /\ on_seam_line East 2 2 1 2 2 1.
Proof. split; [vm_compute; auto|]. split; reflexivity. Qed.
