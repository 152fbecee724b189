(** Facts about the model of cell counts of any sign. *)
From Coq Require Import Ascii String List Bool PeanoNat ZArith Lia Init.Byte.
Import ListNotations.
From Verif Require Import Prelude PreludeFacts Num Mat Fields GridIO Util Refine Regrid MatchEdges AddFringe Stitch Cli MdsMeta Mds GetObcs Counts.
Local Open Scope nat_scope.
Local Open Scope list_scope.

(** No entries. *)
Definition hollow {A} (m : mat A) : Prop := mrows m = 0 \/ mcols m = 0.

Lemma py_bound_nonneg n k : (0 <= k)%Z -> py_bound n k = Nat.min n (Z.to_nat k).
Proof. intros H. unfold py_bound. destruct (Z.ltb_spec k 0); [lia|reflexivity]. Qed.

Lemma py_bound_le n k : py_bound n k <= n.
Proof. unfold py_bound. destruct (Z.ltb_spec k 0); lia. Qed.

Lemma py_bound_mono n a b : (a <= b < 0)%Z -> py_bound n a <= py_bound n b.
Proof. intros H. unfold py_bound. destruct (Z.ltb_spec a 0), (Z.ltb_spec b 0); lia. Qed.

Lemma py_slice_nat {A} (l : list A) a b : py_slice l (Z.of_nat a) (Z.of_nat b) = firstn (b - a) (skipn a l).
Proof.
  unfold py_slice. rewrite !py_bound_nonneg, !Nat2Z.id by lia.
  destruct (Nat.le_gt_cases a (length l)) as [H|H].
  - rewrite (Nat.min_r (length l) a) by lia. destruct (Nat.le_gt_cases b (length l)) as [K|K].
    + now rewrite Nat.min_r by lia.
    + rewrite Nat.min_l by lia. rewrite !firstn_all2; [reflexivity|rewrite skipn_length; lia|rewrite skipn_length; lia].
  - rewrite (skipn_all2 (n := a)) by lia. rewrite (Nat.min_l (length l) a) by lia.
    rewrite (skipn_all2 (n := length l)) by lia. now rewrite !firstn_nil.
Qed.

Lemma py_slice_backwards {A} (l : list A) a b : (b <= a <= 0)%Z -> (a < 0 \/ b = 0)%Z -> py_slice l a b = [].
Proof.
  intros H K. unfold py_slice. assert (E : py_bound (length l) b <= py_bound (length l) a).
  { destruct K as [K| ->]; [apply py_bound_mono; lia|]. replace a with 0%Z by lia. lia. }
  replace (_ - _) with 0 by lia. reflexivity.
Qed.

Section Facts.
Context {F : Type} (N : numops F) (C : codec F) (G : geod F).

Lemma extents_nat n r c : extents n (Z.of_nat r) (Z.of_nat c) = Ok (r, c).
Proof.
  unfold extents. destruct (Z.ltb_spec (Z.of_nat r) 0), (Z.ltb_spec (Z.of_nat c) 0); try lia. now rewrite !Nat2Z.id.
Qed.

Lemma reshapeZ_nat v r c : reshapeZ N v (Z.of_nat r) (Z.of_nat c) = reshapeF N v r c.
Proof. unfold reshapeZ. rewrite extents_nat. reflexivity. Qed.

Lemma reshapeF_ok v r c m : reshapeF N v r c = Ok m ->
  length v = r * c /\ mrows m = r /\ mcols m = c.
Proof.
  unfold reshapeF. destruct (Nat.eqb_spec (length v) (r * c)); [|discriminate]. intros E. injection E as <-. auto.
Qed.

Lemma reshapeZ_ok v r c m : reshapeZ N v r c = Ok m -> length v = mrows m * mcols m.
Proof.
  unfold reshapeZ. intros H. mok H. destruct a as (r', c'). apply reshapeF_ok in H as (E & -> & ->). exact E.
Qed.

(** One count may be left to numpy. *)
Lemma reshapeZ_rows v r k c : (r < 0)%Z -> 0 < c -> length v = k * c ->
  reshapeZ N v r (Z.of_nat c) = reshapeF N v k c.
Proof.
  intros Hr Hc E. unfold reshapeZ, extents. destruct (Z.ltb_spec r 0), (Z.ltb_spec (Z.of_nat c) 0); try lia.
  rewrite Nat2Z.id, E, Nat.mod_mul, Nat.div_mul by lia. destruct (Nat.eqb_spec c 0); [lia|]. reflexivity.
Qed.

Lemma reshapeZ_cols v c k r : (c < 0)%Z -> 0 < r -> length v = r * k ->
  reshapeZ N v (Z.of_nat r) c = reshapeF N v r k.
Proof.
  intros Hr Hc E. unfold reshapeZ, extents. destruct (Z.ltb_spec c 0), (Z.ltb_spec (Z.of_nat r) 0); try lia.
  rewrite Nat.mul_comm in E. rewrite Nat2Z.id, E, Nat.mod_mul, Nat.div_mul by lia.
  destruct (Nat.eqb_spec r 0); [lia|]. reflexivity.
Qed.

Lemma norm_index_nat n k : k < n -> norm_index n (Z.of_nat k) = Ok k.
Proof.
  intros H. unfold norm_index. destruct (Z.ltb_spec (Z.of_nat k) 0); [lia|].
  destruct (Z.ltb_spec (Z.of_nat k) (Z.of_nat n)); [|lia]. now rewrite Nat2Z.id.
Qed.

(** ** Counts that are not negative *)

Lemma read_fieldZ_nat raw ni nj strict g f :
  read_fieldZ N raw (Z.of_nat ni) (Z.of_nat nj) strict g f = read_field N raw ni nj strict g f.
Proof.
  unfold read_fieldZ, read_field. set (k := index_of f fields).
  replace (Z.of_nat ni + 1)%Z with (Z.of_nat (ni + 1)) by lia.
  replace (Z.of_nat nj + 1)%Z with (Z.of_nat (nj + 1)) by lia.
  set (s := (ni + 1) * (nj + 1)).
  replace (Z.of_nat (ni + 1) * Z.of_nat (nj + 1) * Z.of_nat k)%Z with (Z.of_nat (s * k)) by lia.
  replace (Z.of_nat (ni + 1) * Z.of_nat (nj + 1) * (Z.of_nat k + 1))%Z with (Z.of_nat (s * (k + 1))) by lia.
  rewrite py_slice_nat, reshapeZ_nat. replace (s * (k + 1) - s * k) with s by lia.
  destruct (reshapeF N _ _ _) as [m|] eqn:E; [|reflexivity]. cbn [rbind].
  apply reshapeF_ok in E as (_ & Er & Ec).
  assert (P : padding_nonzeroZ N f (Z.of_nat ni) (Z.of_nat nj) m = Ok (padding_nonzero N f ni nj m)).
  { unfold padding_nonzeroZ, padding_nonzero. rewrite !norm_index_nat by lia. cbn [rbind].
    destruct (0 <? ni_delta f), (0 <? nj_delta f); cbn [negb andb orb rbind];
      repeat match goal with |- context [existsb ?p ?l] => destruct (existsb p l) end; reflexivity. }
  assert (T : py_trim (Z.of_nat ni + Z.of_nat (ni_delta f)) (Z.of_nat nj + Z.of_nat (nj_delta f)) m
              = mtrim (ni + ni_delta f) (nj + nj_delta f) m).
  { unfold py_trim, mtrim. rewrite !py_bound_nonneg by lia. f_equal; lia. }
  rewrite T. destruct strict; [rewrite P|]; reflexivity.
Qed.

Lemma read_mitgridZ_nat bs ni nj strict :
  read_mitgridZ N C bs (Z.of_nat ni) (Z.of_nat nj) strict = read_mitgrid N C bs ni nj strict.
Proof. unfold read_mitgridZ, read_mitgrid. apply foldM_ext. intros g f _. apply read_fieldZ_nat. Qed.

Lemma paddedZ_nat e ni nj f : paddedZ N e (Z.of_nat ni) (Z.of_nat nj) f = padded N e ni nj f.
Proof.
  unfold paddedZ. destruct (Z.ltb_spec (Z.of_nat ni + 1) 0); [lia|]. destruct (Z.ltb_spec (Z.of_nat nj + 1) 0); [lia|].
  cbn [orb]. rewrite !py_bound_nonneg by lia.
  replace (Z.to_nat (Z.of_nat ni + 1)) with (ni + 1) by lia. replace (Z.to_nat (Z.of_nat nj + 1)) with (nj + 1) by lia.
  replace (Nat.min (ni + 1) _) with (ni + ni_delta f) by (destruct f; cbn [ni_delta]; lia).
  replace (Nat.min (nj + 1) _) with (nj + nj_delta f) by (destruct f; cbn [nj_delta]; lia).
  reflexivity.
Qed.

Lemma write_mitgridZ_nat d ni nj : write_mitgridZ N C d (Z.of_nat ni) (Z.of_nat nj) = write_mitgrid N C d ni nj.
Proof.
  unfold write_mitgridZ, write_mitgrid. generalize fields. intros l.
  induction l as [|f l IH]; [reflexivity|]. cbn [write_fieldsZ write_fields]. now rewrite paddedZ_nat, IH.
Qed.

Lemma nonzero_nat n : nonzero (Z.of_nat n) = match num_arg (Some n) with Some _ => true | None => false end.
Proof. destruct n; reflexivity. Qed.

Section Commands.
Variable loadtxt : list byte -> res (option (mat F)).
Variables lay o3 : nat -> nat -> list (nat * nat).
Variable fuel : nat.
Notation read_pair := (read_pair N C loadtxt).
Notation read_pairZ := (read_pairZ N C loadtxt).

Lemma read_pairZ_nat fs xg yg ni nj : read_pairZ fs xg yg (Z.of_nat ni) (Z.of_nat nj) = read_pair fs xg yg ni nj.
Proof.
  unfold Counts.read_pairZ, Regrid.read_pair. destruct (String.eqb _ _ && String.eqb _ _); [reflexivity|].
  destruct (read_bytes fs xg) as [bx|]; [|reflexivity]. cbn [rbind].
  replace (Z.of_nat ni + 1)%Z with (Z.of_nat (ni + 1)) by lia.
  replace (Z.of_nat nj + 1)%Z with (Z.of_nat (nj + 1)) by lia. rewrite reshapeZ_nat.
  destruct (reshapeF N _ _ _); [|reflexivity]. cbn [rbind]. destruct (read_bytes fs yg); [|reflexivity]. cbn [rbind].
  now rewrite reshapeZ_nat.
Qed.

Lemma sourceZ_nat fs mg xg yg ni nj lon1 lat1 lon2 lat2 ls lt strict :
  sourceZ N C loadtxt fs mg xg yg (Z.of_nat ni) (Z.of_nat nj) strict =
  source N C loadtxt fs (mk_regrid_args mg xg yg None (Some ni) (Some nj) lon1 lat1 lon2 lat2 ls lt strict).
Proof.
  unfold sourceZ, source. cbn [ra_mitgridfile ra_xg_file ra_yg_file ra_ni ra_nj ra_strict ra_matrices].
  rewrite !nonzero_nat. destruct (str_arg mg) as [p|].
  - destruct ni as [|ni]; [reflexivity|]. destruct nj as [|nj]; [reflexivity|]. cbn [num_arg andb].
    destruct (read_bytes fs p); [|reflexivity]. cbn [rbind]. now rewrite read_mitgridZ_nat.
  - destruct (str_arg xg) as [x|]; [|reflexivity]. destruct (str_arg yg) as [y|]; [|reflexivity].
    destruct ni as [|ni]; [reflexivity|]. destruct nj as [|nj]; [reflexivity|]. cbn [num_arg andb].
    apply read_pairZ_nat.
Qed.

Lemma read_tileZ_nat fs p ni nj strict :
  read_tileZ N C fs p (Z.of_nat ni) (Z.of_nat nj) strict = AddFringe.read_tile N C fs p ni nj strict.
Proof. unfold read_tileZ, AddFringe.read_tile. destruct (fs p); [apply read_mitgridZ_nat|reflexivity]. Qed.

(** Tiles with counts that are not negative. *)
Definition tilesZ (t : two_tiles) : two_tilesZ :=
  mk_two_tilesZ (tt_a t) (Z.of_nat (tt_nia t)) (Z.of_nat (tt_nja t))
    (tt_b t) (Z.of_nat (tt_nib t)) (Z.of_nat (tt_njb t)) (tt_strict t).

Lemma addfringeZ_nat fs t : addfringeZ N C G fs (tilesZ t) = addfringe N C G fs t.
Proof.
  unfold addfringeZ, addfringe, tilesZ. cbn [tz_a tz_b tz_nia tz_nja tz_nib tz_njb tz_strict]. now rewrite !read_tileZ_nat.
Qed.

Lemma stitchZ_nat fs t : stitchZ N C G fs (tilesZ t) = stitch N C G fs t.
Proof.
  unfold stitchZ, stitch. rewrite addfringeZ_nat. unfold tilesZ. cbn [tz_b tz_nib tz_njb tz_strict]. now rewrite read_tileZ_nat.
Qed.

(** The same command. *)
Definition same_command (c : command F) : option (commandZ F) :=
  match c with
  | sgmkgrid _ _ _ _ _ _ _ => None
  | sgregrid mg xg yg ni nj lon1 lat1 lon2 lat2 ls lt strict o =>
      Some (zregrid mg xg yg (Z.of_nat ni) (Z.of_nat nj) lon1 lat1 lon2 lat2 ls lt strict o)
  | sgaddfringe t o => Some (zaddfringe (tilesZ t) o)
  | sgstitch t o => Some (zstitch (tilesZ t) o)
  end.

Lemma regrid_from_args a a' d : ra_lon1 a = ra_lon1 a' -> ra_lat1 a = ra_lat1 a' ->
  ra_lon2 a = ra_lon2 a' -> ra_lat2 a = ra_lat2 a' -> ra_lon_subscale a = ra_lon_subscale a' ->
  ra_lat_subscale a = ra_lat_subscale a' ->
  regrid_from N G lay o3 fuel a d = regrid_from N G lay o3 fuel a' d.
Proof.
  intros H1 H2 H3 H4 H5 H6.
  assert (L : forall x y o, locate N G a x y o = locate N G a' x y o)
    by (intros; unfold locate; now rewrite H1, H2, H3, H4).
  assert (R : forall n l, rot_loop N G n a l = rot_loop N G n a' l).
  { induction n as [|n IH]; intros l; cbn [rot_loop]; [reflexivity|].
    destruct (aligned l); [reflexivity|]. rewrite L. destruct (locate _ _ _ _ _ _); [apply IH|reflexivity]. }
  unfold regrid_from. destruct (xg_yg d) as [(x, y)|]; [|reflexivity]. cbn [rbind]. rewrite L.
  destruct (locate _ _ _ _ _ _) as [l0|]; [|reflexivity]. cbn [rbind]. destruct (_ || _); [reflexivity|].
  rewrite R. destruct (rot_loop _ _ _ _ _) as [l|]; [|reflexivity]. cbn [rbind]. now rewrite H5, H6.
Qed.

Lemma runZ_nat w fs c c' : same_command c = Some c' ->
  runZ N C G loadtxt lay o3 fuel w fs c' = run N C G loadtxt lay o3 fuel w fs c.
Proof.
  intros H. unfold runZ, run.
  assert (E : computeZ N C G loadtxt lay o3 fuel fs c' =
              (' (g, ni, nj) <- compute N C G loadtxt lay o3 fuel fs c ;; Ok (g, Z.of_nat ni, Z.of_nat nj))
              /\ outfile_of c = Some (outfileZ c')).
  { destruct c; try discriminate H; injection H as <-; (split; [|reflexivity]); cbn [computeZ compute].
    - rewrite (sourceZ_nat fs mitgridfile xg_file yg_file ni nj lon1 lat1 lon2 lat2 lon_subscale lat_subscale strict).
      unfold regrid. destruct (source N C loadtxt fs _) as [d|]; [|reflexivity]. cbn [rbind].
      rewrite (regrid_from_args _ (mk_regrid_args mitgridfile xg_file yg_file None (Some ni) (Some nj) lon1 lat1 lon2 lat2 lon_subscale lat_subscale strict) d)
        by reflexivity.
      destruct (regrid_from N G lay o3 fuel _ d); reflexivity.
    - rewrite addfringeZ_nat. destruct (addfringe N C G fs t) as [((x, y), g)|]; reflexivity.
    - rewrite stitchZ_nat. destruct (stitch N C G fs t) as [((x, y), g)|]; reflexivity. }
  destruct E as (-> & Eo). destruct (compute N C G loadtxt lay o3 fuel fs c) as [((g, ni), nj)|]; [|reflexivity].
  cbn [rbind]. rewrite Eo. unfold write_file. now rewrite write_mitgridZ_nat.
Qed.

(** ** Negative counts *)

Lemma read_fieldZ_negative raw ni nj strict g f g' : (ni < 0 \/ nj < 0)%Z -> 1 <= index_of f fields ->
  read_fieldZ N raw ni nj strict g f = Ok g' ->
  exists m, g' = upd g f m /\ hollow m.
Proof.
  intros Hn Hk H. unfold read_fieldZ in H. set (k := Z.of_nat (index_of f fields)) in *.
  set (s := ((ni + 1) * (nj + 1))%Z) in *.
  assert (Hk' : (1 <= k)%Z) by lia.
  destruct (reshapeZ N _ _ _) as [m|] eqn:E; [|discriminate]. cbn [rbind] in H. mok H.
  destruct a; [discriminate|]. injection H as <-. eexists. split; [reflexivity|].
  assert (Hm : hollow m).
  { destruct (Z.ltb_spec 0 s) as [P|P].
    - exfalso. unfold reshapeZ, extents in E.
      assert (Q : (ni + 1 < 0 /\ nj + 1 < 0)%Z) by (unfold s in P; apply Z.lt_0_mul in P; lia).
      destruct (Z.ltb_spec (ni + 1) 0), (Z.ltb_spec (nj + 1) 0); try lia. discriminate.
    - rewrite py_slice_backwards in E.
      + apply reshapeZ_ok in E. cbn [length] in E. unfold hollow. clear - E. destruct (mrows m); auto. destruct (mcols m); auto. discriminate E.
      + clearbody k s. nia.
      + clearbody k s. destruct (Z.eq_dec s 0) as [-> |]; [right; reflexivity|left; nia]. }
  unfold hollow, py_trim, mtrim in *. cbn [mrows mcols]. lia.
Qed.

Lemma read_fieldZ_upd raw ni nj strict g f g' : read_fieldZ N raw ni nj strict g f = Ok g' -> exists m, g' = upd g f m.
Proof.
  unfold read_fieldZ. intros H. mok H. mok H. destruct a0; [discriminate|]. injection H as <-. eauto.
Qed.

Lemma index_positive f : f <> XC -> 1 <= index_of f fields.
Proof. destruct f; intros H; try congruence; unfold index_of; cbn; lia. Qed.

Lemma field_beq_refl f : field_beq f f = true.
Proof. now apply internal_field_dec_lb. Qed.

Lemma read_mitgridZ_negative bs ni nj strict g f : (ni < 0 \/ nj < 0)%Z -> f <> XC ->
  read_mitgridZ N C bs ni nj strict = Ok g -> hollow (g f).
Proof.
  intros Hn Hf H. unfold read_mitgridZ in H. revert H.
  assert (K : hollow ((fun _ : field => mconst 0 0 (nzero N)) f)) by (now left). revert K.
  generalize (fun _ : field => mconst 0 0 (nzero N)). generalize fields at 1. intros l.
  induction l as [|f' l IH]; intros g0 K H.
  - injection H as <-. exact K.
  - cbn [foldM] in H. mok H. rename a into g1. apply IH in H; auto.
    destruct (field_eq_dec f f') as [<-|Ne].
    + destruct (read_fieldZ_negative _ _ _ _ _ _ _ Hn (index_positive f Hf) Ha) as (m & -> & Hm).
      unfold upd. now rewrite field_beq_refl.
    + destruct (read_fieldZ_upd _ _ _ _ _ _ _ Ha) as (m & ->). unfold upd.
      destruct (field_beq f f') eqn:B; [|exact K]. now apply internal_field_dec_bl in B.
Qed.

Lemma corner4_hollow (m : mat (F * F)) : hollow m -> corner4 m = Err IndexError.
Proof.
  unfold corner4, corner, zget. cbn [SW fst snd]. intros [-> | ->].
  - reflexivity.
  - destruct (norm_index (mrows m) 0) as [i|e] eqn:E; [reflexivity|]. unfold norm_index in E. cbn in E.
    destruct (0 <? Z.of_nat (mrows m))%Z; [discriminate|]. injection E as <-. reflexivity.
Qed.

Lemma fringe_hollow a b : hollow (a XG) \/ hollow (b XG) -> exists e, fringe N G a b = Err e.
Proof.
  intros H. unfold fringe, matchedges. destruct H as [H|H].
  - rewrite (corner4_hollow (tile_points a)) by exact H. eexists. reflexivity.
  - destruct (corner4 (tile_points a)) as [x|e]; [|eexists; reflexivity]. cbn [rbind].
    rewrite (corner4_hollow (tile_points b)) by exact H. eexists. reflexivity.
Qed.

Definition negative_tiles (t : two_tilesZ) : Prop :=
  (tz_nia t < 0 \/ tz_nja t < 0 \/ tz_nib t < 0 \/ tz_njb t < 0)%Z.

Lemma read_tileZ_negative fs p ni nj strict g f : (ni < 0 \/ nj < 0)%Z -> f <> XC ->
  read_tileZ N C fs p ni nj strict = Ok g -> hollow (g f).
Proof. unfold read_tileZ. destruct (fs p); [apply read_mitgridZ_negative|discriminate]. Qed.

Lemma addfringeZ_negative fs t : negative_tiles t -> exists e, addfringeZ N C G fs t = Err e.
Proof.
  intros H. unfold addfringeZ.
  destruct (read_tileZ N C fs (tz_a t) _ _ _) as [a|e] eqn:Ea; [|eexists; reflexivity]. cbn [rbind].
  destruct (read_tileZ N C fs (tz_b t) _ _ _) as [b|e] eqn:Eb; [|eexists; reflexivity]. cbn [rbind].
  apply fringe_hollow. unfold negative_tiles in H.
  assert (K : (tz_nia t < 0 \/ tz_nja t < 0)%Z \/ (tz_nib t < 0 \/ tz_njb t < 0)%Z) by tauto.
  destruct K as [K|K]; [left|right]; eapply read_tileZ_negative; eauto; discriminate.
Qed.

Lemma regrid_from_hollow a d x : d XG = Arr x -> hollow x ->
  exists e, regrid_from N G lay o3 fuel a d = Err e.
Proof.
  intros Ex H. unfold regrid_from, xg_yg. rewrite Ex.
  destruct (d YG) as [| |y]; try (eexists; reflexivity). cbn [rbind]. unfold locate, nearest_ord.
  destruct (negb (shapes_equal x y)); [eexists; reflexivity|].
  replace ((mrows x =? 0) || (mcols x =? 0)) with true; [eexists; reflexivity|].
  destruct H as [-> | ->]; cbn; [reflexivity|]. now rewrite orb_true_r.
Qed.

(** Negative counts of tiles, or of a mitgrid file. *)
Definition negative_files (c : commandZ F) : Prop :=
  match c with
  | zregrid mg xg yg ni nj _ _ _ _ _ _ _ _ => str_arg mg <> None /\ (ni < 0 \/ nj < 0)%Z
  | zaddfringe t _ | zstitch t _ => negative_tiles t
  end.

Lemma computeZ_negative fs c : negative_files c -> exists e, computeZ N C G loadtxt lay o3 fuel fs c = Err e.
Proof.
  destruct c as [mg xg yg ni nj lon1 lat1 lon2 lat2 ls lt strict o|t o|t o]; cbn [negative_files computeZ].
  - intros (Hm & Hn). unfold sourceZ. destruct (str_arg mg) as [p|]; [|congruence].
    destruct (_ && _); [|eexists; reflexivity].
    destruct (read_bytes fs p) as [bs|]; [|eexists; reflexivity]. cbn [rbind].
    destruct (read_mitgridZ N C bs ni nj strict) as [g|] eqn:E; [|eexists; reflexivity]. cbn [rbind].
    destruct (regrid_from_hollow (mk_regrid_args mg xg yg None None None lon1 lat1 lon2 lat2 ls lt strict)
                (dict_of_grid g) (g XG) eq_refl) as (e & ->); [|eexists; reflexivity].
    eapply read_mitgridZ_negative; eauto; discriminate.
  - intros H. destruct (addfringeZ_negative fs t H) as (e & ->). eexists. reflexivity.
  - intros H. unfold stitchZ. destruct (addfringeZ_negative fs t H) as (e & ->). eexists. reflexivity.
Qed.
End Commands.

(** ** getobcs *)

Section Obcs.
Variable C4 : codec F.
Variable float_of : text -> option F.
Variables lay o3 : nat -> nat -> list (nat * nat).
Variable fuel : nat.
Variable W : Type.
Variable xe_weights : mat F -> mat F -> mat F -> mat F -> res W.
Variable xe_value : W -> mat F -> nat -> nat -> F.
Notation getobcs := (getobcs N C C4 G float_of lay o3 fuel xe_weights xe_value).
Notation getobcsZ := (getobcsZ N C G C4 float_of lay o3 fuel xe_weights xe_value).

(** The arguments with the counts, as far as they are not negative. *)
Definition with_counts (a : @obcs_args F) (n : obcs_counts) : @obcs_args F :=
  mk_obcs_args (oa_parent_file a) (oa_parent_matrices a) (Some (Z.to_nat (oc_nip n))) (Some (Z.to_nat (oc_njp n)))
    (oa_regional_file a) (oa_regional_matrices a) (Some (Z.to_nat (oc_nir n))) (Some (Z.to_nat (oc_njr n)))
    (oa_parent_resultsdir a) (oa_ob a) (oa_resultsdir a) (oa_strict a).

Lemma ob_resolveZ_nat ni nj s a : ob_resolveZ (Z.of_nat ni) (Z.of_nat nj) s a = ob_resolve ni nj s a.
Proof.
  unfold ob_resolveZ, ob_resolve, ob_selectZ, ob_select.
  destruct (ob_truth a) as [[|]|]; [| |reflexivity]; cbn [rbind].
  - destruct (ob_any a) as [n|]; [|reflexivity]. cbn [rbind]. destruct n, s; reflexivity.
  - assert (E : ob_defaultZ (Z.of_nat ni) (Z.of_nat nj) s = Ok (ob_default ni nj s)).
    { destruct s; cbn [ob_defaultZ ob_default]; unfold ones;
        (destruct (Z.ltb_spec (Z.of_nat ni) 0); [lia|]); (destruct (Z.ltb_spec (Z.of_nat nj) 0); [lia|]);
        now rewrite !Nat2Z.id. }
    rewrite E. cbn [rbind]. destruct s; reflexivity.
Qed.

Lemma ob_allZ_nat ni nj a : ob_allZ (Z.of_nat ni) (Z.of_nat nj) a = ob_all ni nj a.
Proof. unfold ob_allZ, ob_all. now rewrite !ob_resolveZ_nat. Qed.

Lemma grid_from_fileZ_nat fs p ni nj strict : (0 <= ni)%Z -> (0 <= nj)%Z ->
  grid_from_fileZ N C fs p ni nj strict =
  (' (d, i, j) <- grid_from_file N C fs p (Some (Z.to_nat ni)) (Some (Z.to_nat nj)) strict ;; Ok (d, Z.of_nat i, Z.of_nat j)).
Proof.
  intros Hi Hj. unfold grid_from_fileZ, grid_from_file.
  destruct (Z_of_nat_complete ni Hi) as (i & ->). destruct (Z_of_nat_complete nj Hj) as (j & ->).
  rewrite !Nat2Z.id, !nonzero_nat.
  destruct i as [|i]; [reflexivity|]. destruct j as [|j]; [reflexivity|]. cbn [num_arg andb].
  destruct (dget fs p) as [bs|]; [|reflexivity]. rewrite read_mitgridZ_nat.
  destruct (read_mitgrid N C bs _ _ strict); reflexivity.
Qed.

(** Counts that are not negative, or not used. *)
Definition usable (file : option text) (ni nj : Z) : Prop := txt_arg file = None \/ (0 <= ni /\ 0 <= nj)%Z.

Lemma classic_usable file ni nj : usable file ni nj \/ ~ usable file ni nj.
Proof.
  unfold usable. destruct (txt_arg file) as [p|]; [|auto].
  destruct (Z.ltb_spec ni 0); [right; intros [K|K]; [discriminate|lia]|].
  destruct (Z.ltb_spec nj 0); [right; intros [K|K]; [discriminate|lia]|]. left. right. lia.
Qed.

Lemma getobcsZ_nat ws fs a n :
  usable (oa_parent_file a) (oc_nip n) (oc_njp n) -> usable (oa_regional_file a) (oc_nir n) (oc_njr n) ->
  getobcsZ ws fs a n = getobcs ws fs (with_counts a n).
Proof.
  intros Hp Hr. unfold Counts.getobcsZ, GetObcs.getobcs. cbn [with_counts oa_parent_resultsdir].
  destruct (txt_arg (oa_parent_resultsdir a)) as [dir|]; [|reflexivity].
  assert (Ep : parent_gridZ N C C4 float_of fs a n dir =
    (' (d, i, j) <- parent_grid N C C4 float_of fs (with_counts a n) dir ;; Ok (d, Z.of_nat i, Z.of_nat j))).
  { unfold parent_gridZ, parent_grid. cbn [with_counts oa_parent_file oa_parent_matrices oa_ni_parent oa_nj_parent oa_strict].
    destruct (txt_arg (oa_parent_file a)) as [p|] eqn:Et; [|reflexivity].
    destruct Hp as [Hp|(H1 & H2)]; [congruence|]. now apply grid_from_fileZ_nat. }
  assert (Er : regional_gridZ N C fs a n =
    (' (d, i, j) <- regional_grid N C fs (with_counts a n) ;; Ok (d, Z.of_nat i, Z.of_nat j))).
  { unfold regional_gridZ, regional_grid. cbn [with_counts oa_regional_file oa_regional_matrices oa_ni_regional oa_nj_regional oa_strict].
    destruct (txt_arg (oa_regional_file a)) as [p|] eqn:Et; [|reflexivity].
    destruct Hr as [Hr|(H1 & H2)]; [congruence|]. now apply grid_from_fileZ_nat. }
  rewrite Ep, Er. cbn [with_counts oa_ob].
  destruct (parent_grid N C C4 float_of fs (with_counts a n) dir) as [((p, pi), pj)|]; [|reflexivity]. cbn [rbind].
  destruct (regional_grid N C fs (with_counts a n)) as [((r, ri), rj)|]; [|reflexivity]. cbn [rbind fst snd].
  rewrite ob_allZ_nat. destruct (ob_all ri rj (oa_ob a)) as [b|]; [|reflexivity]. cbn [rbind].
  rewrite !Nat2Z.id. reflexivity.
Qed.

Lemma corner_nw_hollow (d : griddict F) m : d XG = Arr m -> hollow m -> corner_nw d XG = Err IndexError.
Proof.
  intros E H. unfold corner_nw, matrix. rewrite E. cbn [rbind].
  replace ((mrows m =? 0) || (mcols m =? 0)) with true; [reflexivity|].
  destruct H as [-> | ->]; cbn; [reflexivity|]. now rewrite orb_true_r.
Qed.

Lemma doubled_hollow (d : griddict F) m ni nj : d XG = Arr m -> hollow m ->
  exists e, doubled N C G lay o3 fuel d ni nj = Err e.
Proof. intros E H. unfold doubled. rewrite (corner_nw_hollow d m E H). eexists. reflexivity. Qed.

Lemma getobcs_from_hollow ws fs a dir p pi pj r ri rj bd m : (p XG = Arr m \/ r XG = Arr m) -> hollow m ->
  exists ws' e, getobcs_from N C C4 G float_of lay o3 fuel xe_weights xe_value ws fs a dir p pi pj r ri rj bd = (ws', fs, Err e).
Proof.
  intros H Hm. unfold getobcs_from, make_regridders.
  destruct (tracer_regridder xe_weights ws (results_dir a dir) p r) as (ws1, [rt|e]); [|do 2 eexists; reflexivity].
  destruct H as [H|H].
  - destruct (doubled_hollow p m pi pj H Hm) as (e & ->). do 2 eexists. reflexivity.
  - destruct (doubled N C G lay o3 fuel p pi pj) as [p2|e]; [|do 2 eexists; reflexivity]. cbn [rbind].
    destruct (doubled_hollow r m ri rj H Hm) as (e & ->). do 2 eexists. reflexivity.
Qed.

Lemma grid_from_fileZ_negative fs p ni nj strict d i j : (ni < 0 \/ nj < 0)%Z ->
  grid_from_fileZ N C fs p ni nj strict = Ok (d, i, j) -> exists m, d XG = Arr m /\ hollow m.
Proof.
  intros H E. unfold grid_from_fileZ in E. destruct (_ && _); [|discriminate].
  destruct (dget fs p); [|discriminate]. mok E. injection E as <- <- <-. eexists. split; [reflexivity|].
  eapply read_mitgridZ_negative; eauto; discriminate.
Qed.

(** A negative count of a file that is named. *)
Lemma getobcsZ_negative ws fs a n :
  ~ (usable (oa_parent_file a) (oc_nip n) (oc_njp n) /\ usable (oa_regional_file a) (oc_nir n) (oc_njr n)) ->
  exists ws' e, getobcsZ ws fs a n = (ws', fs, Err e).
Proof.
  intros H. unfold Counts.getobcsZ.
  destruct (txt_arg (oa_parent_resultsdir a)) as [dir|]; [|do 2 eexists; reflexivity].
  destruct (parent_gridZ N C C4 float_of fs a n dir) as [((p, pi), pj)|] eqn:Ep; [|do 2 eexists; reflexivity]. cbn [rbind].
  destruct (regional_gridZ N C fs a n) as [((r, ri), rj)|] eqn:Er; [|do 2 eexists; reflexivity]. cbn [rbind fst snd].
  destruct (ob_allZ ri rj (oa_ob a)) as [b|]; [|do 2 eexists; reflexivity]. cbn [rbind].
  assert (K : exists m, (p XG = Arr m \/ r XG = Arr m) /\ hollow m).
  { unfold parent_gridZ in Ep. unfold regional_gridZ in Er. unfold usable in H.
    destruct (txt_arg (oa_parent_file a)) as [fp|] eqn:Tp.
    - destruct (Z.ltb_spec (oc_nip n) 0) as [L|L].
      { destruct (grid_from_fileZ_negative _ _ _ _ _ _ _ _ (or_introl L) Ep) as (m & ? & ?). eauto. }
      destruct (Z.ltb_spec (oc_njp n) 0) as [L'|L'].
      { destruct (grid_from_fileZ_negative _ _ _ _ _ _ _ _ (or_intror L') Ep) as (m & ? & ?). eauto. }
      destruct (txt_arg (oa_regional_file a)) as [fr|] eqn:Tr; [|destruct H; auto].
      assert (M : (oc_nir n < 0 \/ oc_njr n < 0)%Z).
      { destruct (Z.ltb_spec (oc_nir n) 0); auto. destruct (Z.ltb_spec (oc_njr n) 0); auto. destruct H. auto. }
      destruct (grid_from_fileZ_negative _ _ _ _ _ _ _ _ M Er) as (m & ? & ?). eauto.
    - destruct (txt_arg (oa_regional_file a)) as [fr|] eqn:Tr; [|destruct H; auto].
      assert (M : (oc_nir n < 0 \/ oc_njr n < 0)%Z).
      { destruct (Z.ltb_spec (oc_nir n) 0); auto. destruct (Z.ltb_spec (oc_njr n) 0); auto. destruct H. auto. }
      destruct (grid_from_fileZ_negative _ _ _ _ _ _ _ _ M Er) as (m & ? & ?). eauto. }
  destruct K as (m & K & Hm). eapply getobcs_from_hollow; eauto.
Qed.

End Obcs.
End Facts.
