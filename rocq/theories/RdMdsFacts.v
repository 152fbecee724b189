(** Facts about rdmds: index expressions, views, reading tiles. *)
From Coq Require Import Ascii String List Bool PeanoNat NArith ZArith Init.Byte Lia.
Import ListNotations.
From Verif Require Import Prelude PreludeFacts Num GridIO MdsMeta Mds SpecMds
  MdsTextFacts MdsParseFacts MdsScanFacts MdsFacts RdMds SpecRdMds TileTextFacts.
Local Open Scope nat_scope.
Local Open Scope list_scope.
Local Arguments Nat.mul : simpl never.

(** * Picking elements *)

Definition pick (Ws : list (list nat)) (t : list nat) : list nat :=
  map (fun p => nth (snd p) (fst p) 0) (combine Ws t).

Lemma pick_cons W Ws i t : pick (W :: Ws) (i :: t) = nth i W 0 :: pick Ws t.
Proof. reflexivity. Qed.

Lemma product_pick Ws : product Ws = map (pick Ws) (all_idx (map (@length nat) Ws)).
Proof.
  induction Ws as [|W Ws IH]; [reflexivity|]. cbn [product map all_idx].
  rewrite map_flat_map, IH. rewrite <- (map_nth_seq W 0) at 1. rewrite flat_map_map.
  apply flat_map_ext. intros i. rewrite !map_map. reflexivity.
Qed.

Lemma valid_length sh t : valid_idx sh t -> length t = length sh.
Proof. unfold valid_idx. induction 1; cbn [length]; congruence. Qed.

Lemma valid_cons n sh i t : valid_idx (n :: sh) (i :: t) <-> i < n /\ valid_idx sh t.
Proof. split; [intros H; now inversion H | intros [H1 H2]; now constructor]. Qed.

Lemma valid_nil sh : valid_idx sh [] -> sh = [].
Proof. intros H. now inversion H. Qed.

Lemma valid_map (P : list nat -> Prop) n sh :
  (forall i t, i < n -> valid_idx sh t -> P (i :: t)) -> forall idx, valid_idx (n :: sh) idx -> P idx.
Proof. intros H [|i t] V; inversion V; subst; auto. Qed.

(** * Broadcasting to the same shape *)

Lemma fits_same l : fits l l = true.
Proof. induction l as [|n l IH]; [reflexivity|]. cbn [fits]. now rewrite Nat.eqb_refl, IH. Qed.

Lemma squash_valid sh : forall t, valid_idx sh t ->
  map (fun p => if fst p =? 1 then 0 else snd p) (combine sh t) = t.
Proof.
  induction sh as [|n sh IH]; intros t V; inversion V; subst; [reflexivity|].
  cbn [combine map fst snd]. rewrite IH by assumption. f_equal.
  destruct (Nat.eqb_spec n 1); [lia|reflexivity].
Qed.

Section Arrays.
Context {F : Type}.

Lemma broadcast_same sh (v : nd F) : shape v = sh ->
  exists b, broadcast sh v = Ok b /\ shape b = sh /\ forall t, valid_idx sh t -> at_ b t = at_ v t.
Proof.
  intros E. unfold broadcast. rewrite E, fits_same. eexists. split; [reflexivity|]. split; [reflexivity|].
  intros t V. cbn [at_]. rewrite Nat.sub_diag. cbn [repeat skipn app]. now rewrite squash_valid.
Qed.

Lemma assign_same (arr : nd F) (w : view) (v : nd F) : shape v = v_shape w ->
  (forall idx t, valid_idx (shape arr) idx -> v_place w idx = Some t -> valid_idx (v_shape w) t) ->
  exists b, assign arr w v = Ok b /\ shape b = shape arr /\
    forall idx, valid_idx (shape arr) idx ->
      at_ b idx = match v_place w idx with Some t => at_ v t | None => at_ arr idx end.
Proof.
  intros E P. unfold assign. destruct (broadcast_same (v_shape w) v E) as (b & -> & S & H).
  cbn [rbind]. eexists. split; [reflexivity|]. split; [reflexivity|].
  intros idx V. cbn [at_]. destruct (v_place w idx) as [t|] eqn:Q; [|reflexivity].
  apply H. eapply P; eauto.
Qed.

Lemma select_ok (a : nd F) sel ax : axes (shape a) sel = Ok ax ->
  exists v, select a sel = Ok v /\ shape v = map (@length nat) ax /\ forall t, at_ v t = at_ a (pick ax t).
Proof. intros E. unfold select. rewrite E. cbn [rbind]. eexists. split; [reflexivity|]. split; reflexivity. Qed.

End Arrays.

(** * One axis *)

(** Along an axis the indices [W] are asked for; of the tile, which starts at [lo] and has
    extent [n], the indices [sel] go to the [snd sc] places from [fst sc] on. *)
Record axok (W : list nat) (lo n : nat) (sc : nat * nat) (sel : list nat) : Prop := mk_axok {
  ax_len : length sel = snd sc;
  ax_fit : fst sc + snd sc <= length W;
  ax_in : forall i, i < length W ->
    (fst sc <=? i) && (i <? fst sc + snd sc) = (lo <=? nth i W 0) && (nth i W 0 <? lo + n);
  ax_sel : forall i, i < length W -> fst sc <= i < fst sc + snd sc -> nth (i - fst sc) sel 0 = nth i W 0 - lo }.

Inductive axall : list (list nat) -> list nat -> list nat -> list (nat * nat) -> list (list nat) -> Prop :=
| axn : axall [] [] [] [] []
| axc W lo n sc sel Ws los ns scs sels : axok W lo n sc sel -> axall Ws los ns scs sels ->
    axall (W :: Ws) (lo :: los) (n :: ns) (sc :: scs) (sel :: sels).

Lemma axall_app W1 l1 n1 c1 s1 W2 l2 n2 c2 s2 : axall W1 l1 n1 c1 s1 -> axall W2 l2 n2 c2 s2 ->
  axall (W1 ++ W2) (l1 ++ l2) (n1 ++ n2) (c1 ++ c2) (s1 ++ s2).
Proof. induction 1; intros H2; [exact H2|]. cbn [app]. constructor; auto. Qed.

Lemma axall_lengths W l n c s : axall W l n c s -> map (@length nat) s = map snd c.
Proof. induction 1 as [|? ? ? ? ? ? ? ? ? ? A _ IH]; [reflexivity|]. cbn [map]. now rewrite IH, (ax_len _ _ _ _ _ A). Qed.

Definition sub_idx (g lo : list nat) : list nat := map (fun p => fst p - snd p) (combine g lo).

(** Where an element of the result comes from. *)
Lemma in_slices_ax W l n c s : axall W l n c s -> forall t, valid_idx (map (@length nat) W) t ->
  if in_tile l n (pick W t)
  then exists t', in_slices c t = Some t' /\ valid_idx (map snd c) t' /\ pick s t' = sub_idx (pick W t) l
       /\ add_idx l (pick s t') = pick W t /\ valid_idx n (pick s t')
  else in_slices c t = None.
Proof.
  induction 1 as [|W lo n [a k] sel Ws los ns scs sels A H IH]; intros t V.
  - inversion V; subst. cbn. exists []. repeat split; constructor.
  - cbn [map] in V. destruct t as [|i t]; [inversion V|]. apply valid_cons in V. destruct V as (I & V).
    specialize (IH t V). rewrite pick_cons. cbn [in_tile in_slices].
    pose proof (ax_in _ _ _ _ _ A i I) as AI. pose proof (ax_sel _ _ _ _ _ A i I) as AS. cbn [fst snd] in *.
    rewrite AI. destruct ((lo <=? nth i W 0) && (nth i W 0 <? lo + n)) eqn:C; cbn [andb].
    + destruct (in_tile los ns (pick Ws t)).
      * destruct IH as (t' & -> & V' & P & Q & R). exists (i - a :: t'). cbn [option_map].
        apply andb_prop in C. destruct C as (C1 & C2). apply Nat.leb_le in C1. apply Nat.ltb_lt in C2.
        apply andb_prop in AI. destruct AI as (D1 & D2). apply Nat.leb_le in D1. apply Nat.ltb_lt in D2.
        split; [reflexivity|]. split; [cbn [map snd]; constructor; [lia|exact V']|].
        rewrite pick_cons, AS by lia. split; [|split].
        -- unfold sub_idx in *. cbn [combine map fst snd]. now rewrite <- P.
        -- unfold add_idx in *. cbn [combine map fst snd]. rewrite Q. f_equal. lia.
        -- constructor; [lia|exact R].
      * now rewrite IH.
    + reflexivity.
Qed.

(** A whole axis, in tiles. *)
Lemma axok_mid g lo n : lo + n <= g -> axok (seq 0 g) lo n (slice_of g (Z.of_nat lo, Z.of_nat lo + Z.of_nat n)%Z) (seq 0 n).
Proof.
  intros H. assert (E : slice_of g (Z.of_nat lo, Z.of_nat lo + Z.of_nat n)%Z = (lo, n)).
  { unfold slice_of, clip. cbn [fst snd]. rewrite !(proj2 (Z.ltb_ge _ _)) by lia. f_equal; lia. }
  rewrite E. constructor; cbn [fst snd].
  - apply seq_length.
  - rewrite seq_length. lia.
  - intros i I. rewrite seq_length in I. now rewrite seq_nth.
  - intros i I J. rewrite seq_length in I. rewrite !seq_nth by lia. lia.
Qed.

(** Picked levels, of a tile that has all of them. *)
Lemma index_of_lt n z : index_ok n z -> index_of n z < n.
Proof. unfold index_ok, index_of, wrap. intros H. destruct (Z.ltb_spec z 0); lia. Qed.

Lemma norm_index_ok n z : index_ok n z -> norm_index n z = Ok (index_of n z).
Proof.
  unfold index_ok, index_of, wrap, norm_index. intros H.
  destruct (Z.ltb_spec z 0); rewrite (proj2 (Z.ltb_ge _ _)), (proj2 (Z.leb_gt _ _)) by lia; reflexivity.
Qed.

Lemma norm_indices_ok n l : Forall (index_ok n) l -> mapM (norm_index n) l = Ok (map (index_of n) l).
Proof.
  induction 1 as [|z l Z _ IH]; [reflexivity|]. cbn [mapM map]. rewrite norm_index_ok by assumption.
  cbn [rbind]. rewrite IH. reflexivity.
Qed.

Lemma axok_lev g l : Forall (index_ok g) l -> length l <= g ->
  axok (map (index_of g) l) 0 g (slice_of (length l) (0, Z.of_nat g)%Z) (map (index_of g) l).
Proof.
  intros H L. assert (E : slice_of (length l) (0, Z.of_nat g)%Z = (0, length l)).
  { unfold slice_of, clip. cbn [fst snd]. rewrite !(proj2 (Z.ltb_ge _ _)) by lia. f_equal; lia. }
  rewrite E. constructor; cbn [fst snd].
  - apply map_length.
  - rewrite map_length. lia.
  - intros i I. rewrite map_length in I. cbn [Nat.leb andb].
    assert (J : nth i (map (index_of g) l) 0 < g).
    { rewrite (nth_indep _ 0 (index_of g 0)) by (now rewrite map_length). rewrite map_nth.
      apply index_of_lt. rewrite Forall_forall in H. apply H. now apply nth_In. }
    cbn [Nat.add]. rewrite !(proj2 (Nat.ltb_lt _ _)) by lia. reflexivity.
  - intros i I J. now rewrite !Nat.sub_0_r.
Qed.

(** A part of an axis, met by the tile. *)
Lemma axok_region a b lo n :
  (0 <= a <= b)%Z ->
  (clamp a b (Z.of_nat lo) < clamp a b (Z.of_nat lo + Z.of_nat n))%Z ->
  axok (seq (Z.to_nat a) (Z.to_nat (b - a))) lo n
    (slice_of (Z.to_nat (b - a)) (clamp a b (Z.of_nat lo) - a, clamp a b (Z.of_nat lo + Z.of_nat n) - a)%Z)
    (seq (Z.to_nat (clamp a b (Z.of_nat lo) - Z.of_nat lo))
       (Nat.min n (Z.to_nat (clamp a b (Z.of_nat lo + Z.of_nat n) - Z.of_nat lo))
        - Z.to_nat (clamp a b (Z.of_nat lo) - Z.of_nat lo))).
Proof.
  unfold clamp. intros H M.
  set (p := Z.min b (Z.max a (Z.of_nat lo))) in *. set (q := Z.min b (Z.max a (Z.of_nat lo + Z.of_nat n))) in *.
  assert (E : slice_of (Z.to_nat (b - a)) (p - a, q - a)%Z = (Z.to_nat (p - a), Z.to_nat (q - p))).
  { unfold slice_of, clip. cbn [fst snd]. rewrite !(proj2 (Z.ltb_ge _ _)) by lia. f_equal; lia. }
  rewrite E. constructor; cbn [fst snd]; rewrite ?seq_length; try lia.
  - intros i I. rewrite seq_nth by lia. apply eq_true_iff_eq. rewrite !andb_true_iff, !Nat.leb_le, !Nat.ltb_lt. lia.
  - intros i I J. rewrite !seq_nth by lia. lia.
Qed.

Lemma axis_missed a b lo n i :
  (0 <= a <= b)%Z ->
  (clamp a b (Z.of_nat lo + Z.of_nat n) <= clamp a b (Z.of_nat lo))%Z ->
  i < Z.to_nat (b - a) ->
  (lo <=? nth i (seq (Z.to_nat a) (Z.to_nat (b - a))) 0)
  && (nth i (seq (Z.to_nat a) (Z.to_nat (b - a))) 0 <? lo + n) = false.
Proof.
  unfold clamp. intros H M I. rewrite seq_nth by exact I. apply not_true_is_false.
  rewrite andb_true_iff, Nat.leb_le, Nat.ltb_lt. lia.
Qed.

(** * Lists *)

Lemma skipn_plus {A} a : forall b (l : list A), skipn a (skipn b l) = skipn (b + a) l.
Proof.
  induction b as [|b IH]; intros l; [reflexivity|]. destruct l as [|x l]; [now rewrite !skipn_nil|]. cbn [Nat.add skipn]. apply IH.
Qed.

Lemma combine_app {A B} (a1 a2 : list A) (b1 b2 : list B) : length a1 = length b1 ->
  combine (a1 ++ a2) (b1 ++ b2) = combine a1 b1 ++ combine a2 b2.
Proof.
  revert b1. induction a1 as [|x a1 IH]; intros [|y b1] E; try discriminate E; [reflexivity|].
  cbn [app combine]. f_equal. apply IH. now injection E.
Qed.

Lemma axes_app sh1 : forall sel1 a1 sh2 sel2 a2, axes sh1 sel1 = Ok a1 -> length sel1 = length sh1 ->
  axes sh2 sel2 = Ok a2 -> axes (sh1 ++ sh2) (sel1 ++ sel2) = Ok (a1 ++ a2).
Proof.
  induction sh1 as [|n sh1 IH]; intros [|s sel1] a1 sh2 sel2 a2 E L E2; try discriminate L.
  - cbn [axes map] in E. injection E as <-. exact E2.
  - cbn [app axes] in *. destruct (axis n s) as [x|]; [|discriminate E]. cbn [rbind] in *.
    destruct (axes sh1 sel1) as [y|] eqn:Y; [|discriminate E]. cbn [rbind] in *. injection E as <-.
    rewrite (IH _ _ _ _ _ Y ltac:(now injection L) E2). reflexivity.
Qed.

Lemma axes_nil sh : axes sh [] = Ok (map (seq 0) sh).
Proof. destruct sh; reflexivity. Qed.

Lemma axes_whole sh : axes sh (repeat Whole (length sh)) = Ok (map (seq 0) sh).
Proof. induction sh as [|n sh IH]; [reflexivity|]. cbn [length repeat axes axis rbind map]. now rewrite IH. Qed.

Definition level_axes (levs : list levarg) (gl : list nat) : list (list nat) :=
  map (fun ln => map (index_of (snd ln)) (levels_of (fst ln))) (combine levs gl).

Lemma lev_list_of l : lev_list l = levels_of l.
Proof. reflexivity. Qed.

Lemma axes_levels levs : forall gl, length levs = length gl ->
  Forall (fun ln => lev_ok (fst ln) (snd ln)) (combine levs gl) ->
  axes gl (map (fun l => Pick (lev_list l)) levs) = Ok (level_axes levs gl).
Proof.
  induction levs as [|l levs IH]; intros [|g gl] E H; try discriminate E; [reflexivity|].
  inversion H as [|? ? [A _] B]; subst. cbn [map axes axis]. rewrite lev_list_of.
  rewrite norm_indices_ok by exact A. cbn [rbind]. rewrite (IH gl) by (auto; now injection E). reflexivity.
Qed.

Definition zbounds (lo ext : list nat) : list (Z * Z) :=
  combine (map Z.of_nat lo) (map (fun p => Z.of_nat (fst p) + Z.of_nat (snd p))%Z (combine lo ext)).

Definition slices_of (W : list (list nat)) (b : list (Z * Z)) : list (nat * nat) :=
  map (fun nb => slice_of (fst nb) (snd nb)) (combine (map (@length nat) W) b).

Lemma slices_app W1 W2 b1 b2 : length W1 = length b1 ->
  slices_of (W1 ++ W2) (b1 ++ b2) = slices_of W1 b1 ++ slices_of W2 b2.
Proof. intros E. unfold slices_of. rewrite map_app, combine_app by (now rewrite map_length). apply map_app. Qed.

Lemma zbounds_app l1 l2 e1 e2 : length l1 = length e1 ->
  zbounds (l1 ++ l2) (e1 ++ e2) = zbounds l1 e1 ++ zbounds l2 e2.
Proof.
  intros E. unfold zbounds. rewrite combine_app, !map_app by exact E. apply combine_app.
  rewrite !map_length, combine_length. lia.
Qed.

Lemma zbounds_length l e : length l = length e -> length (zbounds l e) = length l.
Proof. intros E. unfold zbounds. rewrite combine_length, !map_length, combine_length. lia. Qed.

Lemma axall_levels levs : forall gl, length levs = length gl ->
  Forall (fun ln => lev_ok (fst ln) (snd ln)) (combine levs gl) ->
  axall (level_axes levs gl) (repeat 0 (length levs)) gl
    (slices_of (level_axes levs gl) (zbounds (repeat 0 (length levs)) gl)) (level_axes levs gl).
Proof.
  induction levs as [|l levs IH]; intros [|g gl] E H; try discriminate E; [constructor|].
  inversion H as [|? ? [A B] C]; subst.
  change (axall (map (index_of g) (levels_of l) :: level_axes levs gl) (0 :: repeat 0 (length levs)) (g :: gl)
    (slice_of (length (map (index_of g) (levels_of l))) (0, Z.of_nat g)%Z
       :: slices_of (level_axes levs gl) (zbounds (repeat 0 (length levs)) gl))
    (map (index_of g) (levels_of l) :: level_axes levs gl)).
  constructor.
  - rewrite map_length. apply axok_lev; assumption.
  - apply IH; [now injection E | exact C].
Qed.

Lemma axall_mid gm : forall lm em, length lm = length gm -> length em = length gm ->
  Forall2 le (add_idx lm em) gm ->
  axall (map (seq 0) gm) lm em (slices_of (map (seq 0) gm) (zbounds lm em)) (map (seq 0) em).
Proof.
  induction gm as [|g gm IH]; intros [|l lm] [|e em] L1 L2 H; try discriminate L1; try discriminate L2; [constructor|].
  change (add_idx (l :: lm) (e :: em)) with (l + e :: add_idx lm em) in H. inversion H; subst.
  change (axall (seq 0 g :: map (seq 0) gm) (l :: lm) (e :: em)
    (slice_of (length (seq 0 g)) (Z.of_nat l, Z.of_nat l + Z.of_nat e)%Z :: slices_of (map (seq 0) gm) (zbounds lm em))
    (seq 0 e :: map (seq 0) em)).
  constructor; [rewrite seq_length; now apply axok_mid |].
  apply IH; auto.
Qed.

Lemma split_last2 {A} (l : list A) n : length l = n + 2 -> exists r y x, l = r ++ [y; x] /\ length r = n.
Proof.
  intros E. exists (firstn n l). pose proof (firstn_skipn n l) as S.
  assert (K : length (skipn n l) = 2) by (rewrite skipn_length; lia).
  destruct (skipn n l) as [|y [|x [|]]]; try discriminate K. exists y, x. split; [now rewrite S|].
  rewrite firstn_length. lia.
Qed.

Lemma rev_last2 {A} (l : list A) y x : rev (l ++ [y; x]) = x :: y :: rev l.
Proof. now rewrite rev_app_distr. Qed.

Lemma set_last2_app {A} (l : list A) y x y' x' : set_last2 (l ++ [y; x]) y' x' = l ++ [y'; x'].
Proof.
  unfold set_last2. rewrite app_length. replace (length l + length [y; x] - 2) with (length l + 0) by (cbn; lia).
  rewrite firstn_app_2. cbn [firstn]. now rewrite app_nil_r.
Qed.

Lemma Forall2_le_app a1 a2 b1 b2 : length a1 = length b1 ->
  Forall2 le (a1 ++ a2) (b1 ++ b2) <-> Forall2 le a1 b1 /\ Forall2 le a2 b2.
Proof.
  revert b1. induction a1 as [|x a1 IH]; intros [|y b1] E; try discriminate E; cbn [app].
  - split; [intros H; split; [constructor|exact H] | tauto].
  - injection E as E. specialize (IH b1 E). split.
    + intros H. inversion H; subst. destruct IH as (IH & _). destruct IH; auto.
    + intros (H1 & H2). inversion H1; subst. constructor; tauto.
Qed.

Lemma add_idx_app l1 l2 e1 e2 : length l1 = length e1 -> add_idx (l1 ++ l2) (e1 ++ e2) = add_idx l1 e1 ++ add_idx l2 e2.
Proof. intros E. unfold add_idx. rewrite combine_app by exact E. apply map_app. Qed.
Lemma add_idx_length l e : length l = length e -> length (add_idx l e) = length l.
Proof. intros E. unfold add_idx. rewrite map_length, combine_length. lia. Qed.

(** No element of the result lies in the tile if it misses the last but one or last axis. *)
Lemma in_tile_app l1 : forall e1 t1 l2 e2 t2, length l1 = length e1 -> length l1 = length t1 ->
  in_tile (l1 ++ l2) (e1 ++ e2) (t1 ++ t2) = in_tile l1 e1 t1 && in_tile l2 e2 t2.
Proof.
  induction l1 as [|l l1 IH]; intros [|e e1] [|t t1] l2 e2 t2 E1 E2; try discriminate; [reflexivity|].
  cbn [app in_tile]. rewrite IH by (cbn [length] in *; lia). now rewrite andb_assoc.
Qed.

Lemma pick_app W1 W2 t1 t2 : length W1 = length t1 -> pick (W1 ++ W2) (t1 ++ t2) = pick W1 t1 ++ pick W2 t2.
Proof. intros E. unfold pick. rewrite combine_app by exact E. apply map_app. Qed.
Lemma pick_length W t : length W = length t -> length (pick W t) = length W.
Proof. intros E. unfold pick. rewrite map_length, combine_length. lia. Qed.

(** * One tile *)
Section Tile.
Context {F : Type} (N : numops F).
Variables (C8 C4 : codec F).
Variable float_of : text -> option F.
Hypothesis len8 : forall x, length (enc C8 x) = 8.
Hypothesis len4 : forall x, length (enc C4 x) = 4.
Variables (od : order) (td : tiled) (o : rdopts F).
Hypothesis OK : options_ok o td.

Notation W := (wanted o td).
Notation nlev := (length (o_lev o)).
Notation dims := (td_dims td).
Notation ext := (td_ext td).

Definition regw : region :=
  match o_region o with
  | None => mk_region 0 (Z.of_nat (td_nx td)) 0 (Z.of_nat (td_ny td))
  | Some r => mk_region (wrap (td_nx td) (ri0 r)) (wrap (td_nx td) (rie r))
                (wrap (td_ny td) (rj0 r)) (wrap (td_ny td) (rje r))
  end.

Definition rows := seq (Z.to_nat (rj0 regw)) (Z.to_nat (rje regw - rj0 regw)).
Definition cols := seq (Z.to_nat (ri0 regw)) (Z.to_nat (rie regw - ri0 regw)).

Lemma regw_ok : (0 <= rj0 regw <= rje regw)%Z /\ (0 <= ri0 regw <= rie regw)%Z.
Proof.
  destruct OK as (_ & _ & _ & R & _). unfold regw. destruct (o_region o) as [r|]; cbn [ri0 rie rj0 rje]; [exact R|lia].
Qed.

Lemma wanted_split : W = level_axes (o_lev o) (firstn nlev (td_lead td)) ++ map (seq 0) (skipn nlev (td_lead td)) ++ [rows; cols].
Proof.
  unfold wanted, level_axes. f_equal.
  - f_equal. rewrite <- (firstn_skipn nlev (td_lead td)) at 1.
    rewrite <- (app_nil_r (o_lev o)) at 1. rewrite combine_app; [apply app_nil_r|].
    rewrite firstn_length. destruct OK as (_ & H & _). lia.
  - f_equal. unfold rows, cols, regw. destruct (o_region o) as [r|]; cbn [ri0 rie rj0 rje]; [reflexivity|].
    rewrite !Z.sub_0_r, !Nat2Z.id. reflexivity.
Qed.

Lemma lead_levels : length (firstn nlev (td_lead td)) = nlev.
Proof. rewrite firstn_length. destruct OK as (_ & H & _). lia. Qed.

(** The overlap with what is asked for, and the places. *)
Definition plan (lo : list nat) : res overlap :=
  match o_region o with
  | None => Ok (mk_overlap (zbounds lo ext) None true)
  | Some _ => region_overlap regw (zbounds lo ext)
  end.

Lemma forall_levels : Forall (fun ln => lev_ok (fst ln) (snd ln)) (combine (o_lev o) (firstn nlev (td_lead td))).
Proof.
  destruct OK as (_ & H & L & _). rewrite <- (firstn_skipn nlev (td_lead td)) in L.
  rewrite <- (app_nil_r (o_lev o)) in L at 1. rewrite combine_app in L by (now rewrite lead_levels).
  apply Forall_app in L. apply L.
Qed.

Lemma tile_plan lo : tile_inside td lo -> whole_levels td nlev lo ->
  exists ov, plan lo = Ok ov /\ length (ov_bounds ov) = length W /\
    (ov_any ov = true -> exists sels, axes ext (tile_sel o (length ext) ov) = Ok sels /\
       axall W lo ext (slices_of W (ov_bounds ov)) sels) /\
    (ov_any ov = false -> forall t, valid_idx (map (@length nat) W) t -> in_tile lo ext (pick W t) = false).
Proof.
  intros (L1 & L2 & IN) (WL & WE). destruct OK as (_ & LV & _). pose proof lead_levels as LL.
  pose proof forall_levels as FL. pose proof regw_ok as (RY & RX).
  unfold td_dims in L1, L2. rewrite app_length in L1, L2. cbn [length] in L1, L2.
  destruct (split_last2 lo (length (td_lead td)) L1) as (lo' & ly & lx & -> & K1).
  destruct (split_last2 ext (length (td_lead td)) L2) as (ex' & ey & ex & EE & K2).
  rewrite EE in *. clear L1 L2. unfold td_dims in IN, WE.
  set (gl := firstn nlev (td_lead td)) in *. set (gm := skipn nlev (td_lead td)) in *.
  assert (GE : td_lead td = gl ++ gm) by (symmetry; apply firstn_skipn).
  rewrite firstn_app in WL, WE. replace (nlev - length lo') with 0 in WL by lia. replace (nlev - length ex') with 0 in WE by lia.
  rewrite firstn_app in WE. replace (nlev - length (td_lead td)) with 0 in WE by lia.
  cbn [firstn] in WL, WE. rewrite app_nil_r in WL. rewrite !app_nil_r in WE. fold gl in WE.
  set (lm := skipn nlev lo') in *. set (em := skipn nlev ex') in *.
  assert (LE : lo' = repeat 0 nlev ++ lm) by (rewrite <- WL; symmetry; apply firstn_skipn).
  assert (EX : ex' = gl ++ em) by (rewrite <- WE; symmetry; apply firstn_skipn).
  assert (M1 : length lm = length gm).
  { apply (f_equal (@length nat)) in LE. apply (f_equal (@length nat)) in GE.
    rewrite app_length, ?repeat_length in *. lia. }
  assert (M2 : length em = length gm).
  { apply (f_equal (@length nat)) in EX. apply (f_equal (@length nat)) in GE.
    rewrite app_length, ?repeat_length in *. lia. }
  clearbody lm em. subst lo' ex'.
  assert (RL : length (repeat 0 nlev) = length gl) by (now rewrite repeat_length).
  rewrite <- !app_assoc in *.
  rewrite GE, <- app_assoc, !add_idx_app in IN by lia.
  apply Forall2_le_app in IN; [|rewrite add_idx_length; lia]. destruct IN as (_ & IN).
  apply Forall2_le_app in IN; [|rewrite add_idx_length; lia]. destruct IN as (IM & IXY).
  change (add_idx [ly; lx] [ey; ex]) with [ly + ey; lx + ex] in IXY.
  inversion IXY as [|? ? ? ? IY I2]; subst. inversion I2 as [|? ? ? ? IX _]; subst. clear I2 IXY.
  assert (ZB : zbounds (repeat 0 nlev ++ lm ++ [ly; lx]) (gl ++ em ++ [ey; ex])
     = (zbounds (repeat 0 nlev) gl ++ zbounds lm em)
         ++ [(Z.of_nat ly, Z.of_nat ly + Z.of_nat ey)%Z; (Z.of_nat lx, Z.of_nat lx + Z.of_nat ex)%Z]).
  { rewrite !zbounds_app by lia. now rewrite <- app_assoc. }
  rewrite wanted_split. fold gl gm.
  assert (WLn : length (level_axes (o_lev o) gl) = nlev)
    by (unfold level_axes; rewrite map_length, combine_length; lia).
  assert (SP : forall y x, slices_of (level_axes (o_lev o) gl ++ map (seq 0) gm ++ [rows; cols])
       ((zbounds (repeat 0 nlev) gl ++ zbounds lm em) ++ [y; x])
     = slices_of (level_axes (o_lev o) gl) (zbounds (repeat 0 nlev) gl)
       ++ slices_of (map (seq 0) gm) (zbounds lm em)
       ++ [slice_of (length rows) y; slice_of (length cols) x]).
  { intros y x. rewrite <- app_assoc. rewrite !slices_app.
    - reflexivity.
    - rewrite map_length, zbounds_length; lia.
    - rewrite zbounds_length; lia. }
  assert (BL : forall y x : Z * Z, length ((zbounds (repeat 0 nlev) gl ++ zbounds lm em) ++ [y; x])
     = length (level_axes (o_lev o) gl ++ map (seq 0) gm ++ [rows; cols])).
  { intros y x. rewrite !app_length, !zbounds_length, map_length by lia. cbn [length]. lia. }
  assert (AX1 := axall_levels (o_lev o) gl (eq_sym LL) FL).
  assert (AX2 := axall_mid gm lm em M1 M2 IM).
  unfold plan. rewrite EE, ZB. unfold tile_sel.
  destruct (o_region o) as [r|] eqn:RG.
  - unfold region_overlap. rewrite rev_last2. eexists. split; [reflexivity|]. cbn [ov_bounds ov_any ov_sel].
    rewrite set_last2_app. split; [apply BL|]. cbn [fst snd]. split.
    + intros ANY. apply andb_prop in ANY. destruct ANY as (AX & AY). apply Z.ltb_lt in AX. apply Z.ltb_lt in AY.
      eexists. split.
      * apply axes_app; [apply axes_levels; [lia|exact FL] | rewrite map_length; lia |].
        apply axes_app.
        -- replace (length (gl ++ em ++ [ey; ex]) - length (map (fun l => Pick (lev_list l)) (o_lev o)) - 2) with (length em)
             by (rewrite !app_length, map_length; cbn [length]; lia).
           apply axes_whole.
        -- rewrite repeat_length, !app_length, map_length. cbn [length]. lia.
        -- reflexivity.
      * rewrite SP. apply axall_app; [exact AX1|]. apply axall_app; [exact AX2|].
        unfold rows, cols. rewrite !seq_length.
        constructor; [apply axok_region; [exact RY|lia]|]. constructor; [apply axok_region; [exact RX|lia]|]. constructor.
    + intros ANY t V.
      apply andb_false_iff in ANY. rewrite !Z.ltb_ge in ANY.
      rewrite !app_assoc, map_app in V.
      destruct (split_last2 t (length ((level_axes (o_lev o) gl ++ map (seq 0) gm)))) as (t' & y & x & -> & T).
      { apply valid_length in V. rewrite V, app_length, map_length. cbn [map length]. lia. }
      rewrite !app_assoc. rewrite pick_app by lia.
      rewrite in_tile_app.
      * apply andb_false_iff. right. rewrite !pick_cons. cbn [in_tile].
        assert (VV : y < length rows /\ x < length cols).
        { apply Forall2_app_inv_r in V. destruct V as (a & b & _ & B & E).
          assert (EL : b = [y; x]).
          { apply (f_equal (skipn (length t'))) in E. rewrite skipn_app, skipn_all, Nat.sub_diag in E. cbn [skipn app] in E.
            inversion B as [|? ? ? ? ? B']; subst. inversion B' as [|? ? ? ? ? B'']; subst. inversion B''; subst.
            assert (LA : length a = length t') by (apply (f_equal (@length nat)) in E; rewrite skipn_length, app_length in E; cbn [length] in E; lia).
            rewrite <- LA, skipn_app, skipn_all, Nat.sub_diag in E. exact (eq_sym E). }
          subst b. inversion B as [|? ? ? ? B1 B2]; subst. inversion B2; subst. auto. }
        destruct VV as (VY & VX). unfold rows in VY. unfold cols in VX. rewrite seq_length in VY, VX.
        unfold rows, cols. destruct ANY as [ANY|ANY].
        -- rewrite (axis_missed _ _ lx ex x RX ltac:(lia) VX). now rewrite !andb_false_r.
        -- rewrite (axis_missed _ _ ly ey y RY ltac:(lia) VY). reflexivity.
      * rewrite !app_length, repeat_length. lia.
      * rewrite pick_length, !app_length, repeat_length, map_length by lia. lia.
  - eexists. split; [reflexivity|]. cbn [ov_bounds ov_any ov_sel]. split; [apply BL|]. split; [|discriminate].
    intros _. eexists. split.
    + rewrite <- (app_nil_r (map _ _)). apply axes_app; [apply axes_levels; [lia|exact FL] | rewrite map_length; lia | apply axes_nil].
    + rewrite SP. apply axall_app; [exact AX1|]. rewrite map_app. apply axall_app; [exact AX2|].
      unfold rows, cols. rewrite !seq_length. unfold regw. rewrite RG. cbn [ri0 rie rj0 rje map]. rewrite !Z.sub_0_r, !Nat2Z.id.
      constructor; [now apply axok_mid|]. constructor; [now apply axok_mid|]. constructor.
Qed.

Notation p := (td_prec td).
Notation nrec := (td_nrec td).
Definition recsZ : list Z :=
  match o_rec o with RecAll => map Z.of_nat (seq 0 nrec) | RecOne z => [z] | RecList l => l end.
Notation recsN := (wanted_recs o nrec).

Lemma index_of_nat n k : index_of n (Z.of_nat k) = k.
Proof. unfold index_of, wrap. rewrite (proj2 (Z.ltb_ge _ _)) by lia. apply Nat2Z.id. Qed.

Lemma recs_index : recsN = map (index_of nrec) recsZ.
Proof.
  unfold wanted_recs, recsZ. destruct (o_rec o); [|reflexivity..].
  rewrite map_map. rewrite (map_ext _ (fun k => k)) by (intros; apply index_of_nat). now rewrite map_id.
Qed.

Lemma recs_valid : Forall (index_ok nrec) recsZ.
Proof.
  destruct OK as (R & _). unfold recs_ok in R. unfold recsZ. destruct (o_rec o); auto.
  apply Forall_forall. intros z Z. apply in_map_iff in Z. destruct Z as (k & <- & K). apply in_seq in K.
  unfold index_ok. lia.
Qed.

Variables (A : list nat -> F) (lo : list nat).
Hypothesis LI : tile_inside td lo.
Hypothesis LW : whole_levels td nlev lo.

Definition local (g : list nat) : F := match g with r :: t => A (r :: add_idx lo t) | [] => A [] end.
Variable bs : list byte.
Hypothesis RB : readable C8 C4 od td o A lo bs.

Lemma content_all : tile_content td A lo = map local (all_idx (nrec :: ext)).
Proof.
  unfold tile_content. cbn [all_idx]. rewrite map_flat_map. apply flat_map_ext. intros r. now rewrite map_map.
Qed.

Lemma content_length : length (tile_content td A lo) = nrec * size ext.
Proof. rewrite content_all, map_length, all_idx_length. reflexivity. Qed.

Lemma reshape_map (f : list nat -> F) sh : exists a,
  reshape N (map f (all_idx sh)) sh = Ok a /\ shape a = sh /\ forall t, valid_idx sh t -> at_ a t = f t.
Proof.
  unfold reshape. rewrite map_length, all_idx_length, Nat.eqb_refl. eexists. split; [reflexivity|].
  split; [reflexivity|]. intros t V. cbn [at_]. now apply nth_offset.
Qed.

Lemma items_decode n : forall (b : list byte) (l : list F), n <= length l -> decodes C8 C4 p od b l ->
  items C8 C4 n p od b = firstn n l.
Proof.
  induction n as [|n IH]; intros b l L D; [reflexivity|]. destruct l as [|x l]; [cbn in L; lia|].
  cbn [items firstn]. f_equal; [exact (proj2 (D 0 x eq_refl))|].
  apply IH; [cbn [length] in L; lia|]. intros j y E. destruct (D (S j) y E) as (D1 & D2).
  rewrite skipn_length. split; [lia|]. rewrite skipn_plus.
  replace (itemsize p + j * itemsize p) with (S j * itemsize p) by lia. exact D2.
Qed.

Lemma decodes_length (b : list byte) (l : list F) : decodes C8 C4 p od b l -> length l * itemsize p <= length b.
Proof.
  intros D. destruct l as [|x l]; [cbn [length]; lia|].
  destruct (nth_error (x :: l) (length l)) as [y|] eqn:E.
  - destruct (D _ _ E) as (H & _). cbn [length]. nia.
  - apply nth_error_None in E. cbn [length] in E. lia.
Qed.

(** The whole file at once. *)
Lemma whole_file : o_memmap o = false -> o_rec o = RecAll ->
  exists a, reshape N (fromfile_as C8 C4 p od bs) (nrec :: ext) = Ok a
  /\ shape a = nrec :: ext /\ forall t, valid_idx (nrec :: ext) t -> at_ a t = local t.
Proof.
  intros M R. pose proof RB as RB'. unfold readable in RB'. rewrite M, R in RB'. destruct RB' as (D & L).
  unfold fromfile_as. pose proof (decodes_length _ _ D) as DL. rewrite content_length in DL.
  assert (E : length bs / itemsize p = length (tile_content td A lo)).
  { rewrite content_length. symmetry. apply (Nat.div_unique _ _ _ (length bs - nrec * size ext * itemsize p)); lia. }
  rewrite E, (items_decode _ _ (tile_content td A lo)) by auto. rewrite firstn_all, content_all. apply reshape_map.
Qed.

Lemma mapped_file fs name : o_memmap o = true -> dget fs name = Some bs -> nrec * size ext <> 0 ->
  exists a, memmap N C8 C4 fs name p od (nrec :: ext) = (fs, Ok a)
  /\ shape a = nrec :: ext /\ forall t, valid_idx (nrec :: ext) t -> at_ a t = local t.
Proof.
  intros M D NZ. unfold memmap. rewrite D. change (size (nrec :: ext)) with (nrec * size ext).
  assert (RD : decodes C8 C4 p od bs (tile_content td A lo)) by (unfold readable in RB; now rewrite M in RB).
  pose proof (decodes_length _ _ RD) as DL. rewrite content_length in DL.
  rewrite (proj2 (Nat.eqb_neq _ _)) by (destruct p; cbn [itemsize]; lia).
  rewrite (proj2 (Nat.ltb_ge _ _)) by exact DL.
  unfold pad_to. replace (nrec * size ext * itemsize p - length bs) with 0 by lia. cbn [repeat]. rewrite app_nil_r.
  rewrite <- content_length, (items_decode _ _ (tile_content td A lo)) by auto. rewrite firstn_all, content_all.
  destruct (reshape_map local (nrec :: ext)) as (a & R & S). exists a. split; [f_equal; exact R | exact S].
Qed.

(** One record. *)
Lemma record_read z : o_memmap o = false -> o_rec o <> RecAll -> index_ok nrec z -> In z recsZ ->
  exists a, read_record N C8 C4 bs p od ext nrec z = Ok a
  /\ shape a = ext /\ forall t, valid_idx ext t -> at_ a t = A (index_of nrec z :: add_idx lo t).
Proof.
  intros M R Z I. pose proof (index_of_lt _ _ Z) as K. unfold read_record.
  assert (IK : In (index_of nrec z) recsN) by (rewrite recs_index; now apply in_map).
  assert (D : decodes C8 C4 p od (skipn (index_of nrec z * size ext * itemsize p) bs)
     (map (fun idx => A (index_of nrec z :: add_idx lo idx)) (all_idx ext))).
  { unfold readable in RB. rewrite M in RB. destruct (o_rec o); [now elim R|..]; now apply RB. }
  set (k := index_of nrec z) in *.
  assert (E : (if (z <? 0)%Z then (z + Z.of_nat nrec)%Z else z) = Z.of_nat k).
  { unfold k, index_of. unfold wrap. unfold index_ok in Z. destruct (Z.ltb_spec z 0); lia. }
  rewrite E. rewrite (proj2 (Z.ltb_ge _ _)) by lia.
  replace (Z.to_nat (Z.of_nat k * Z.of_nat (size ext * itemsize p))) with (k * size ext * itemsize p) by nia.
  set (rest := skipn _ bs) in *. pose proof (decodes_length _ _ D) as DL. rewrite map_length, all_idx_length in DL.
  assert (Q : size ext <= length rest / itemsize p) by (apply Nat.div_le_lower_bound; [destruct p; discriminate|lia]).
  rewrite Nat.min_l by exact Q.
  rewrite (items_decode _ _ (map (fun idx => A (k :: add_idx lo idx)) (all_idx ext)));
    [| now rewrite map_length, all_idx_length | exact D].
  rewrite firstn_all2 by (now rewrite map_length, all_idx_length).
  apply (reshape_map (fun t => A (k :: add_idx lo t))).
Qed.

(** The array after a tile has been read into it. *)
Definition updated (iit : nat) (arr : nd F) (idx : list nat) : F :=
  match idx with
  | i :: r :: t => if (i =? iit) && in_tile lo ext (pick W t)
                   then A (nth r recsN 0 :: pick W t) else at_ arr idx
  | _ => at_ arr idx
  end.

Definition ready (nits : nat) (st : rdstate (F:=F)) : Prop :=
  shape (s_arr st) = nits :: length recsN :: map (@length nat) W /\
  s_prec st = p /\ s_recshape st = ext /\ s_nrec st = nrec /\ s_recs st = recsZ.

Lemma view_ok nits iit ov : length (ov_bounds ov) = length W ->
  exists w, slice_view (nits :: length recsN :: map (@length nat) W) iit (ov_bounds ov) = Ok w /\
    v_shape w = length recsN :: map snd (slices_of W (ov_bounds ov)) /\
    (forall i r t, v_place w (i :: r :: t)
       = if i =? iit then option_map (cons r) (in_slices (slices_of W (ov_bounds ov)) t) else None).
Proof.
  intros L. unfold slice_view. rewrite map_length, L, Nat.ltb_irrefl. eexists. split; [reflexivity|].
  cbn [v_shape v_place]. split; [|reflexivity].
  rewrite skipn_all2 by (rewrite map_length; lia). rewrite app_nil_r. reflexivity.
Qed.

Lemma valid2 a b sh idx : valid_idx (a :: b :: sh) idx -> exists i r t, idx = i :: r :: t /\ i < a /\ r < b /\ valid_idx sh t.
Proof.
  intros V. inversion V as [|i ? idx' ? I V']; subst. inversion V' as [|r ? t ? R V'']; subst. eauto 8.
Qed.

(** Reading into any part of the array: [P] gives the place in the tile of an element of the
    result, [cov] tells whether it has one, [B] is the field. *)
Section Part.
Variables (B : list nat -> F) (cov : list nat -> bool) (P : list nat -> option (list nat)).
Variables (nits iit : nat) (st : rdstate (F:=F)) (w : view) (ov : overlap) (sels : list (list nat)).
Hypothesis RD : ready nits st.
Hypothesis ANY : ov_any ov = true.
Hypothesis AX : axes ext (tile_sel o (length ext) ov) = Ok sels.
Hypothesis VS : v_shape w = length recsN :: map (@length nat) sels.
Hypothesis VP : forall i r t, valid_idx (map (@length nat) W) t ->
  v_place w (i :: r :: t) = if i =? iit then option_map (cons r) (P t) else None.
Hypothesis PP : forall t, valid_idx (map (@length nat) W) t ->
  match P t with
  | Some t' => cov (pick W t) = true /\ valid_idx (map (@length nat) sels) t' /\ valid_idx ext (pick sels t')
               /\ forall r, A (r :: add_idx lo (pick sels t')) = B (r :: pick W t)
  | None => cov (pick W t) = false
  end.

Definition part_put (arr : nd F) (idx : list nat) : F :=
  match idx with
  | i :: r :: t => if (i =? iit) && cov (pick W t) then B (nth r recsN 0 :: pick W t) else at_ arr idx
  | _ => at_ arr idx
  end.

Lemma records_ok : o_memmap o = false -> o_rec o <> RecAll ->
  forall zs irec arr, Forall (index_ok nrec) zs -> (forall z, In z zs -> In z recsZ) -> irec + length zs <= length recsN ->
    shape arr = nits :: length recsN :: map (@length nat) W ->
    exists arr', read_records N C8 C4 o st od bs w ov irec zs arr = Ok arr'
      /\ shape arr' = shape arr
      /\ forall i r t, i < nits -> r < length recsN -> valid_idx (map (@length nat) W) t ->
           at_ arr' (i :: r :: t)
           = if (i =? iit) && ((irec <=? r) && (r <? irec + length zs)) && cov (pick W t)
             then B (index_of nrec (nth (r - irec) zs 0%Z) :: pick W t) else at_ arr (i :: r :: t).
Proof.
  destruct RD as (SA & SP & SR & SN & SZ). intros MM RR0. induction zs as [|z zs IH]; intros irec arr FZ SUB LE SH.
  - exists arr. split; [reflexivity|]. split; [reflexivity|]. intros i r t I R V. cbn [length].
    replace ((irec <=? r) && (r <? irec + 0)) with false.
    + now rewrite andb_false_r.
    + symmetry. apply not_true_is_false. rewrite andb_true_iff, Nat.leb_le, Nat.ltb_lt. lia.
  - inversion FZ as [|? ? Z FZ']; subst. cbn [read_records]. rewrite ANY, SP, SR, SN.
    destruct (record_read z MM RR0 Z (SUB z (or_introl eq_refl))) as (a & R & SHA & ATA). rewrite R. cbn [rbind].
    destruct (select_ok a (tile_sel o (length ext) ov) sels) as (v & SV & SHV & ATV); [now rewrite SHA|].
    rewrite SV. cbn [rbind]. unfold subview. rewrite VS. cbn [length] in LE.
    rewrite (proj2 (Nat.ltb_lt irec _)) by lia. cbn [rbind].
    match goal with |- context [assign arr ?x v] => set (sub := x) end.
    destruct (assign_same arr sub v) as (arr1 & AS & SH1 & AT1).
    + cbn [sub v_shape]. now rewrite SHV.
    + intros idx t V. rewrite SH in V. apply valid2 in V. destruct V as (i & r & t0 & -> & I & RR & V).
      unfold sub. cbn [v_place v_shape]. rewrite VP by exact V. destruct (i =? iit); [|discriminate].
      pose proof (PP t0 V) as S. destruct (P t0) as [t'|]; [|discriminate].
      cbn [option_map]. destruct (r =? irec); [|discriminate]. intros [= <-]. apply S.
    + rewrite AS. cbn [rbind].
      destruct (IH (irec + 1) arr1 FZ' (fun z' H => SUB z' (or_intror H)) ltac:(lia) ltac:(now rewrite SH1)) as (arr2 & RR & SH2 & AT2).
      exists arr2. split; [exact RR|]. split; [congruence|]. intros i r t I RBND V.
      rewrite AT2 by assumption. rewrite AT1 by (rewrite SH; now repeat constructor).
      unfold sub at 1. cbn [v_place]. rewrite VP by exact V. cbn [length].
      destruct (i =? iit); cbn [andb]; [|reflexivity].
      pose proof (PP t V) as S. destruct (P t) as [t'|].
      * destruct S as (-> & V' & VE & PS). rewrite !andb_true_r. cbn [option_map].
        destruct (Nat.eqb_spec r irec) as [->|NE].
        -- replace (irec + 1 <=? irec) with false by (symmetry; apply Nat.leb_gt; lia). cbn [andb].
           rewrite (proj2 (Nat.leb_le irec irec)), (proj2 (Nat.ltb_lt irec _)) by lia. cbn [andb].
           rewrite Nat.sub_diag. cbn [nth]. rewrite ATV, ATA by exact VE. now rewrite PS.
        -- destruct (Nat.leb_spec (irec + 1) r); destruct (Nat.leb_spec irec r); try lia; cbn [andb]; [|reflexivity].
           replace (irec + 1 + length zs) with (irec + S (length zs)) by lia.
           destruct (r <? irec + S (length zs)); [|reflexivity].
           replace (r - irec) with (S (r - (irec + 1))) by lia. reflexivity.
      * rewrite S, !andb_false_r. reflexivity.
Qed.

Lemma read_part fs name : dget fs name = Some bs ->
  exists arr', read_data N C8 C4 fs o od st name w ov = (fs, Ok arr') /\ shape arr' = shape (s_arr st) /\
    forall idx, valid_idx (shape (s_arr st)) idx -> at_ arr' idx = part_put (s_arr st) idx.
Proof.
  intros D. destruct RD as (SA & SP & SR & SN & SZ).
  unfold read_data. destruct (o_memmap o || match o_rec o with RecAll => true | _ => false end) eqn:ONCE.
  - rewrite ANY, SP, SR, SN, D.
    set (src := if o_memmap o then _ else _).
    assert (SRC : exists a, src = (fs, Ok a) /\ shape a = nrec :: ext
       /\ forall t, valid_idx (nrec :: ext) t -> at_ a t = local t).
    { unfold src. destruct (o_memmap o) eqn:MM.
      - apply mapped_file; [exact MM | exact D|]. destruct OK as (_ & _ & _ & _ & M). destruct (M MM) as (M1 & M2).
        assert (SE : size ext <> 0).
        { clear - M2. induction M2 as [|n l H M2 IH]; [discriminate|]. change (size (n :: l)) with (n * size l). nia. }
        nia.
      - cbn [orb] in ONCE. destruct whole_file as (a & R & S); [exact MM | now destruct (o_rec o) |]. exists a. rewrite R. auto. }
    clearbody src. destruct SRC as (a & -> & SHA & ATA). cbn [rbind].
    assert (AXR : axes (shape a) (rec_sel o :: tile_sel o (length ext) ov) = Ok (recsN :: sels)).
    { rewrite SHA. cbn [axes]. assert (AR : axis nrec (rec_sel o) = Ok recsN).
      { unfold rec_sel, wanted_recs. destruct OK as (RO & _). unfold recs_ok in RO. destruct (o_rec o); cbn [axis].
        - reflexivity.
        - now rewrite norm_indices_ok by (constructor; [exact RO|constructor]).
        - now rewrite norm_indices_ok. }
      rewrite AR. cbn [rbind]. rewrite AX. reflexivity. }
    destruct (select_ok a _ _ AXR) as (v & SL & SHV & ATV). rewrite SL. cbn [rbind].
    destruct (assign_same (s_arr st) w v) as (arr' & AS & SH' & AT').
    + rewrite SHV, VS. reflexivity.
    + intros idx t V E. rewrite SA in V. apply valid2 in V. destruct V as (i & r & t0 & -> & I & RR & V).
      rewrite VP in E by exact V. destruct (i =? iit); [|discriminate E].
      pose proof (PP t0 V) as S. destruct (P t0) as [t'|]; [|discriminate E].
      injection E as <-. rewrite VS. constructor; [exact RR|apply S].
    + exists arr'. rewrite AS. split; [reflexivity|]. split; [congruence|].
      intros idx V. rewrite AT' by exact V. rewrite SA in V. apply valid2 in V. destruct V as (i & r & t & -> & I & RR & V).
      cbn [part_put]. rewrite VP by exact V. destruct (i =? iit); cbn [andb]; [|reflexivity].
      pose proof (PP t V) as S. destruct (P t) as [t'|].
      * destruct S as (-> & V' & VE & PS). cbn [option_map]. rewrite ATV, pick_cons.
        rewrite ATA.
        -- cbn [local]. now rewrite PS.
        -- constructor; [|exact VE]. rewrite recs_index in *. rewrite map_length in RR.
           rewrite (nth_indep _ 0 (index_of nrec 0)) by (now rewrite map_length). rewrite map_nth.
           apply index_of_lt. pose proof recs_valid as RV. rewrite Forall_forall in RV. apply RV. now apply nth_In.
      * rewrite S. reflexivity.
  - rewrite D, SZ.
    destruct records_ok with (zs := recsZ) (irec := 0) (arr := s_arr st) as (arr' & R & SH' & AT').
    + apply orb_false_iff in ONCE. apply ONCE.
    + apply orb_false_iff in ONCE. destruct ONCE as (_ & ONCE). intros E. now rewrite E in ONCE.
    + apply recs_valid.
    + auto.
    + rewrite recs_index, map_length. lia.
    + exact SA.
    + exists arr'. rewrite R. split; [reflexivity|]. split; [congruence|].
      intros idx V. rewrite SA in V. apply valid2 in V. destruct V as (i & r & t & -> & I & RR & V).
      rewrite AT' by assumption. cbn [part_put]. rewrite Nat.sub_0_r. cbn [Nat.leb Nat.add andb].
      rewrite recs_index in RR. rewrite map_length in RR. rewrite (proj2 (Nat.ltb_lt _ _)) by exact RR. rewrite andb_true_r.
      rewrite recs_index. rewrite (nth_indep (map (index_of nrec) recsZ) 0 (index_of nrec 0)) by (now rewrite map_length). now rewrite map_nth.
Qed.
End Part.

Lemma records_missed st w ov : s_nrec st = nrec -> ov_any ov = false ->
  forall zs irec arr b, Forall (index_ok nrec) zs -> read_records N C8 C4 o st od b w ov irec zs arr = Ok arr.
Proof.
  intros SN ANY. induction zs as [|z zs IH]; intros irec arr b FZ; [reflexivity|].
  inversion FZ as [|? ? Z FZ']; subst. cbn [read_records]. rewrite ANY, SN.
  rewrite (proj2 (Z.ltb_ge _ _)); [now apply IH|].
  unfold index_ok in Z. apply Z.mul_nonneg_nonneg; [|lia]. destruct (Z.ltb_spec z 0); lia.
Qed.

Lemma read_data_ok nits iit st ov fs name :
  ready nits st -> plan lo = Ok ov -> dget fs name = Some bs ->
  exists w arr', slice_view (shape (s_arr st)) iit (ov_bounds ov) = Ok w /\
    read_data N C8 C4 fs o od st name w ov = (fs, Ok arr') /\ shape arr' = shape (s_arr st) /\
    forall idx, valid_idx (shape (s_arr st)) idx -> at_ arr' idx = updated iit (s_arr st) idx.
Proof.
  intros RD PL D. destruct (tile_plan lo LI LW) as (ov' & PL' & BL & YES & NO).
  rewrite PL in PL'. injection PL' as <-.
  destruct (view_ok nits iit ov BL) as (w & SV & VS & VP).
  destruct (ov_any ov) eqn:ANY.
  - destruct (YES eq_refl) as (sels & AX & AA).
    destruct (read_part A (in_tile lo ext) (in_slices (slices_of W (ov_bounds ov))) nits iit st w ov sels RD ANY AX) with (fs := fs) (name := name)
      as (arr' & R & SH & AT).
    + now rewrite VS, (axall_lengths _ _ _ _ _ AA).
    + intros i r t _. apply VP.
    + intros t V. pose proof (in_slices_ax _ _ _ _ _ AA t V) as S. destruct (in_tile lo ext (pick W t)).
      * destruct S as (t' & -> & V' & _ & PS & VE). split; [reflexivity|]. split; [rewrite (axall_lengths _ _ _ _ _ AA); exact V'|].
        split; [exact VE|]. intros r. now rewrite PS.
      * now rewrite S.
    + exact D.
    + exists w, arr'. destruct RD as (SA & _). rewrite SA in *. auto.
  - destruct RD as (SA & SP & SR & SN & SZ). exists w, (s_arr st). rewrite SA. split; [exact SV|].
    assert (R : read_data N C8 C4 fs o od st name w ov = (fs, Ok (s_arr st))).
    { unfold read_data. destruct (o_memmap o || match o_rec o with RecAll => true | _ => false end).
      - now rewrite ANY.
      - rewrite D, SZ, records_missed by (auto; apply recs_valid). reflexivity. }
    split; [exact R|]. split; [reflexivity|]. intros idx V.
    apply valid2 in V. destruct V as (i & r & t & -> & I & RR & V). cbn [updated].
    rewrite (NO eq_refl t V). now rewrite andb_false_r.
Qed.

End Tile.
