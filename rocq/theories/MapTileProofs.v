(** rdmds of tiles with map2glob. *)
From Coq Require Import Ascii String List Bool PeanoNat NArith ZArith Init.Byte Lia.
Import ListNotations.
From Verif Require Import Prelude PreludeFacts Num GridIO MdsMeta Mds SpecMds
  MdsTextFacts MdsParseFacts SpecGlob GlobFacts MdsScanFacts MdsFacts RdMds SpecRdMds TileTextFacts RdMdsFacts RdMdsProofs RdMdsCalls SpecMapTile.
Local Open Scope nat_scope.
Local Open Scope list_scope.
Local Arguments Nat.mul : simpl never.

(** * Places *)

(** A place holds an element of a tile exactly when its row and column do. *)
Lemma place_split js h w i0 c0 f : c0 + w <= js ->
  let r := (f - i0) / js in let c := (f - i0) mod js in
  if (i0 <=? f) && (f <? i0 + h * js) && (c0 <=? c) && (c <? c0 + w)
  then r < h /\ c - c0 < w /\ f = i0 + c0 + r * js + (c - c0)
  else forall y x, y < h -> x < w -> f <> i0 + c0 + y * js + x.
Proof.
  intros CW r c. destruct ((i0 <=? f) && (f <? i0 + h * js) && (c0 <=? c) && (c <? c0 + w)) eqn:E.
  - rewrite !andb_true_iff, !Nat.leb_le, !Nat.ltb_lt in E. destruct E as (((E1 & E2) & E3) & E4).
    assert (J : js <> 0) by lia. pose proof (Nat.div_mod (f - i0) js J) as D. fold r c in D.
    split; [|split; [lia|]].
    + apply (Nat.div_lt_upper_bound (f - i0) js h J). lia.
    + nia.
  - intros y x Y X ->. assert (J : js <> 0) by lia.
    assert (S : i0 + c0 + y * js + x - i0 = (c0 + x) + y * js) by lia.
    assert (C : c = c0 + x) by (unfold c; rewrite S, Nat.mod_add by exact J; apply Nat.mod_small; lia).
    apply not_true_iff_false in E. apply E. rewrite !andb_true_iff, !Nat.leb_le, !Nat.ltb_lt, C.
    assert (y * js + js <= h * js) by nia. lia.
Qed.

Lemma in_tile_add lo : forall ext idx, length lo = length ext -> valid_idx ext idx -> in_tile lo ext (add_idx lo idx) = true.
Proof.
  induction lo as [|l lo IH]; intros [|n ext] idx E V; try discriminate E; [now inversion V|].
  inversion V as [|i ? idx' ? I V']; subst. change (add_idx (l :: lo) (i :: idx')) with (l + i :: add_idx lo idx').
  cbn [in_tile]. rewrite (proj2 (Nat.leb_le _ _)), (proj2 (Nat.ltb_lt _ _)) by lia. cbn [andb]. apply IH; [now injection E|exact V'].
Qed.

Lemma in_tile_sub lo : forall ext g, length lo = length ext -> length g = length ext -> in_tile lo ext g = true ->
  valid_idx ext (sub_idx g lo) /\ g = add_idx lo (sub_idx g lo).
Proof.
  induction lo as [|l lo IH]; intros [|n ext] [|i g] E1 E2 T; try discriminate E1; try discriminate E2; [split; [constructor|reflexivity]|].
  cbn [in_tile] in T. rewrite !andb_true_iff, Nat.leb_le, Nat.ltb_lt in T. destruct T as ((A & B) & T).
  destruct (IH ext g) as (V & EG); [now injection E1 | now injection E2 | exact T|].
  change (sub_idx (i :: g) (l :: lo)) with (i - l :: sub_idx g lo). split; [constructor; [lia|exact V]|].
  change (add_idx (l :: lo) (i - l :: sub_idx g lo)) with (l + (i - l) :: add_idx lo (sub_idx g lo)). rewrite <- EG. f_equal. lia.
Qed.

Lemma has_place_spec td mp idx t : has_place td mp idx t = true <-> exists i, valid_idx (td_ext td) i /\ idx = placed td mp t i.
Proof.
  unfold has_place. rewrite existsb_exists. split.
  - intros (i & I & E). exists i. split; [now apply in_all_idx|]. now destruct (list_eq_dec _ _ _).
  - intros (i & V & ->). exists i. split; [now apply in_all_idx|]. now destruct (list_eq_dec _ _ _).
Qed.

Lemma has_place_plain td mp t idx : mp t = None -> length (snd t) = length (td_ext td) -> length idx = length (td_ext td) ->
  has_place td mp idx t = in_tile (snd t) (td_ext td) idx.
Proof.
  intros M L1 L2. apply eq_true_iff_eq. rewrite has_place_spec. unfold placed. rewrite M. split.
  - intros (i & V & ->). now apply in_tile_add.
  - intros T. exists (sub_idx idx (snd t)). now apply in_tile_sub.
Qed.

(** Rows and columns from the place along the rows. *)
Lemma flat_row nx f Y X : X < nx -> Y * nx + X = f -> Y = f / nx /\ X = f mod nx.
Proof.
  intros H <-. split.
  - apply (Nat.div_unique _ _ _ X); lia.
  - apply (Nat.mod_unique _ _ Y); lia.
Qed.

Lemma valid_app sh1 sh2 a b : length a = length sh1 -> valid_idx (sh1 ++ sh2) (a ++ b) <-> valid_idx sh1 a /\ valid_idx sh2 b.
Proof.
  revert sh1. induction a as [|x a IH]; intros [|n sh1] E; try discriminate E; cbn [app].
  - split; [intros V; split; [constructor|exact V] | tauto].
  - injection E as E. specialize (IH sh1 E). split.
    + intros V. inversion V; subst. destruct IH as (IH & _). destruct IH; [assumption|]. split; [constructor|]; assumption.
    + intros (V1 & V2). inversion V1; subst. constructor; [assumption|]. tauto.
Qed.

Lemma valid_split sh n1 n2 t : valid_idx (sh ++ [n1; n2]) t ->
  exists a y x, t = a ++ [y; x] /\ length a = length sh /\ valid_idx sh a /\ y < n1 /\ x < n2.
Proof.
  intros V. destruct (split_last2 t (length sh)) as (a & y & x & -> & L).
  { apply valid_length in V. rewrite V, app_length. reflexivity. }
  apply valid_app in V; [|exact L]. destruct V as (V1 & V2). inversion V2 as [|? ? ? ? Y V3]; subst. inversion V3; subst. eauto 8.
Qed.

Lemma app_inj_tail_2 {X} (a b : list X) p q r s : a ++ [p; q] = b ++ [r; s] -> a = b /\ [p; q] = [r; s].
Proof.
  intros E. assert (L : length a = length b).
  { apply (f_equal (@length X)) in E. rewrite !app_length in E. cbn [length] in E. lia. }
  split.
  - apply (f_equal (firstn (length a))) in E. rewrite firstn_app, firstn_all, Nat.sub_diag in E.
    rewrite L, firstn_app, firstn_all, Nat.sub_diag in E. cbn [firstn] in E. now rewrite !app_nil_r in E.
  - apply (f_equal (skipn (length a))) in E. rewrite skipn_app, skipn_all, Nat.sub_diag in E.
    rewrite L, skipn_app, skipn_all, Nat.sub_diag in E. exact E.
Qed.

(** * One tile *)
Section MapTile.
Context {F : Type} (N : numops F).
Variables (C8 C4 : codec F).
Hypothesis E8 : forall x, length (enc C8 x) = 8.
Hypothesis E4 : forall x, length (enc C4 x) = 4.
Variable float_of : text -> option F.
Variables (od : order) (td : tiled) (mp : tile_map) (o : rdopts F).
Hypothesis OK : options_ok o td.
Hypothesis NR : o_region o = None.

Notation W := (wanted o td).
Notation nlev := (length (o_lev o)).
Notation recsN := (wanted_recs o (td_nrec td)).
Notation ext := (td_ext td).
Notation nx := (td_nx td).
Notation ny := (td_ny td).

Definition lead_axes : list (list nat) :=
  level_axes (o_lev o) (firstn nlev (td_lead td)) ++ map (seq 0) (skipn nlev (td_lead td)).

Lemma wanted_lead : W = lead_axes ++ [seq 0 ny; seq 0 nx].
Proof.
  rewrite (wanted_split td o OK). unfold lead_axes. rewrite <- app_assoc. do 2 f_equal.
  unfold rows, cols, regw. rewrite NR. cbn [ri0 rie rj0 rje]. now rewrite !Z.sub_0_r, !Nat2Z.id.
Qed.

Lemma lead_length : length lead_axes = length (td_lead td).
Proof.
  unfold lead_axes, level_axes. rewrite app_length, map_length, combine_length, (lead_levels td o OK), map_length, skipn_length.
  destruct OK as (_ & H & _). lia.
Qed.

Lemma lead_plan lol ly lx exl ey ex : ext = exl ++ [ey; ex] -> length lol = length (td_lead td) -> length exl = length (td_lead td) ->
  Forall2 le (add_idx lol exl) (td_lead td) -> whole_levels td nlev (lol ++ [ly; lx]) ->
  exists sl, axes ext (map (fun l => Pick (lev_list l)) (o_lev o)) = Ok (sl ++ [seq 0 ey; seq 0 ex])
    /\ axall lead_axes lol exl (slices_of lead_axes (zbounds lol exl)) sl.
Proof.
  intros EE K1 K2 IN (WL & WE). destruct OK as (_ & LV & _). pose proof (lead_levels td o OK) as LL.
  pose proof (forall_levels td o OK) as FL. rewrite EE in *.
  unfold td_dims in WE.
  set (gl := firstn nlev (td_lead td)) in *. set (gm := skipn nlev (td_lead td)) in *.
  assert (GE : td_lead td = gl ++ gm) by (symmetry; apply firstn_skipn).
  rewrite firstn_app in WL, WE. replace (nlev - length lol) with 0 in WL by lia. replace (nlev - length exl) with 0 in WE by lia.
  rewrite firstn_app in WE. replace (nlev - length (td_lead td)) with 0 in WE by lia.
  cbn [firstn] in WL, WE. rewrite app_nil_r in WL. rewrite !app_nil_r in WE. fold gl in WE.
  set (lm := skipn nlev lol) in *. set (em := skipn nlev exl) in *.
  assert (LE : lol = repeat 0 nlev ++ lm) by (rewrite <- WL; symmetry; apply firstn_skipn).
  assert (EX : exl = gl ++ em) by (rewrite <- WE; symmetry; apply firstn_skipn).
  assert (M1 : length lm = length gm).
  { apply (f_equal (@length nat)) in LE. apply (f_equal (@length nat)) in GE.
    rewrite app_length, ?repeat_length in *. lia. }
  assert (M2 : length em = length gm).
  { apply (f_equal (@length nat)) in EX. apply (f_equal (@length nat)) in GE.
    rewrite app_length, ?repeat_length in *. lia. }
  clearbody lm em. subst lol exl.
  assert (RL : length (repeat 0 nlev) = length gl) by (now rewrite repeat_length).
  rewrite GE, !add_idx_app in IN by lia.
  apply Forall2_le_app in IN; [|rewrite add_idx_length; lia]. destruct IN as (_ & IM).
  exists (level_axes (o_lev o) gl ++ map (seq 0) em). split.
  - rewrite <- (app_nil_r (map _ _)), <- !app_assoc. apply axes_app; [apply axes_levels; [lia|exact FL] | rewrite map_length; lia |].
    change [seq 0 ey; seq 0 ex] with (map (seq 0) [ey; ex]). rewrite <- map_app. apply axes_nil.
  - unfold lead_axes. fold gl gm. rewrite zbounds_app by lia.
    assert (WLn : length (level_axes (o_lev o) gl) = nlev)
      by (unfold level_axes; rewrite map_length, combine_length; lia).
    rewrite slices_app by (rewrite zbounds_length; lia).
    apply axall_app; [apply (axall_levels (o_lev o) gl (eq_sym LL) FL) | now apply axall_mid].
Qed.

(** The part of the array that receives the tile. *)
Lemma mapped_view_ok nits iit lol ly lx exl ey ex a b :
  length lol = length (td_lead td) -> length exl = length (td_lead td) ->
  let m := (a, b) in let f0 := ly * nx + lx in
  (1 <= Z.of_nat ey)%Z -> (Z.of_nat ex <= row_step td m)%Z ->
  (Z.of_nat f0 + (Z.of_nat ey - 1) * row_step td m + Z.of_nat ex <= Z.of_nat ny * Z.of_nat nx)%Z ->
  (Z.of_nat ey * row_step td m <= Z.of_nat ny * Z.of_nat nx)%Z ->
  exists w i0 c0,
    mapped_view (F:=F) (nits :: length recsN :: map (@length nat) W) iit (zbounds (lol ++ [ly; lx]) (exl ++ [ey; ex])) [Vint a; Vint b] = Ok w
    /\ i0 + c0 = f0 /\ c0 + ex <= Z.to_nat (row_step td m)
    /\ v_shape w = length recsN :: map snd (slices_of lead_axes (zbounds lol exl)) ++ [ey; ex]
    /\ forall i r tl Y X, v_place w (i :: r :: tl ++ [Y; X])
       = if i =? iit
         then match in_slices (slices_of lead_axes (zbounds lol exl)) tl with
              | Some t => let js := Z.to_nat (row_step td m) in
                          let f := Y * nx + X in
                          let y := (f - i0) / js in let c := (f - i0) mod js in
                          if (i0 <=? f) && (f <? i0 + ey * js) && (c0 <=? c) && (c <? c0 + ex)
                          then Some (r :: t ++ [y; c - c0]) else None
              | None => None
              end
         else None.
Proof.
  intros K1 K2 m f0 H1 H2 H3 H4. unfold mapped_view.
  assert (SH : nits :: length recsN :: map (@length nat) W
     = (nits :: length recsN :: map (@length nat) lead_axes) ++ [ny; nx]).
  { rewrite wanted_lead, map_app. cbn [map app]. now rewrite !seq_length. }
  rewrite SH. rewrite zbounds_app by lia. rewrite !rev_last2.
  change (zbounds [ly; lx] [ey; ex]) with [(Z.of_nat ly, (Z.of_nat ly + Z.of_nat ey)%Z); (Z.of_nat lx, (Z.of_nat lx + Z.of_nat ex)%Z)].
  rewrite !rev_last2. unfold map_entry. cbn [nth_error as_int rbind fst snd].
  change (b * Z.of_nat nx + a)%Z with (row_step td m).
  set (js := row_step td m) in *.
  replace (Z.of_nat ly + Z.of_nat ey - Z.of_nat ly)%Z with (Z.of_nat ey) by lia.
  set (n := (Z.of_nat ey * js)%Z) in *. set (i0 := Z.min _ _). set (ioff := (Z.of_nat nx * Z.of_nat ly - i0)%Z).
  assert (F0 : Z.of_nat f0 = (Z.of_nat lx + Z.of_nat nx * Z.of_nat ly)%Z) by (unfold f0; nia).
  assert (I0 : (0 <= i0 <= Z.of_nat f0)%Z) by (unfold i0; lia).
  assert (N0 : (0 <= n)%Z) by (unfold n; nia).
  assert (IC : (ioff + Z.of_nat lx = Z.of_nat f0 - i0)%Z) by (unfold ioff; lia).
  assert (CW : (Z.of_nat f0 - i0 + Z.of_nat ex <= js)%Z).
  { unfold i0. rewrite <- F0. destruct (Z.min_spec (Z.of_nat f0) (Z.of_nat nx * Z.of_nat ny - n)) as [(M & ->)|(M & ->)]; [lia|].
    assert (n = (Z.of_nat ey - 1) * js + js)%Z by (unfold n; lia). lia. }
  rewrite !(proj2 (Z.ltb_ge _ _)) by lia. cbn [orb].
  rewrite app_length. replace (length (nits :: length recsN :: map (@length nat) lead_axes) + length [ny; nx] - 2)
    with (length (nits :: length recsN :: map (@length nat) lead_axes) + 0) by (cbn; lia).
  rewrite firstn_app_2. cbn [firstn]. rewrite app_nil_r, rev_involutive.
  unfold slice_view. rewrite map_length, zbounds_length, K1, lead_length, Nat.ltb_irrefl by lia. cbn [rbind v_shape v_place].
  exists (mk_view (length recsN :: map snd (slices_of lead_axes (zbounds lol exl)) ++ [ey; ex])
    (fun idx => match rev idx with
      | X :: Y :: lead => match (match rev lead with
          | i :: r :: t => if i =? iit then option_map (cons r) (in_slices (slices_of lead_axes (zbounds lol exl)) t) else None
          | _ => None end) with
        | Some t => let f := Y * nx + X in
            let y := (f - Z.to_nat i0) / Z.to_nat js in let c := (f - Z.to_nat i0) mod Z.to_nat js in
            if (Z.to_nat i0 <=? f) && (f <? Z.to_nat i0 + Z.to_nat n) && (Z.to_nat (ioff + Z.of_nat lx) <=? c)
               && (c <? Nat.min (Z.to_nat js) (Z.to_nat (ioff + (Z.of_nat lx + Z.of_nat ex)))) then Some (t ++ [y; c - Z.to_nat (ioff + Z.of_nat lx)]) else None
        | None => None end
      | _ => None end)).
  exists (Z.to_nat i0), (Z.to_nat (Z.of_nat f0 - i0)). cbn [v_shape v_place]. split; [|split; [|split; [|split]]].
  - f_equal. f_equal.
    + rewrite skipn_all2 by (rewrite map_length, lead_length; lia). rewrite app_nil_r. cbn [app].
      f_equal. f_equal. f_equal; [lia|]. f_equal. lia.
  - lia.
  - lia.
  - reflexivity.
  - intros i r tl Y X. change (i :: r :: tl ++ [Y; X]) with ((i :: r :: tl) ++ [Y; X]).
    rewrite rev_last2, rev_involutive. destruct (i =? iit); [|reflexivity].
    destruct (in_slices (slices_of lead_axes (zbounds lol exl)) tl) as [t|]; [|reflexivity]. cbn [option_map].
    rewrite IC. replace (Z.to_nat n) with (ey * Z.to_nat js) by (unfold n; lia).
    replace (Nat.min (Z.to_nat js) (Z.to_nat (ioff + (Z.of_nat lx + Z.of_nat ex)))) with (Z.to_nat (Z.of_nat f0 - i0) + ex) by lia.
    reflexivity.
Qed.

(** The field as a tile sees it. *)
Definition seen (A : list nat -> F) (t : text * list nat) (g : list nat) : F :=
  match g with r :: idx => A (r :: placed td mp t idx) | [] => A [] end.

Lemma add_zeros n idx : length idx = n -> add_idx (repeat 0 n) idx = idx.
Proof.
  intros <-. unfold add_idx. induction idx as [|i idx IH]; [reflexivity|]. cbn [length repeat combine map fst snd]. now rewrite IH.
Qed.

Lemma content_seen (A : list nat -> F) t : placed_content td mp A t = tile_content td (seen A t) (repeat 0 (length ext)).
Proof.
  unfold placed_content, tile_content. apply flat_map_ext. intros r. apply map_ext_in. intros idx I.
  apply in_all_idx in I. cbn [seen]. rewrite add_zeros; [reflexivity|]. now apply valid_length.
Qed.

Definition placed_meta (step : option Z) (t : text * list nat) : filemeta (F:=F) :=
  mk_filemeta (mk_tilemeta (map Z.of_nat (td_dims td)) (map Z.of_nat (snd t))
          (map (fun p => Z.of_nat (fst p) + Z.of_nat (snd p))%Z (combine (snd t) ext)) (common_meta td)
          (match mp t with Some _ => true | None => false end))
        (option_map (fun z => [Vint z]) step) None (option_map (fun ab => [Vint (fst ab); Vint (snd ab)]) (mp t)).

Lemma pick_seqs n t : t < n -> nth t (seq 0 n) 0 = t.
Proof. intros H. now rewrite seq_nth by exact H. Qed.

Notation kept := (kept C8 C4 (td_prec td) od).
Notation keep A := (fun g => kept (A g)).

(** The data of a tile with map2glob. *)
Lemma read_mapped nits iit fs name t m (A : list nat -> F) st : mp t = Some m -> tile_placed td mp t ->
  whole_levels td nlev (snd t) ->
  dget fs name = Some (flat_map (enc_item C8 C4 (td_prec td) od) (placed_content td mp A t)) ->
  ready td o nits st ->
  exists w arr', mapped_view (F:=F) (shape (s_arr st)) iit (zbounds (snd t) ext) [Vint (fst m); Vint (snd m)] = Ok w /\
    read_data N C8 C4 fs o od st name w (mk_overlap (zbounds (snd t) ext) None true) = (fs, Ok arr') /\
    shape arr' = shape (s_arr st) /\
    forall idx, valid_idx (shape (s_arr st)) idx ->
      at_ arr' idx = put td o (fun t idx => has_place td mp idx t) (keep A) t iit (s_arr st) idx.
Proof.
  intros M TP WL D RD. unfold tile_placed in TP. rewrite M in TP. destruct TP as (L1 & L2 & IN & H1 & H2 & H3 & H4).
  destruct (split_last2 (snd t) _ L1) as (lol & ly & lx & EL & K1).
  destruct (split_last2 ext _ L2) as (exl & ey & ex & EE & K2).
  assert (FL : first_place td (snd t) = ly * nx + lx).
  { unfold first_place. rewrite EL, <- K1, !app_nth2, Nat.sub_diag by lia. now replace (S (length lol) - length lol) with 1 by lia. }
  assert (NE : nth (length (td_lead td)) ext 0 = ey /\ nth (S (length (td_lead td))) ext 0 = ex).
  { rewrite EE, <- K2, !app_nth2, Nat.sub_diag by lia. now replace (S (length exl) - length exl) with 1 by lia. }
  destruct NE as (NY & NX). rewrite NY in *. rewrite NX in *.
  rewrite EL, EE in IN. rewrite <- K1 in IN at 1. rewrite <- K2 in IN at 1. rewrite !firstn_app, !firstn_all, !Nat.sub_diag in IN.
  cbn [firstn] in IN. rewrite !app_nil_r in IN. rewrite FL in H3. rewrite EL in WL.
  destruct (lead_plan lol ly lx exl ey ex EE K1 K2 IN WL) as (sl & AX & AA).
  destruct m as (a & b). cbn [fst snd].
  destruct (mapped_view_ok nits iit lol ly lx exl ey ex a b K1 K2 H1 H2 H3 H4) as (w & i0 & c0 & MV & F0 & CW & VS & VP).
  destruct RD as (SA & RD'). rewrite SA. exists w.
  assert (LS : length sl = length lead_axes).
  { pose proof (axall_lengths _ _ _ _ _ AA) as E. apply (f_equal (@length nat)) in E.
    rewrite !map_length in E. unfold slices_of in E. rewrite map_length, combine_length, map_length, zbounds_length in E by lia.
    pose proof lead_length. lia. }
  destruct (read_part N C8 C4 od td o OK (keep (seen A t)) (repeat 0 (length ext)) (flat_map (enc_item C8 C4 (td_prec td) od) (placed_content td mp A t)))
    with (B := keep A) (cov := fun idx => has_place td mp idx t)
      (P := fun idx => match rev idx with
         | X :: Y :: l => match in_slices (slices_of lead_axes (zbounds lol exl)) (rev l) with
              | Some t' => let js := Z.to_nat (row_step td (a, b)) in
                          let f := Y * nx + X in
                          let y := (f - i0) / js in let c := (f - i0) mod js in
                          if (i0 <=? f) && (f <? i0 + ey * js) && (c0 <=? c) && (c <? c0 + ex)
                          then Some (t' ++ [y; c - c0]) else None
              | None => None end
         | _ => None end)
      (nits := nits) (iit := iit) (st := st) (w := w) (ov := mk_overlap (zbounds (snd t) ext) None true) (sels := sl ++ [seq 0 ey; seq 0 ex])
      (fs := fs) (name := name) as (arr' & R & SH & AT).
  - rewrite content_seen. apply (encoded_readable C8 C4 E8 E4). apply OK.
  - split; [exact SA|exact RD'].
  - reflexivity.
  - unfold tile_sel. cbn [ov_sel]. exact AX.
  - rewrite VS, <- (axall_lengths _ _ _ _ _ AA), map_app. cbn [map]. now rewrite !seq_length.
  - intros i r idx V. rewrite wanted_lead, map_app in V. cbn [map] in V. rewrite !seq_length in V.
    apply valid_split in V. destruct V as (tl & Y & X & -> & _). rewrite VP, rev_last2, rev_involutive.
    destruct (i =? iit); [|reflexivity]. destruct (in_slices _ tl) as [t'|]; [|reflexivity]. cbv zeta.
    destruct (_ && _ && _ && _); reflexivity.
  - intros idx V. pose proof V as V0. rewrite wanted_lead, map_app in V. cbn [map] in V. rewrite !seq_length in V.
    apply valid_split in V. destruct V as (tl & Y & X & -> & LT & VL & YB & XB). rewrite map_length in LT.
    rewrite rev_last2, rev_involutive.
    assert (PW : pick W (tl ++ [Y; X]) = pick lead_axes tl ++ [Y; X]).
    { rewrite wanted_lead, pick_app by lia. f_equal. rewrite !pick_cons. cbn [pick combine map].
      now rewrite !pick_seqs. }
    rewrite PW. pose proof (in_slices_ax _ _ _ _ _ AA tl VL) as SX.
    pose proof (place_split (Z.to_nat (row_step td (a, b))) ey ex i0 c0 (Y * nx + X) CW) as Q. cbv zeta in Q.
    set (js := Z.to_nat (row_step td (a, b))) in *.
    assert (NO : (forall i, valid_idx ext i -> pick lead_axes tl ++ [Y; X] <> placed td mp t i)
        -> has_place td mp (pick lead_axes tl ++ [Y; X]) t = false).
    { intros H. apply not_true_iff_false. rewrite has_place_spec. intros (i & VI & E). exact (H i VI E). }
    assert (PL : forall il y x, length il = length exl ->
       placed td mp t (il ++ [y; x]) = let f := ly * nx + lx + y * js + x in add_idx lol il ++ [f / nx; f mod nx]).
    { intros il y x IL. unfold placed. rewrite M, FL, EL. fold js.
      rewrite <- K1 at 1. rewrite <- K2, <- IL. rewrite !firstn_app, !firstn_all, !Nat.sub_diag. cbn [firstn]. rewrite !app_nil_r.
      rewrite !app_nth2, Nat.sub_diag by lia. now replace (S (length il) - length il) with 1 by lia. }
    destruct (in_tile lol exl (pick lead_axes tl)) eqn:IT.
    + destruct SX as (t' & -> & VT & _ & PS & VE). cbv zeta.
      destruct (_ && _ && _ && _).
      * destruct Q as (Q1 & Q2 & Q3).
        set (y := (Y * nx + X - i0) / js) in *. set (x := (Y * nx + X - i0) mod js - c0) in *.
        assert (LT' : length t' = length sl).
        { apply valid_length in VT. rewrite VT, <- (axall_lengths _ _ _ _ _ AA). now rewrite map_length. }
        assert (PK : pick (sl ++ [seq 0 ey; seq 0 ex]) (t' ++ [y; x]) = pick sl t' ++ [y; x]).
        { rewrite pick_app by lia. f_equal. rewrite !pick_cons. cbn [pick combine map]. now rewrite !pick_seqs. }
        assert (VX : valid_idx ext (pick sl t' ++ [y; x])).
        { rewrite EE. apply valid_app; [now apply valid_length|]. split; [exact VE|]. repeat constructor; assumption. }
        assert (HP : placed td mp t (pick sl t' ++ [y; x]) = pick lead_axes tl ++ [Y; X]).
        { rewrite PL by (now apply valid_length). cbv zeta. rewrite PS. f_equal.
          destruct (flat_row nx (ly * nx + lx + y * js + x) Y X XB) as (<- & <-); [lia|reflexivity]. }
        split; [|split; [|split]].
        -- apply has_place_spec. exists (pick sl t' ++ [y; x]). split; [exact VX|now symmetry].
        -- rewrite map_app. apply valid_app; [rewrite map_length; lia|]. split.
           ++ rewrite (axall_lengths _ _ _ _ _ AA). exact VT.
           ++ cbn [map]. rewrite !seq_length. repeat constructor; assumption.
        -- rewrite PK. exact VX.
        -- intros r. rewrite PK, add_zeros by (now apply valid_length). cbn [seen]. now rewrite HP.
      * apply NO. intros i VI E. rewrite EE in VI. apply valid_split in VI. destruct VI as (il & y & x & -> & IL & VI & YI & XI).
        rewrite PL in E by exact IL. cbv zeta in E. apply app_inj_tail_2 in E.
        destruct E as (E1 & E2). injection E2 as EY EX. apply (Q y x YI XI).
        assert (XN : nx <> 0) by lia. pose proof (Nat.div_mod (ly * nx + lx + y * js + x) nx XN) as DM.
        rewrite <- EY, <- EX in DM. lia.
    + rewrite SX. apply NO. intros i VI E. rewrite EE in VI. apply valid_split in VI. destruct VI as (il & y & x & -> & IL & VI & YI & XI).
      rewrite PL in E by exact IL. cbv zeta in E. apply app_inj_tail_2 in E. destruct E as (E1 & _).
      rewrite E1, in_tile_add in IT; [discriminate IT | lia | exact VI].
  - exact D.
  - exists arr'. rewrite EL, EE in *. rewrite SA in *. split; [exact MV|]. split; [exact R|]. split; [exact SH|exact AT].
Qed.

Hypothesis IN : Forall (fun t => tile_placed td mp t /\ whole_levels td nlev (snd t)) (td_tiles td).

Notation files := (fun fs base step A => exists A0, placed_files C8 C4 fs base od td mp step A0 /\ A = (keep A0)).

Lemma placed_lengths t : tile_placed td mp t -> length (snd t) = length (td_dims td) /\ length ext = length (td_dims td).
Proof.
  unfold tile_placed, td_dims. rewrite app_length. cbn [length]. destruct (mp t); [tauto|].
  intros (H1 & H2 & _). unfold td_dims in H1, H2. rewrite app_length in H1, H2. auto.
Qed.

Lemma read_placed_at nits iit fs q step A name lo st fm : In (name, lo) (td_tiles td) ->
  dget fs (q ++ lit ".meta") = Some (text_bytes (tile_text (placed_heading td mp step (name, lo)))) ->
  dget fs (q ++ lit ".data") = Some (flat_map (enc_item C8 C4 (td_prec td) od) (placed_content td mp A (name, lo))) ->
  good td o nits st ->
  exists arr', read_tile_full N C8 C4 float_of o od nits iit (fs, st, fm) (q ++ lit ".meta")
     = (fs, Ok (fs, Some (with_arr td o nits arr'), Some (placed_meta step (name, lo))))
   /\ shape arr' = nits :: length recsN :: map (@length nat) W
   /\ forall idx, valid_idx (shape arr') idx ->
        at_ arr' idx = put td o (fun t idx => has_place td mp idx t) (keep A) (name, lo) iit (arr_of td o nits st) idx.
Proof.
  intros I DM DD G.
  rewrite Forall_forall in IN. destruct (IN _ I) as (TP & LW). cbn [snd] in LW.
  destruct (placed_lengths _ TP) as (L1 & L2). cbn [snd] in L1.
  unfold read_tile_full. rewrite DM, byte_text_bytes. unfold placed_heading. rewrite readmeta_mapped by assumption.
  cbn [rbind fm_tile tm_meta snd].
  set (st1 := match st with None => init_full _ _ _ | Some s => _ end).
  assert (E1 : st1 = Ok (with_arr td o nits (arr_of td o nits st))).
  { unfold st1. destruct st as [s|]; cbn [good arr_of] in *.
    - destruct G as (-> & _). cbn [s_meta with_arr]. now rewrite common_meta_eqb.
    - rewrite init_lengths by assumption. reflexivity. }
  rewrite E1. clear E1 st1. cbn [rbind fm_map tm_i0s tm_ies].
  assert (SHP : shape (arr_of td o nits st) = nits :: length recsN :: map (@length nat) W)
    by (destruct st as [s|]; [apply G|reflexivity]).
  set (arr := arr_of td o nits st) in *. clearbody arr. rewrite NR. cbn [rbind ov_bounds].
  fold (zbounds lo ext).
  assert (RDY : ready td o nits (with_arr td o nits arr)) by (repeat split; assumption).
  destruct (mp (name, lo)) as [m|] eqn:M; cbn [option_map].
  - destruct (read_mapped nits iit fs (q ++ lit ".data") (name, lo) m A (with_arr td o nits arr) M TP LW DD RDY)
      as (w & arr' & MV & RD & SH & AT).
    cbn [s_arr with_arr snd] in *. rewrite MV. cbn [rbind].
    rewrite data_name, RD. cbn [rbind]. exists arr'.
    unfold placed_meta. rewrite M. cbn [option_map snd].
    split; [reflexivity|]. split; [congruence|]. intros idx V. apply AT. congruence.
  - unfold tile_placed in TP. rewrite M in TP. cbn [snd] in TP.
    destruct (tile_plan td o OK lo TP LW) as (ov & PL & _). pose proof PL as PL'. unfold plan in PL'. rewrite NR in PL'. injection PL' as <-.
    assert (EC : placed_content td mp A (name, lo) = tile_content td A lo).
    { unfold placed_content, tile_content, placed. now rewrite M. }
    rewrite EC in DD.
    destruct (read_data_ok N C8 C4 od td o OK (keep A) lo TP LW _ (encoded_readable C8 C4 E8 E4 od td o A lo ltac:(apply OK)) nits iit
       (with_arr td o nits arr) _ fs (q ++ lit ".data") RDY PL DD) as (w & arr' & SV & RD & SH & AT).
    cbn [s_arr with_arr ov_bounds] in *. rewrite SV. cbn [rbind].
    rewrite data_name, RD. cbn [rbind]. exists arr'.
    unfold placed_meta. rewrite M. cbn [option_map snd].
    split; [reflexivity|]. split; [congruence|]. intros idx V. rewrite AT by congruence.
    rewrite SH, SHP in V. apply valid2 in V. destruct V as (i & r & k & -> & _ & _ & V). cbn [updated put].
    rewrite (has_place_plain td mp (name, lo)); [reflexivity | exact M | cbn [snd]; lia |].
    assert (LK : length k = length W) by (apply valid_length in V; now rewrite V, map_length).
    rewrite pick_length by lia. rewrite L2, wanted_lead. unfold td_dims. rewrite !app_length, lead_length. reflexivity.
Qed.

Lemma read_placed nits iit fs base step A name lo st fm : In (name, lo) (td_tiles td) ->
  placed_files C8 C4 fs base od td mp step A -> good td o nits st ->
  exists arr', read_tile_full N C8 C4 float_of o od nits iit (fs, st, fm) (base ++ name ++ lit ".meta")
     = (fs, Ok (fs, Some (with_arr td o nits arr'), Some (placed_meta step (name, lo))))
   /\ shape arr' = nits :: length recsN :: map (@length nat) W
   /\ forall idx, valid_idx (shape arr') idx ->
        at_ arr' idx = put td o (fun t idx => has_place td mp idx t) (keep A) (name, lo) iit (arr_of td o nits st) idx.
Proof.
  intros I TF G. destruct (TF name lo I) as (DM & DD). rewrite (app_assoc base) in DM, DD. rewrite (app_assoc base).
  now apply read_placed_at.
Qed.

Theorem rdmds_placed fs fname it mf itrs step (A : nat -> list nat -> F) : plain_name fname ->
  itr_list fs fname it = Ok itrs -> typeprefix mf = Some od -> itrs <> [] ->
  (forall i z, nth_error itrs i = Some z ->
     placed_files C8 C4 fs (base_of fname (adds it) z) od td mp (step i) (A i)
     /\ listed (names fs) (base_of fname (adds it) z) td) ->
  shape_ok o td (it_is_list it) (length itrs) ->
  exists arr steps,
    rdmds_full N C8 C4 float_of fs fname it mf o
    = (fs, Ok (arr, itrs, meta_result (mk_rdacc (Some (start td o (length itrs))) steps [])))
    /\ steps = flat_map (fun i => match step i with Some z => [Vint z] | None => [] end) (seq 0 (length itrs))
    /\ shape arr = result_shape o td (it_is_list it) (length itrs)
    /\ ravel arr = flat_map (fun i => map (placed_element o td mp (keep (A i))) (product (recsN :: W)))
                     (seq 0 (length itrs)).
Proof.
  intros PF IT TP NE FI DK.
  apply (rdmds_loop N C8 C4 float_of od td o OK (fun t idx => has_place td mp idx t)
    (fun fs base step A => exists A0, placed_files C8 C4 fs base od td mp step A0 /\ A = (keep A0)) placed_meta); auto.
  - intros fs' base step' A' name lo (A0 & TF & _) I. destruct (TF name lo I) as (DM & _). eauto.
  - intros nits iit fs' base step' A' name lo st fm I (A0 & TF & ->) G. now apply read_placed.
  - intros i z E. destruct (FI i z E) as (H1 & H2). split; [|exact H2]. exists (A i). auto.
Qed.
End MapTile.

(** * Regions *)
Lemma mapped_region_refused {F} (N : numops F) C8 C4 float_of od td mp (o : rdopts F) nits iit fs base step t st fm m :
  options_ok o td -> o_region o <> None -> mp t = Some m ->
  length (snd t) = length (td_dims td) -> length (td_ext td) = length (td_dims td) ->
  dget fs (base ++ fst t ++ lit ".meta") = Some (text_bytes (tile_text (placed_heading td mp step t))) ->
  good td o nits st ->
  read_tile_full N C8 C4 float_of o od nits iit (fs, st, fm) (base ++ fst t ++ lit ".meta")
  = (fs, Err (RuntimeError "Region selection is not implemented for map2glob")).
Proof.
  intros OK R M L1 L2 DM G.
  unfold read_tile_full. rewrite DM, byte_text_bytes. unfold placed_heading. rewrite readmeta_mapped by assumption.
  cbn [rbind fm_tile tm_meta snd].
  set (st1 := match st with None => init_full _ _ _ | Some s => _ end).
  assert (E1 : exists s, st1 = Ok s).
  { unfold st1. destruct st as [s|]; cbn [good] in *.
    - destruct G as (-> & _). cbn [s_meta with_arr]. rewrite common_meta_eqb. eauto.
    - rewrite init_lengths by assumption. eauto. }
  destruct E1 as (s & ->). rewrite M. cbn [rbind fm_map option_map]. destruct (o_region o); [reflexivity|now elim R].
Qed.

Section Refused.
Context {F : Type} (N : numops F).
Variables (C8 C4 : codec F).
Hypothesis E8 : forall x, length (enc C8 x) = 8.
Hypothesis E4 : forall x, length (enc C4 x) = 4.
Variable float_of : text -> option F.
Variables (od : order) (td : tiled) (mp : tile_map) (o : rdopts F).
Hypothesis OK : options_ok o td.
Hypothesis RG : o_region o <> None.
Hypothesis IN : Forall (fun t => tile_placed td mp t /\ whole_levels td (length (o_lev o)) (snd t)) (td_tiles td).

(** The tiles without map2glob. *)
Definition plain_part : tiled :=
  mk_tiled (td_lead td) (td_ny td) (td_nx td) (td_nrec td) (td_prec td) (td_ext td)
    (filter (fun t => match mp t with None => true | Some _ => false end) (td_tiles td)).

Lemma plain_in t : In t (td_tiles plain_part) <-> In t (td_tiles td) /\ mp t = None.
Proof. cbn [plain_part td_tiles]. rewrite filter_In. destruct (mp t); intuition discriminate. Qed.

Lemma tiles_refused nits iit fs base step A : placed_files C8 C4 fs base od td mp step A ->
  forall l st fm, (forall t, In t l -> In t (td_tiles td)) -> (exists t, In t l /\ mp t <> None) -> good td o nits st ->
  foldD (tiles_body N C8 C4 float_of o od nits iit) (map (fun t => base ++ fst t ++ lit ".meta") l) (fs, (st, fm))
  = (fs, Err (RuntimeError "Region selection is not implemented for map2glob")).
Proof.
  intros TF. induction l as [|[name lo] l IH]; intros st fm SUB (t & IT & MT) G; [destruct IT|].
  cbn [map foldD fst]. unfold tiles_body at 1. pose proof (SUB _ (or_introl eq_refl)) as I.
  rewrite Forall_forall in IN. destruct (IN _ I) as (TP & LW).
  destruct (placed_lengths td mp _ TP) as (L1 & L2).
  destruct (mp (name, lo)) as [m|] eqn:M.
  - pose proof (mapped_region_refused N C8 C4 float_of od td mp o nits iit fs base step (name, lo) st fm m OK RG M L1 L2
      (proj1 (TF name lo I)) G) as R. cbn [fst] in R.
    match type of R with ?l = _ => match goal with |- context [read_tile_full ?a ?b ?c ?d ?e ?f ?g ?h ?s ?x] =>
      change (read_tile_full a b c d e f g h s x) with l end end. rewrite R.
    reflexivity.
  - assert (PF : tile_files C8 C4 fs base od plain_part o step (fun g => kept C8 C4 (td_prec td) od (A g))).
    { intros nm l' J. apply plain_in in J. destruct J as (J & MJ). destruct (TF nm l' J) as (DM & DD).
      unfold placed_heading in DM. rewrite MJ in DM. split; [exact DM|]. eexists. split; [exact DD|].
      assert (EC : placed_content td mp A (nm, l') = tile_content td A l').
      { unfold placed_content, tile_content, placed. now rewrite MJ. }
      rewrite EC. apply (encoded_readable C8 C4 E8 E4 od plain_part o A l'). apply OK. }
    assert (PI : Forall (fun t => tile_inside plain_part (snd t) /\ whole_levels plain_part (length (o_lev o)) (snd t)) (td_tiles plain_part)).
    { apply Forall_forall. intros t' J. apply plain_in in J. destruct J as (J & MJ). destruct (IN _ J) as (TJ & WJ).
      unfold tile_placed in TJ. rewrite MJ in TJ. split; [exact TJ|exact WJ]. }
    destruct (read_tile_ok N C8 C4 float_of od plain_part o OK PI nits iit fs base step _ name lo st fm
      (proj2 (plain_in _) (conj I M)) PF G) as (arr' & R & SH & _).
    match type of R with ?l = _ => match goal with |- context [read_tile_full ?a ?b ?c ?d ?e ?f ?g ?h ?s ?x] =>
      change (read_tile_full a b c d e f g h s x) with l end end. rewrite R.
    apply (IH (Some (with_arr plain_part o nits arr')) (Some (file_meta plain_part step lo))).
    + intros t' J. apply SUB. now right.
    + destruct IT as [<-|IT]; [congruence|]. eauto.
    + split; [reflexivity|exact SH].
Qed.

Theorem rdmds_region_refused fs fname it mf z itrs step A : plain_name fname ->
  itr_list fs fname it = Ok (z :: itrs) -> typeprefix mf = Some od ->
  placed_files C8 C4 fs (base_of fname (adds it) z) od td mp step A ->
  listed (names fs) (base_of fname (adds it) z) td ->
  (exists t, In t (td_tiles td) /\ mp t <> None) ->
  rdmds_full N C8 C4 float_of fs fname it mf o
  = (fs, Err (RuntimeError "Region selection is not implemented for map2glob")).
Proof.
  intros PF IT TP TF LS (t & I & MT). unfold rdmds_full. rewrite IT, TP. cbn [length seq combine foldD].
  unfold iter_body at 1. cbn [snd fst]. fold (base_of fname (adds it) z). set (base := base_of fname (adds it) z) in *.
  destruct (listing_ok td fs base) as (l & ML & NE & SAME); [now apply base_of_plain | | exact LS |].
  { intros name lo I'. destruct (TF name lo I') as (DM & _). eauto. }
  match goal with |- context [metafiles_of fs ?b] => change b with base end. rewrite ML. cbn [a_state].
  rewrite (tiles_refused (S (length itrs)) 0 fs base step A TF l None None).
  - reflexivity.
  - intros t' J. now apply SAME.
  - exists t. split; [now apply SAME|exact MT].
  - exact Logic.I.
Qed.
End Refused.

(** * Nothing moved *)

(** A step of one row is what tiles without map2glob do. *)
Lemma placed_unit td mp t idx : mp t = Some (0, 1)%Z -> tile_inside td (snd t) -> valid_idx (td_ext td) idx ->
  placed td mp t idx = add_idx (snd t) idx.
Proof.
  intros M (L1 & L2 & IN) V. unfold td_dims in L1, L2, IN. rewrite app_length in L1, L2. cbn [length] in L1, L2.
  destruct (split_last2 _ _ L1) as (lol & ly & lx & EL & K1). destruct (split_last2 _ _ L2) as (exl & ey & ex & EE & K2).
  rewrite EL, EE in IN. rewrite EE in V. apply valid_split in V. destruct V as (il & y & x & -> & IL & V & Y & X).
  rewrite add_idx_app in IN by lia. apply Forall2_le_app in IN; [|rewrite add_idx_length; lia]. destruct IN as (_ & IN).
  change (add_idx [ly; lx] [ey; ex]) with [ly + ey; lx + ex] in IN.
  inversion IN as [|? ? ? ? IY I2]; subst. inversion I2 as [|? ? ? ? IX _]; subst.
  unfold placed. rewrite M, EL. unfold first_place, row_step. cbn [fst snd].
  rewrite add_idx_app by lia. change (add_idx [ly; lx] [y; x]) with [ly + y; lx + x].
  assert (EQ : length lol = length (td_lead td) /\ length il = length (td_lead td)) by lia. destruct EQ as (Q1 & Q2).
  set (k := length (td_lead td)) in *.
  assert (F1 : firstn k (lol ++ [ly; lx]) = lol) by (rewrite <- Q1, firstn_app, firstn_all, Nat.sub_diag; apply app_nil_r).
  assert (F2 : firstn k (il ++ [y; x]) = il) by (rewrite <- Q2, firstn_app, firstn_all, Nat.sub_diag; apply app_nil_r).
  assert (NT : forall l (p q : nat), length l = k -> nth k (l ++ [p; q]) 0 = p /\ nth (S k) (l ++ [p; q]) 0 = q).
  { intros l p q <-. rewrite !app_nth2, Nat.sub_diag by lia. now replace (S (length l) - length l) with 1 by lia. }
  destruct (NT lol ly lx Q1) as (-> & ->). destruct (NT il y x Q2) as (-> & ->). rewrite F1, F2.
  rewrite Z.mul_1_l, Z.add_0_r, Nat2Z.id. f_equal.
  destruct (flat_row (td_nx td) (ly * td_nx td + lx + y * td_nx td + x) (ly + y) (lx + x)) as (<- & <-); [lia | lia | reflexivity].
Qed.
