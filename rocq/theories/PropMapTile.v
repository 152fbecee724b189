(** Property C70: rdmds of tiles with a map2glob entry. *)
From Coq Require Import Ascii String List Bool PeanoNat ZArith Init.Byte Lia.
From Flocq Require Import IEEE754.Binary IEEE754.Bits.
Import ListNotations.
From Verif Require Import Prelude PreludeFacts Num Mat Fields GridIO Float64 Float64Facts
  Float32 Float32Facts GridIOFacts MdsMeta Mds SpecMds SpecGlob GlobFacts MdsScanFacts MdsFacts RdMds SpecRdMds
  RdMdsFacts RdMdsProofs RdMdsCalls SpecMapTile MapTileProofs Samples PropMds PropRdMds.
Local Open Scope nat_scope.
Local Open Scope list_scope.

(** Tiles with and without map2glob, each with its own entry. *)
Definition tiles_placed {F} (o : rdopts F) (td : tiled) (mp : tile_map) : Prop :=
  Forall (fun t => tile_placed td mp t /\ whole_levels td (length (o_lev o)) (snd t)) (td_tiles td).

(** Whatever is asked for except a region: every element of a tile is found at its place. *)
Theorem C70_mapped_tiles_read :
  forall (L : libm) fo fs fname it mf od td mp o itrs step (A : nat -> list nat -> binary64),
  plain_name fname -> NoDup (names fs) -> byte_order mf od -> options_ok o td -> o_region o = None -> tiles_placed o td mp ->
  asked_for (names fs) fname it itrs -> itrs <> [] ->
  (forall i z, nth_error itrs i = Some z ->
     placed_files b64codec b32codec fs (file_base fname it z) od td mp (step i) (A i)
     /\ listed (names fs) (file_base fname it z) td) ->
  shape_ok o td (it_is_list it) (length itrs) ->
  exists arr,
    rdmds64_full L fo fs fname it mf o = (fs, Ok (arr, itrs, returned_meta td (steps_of step (length itrs)))) /\
    shape arr = result_shape o td (it_is_list it) (length itrs) /\
    ravel arr = flat_map (fun i => map (placed_element o td mp (fun g => stored (td_prec td) (A i g)))
                                     (product (wanted_recs o (td_nrec td) :: wanted o td)))
                  (seq 0 (length itrs)).
Proof.
  intros L fo fs fname it mf od td mp o itrs step A PF ND BO OK NR IN AF NE FI SO.
  apply byte_order_prefix in BO. apply (asked_ok fs fname it itrs PF ND) in AF.
  destruct (rdmds_placed (b64ops L) b64codec b32codec (enc_len b64_codec_laws) b32_enc_len fo od td mp o OK NR IN
    fs fname it mf itrs step A PF AF BO NE) as (arr & steps & R & ST & SH & RA).
  { intros i z H. rewrite <- file_base_of. now apply FI. }
  { exact SO. }
  exists arr. split; [|split; [exact SH|]].
  - unfold rdmds64_full. rewrite R. do 3 f_equal.
    replace steps with (map (Vint (F:=binary64)) (steps_of step (length itrs))); [now apply returned_meta_ok|].
    rewrite ST. unfold steps_of. rewrite map_flat_map. apply flat_map_ext. intros i. now destruct (step i).
  - rewrite RA. apply flat_map_ext. intros i. apply map_ext. intros g.
    unfold placed_element. destruct g; [reflexivity|]. now rewrite kept_stored.
Qed.

(** A region is refused as soon as there is a tile with map2glob, whatever the entry. *)
Theorem C70_region_refused :
  forall (L : libm) fo fs fname it mf od td mp o z itrs step (A : list nat -> binary64),
  plain_name fname -> NoDup (names fs) -> byte_order mf od -> options_ok o td -> o_region o <> None -> tiles_placed o td mp ->
  asked_for (names fs) fname it (z :: itrs) ->
  placed_files b64codec b32codec fs (file_base fname it z) od td mp step A ->
  listed (names fs) (file_base fname it z) td ->
  (exists t, In t (td_tiles td) /\ mp t <> None) ->
  rdmds64_full L fo fs fname it mf o
  = (fs, Err (RuntimeError "Region selection is not implemented for map2glob")).
Proof.
  intros L fo fs fname it mf od td mp o z itrs step A PF ND BO OK NR IN AF FI LS EX.
  apply byte_order_prefix in BO. apply (asked_ok fs fname it (z :: itrs) PF ND) in AF.
  rewrite file_base_of in FI, LS.
  exact (rdmds_region_refused (b64ops L) b64codec b32codec (enc_len b64_codec_laws) b32_enc_len fo od td mp o OK NR IN
    fs fname it mf z itrs step A PF AF BO FI LS EX).
Qed.

(** An entry of one row down leaves the elements where they are without the entry. *)
Theorem C70_unit_entry :
  forall td (mp : tile_map) t idx, mp t = Some (0, 1)%Z -> tile_inside td (snd t) -> valid_idx (td_ext td) idx ->
  placed td mp t idx = placed td (fun _ => None) t idx.
Proof. intros td mp t idx M TI V. exact (placed_unit td mp t idx M TI V). Qed.

(** Five rows of four columns in tiles of two by two: the first without entry; the next two
    with entries of one row; the last stored in one row.  One tile is missing. *)
Definition ex_map_td : tiled := mk_tiled [] 5 4 1 Double [2; 2]
  [(lit ".001.001", [0; 0]); (lit ".002.001", [0; 2]); (lit ".002.002", [2; 2]); (lit ".001.003", [4; 0])].
Definition ex_map : tile_map := fun t =>
  match snd t with [0; 0] => None | [4; _] => Some (2, 0)%Z | _ => Some (0, 1)%Z end.
Definition store_placed (td : tiled) (mp : tile_map) (od : order) (base : text) (step : option Z) (A : list nat -> binary64) : directory :=
  flat_map (fun t => [(base ++ fst t ++ lit ".meta", text_bytes (tile_text (placed_heading td mp step t)));
                      (base ++ fst t ++ lit ".data",
                       flat_map (enc_item b64codec b32codec (td_prec td) od) (placed_content td mp A t))]) (td_tiles td).
Definition ex_placed : directory := store_placed ex_map_td ex_map Big (lit "T.0000000007") (Some 7%Z) (ex_A 0).
Definition ex_map_opts (r : option region) : rdopts binary64 := mk_rdopts RecAll [] r b64_half false true.

Example C70_case :
  (plain_name (lit "T") /\ NoDup (names ex_placed) /\ byte_order (lit "b") Big /\ options_ok (ex_map_opts None) ex_map_td
   /\ tiles_placed (ex_map_opts None) ex_map_td ex_map
   /\ asked_for (names ex_placed) (lit "T") (ItOne 7%Z) [7]%Z
   /\ placed_files b64codec b32codec ex_placed (file_base (lit "T") (ItOne 7%Z) 7) Big ex_map_td ex_map (Some 7%Z) (ex_A 0)
   /\ listed (names ex_placed) (file_base (lit "T") (ItOne 7%Z) 7) ex_map_td
   /\ shape_ok (ex_map_opts None) ex_map_td false 1) /\
  outcome (rdmds64_full ex_libm ex_float_of ex_placed (lit "T") (ItOne 7%Z) (lit "b") (ex_map_opts None))
  = Some ([5; 4], bits_at [0; 1; 2; 3; 10; 11; 12; 13]
                  ++ [bits_of_b64 b64_half; bits_of_b64 b64_half] ++ bits_at [22; 23]
                  ++ [bits_of_b64 b64_half; bits_of_b64 b64_half] ++ bits_at [32; 33]
                  ++ bits_at [40; 41; 42; 43], [7]%Z) /\
  outcome (rdmds64_full ex_libm ex_float_of ex_placed (lit "T") (ItOne 7%Z) (lit "b") (ex_map_opts (Some (mk_region 0 2 0 2)))) = None.
Proof.
  split; [|split; vm_compute; reflexivity].
  split; [now apply magic_false|]. split; [vm_compute; repeat constructor; cbn; intuition discriminate|].
  split; [cbn; tauto|].
  split; [|split; [|split; [reflexivity|split; [|split]]]].
  - unfold options_ok, recs_ok. cbn. repeat split; try lia; try discriminate; repeat constructor; cbn; lia.
  - unfold tiles_placed. repeat constructor; cbn; lia.
  - intros name lo IT. destruct IT as [E|[E|[E|[E|[]]]]]; injection E as <- <-; vm_compute; split; reflexivity.
  - apply stored_tiles_listed; [discriminate | repeat constructor; cbn; intuition discriminate | |].
    + repeat constructor; [exists (lit "001"), (lit "001") | exists (lit "002"), (lit "001") | exists (lit "002"), (lit "002") | exists (lit "001"), (lit "003")];
        repeat split; try reflexivity; repeat constructor.
    + vm_compute. tauto.
  - cbn. split; [lia|]. split; [discriminate|]. constructor.
Qed.
