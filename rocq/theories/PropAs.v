(** Property C90: the element type of the array rdmds returns. *)
From Coq Require Import Ascii String List Bool PeanoNat ZArith Reals Init.Byte FunctionalExtensionality Lia Lra.
From Flocq Require Import Core IEEE754.Binary IEEE754.Bits.
Import ListNotations.
From Verif Require Import Prelude PreludeFacts Num Mat Fields GridIO Float64 Float64Facts
  Float32 Float32Facts MdsMeta Mds SpecMds RdMds SpecRdMds RdMdsAs AsFacts Samples PropMeta PropMds PropRdMds.
Local Open Scope nat_scope.
Local Open Scope list_scope.

Definition rdmds64_as (L : libm) (fo : text -> option binary64) (ty : astype) :=
  rdmds_as (b64ops L) b64codec b32codec fo ty.

(** The nearest number of 24 binary digits and exponents from -149 on, ties to even; infinite
    from 2^128 on. *)
Definition nearest_single (x y : binary64) : Prop :=
  let r := round radix2 (FLT_exp (-149) 24) ZnearestE (B2R 53 1024 x) in
  if is_finite 53 1024 x
  then if Rlt_bool (Rabs r) (bpow radix2 128)
       then is_finite 53 1024 y = true /\ B2R 53 1024 y = r /\ Bsign 53 1024 y = Bsign 53 1024 x
       else y = B754_infinity 53 1024 (Bsign 53 1024 x)
  else if is_nan 53 1024 x then is_nan 53 1024 y = true else y = x.

Lemma narrow_overflow (x : binary64) : is_finite 53 1024 x = true ->
  Rlt_bool (Rabs (round radix2 (FLT_exp (-149) 24) ZnearestE (B2R 53 1024 x))) (bpow radix2 128) = false ->
  narrow x = B754_infinity 24 128 (Bsign 53 1024 x).
Proof.
  intros F O. destruct x as [s|s|s pl h|s m e h]; try discriminate F.
  - exfalso. cbn [B2R] in O. rewrite round_0 in O by apply valid_rnd_N. rewrite Rabs_R0 in O.
    rewrite Rlt_bool_true in O by apply bpow_gt_0. discriminate O.
  - cbn [B2R] in O. unfold narrow. cbn [Bsign].
    pose proof (binary_normalize_correct 24 128 eq_refl eq_refl BinarySingleNaN.mode_NE (cond_Zopp s (Z.pos m)) e s) as C.
    cbn [BinarySingleNaN.round_mode] in C.
    change (SpecFloat.fexp 24 128) with (FLT_exp (-149) 24) in C.
    rewrite O in C.
    assert (S : Rlt_bool (F2R (Float radix2 (cond_Zopp s (Z.pos m)) e)) 0 = s).
    { destruct s; cbn [cond_Zopp].
      - apply Rlt_bool_true. now apply F2R_lt_0.
      - apply Rlt_bool_false. left. now apply F2R_gt_0. }
    rewrite S in C.
    revert C. generalize (binary_normalize 24 128 eq_refl eq_refl BinarySingleNaN.mode_NE (cond_Zopp s (Z.pos m)) e s).
    intros z. destruct z; cbn; intros C; try discriminate C. injection C as ->. reflexivity.
Qed.

Lemma single_nearest x : nearest_single x (widen (narrow x)).
Proof.
  unfold nearest_single. cbv zeta. destruct (is_finite 53 1024 x) eqn:F.
  - destruct (Rlt_bool _ _) eqn:O.
    + destruct (narrow_finite x F) as (A & B & C).
      { change (SpecFloat.fexp 24 128) with (FLT_exp (-149) 24). revert O. case Rlt_bool_spec; [auto | discriminate]. }
      destruct (widen_finite (narrow x) A) as (D & E & G). split; [exact D|]. split; [|congruence]. rewrite E. exact B.
    + rewrite (narrow_overflow x F O). reflexivity.
  - destruct x; try discriminate F; reflexivity.
Qed.

Lemma cast_single p x : cast b32codec AsSingle p x = widen (narrow x).
Proof. unfold cast. destruct p; apply b32_dec_enc. Qed.
Lemma cast_zero ty p : cast b32codec ty p b64_zero = b64_zero.
Proof. unfold cast. destruct ty, p; try reflexivity; rewrite b32_dec_enc; reflexivity. Qed.
Lemma widen_again y : widen (narrow (widen y)) = widen y.
Proof. destruct (is_nan 24 128 y) eqn:E; [destruct y; try discriminate E; reflexivity | now rewrite narrow_widen]. Qed.

(** astype='float32': the call ends as it does without; if it returns an array, every element
    is the single nearest to what it is without. *)
Theorem C90_single_elements :
  forall (L : libm) fo fs fname it mf o,
  match rdmds64_full L fo fs fname it mf o with
  | (fs', Ok (a, its, meta)) =>
      exists b, rdmds64_as L fo AsSingle fs fname it mf o = (fs', Ok (b, its, meta)) /\ shape b = shape a /\
        forall idx, nearest_single (at_ a idx) (at_ b idx)
  | (fs', Err e) => rdmds64_as L fo AsSingle fs fname it mf o = (fs', Err e)
  end.
Proof.
  intros L fo fs fname it mf o. unfold rdmds64_as, rdmds64_full.
  rewrite (@rdmds_as_map _ (b64ops L) b64codec b32codec fo AsSingle (cast_zero AsSingle) fs fname it mf o).
  destruct (rdmds_full _ _ _ _ _ _ _ _ _) as [fs' [[[a its] meta]|e]]; [|reflexivity].
  cbn [dmap fst snd rmap]. eexists. split; [reflexivity|]. split; [reflexivity|]. intros idx.
  cbn [ndmap at_]. rewrite cast_single. apply single_nearest.
Qed.

(** astype=None: the call ends as it does without; if it returns an array, the elements are the
    same, except that a fill value may have been rounded to single. *)
Theorem C90_stored_elements :
  forall (L : libm) fo fs fname it mf o,
  match rdmds64_full L fo fs fname it mf o with
  | (fs', Ok (a, its, meta)) =>
      exists b, rdmds64_as L fo AsStored fs fname it mf o = (fs', Ok (b, its, meta)) /\ shape b = shape a /\
        forall idx, at_ b idx = at_ a idx \/ (at_ a idx = o_fill o /\ nearest_single (o_fill o) (at_ b idx))
  | (fs', Err e) => rdmds64_as L fo AsStored fs fname it mf o = (fs', Err e)
  end.
Proof.
  intros L fo fs fname it mf o. unfold rdmds64_as, rdmds64_full.
  rewrite (@rdmds_as_map _ (b64ops L) b64codec b32codec fo AsStored (cast_zero AsStored) fs fname it mf o).
  pose proof (@rdmds_kind _ (b64ops L) b64codec b32codec fo
    (fun p x => cast b32codec AsStored p x = x \/ x = o_fill o)) as K.
  specialize (fun Z D => K Z D fs fname it mf o).
  destruct (rdmds_full _ _ _ _ _ _ _ _ _) as [fs' [[[a its] meta]|e]]; [|reflexivity].
  cbn [dmap fst snd rmap ok_res] in *. eexists. split; [reflexivity|]. split; [reflexivity|].
  assert (A : all_el (fun p x => cast b32codec AsStored p x = x \/ x = o_fill o)
    (final_prec (b64ops L) b64codec b32codec fo fs fname it mf o) a).
  { apply K.
    - intros p. left. apply cast_zero.
    - intros p l. left. unfold cast. destruct p; [|reflexivity]. rewrite b32_dec_enc. apply widen_again.
    - intros p. now right. }
  intros idx. cbn [ndmap at_]. destruct (A idx) as [E|E]; [now left|].
  unfold cast. destruct (final_prec _ _ _ _ _ _ _ _ _); [right | now left].
  rewrite b32_dec_enc, E. split; [reflexivity | apply single_nearest].
Qed.

(** A fill value that is a single (or no number): the same array. *)
Theorem C90_stored_same :
  forall (L : libm) fo fs fname it mf o, is_single (o_fill o) \/ o_fill o = b64_nan ->
  rdmds64_as L fo AsStored fs fname it mf o = rdmds64_full L fo fs fname it mf o.
Proof.
  intros L fo fs fname it mf o HF. unfold rdmds64_as, rdmds64_full.
  rewrite (@rdmds_as_map _ (b64ops L) b64codec b32codec fo AsStored (cast_zero AsStored) fs fname it mf o).
  pose proof (@rdmds_kind _ (b64ops L) b64codec b32codec fo (fun p x => cast b32codec AsStored p x = x)) as K.
  specialize (fun Z D => K Z D fs fname it mf o).
  destruct (rdmds_full _ _ _ _ _ _ _ _ _) as [fs' [[[a its] meta]|e]]; [|reflexivity].
  cbn [dmap fst snd rmap ok_res] in *. unfold dmap. cbn [fst snd rmap]. f_equal. f_equal. f_equal. f_equal.
  destruct a as [sh f]. unfold ndmap. cbn [shape at_]. f_equal. extensionality idx. apply K.
  - intros p. apply cast_zero.
  - intros p l. unfold cast. destruct p; [|reflexivity]. rewrite b32_dec_enc. apply widen_again.
  - intros p. unfold cast. destruct p; [|reflexivity]. rewrite b32_dec_enc.
    destruct HF as [H| ->]; [now apply single_kept | reflexivity].
Qed.

(** astype=float is the default. *)
Theorem C90_default_type :
  forall (L : libm) fo fs fname it mf o,
  rdmds64_as L fo AsFloat fs fname it mf o = rdmds64_full L fo fs fname it mf o.
Proof.
  intros L fo fs fname it mf o. unfold rdmds64_as, rdmds64_full.
  rewrite (@rdmds_as_map _ (b64ops L) b64codec b32codec fo AsFloat (cast_zero AsFloat) fs fname it mf o).
  destruct (rdmds_full _ _ _ _ _ _ _ _ _) as [fs' [[[a its] meta]|e]]; [|reflexivity].
  unfold dmap. cbn [fst snd rmap]. destruct a as [sh f]. reflexivity.
Qed.

(** Two columns of an array stored in doubles or singles, the tile of the second missing; the
    number stored is 1 + 2^-52, the fill value 1 + 3 * 2^-52. *)
Definition ex_half_there (p : prec) : tiled := mk_tiled [] 1 2 1 p [1; 1] [(lit ".001.001", [0; 0])].
Definition ex_as (ty : astype) (p : prec) (fill : binary64) :=
  outcome (rdmds64_as ex_libm ex_float_of ty (store_tiles (ex_half_there p) Big (lit "T") None (fun _ => ex_dbl 1))
    (lit "T") ItNone (lit "b") (mk_rdopts RecAll [] None fill false true)).
Definition ex_fill : binary64 := ex_dbl 3.
Example C90_case :
  ex_as AsFloat Double ex_fill = Some ([1; 2], bits_at [1; 3], [(-1)%Z]) /\
  ex_as AsStored Double ex_fill = Some ([1; 2], bits_at [1; 3], [(-1)%Z]) /\
  ex_as AsSingle Double ex_fill = Some ([1; 2], bits_at [0; 0], [(-1)%Z]) /\
  ex_as AsFloat Single ex_fill = Some ([1; 2], bits_at [0; 3], [(-1)%Z]) /\
  ex_as AsStored Single ex_fill = Some ([1; 2], bits_at [0; 0], [(-1)%Z]) /\
  is_single (ex_dbl 0).
Proof.
  repeat (split; [vm_compute; reflexivity|]).
  exists (b32_of_bits 1065353216). split; [vm_compute; reflexivity|].
  rewrite <- (binary_float_of_bits_of_binary_float 52 11 eq_refl eq_refl eq_refl (widen (b32_of_bits 1065353216))).
  unfold ex_dbl, b64_of_bits. f_equal.
Qed.
