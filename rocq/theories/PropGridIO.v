(** Properties C01-C07: reading and writing grid files. *)
From Coq Require Import ZArith String List Bool PeanoNat Strings.Byte Lia.
From Flocq Require Import IEEE754.Binary IEEE754.Bits.
Import ListNotations.
From Verif Require Import Prelude Mat MatFacts Num Fields GridIO Float64 Float64Facts SpecGrid
  GridIOFacts GridIOProofs Samples.
Local Open Scope nat_scope.
Local Open Scope list_scope.

(** Shorthands: the two API functions at binary64. *)
Definition write64 (L : libm) := write_mitgrid (b64ops L) b64codec.
Definition read64 (L : libm) := read_mitgrid (b64ops L) b64codec.

(** Bits of one entry of a result, for the examples. *)
Definition okbits (r : res (grid binary64)) (f : field) (i j : nat) : option Z :=
  match r with Ok g => Some (bits_of_b64 (mat_at (g f) i j)) | Err _ => None end.

(** ** C01 *)
Theorem C01_write_read_roundtrip : forall (L : libm) (g : grid binary64) ni nj strict,
  shaped g ni nj ->
  exists bs g', write64 L (dict_of_grid g) ni nj = (bs, Ok tt) /\
    read64 L bs ni nj strict = Ok g' /\
    forall f, mat_is (g' f) (rows_of f ni) (cols_of f nj) (mat_at (g f)).
Proof.
  intros L g ni nj strict H.
  apply (none_fields (b64ops L) b64codec b64_codec_laws eq_refl (dict_of_grid g) ni nj strict).
  intros f. exact (H f).
Qed.

Example C01_case :
  shaped ex_grid 2 1 /\
  okbits (read64 ex_libm (fst (write64 ex_libm (dict_of_grid ex_grid) 2 1)) 2 1 true) RAZ 2 1
  = Some (bits_of_b64 (ex_dbl 921)).
Proof.
  split; [intros []; split; reflexivity|]. vm_compute. reflexivity.
Qed.

(** ** C02 *)
Theorem C02_file_layout : forall (L : libm) (g : grid binary64) ni nj bs,
  shaped g ni nj -> write64 L (dict_of_grid g) ni nj = (bs, Ok tt) ->
  length bs = 16 * ((ni + 1) * (nj + 1)) * 8 /\
  forall f i j, i <= ni -> j <= nj ->
    let k := file_pos f * ((ni + 1) * (nj + 1)) + j * (ni + 1) + i in
    (inside f ni nj i j -> word_at bs k = bits_of_b64 (mat_at (g f) i j)) /\
    (~ inside f ni nj i j -> double_at bs k = repeat x00 8).
Proof.
  intros L g ni nj bs Hs Hw. split.
  - rewrite (write_length _ _ b64_codec_laws _ _ _ _ Hw). unfold file_bytes, file_doubles, slot. lia.
  - intros f i j Hi Hj.
    destruct (write_shaped_layout _ _ b64_codec_laws g ni nj bs f i j Hs Hw Hi Hj) as [A B].
    split; intros Hin.
    + unfold word_at. change (file_pos f * ((ni + 1) * (nj + 1)) + j * (ni + 1) + i)
        with (pos f ni nj i j). rewrite A by auto. apply word_of_enc.
    + change (file_pos f * ((ni + 1) * (nj + 1)) + j * (ni + 1) + i)
        with (pos f ni nj i j). rewrite B by auto. vm_compute. reflexivity.
Qed.

Example C02_case :
  let bs := fst (write64 ex_libm (dict_of_grid ex_grid) 2 1) in
  word_at bs (2 * 6 + 0 * 3 + 1) = bits_of_b64 (ex_dbl 210) /\
  double_at bs (2 * 6 + 1 * 3 + 1) = repeat x00 8.
Proof. vm_compute. split; reflexivity. Qed.

(** ** C03 *)
Theorem C03_truncated_file_rejected : forall (L : libm) (bs : list byte) ni nj strict,
  length bs < 16 * ((ni + 1) * (nj + 1)) * 8 -> is_err (read64 L bs ni nj strict).
Proof.
  intros L bs ni nj strict H. apply (read_short_err (b64ops L) b64codec).
  unfold file_bytes, file_doubles, slot. lia.
Qed.

Theorem C03_interrupted_write_rejected :
  forall (L : libm) (d : griddict binary64) ni nj strict n,
  n < 16 * ((ni + 1) * (nj + 1)) * 8 ->
  is_err (read64 L (firstn n (fst (write64 L d ni nj))) ni nj strict).
Proof.
  intros L d ni nj strict n H. apply (crash_rejected (b64ops L) b64codec).
  unfold file_bytes, file_doubles, slot. lia.
Qed.

Theorem C03_failed_write_rejected :
  forall (L : libm) (d : griddict binary64) ni nj strict bs e,
  write64 L d ni nj = (bs, Err e) ->
  length bs < 16 * ((ni + 1) * (nj + 1)) * 8 /\ is_err (read64 L bs ni nj strict).
Proof.
  intros L d ni nj strict bs e H. split.
  - pose proof (write_err_length _ _ b64_codec_laws _ _ _ _ _ H) as H'.
    unfold file_bytes, file_doubles, slot in H'. lia.
  - exact (failed_write_rejected (b64ops L) b64codec b64_codec_laws _ _ _ strict _ _ H).
Qed.

Example C03_case :
  let d := fun f => if field_beq f RAZ then Missing else dict_of_grid ex_grid f in
  exists bs, write64 ex_libm d 2 1 = (bs, Err KeyError) /\ length bs = 9 * 6 * 8 /\
    exists e, read64 ex_libm bs 2 1 false = Err e.
Proof.
  eexists. split; [vm_compute; reflexivity|]. split; [reflexivity|].
  eexists. vm_compute. reflexivity.
Qed.

(** ** C04 *)
Theorem C04_strict_rejects_exactly_nonzero_padding :
  forall (L : libm) (bs : list byte) ni nj,
  16 * ((ni + 1) * (nj + 1)) * 8 <= length bs ->
  ((exists m, read64 L bs ni nj true = Err (RuntimeError m)) <->
   exists f i j, i <= ni /\ j <= nj /\ ~ inside f ni nj i j /\
     ~ zero_word (word_at bs (file_pos f * ((ni + 1) * (nj + 1)) + j * (ni + 1) + i))) /\
  ((forall f i j, i <= ni -> j <= nj -> ~ inside f ni nj i j ->
     zero_word (word_at bs (file_pos f * ((ni + 1) * (nj + 1)) + j * (ni + 1) + i))) ->
   exists g g', read64 L bs ni nj true = Ok g /\ read64 L bs ni nj false = Ok g' /\
     forall f, g f = g' f).
Proof.
  intros L bs ni nj H.
  assert (H' : file_bytes ni nj <= length bs) by (unfold file_bytes, file_doubles, slot; lia).
  split.
  - exact (strict_iff L bs ni nj H').
  - exact (strict_otherwise L bs ni nj H').
Qed.

Theorem C04_nonstrict_accepts_any_padding : forall (L : libm) (bs : list byte) ni nj,
  16 * ((ni + 1) * (nj + 1)) * 8 <= length bs ->
  exists g, read64 L bs ni nj false = Ok g /\ shaped g ni nj /\
    forall f i j, inside f ni nj i j ->
      bits_of_b64 (mat_at (g f) i j) =
      word_at bs (file_pos f * ((ni + 1) * (nj + 1)) + j * (ni + 1) + i).
Proof.
  intros L bs ni nj H.
  assert (H' : file_bytes ni nj <= length bs) by (unfold file_bytes, file_doubles, slot; lia).
  destruct (read_nonstrict (b64ops L) b64codec bs ni nj H') as (g & E & Hs & Hv).
  exists g. split; [exact E|]. split; [exact Hs|]. intros f i j Hin.
  rewrite Hv by auto. pose proof (inside_le _ _ _ _ _ Hin).
  rewrite word_of_dec; [reflexivity|]. apply double_at_length.
  pose proof (pos_lt f ni nj i j). unfold file_bytes in H'. lia.
Qed.

(** A file whose only nonzero padding is the very last double (DYG has ni+1 rows
    and nj columns, so its last column is padding). *)
Example C04_case :
  let bs := repeat x00 (16 * 4 * 8 - 1) ++ [x01] in
  (exists m, read64 ex_libm bs 1 1 true = Err (RuntimeError m)) /\
  okbits (read64 ex_libm bs 1 1 false) XC 0 0 = Some 0%Z.
Proof. split; [eexists|]; vm_compute; reflexivity. Qed.

(** ** C05 *)
Theorem C05_read_write_canonical : forall (L : libm) (bs : list byte) ni nj,
  16 * ((ni + 1) * (nj + 1)) * 8 <= length bs ->
  exists g bs', read64 L bs ni nj false = Ok g /\
    write64 L (dict_of_grid g) ni nj = (bs', Ok tt) /\
    length bs' = 16 * ((ni + 1) * (nj + 1)) * 8 /\
    forall f i j, i <= ni -> j <= nj ->
      let k := file_pos f * ((ni + 1) * (nj + 1)) + j * (ni + 1) + i in
      (inside f ni nj i j -> double_at bs' k = double_at bs k) /\
      (~ inside f ni nj i j -> double_at bs' k = repeat x00 8).
Proof.
  intros L bs ni nj H.
  assert (H' : file_bytes ni nj <= length bs) by (unfold file_bytes, file_doubles, slot; lia).
  destruct (read_write_canon (b64ops L) b64codec b64_codec_laws bs ni nj H')
    as (g & bs' & E & Ew & HL & Hd).
  exists g, bs'. split; [exact E|]. split; [exact Ew|]. split.
  { rewrite HL. unfold file_bytes, file_doubles, slot. lia. }
  intros f i j Hi Hj k. exact (Hd f i j Hi Hj).
Qed.

Theorem C05_read_write_identity : forall (L : libm) (bs : list byte) ni nj,
  length bs = 16 * ((ni + 1) * (nj + 1)) * 8 ->
  (forall f i j, i <= ni -> j <= nj -> ~ inside f ni nj i j ->
     double_at bs (file_pos f * ((ni + 1) * (nj + 1)) + j * (ni + 1) + i) = repeat x00 8) ->
  exists g, read64 L bs ni nj false = Ok g /\
    write64 L (dict_of_grid g) ni nj = (bs, Ok tt).
Proof.
  intros L bs ni nj H Hp.
  assert (H' : length bs = file_bytes ni nj) by (unfold file_bytes, file_doubles, slot; lia).
  apply (read_write_identity (b64ops L) b64codec b64_codec_laws bs ni nj H').
  intros f i j Hi Hj Hn. exact (Hp f i j Hi Hj Hn).
Qed.

(** A zero-cell grid's file (16 doubles, only the corner fields carry data) with -0.0 and a
    signalling NaN among its data comes back byte for byte. *)
Definition ex_file00 : list byte :=
  repeat x00 (5 * 8) ++ [x80; x00; x00; x00; x00; x00; x00; x00]
  ++ [x7f; xf0; x00; x00; x00; x00; x00; x01] ++ repeat x00 (9 * 8).
Example C05_case :
  match read64 ex_libm ex_file00 0 0 false with
  | Ok g => write64 ex_libm (dict_of_grid g) 0 0 = (ex_file00, Ok tt)
  | Err _ => False
  end.
Proof. vm_compute. reflexivity. Qed.

(** ** C06 *)
Theorem C06_wrong_counts_rejected : forall (L : libm) (g : grid binary64) ni0 nj0 ni nj,
  shaped g ni0 nj0 -> (ni, nj) <> (ni0, nj0) ->
  exists bs m, write64 L (dict_of_grid g) ni nj = (bs, Err (ValueError m)).
Proof. intros L. exact (wrong_counts (b64ops L) b64codec). Qed.

Example C06_case :
  exists bs m, write64 ex_libm (dict_of_grid ex_grid) 1 2 = (bs, Err (ValueError m)).
Proof. eexists; eexists; vm_compute; reflexivity. Qed.

(** ** C07 *)
(** An entry as documented: an array of the right shape or the None placeholder. *)
Definition entry_ok {F} (e : entry F) (f : field) (ni nj : nat) : Prop :=
  match e with
  | Missing => False
  | NoneVal => True
  | Arr m => mrows m = rows_of f ni /\ mcols m = cols_of f nj
  end.

Theorem C07_none_fields_read_back_as_nan :
  forall (L : libm) (d : griddict binary64) ni nj strict,
  (forall f, entry_ok (d f) f ni nj) ->
  exists bs g, write64 L d ni nj = (bs, Ok tt) /\ read64 L bs ni nj strict = Ok g /\
    forall f, match d f with
              | Arr m => mat_is (g f) (rows_of f ni) (cols_of f nj) (mat_at m)
              | _ => mrows (g f) = rows_of f ni /\ mcols (g f) = cols_of f nj /\
                     forall i j, inside f ni nj i j ->
                       is_nan 53 1024 (mat_at (g f) i j) = true
              end.
Proof.
  intros L d ni nj strict H.
  destruct (none_fields (b64ops L) b64codec b64_codec_laws eq_refl d ni nj strict) as (bs & g & Ew & Er & Hm).
  - intros f. exact (H f).
  - exists bs, g. split; [exact Ew|]. split; [exact Er|]. intros f. specialize (Hm f).
    destruct (d f) as [| |m] eqn:E.
    + pose proof (H f) as Hf. rewrite E in Hf. destruct Hf.
    + destruct Hm as (A & B & Hv). repeat split; auto. intros i j [Hi Hj].
      rewrite Hv by auto. vm_compute. reflexivity.
    + exact Hm.
Qed.

Theorem C07_missing_field_raises : forall (L : libm) (d : griddict binary64) ni nj strict,
  (forall f, d f = Missing \/ entry_ok (d f) f ni nj) -> (exists f, d f = Missing) ->
  exists bs, write64 L d ni nj = (bs, Err KeyError) /\ is_err (read64 L bs ni nj strict).
Proof.
  intros L d ni nj strict H He.
  apply (missing_field (b64ops L) b64codec b64_codec_laws d ni nj strict); auto.
Qed.

Example C07_case :
  let d := fun f => if field_beq f DXV then NoneVal else dict_of_grid ex_grid f in
  (forall f, entry_ok (d f) f 2 1) /\
  match read64 ex_libm (fst (write64 ex_libm d 2 1)) 2 1 true with
  | Ok g => is_nan 53 1024 (mat_at (g DXV) 2 1) = true /\
            is_nan 53 1024 (mat_at (g DYU) 2 1) = false
  | Err _ => False
  end.
Proof.
  split; [intros []; simpl; auto|]. vm_compute. split; reflexivity.
Qed.
