(** Properties C53-C57: MITgcm's meta/data files. *)
From Coq Require Import Ascii String List Bool PeanoNat ZArith Sorting.Sorted Lia.
From Flocq Require Import IEEE754.Binary IEEE754.Bits.
Import ListNotations.
From Verif Require Import Prelude PreludeFacts Num Mat MatFacts Fields GridIO Float64 Float64Facts
  Float32 Float32Facts SpecGrid GridIOFacts GridIOProofs MdsMeta Mds SpecMds SpecGlob MdsTextFacts MdsParseFacts
  GlobFacts MdsScanFacts MdsFacts FringeFacts Samples.
Local Open Scope nat_scope.
Local Open Scope list_scope.

(** The functions at binary64, with '>f8' and '>f4' storage. *)
Definition wrmds64 := wrmds b64codec b32codec.
Definition rdmds64 (L : libm) (fo : text -> option binary64) := rdmds (b64ops L) b64codec b32codec fo.
Definition mds2mitgrid64 (L : libm) (fo : text -> option binary64) :=
  mds2mitgrid (b64ops L) b64codec b32codec fo.

Definition ex_float_of : text -> option binary64 := fun _ => None.
Definition rdbits (r : res (nd binary64)) : option (list nat * list Z) :=
  match r with Ok a => Some (shape a, map bits_of_b64 (ravel a)) | Err _ => None end.
Definition failure {A} (r : res A) : option exn := match r with Err e => Some e | Ok _ => None end.
Definition ex_nd (sh : list nat) : nd binary64 := mk_nd sh (fun idx => ex_dbl (offset sh idx)).

(** ** C54 *)

(** Names of the byte orders. *)
Definition known_order (mf : text) : Prop :=
  In mf [lit "ieee-be"; lit "b"; lit ">"; lit "ieee-le"; lit "l"; lit "<"].

Lemma known_order_prefix mf : known_order mf -> exists o, typeprefix mf = Some o.
Proof. intros [<-|[<-|[<-|[<-|[<-|[<-|[]]]]]]]; eexists; vm_compute; reflexivity. Qed.

(** The file name without its ending. *)
Definition stem (fbase : text) (itr : option Z) : text :=
  match itr with Some i => fbase ++ ["."%char] ++ fmt_0d 10 i | None => fbase end.
Definition asked (itr : option Z) : iterations :=
  match itr with Some i => Iters [i] | None => NoIter end.

Lemma double_kept o x : dec_item b64codec b32codec Double o (enc_item b64codec b32codec Double o x) = x.
Proof.
  destruct o; cbn [dec_item enc_item codec_of]; rewrite ?rev_involutive; apply (dec_enc b64_codec_laws).
Qed.

Lemma single_stored o x :
  dec_item b64codec b32codec Single o (enc_item b64codec b32codec Single o x) = widen (narrow x).
Proof.
  destruct o; cbn [dec_item enc_item codec_of]; rewrite ?rev_involutive; apply b32_dec_enc.
Qed.

Theorem C54_written_arrays_read_back :
  forall (L : libm) fo fs fbase (a : nd binary64) itr mf,
  plain_name fbase -> NoDup (names fs) -> ~ has_tile (names fs) (stem fbase itr) -> known_order mf ->
  length (shape a) = 2 \/ length (shape a) = 3 ->
  exists fs', wrmds64 fs fbase a itr (lit "float64") None None None None mf = (fs', Ok tt) /\
    exists b, rdmds64 L fo fs' fbase (asked itr) mf = Ok b /\ nd_eq b a.
Proof.
  intros L fo fs fbase a itr mf PL ND NT KO D. destruct (known_order_prefix mf KO) as (o & O).
  destruct (wrmds_rdmds (b64ops L) b64codec b32codec fo (enc_len b64_codec_laws) b32_enc_len
    fs fbase a itr (lit "float64") None None None None mf o Double (length (shape a))) as (fs' & W & b & R & S & E); auto.
  - cbn [ndims_of]. f_equal. lia.
  - lia.
  - unfold lead_dims. rewrite Nat.sub_diag. destruct (length (shape a)); cbn; lia.
  - exact I.
  - exact I.
  - exists fs'. split; [exact W|]. exists b. split; [exact R|].
    apply (ravel_nd_eq (b64ops L)).
    + rewrite S. unfold lead_dims. rewrite Nat.sub_diag. destruct (length (shape a)); [lia|]. reflexivity.
    + rewrite E, (map_ext _ _ (double_kept o)). apply map_id.
Qed.

(** Leading dimensions are folded into one, which is dropped if its extent is 1. *)
Theorem C54_folded_records_read_back :
  forall (L : libm) fo fs fbase (a : nd binary64) itr n fields sim mf,
  plain_name fbase -> NoDup (names fs) -> ~ has_tile (names fs) (stem fbase itr) -> known_order mf ->
  2 <= n <= length (shape a) -> sim_ok sim -> fields_ok fields ->
  let lead := firstn (length (shape a) - n) (shape a) in
  let last := skipn (length (shape a) - n) (shape a) in
  Forall (fun d => 0 < d) lead ->
  exists fs', wrmds64 fs fbase a itr (lit "float64") (Some n) None fields sim mf = (fs', Ok tt) /\
    exists b, rdmds64 L fo fs' fbase (asked itr) mf = Ok b /\
      shape b = (if size lead =? 1 then [] else [size lead]) ++ last /\ ravel b = ravel a.
Proof.
  intros L fo fs fbase a itr n fields sim mf PL ND NT KO B SO FO lead last P.
  destruct (known_order_prefix mf KO) as (o & O).
  assert (LE : lead_dims (shape a) n = lead) by (unfold lead_dims; destruct n; [lia | reflexivity]).
  assert (SP : 1 <= size lead).
  { clear - P. induction P as [|d l H _ IH]; [cbn; lia|]. change (size (d :: l)) with (d * size l). nia. }
  destruct (wrmds_rdmds (b64ops L) b64codec b32codec fo (enc_len b64_codec_laws) b32_enc_len
    fs fbase a itr (lit "float64") (Some n) None fields sim mf o Double n) as (fs' & W & b & R & S & E); auto.
  - now rewrite LE.
  - exists fs'. split; [exact W|]. exists b. split; [exact R|]. rewrite LE in S. split.
    + rewrite S. cbn [filter]. destruct (Nat.eqb_spec (size lead) 1) as [->|X]; [reflexivity|].
      replace (1 <? size lead) with true by (symmetry; apply Nat.ltb_lt; lia). reflexivity.
    + rewrite E, (map_ext _ _ (double_kept o)). apply map_id.
Qed.

(** Single precision: every number becomes the nearest single; singles are kept. *)
Theorem C54_single_precision :
  forall (L : libm) fo fs fbase (a : nd binary64) itr mf,
  plain_name fbase -> NoDup (names fs) -> ~ has_tile (names fs) (stem fbase itr) -> known_order mf ->
  length (shape a) = 2 \/ length (shape a) = 3 ->
  exists fs', wrmds64 fs fbase a itr (lit "float32") None None None None mf = (fs', Ok tt) /\
    exists b, rdmds64 L fo fs' fbase (asked itr) mf = Ok b /\
      nd_eq b (mk_nd (shape a) (fun idx => widen (narrow (at_ a idx)))) /\
      ((forall idx, valid_idx (shape a) idx -> is_single (at_ a idx)) -> nd_eq b a).
Proof.
  intros L fo fs fbase a itr mf PL ND NT KO D. destruct (known_order_prefix mf KO) as (o & O).
  destruct (wrmds_rdmds (b64ops L) b64codec b32codec fo (enc_len b64_codec_laws) b32_enc_len
    fs fbase a itr (lit "float32") None None None None mf o Single (length (shape a))) as (fs' & W & b & R & S & E); auto.
  - cbn [ndims_of]. f_equal. lia.
  - lia.
  - unfold lead_dims. rewrite Nat.sub_diag. destruct (length (shape a)); cbn; lia.
  - exact I.
  - exact I.
  - exists fs'. split; [exact W|]. exists b. split; [exact R|].
    assert (S2 : shape b = shape a).
    { rewrite S. unfold lead_dims. rewrite Nat.sub_diag. destruct (length (shape a)); [lia|]. reflexivity. }
    assert (Q : nd_eq b (mk_nd (shape a) (fun idx => widen (narrow (at_ a idx))))).
    { apply (ravel_nd_eq (b64ops L)); [exact S2|]. rewrite E, (map_ext _ _ (single_stored o)).
      unfold ravel. cbn [shape at_]. now rewrite map_map. }
    split; [exact Q|]. intros SG. split; [exact S2|]. intros idx V. destruct Q as (_ & Q).
    rewrite (Q idx V). cbn [at_]. apply single_kept, SG. now rewrite <- S2.
Qed.

(** Nothing else in the directory changes. *)
Theorem C54_other_files_kept :
  forall fs fbase (a : nd binary64) itr dataprec ndims nrecords fields sim mf name,
  name <> stem fbase itr ++ lit ".meta" -> name <> stem fbase itr ++ lit ".data" ->
  dget (fst (wrmds64 fs fbase a itr dataprec ndims nrecords fields sim mf)) name = dget fs name.
Proof.
  intros fs fbase a itr dataprec ndims nrecords fields sim mf name M D.
  apply text_eqb_neq in M. apply text_eqb_neq in D. unfold stem in M, D.
  unfold wrmds64, wrmds. unfold text in *.
  destruct (typeprefix mf); [|reflexivity]. destruct (typesuffix dataprec); [|reflexivity].
  destruct (ndims_of (shape a) ndims nrecords); [|reflexivity].
  destruct (match nrecords with Some _ => _ | None => _ end); [reflexivity|].
  destruct (meta_text _ _ _ _ _ _ _); cbn [fst]; unfold write_file; rewrite ?dget_dset, ?M, ?D; reflexivity.
Qed.

Definition ex_dir : directory := fst (wrmds64 [] (lit "T") (ex_nd [4; 1]) (Some 7%Z) (lit "float64") None None None None (lit "b")).
Example C54_case :
  plain_name (lit "T") /\ NoDup (names ex_dir) /\ ~ has_tile (names ex_dir) (stem (lit "T") (Some 7%Z)) /\
  let fs' := fst (wrmds64 ex_dir (lit "T") (ex_nd [2; 3]) (Some 7%Z) (lit "float64") None None None None (lit "l")) in
  rdbits (rdmds64 ex_libm ex_float_of fs' (lit "T") (Iters [7%Z]) (lit "<"))
  = Some ([2; 3], map (fun k => bits_of_b64 (ex_dbl k)) [0; 1; 2; 3; 4; 5]).
Proof.
  split; [now apply magic_false|]. split; [|split].
  - vm_compute. repeat constructor; cbn; intuition discriminate.
  - intros (d & e & Ld & Le & Dd & De & I).
    assert (H : forallb (fun s => length s =? length (lit "T.0000000007") + 5) (names ex_dir) = true) by (vm_compute; reflexivity).
    rewrite forallb_forall in H. apply H in I. rewrite !app_length, Ld, Le in I. vm_compute in I. discriminate I.
  - vm_compute. reflexivity.
Qed.

Example C54_folded_case :
  let fs' := fst (wrmds64 [] (lit "D") (ex_nd [2; 3; 1; 2]) None (lit "float64") (Some 2) (Some 6)
                    (Some [lit "UVEL"; lit "VVEL"]) (Some (lit "run 1")) (lit "b")) in
  rdbits (rdmds64 ex_libm ex_float_of fs' (lit "D") NoIter (lit "b"))
  = Some ([6; 1; 2], map (fun k => bits_of_b64 (ex_dbl k)) (seq 0 12)).
Proof. vm_compute. reflexivity. Qed.

(** 1/10 is stored as the nearest single. *)
Example C54_single_case :
  let a := mk_nd [1; 2] (fun idx => match idx with [_; 0] => b64_half | _ => b64_of_bits 0x3FB999999999999A end) in
  let fs' := fst (wrmds64 [] (lit "S") a None (lit "float32") None None None None (lit "b")) in
  rdbits (rdmds64 ex_libm ex_float_of fs' (lit "S") NoIter (lit "b"))
  = Some ([1; 2], [0x3FE0000000000000%Z; 0x3FB99999A0000000%Z]).
Proof. vm_compute. reflexivity. Qed.

(** One-dimensional arrays are written but cannot be read. *)
Example C54_vector_case :
  let w := wrmds64 [] (lit "V") (ex_nd [3]) None (lit "float64") None None None None (lit "b") in
  snd w = Ok tt /\
  failure (rdmds64 ex_libm ex_float_of (fst w) (lit "V") NoIter (lit "b")) = Some IndexError.
Proof. vm_compute. split; reflexivity. Qed.

(** Without the hypothesis on tiles the round trip fails: a tile left in the directory is
    read in place of the file just written. *)
Theorem C54_stale_tiles_refuted : exists fs fbase (a : nd binary64) fs' b,
  plain_name fbase /\ NoDup (names fs) /\ length (shape a) = 2 /\
  wrmds64 fs fbase a None (lit "float64") None None None None (lit "b") = (fs', Ok tt) /\
  rdmds64 ex_libm ex_float_of fs' fbase NoIter (lit "b") = Ok b /\ ~ nd_eq b a.
Proof.
  set (fs := fst (wrmds64 [] (lit "T.001.001") (ex_nd [1; 2]) None (lit "float64") None None None None (lit "b"))).
  set (a := ex_nd [2; 2]).
  set (w := wrmds64 fs (lit "T") a None (lit "float64") None None None None (lit "b")).
  assert (W : snd w = Ok tt) by (vm_compute; reflexivity).
  assert (R : option_map fst (rdbits (rdmds64 ex_libm ex_float_of (fst w) (lit "T") NoIter (lit "b"))) = Some [1; 2])
    by (vm_compute; reflexivity).
  destruct (rdmds64 ex_libm ex_float_of (fst w) (lit "T") NoIter (lit "b")) as [b|] eqn:E; [|discriminate R].
  exists fs, (lit "T"), a, (fst w), b. split; [now apply magic_false|]. split; [|split; [reflexivity|split; [|split; [exact E|]]]].
  - vm_compute. repeat constructor; cbn; intuition discriminate.
  - fold w. rewrite <- W. now destruct w.
  - intros (S & _). cbn [rdbits option_map fst] in R. rewrite S in R. discriminate R.
Qed.

(** ** C55 *)

(** The entries, as they have to come out. *)
Definition expected_meta {F} (n : nat) (dims : list nat) (dataprec : text) (nrec : nat) (itr : option Z)
    (fields : option (list text)) (simulation : option text) : metadict F :=
  match simulation with Some s => [(lit "simulation", [Vstr (rstrip is_space s)])] | None => [] end
  ++ [(lit "nDims", [Vint (Z.of_nat n)]);
      (lit "dimList", flat_map (fun d => [Vint (Z.of_nat d); Vint 1%Z; Vint (Z.of_nat d)]) dims);
      (lit "dataprec", [Vstr dataprec]);
      (lit "nrecords", [Vint (Z.of_nat nrec)])]
  ++ match itr with Some i => [(lit "timeStepNumber", [Vint i])] | None => [] end
  ++ match fields with
     | Some fs => [(lit "nFlds", [Vint (Z.of_nat (length fs))]);
                   (lit "fldList", map (fun f => Vstr (rstrip is_space f)) fs)]
     | None => []
     end.

Theorem C55_meta_parses_back :
  forall (fo : text -> option binary64) fs fbase (a : nd binary64) itr dataprec n nrecords fields sim mf,
  known_order mf -> dataprec = lit "float64" \/ dataprec = lit "float32" ->
  1 <= n <= length (shape a) ->
  (nrecords = None \/ nrecords = Some (size (firstn (length (shape a) - n) (shape a)))) ->
  sim_ok sim -> fields_ok fields ->
  exists fs' bs, wrmds64 fs fbase a itr dataprec (Some n) nrecords fields sim mf = (fs', Ok tt) /\
    dget fs' (stem fbase itr ++ lit ".meta") = Some bs /\
    parsemeta fo (byte_text bs)
    = Ok (expected_meta n (rev (skipn (length (shape a) - n) (shape a))) dataprec
            (size (firstn (length (shape a) - n) (shape a))) itr fields sim).
Proof.
  intros fo fs fbase a itr dataprec n nrecords fields sim mf KO DP B NR SO FO.
  destruct (known_order_prefix mf KO) as (o & O).
  assert (TS : exists p, typesuffix dataprec = Some p) by (destruct DP as [-> | ->]; eexists; vm_compute; reflexivity).
  destruct TS as (p & TS).
  assert (LE : lead_dims (shape a) n = firstn (length (shape a) - n) (shape a))
    by (unfold lead_dims; destruct n; [lia | reflexivity]).
  unfold wrmds64, wrmds. rewrite O, TS. cbn [ndims_of]. rewrite LE.
  replace (match nrecords with Some r => negb (r =? size (firstn (length (shape a) - n) (shape a))) | None => false end)
    with false by (destruct NR as [-> | ->]; [|rewrite Nat.eqb_refl]; reflexivity).
  assert (RL : rev (skipn (length (shape a) - n) (shape a)) <> []).
  { intros E. apply (f_equal (@length _)) in E. rewrite rev_length, skipn_length in E. cbn in E. lia. }
  destruct (meta_text_parses fo n _ dataprec (size (firstn (length (shape a) - n) (shape a))) itr fields sim RL DP SO FO)
    as (t & MT & PT).
  rewrite MT. do 2 eexists. split; [reflexivity|]. split.
  - unfold write_file. rewrite dget_dset.
    replace (text_eqb _ _) with false by (symmetry; apply text_eqb_neq, meta_not_data).
    rewrite dget_dset, text_eqb_refl. reflexivity.
  - rewrite byte_text_bytes. exact PT.
Qed.

Definition meta_view (r : res (metadict binary64)) : option (list (text * list (option Z + text))) :=
  match r with
  | Ok d => Some (map (fun kv => (fst kv, map (fun v => match v with
                     | Vint z => inl (Some z) | Vfloat _ => inl None | Vstr s => inr s end) (snd kv))) d)
  | Err _ => None
  end.
Definition parsed_file (fs : directory) (name : text) : option (list (text * list (option Z + text))) :=
  match dget fs name with Some bs => meta_view (parsemeta ex_float_of (byte_text bs)) | None => None end.

Example C55_case :
  parsed_file (fst (wrmds64 [] (lit "D") (ex_nd [2; 3; 1]) (Some 12%Z) (lit "float32") (Some 2) (Some 2)
                    (Some [lit "UVEL"; lit "V"]) (Some (lit "a // b")) (lit "b"))) (lit "D.0000000012.meta")
  = Some [(lit "simulation", [inr (lit "a // b")]); (lit "nDims", [inl (Some 2%Z)]);
          (lit "dimList", [inl (Some 1%Z); inl (Some 1%Z); inl (Some 1%Z); inl (Some 3%Z); inl (Some 1%Z); inl (Some 3%Z)]);
          (lit "dataprec", [inr (lit "float32")]); (lit "nrecords", [inl (Some 2%Z)]);
          (lit "timeStepNumber", [inl (Some 12%Z)]); (lit "nFlds", [inl (Some 2%Z)]);
          (lit "fldList", [inr (lit "UVEL"); inr (lit "V")])].
Proof. vm_compute. reflexivity. Qed.

(** The hypotheses on the texts are needed: no fields come back as one empty name. *)
Example C55_no_fields_case :
  option_map (fun l => nth 5 l (lit "", [])) (parsed_file (fst (wrmds64 [] (lit "D") (ex_nd [2; 3]) None (lit "float32") None None
                    (Some []) None (lit "b"))) (lit "D.meta"))
  = Some (lit "fldList", [inr (lit "")]).
Proof. vm_compute. reflexivity. Qed.

(** ** C56 *)

Theorem C56_strip_comments_removes_exactly_comments : forall t u,
  strip_comments t = u <-> strips t u.
Proof. exact strip_comments_iff. Qed.

Theorem C56_plain_text_unchanged : forall t,
  (forall c, In c t -> c <> "/"%char /\ c <> quote /\ c <> dquote) -> strip_comments t = t.
Proof.
  intros t H. apply strip_comments_plain. apply forallb_forall. intros c I.
  destruct (H c I) as (A & B & C). unfold plain_char.
  apply negb_true_iff, orb_false_iff. split; [apply orb_false_iff; split|]; now apply Ascii.eqb_neq.
Qed.

(** A string literal is copied, whatever it contains. *)
Theorem C56_literals_untouched : forall s t, string_literal s ->
  strip_comments (s ++ t) = s ++ strip_comments t.
Proof. intros s t H. apply strip_comments_iff. apply st_string; [exact H|]. now apply strip_comments_iff. Qed.

(** Every text is treated. *)
Theorem C56_defined : forall t, exists! u, strips t u.
Proof.
  intros t. exists (strip_comments t). split; [now apply strip_comments_iff|].
  intros u H. now apply strip_comments_iff.
Qed.

Example C56_case :
  strip_comments (lit "a /* x */ '/* kept // */' b // gone")
  = lit "a  '/* kept // */' b ".
Proof. vm_compute. reflexivity. Qed.
(** Comments end at the first star-slash after their start; a quote without partner hides
    nothing; a line comment ends before the line end. *)
Example C56_more_cases :
  strip_comments (lit "3 /*/ 4 */ 5 */") = lit "3  5 */" /\
  strip_comments (lit "it's // x") = lit "it's " /\
  strip_comments (lit "a//b" ++ [newline] ++ lit "c") = lit "a" ++ [newline] ++ lit "c" /\
  strip_comments (lit "'\'//'//x") = lit "'\'//'" /\
  strip_comments (lit "/ / /* open") = lit "/ / /* open".
Proof. vm_compute. repeat split; reflexivity. Qed.

(** ** C57 *)

Theorem C57_scan_sorted_and_complete : forall fs fname, plain_name fname -> NoDup (names fs) ->
  exists r, scanforfiles fs fname = Ok r /\ StronglySorted Z.lt r /\
    ((exists n, has_iteration (names fs) fname (lit ".001.001.meta") n) ->
       forall z, In z r <-> has_iteration (names fs) fname (lit ".001.001.meta") z) /\
    (~ (exists n, has_iteration (names fs) fname (lit ".001.001.meta") n) ->
       forall z, In z r <-> has_iteration (names fs) fname (lit ".meta") z).
Proof. exact scan_spec. Qed.

Definition ex_listing (l : list string) : directory := map (fun s => (lit s, [])) l.
Example C57_case :
  plain_name (lit "T") /\
  NoDup (names (ex_listing ["T.0000000030.meta"%string; "T.0000000007.meta"%string; "T.0000000007.data"%string; "S.0000000001.meta"%string; "T.meta"%string])) /\
  scanforfiles (ex_listing ["T.0000000030.meta"%string; "T.0000000007.meta"%string; "T.0000000007.data"%string; "S.0000000001.meta"%string; "T.meta"%string]) (lit "T")
  = Ok [7%Z; 30%Z] /\
  scanforfiles (ex_listing ["T.0000000030.meta"%string; "T.0000000009.001.001.meta"%string; "T.0000000009.002.001.meta"%string; "T.0000000008.001.001.meta"%string]) (lit "T")
  = Ok [8%Z; 9%Z].
Proof.
  split; [now apply magic_false|]. split; [|vm_compute; split; reflexivity].
  vm_compute. repeat constructor; cbn; intuition discriminate.
Qed.

(** ** C53 *)

(** The directory's answer for a field: rundir/NAME.  A separate list of the names. *)
Definition name_of (f : field) : text :=
  lit (nth (file_pos f) ["XC"; "YC"; "DXF"; "DYF"; "RAC"; "XG"; "YG"; "DXV"; "DYU"; "RAZ";
                         "DXC"; "DYC"; "RAW"; "RAS"; "DXG"; "DYG"]%string ""%string).
Definition found (L : libm) (fo : text -> option binary64) (fs : directory) (rundir : text) (f : field)
  : res (nd binary64) :=
  rdmds64 L fo fs (rundir ++ ["/"%char] ++ name_of f) NoIter (lit "b").

(** m is a transposed, with zeros where field f has further entries. *)
Definition recast_of (f : field) (a : nd binary64) (m : mat binary64) : Prop :=
  exists nj ni, shape a = [nj; ni] /\ mrows m = rows_of f ni /\ mcols m = cols_of f nj /\
    (forall i j, i < ni -> j < nj -> mat_at m i j = at_ a [j; i]) /\
    (forall i j, inside f ni nj i j -> ~ (i < ni /\ j < nj) -> mat_at m i j = b64_zero).

(** The counts come from the first field that is not empty in both directions. *)
Definition first_counts (rd : field -> res (nd binary64)) (ni nj : nat) : Prop :=
  (exists f a, rd f = Ok a /\ shape a = [nj; ni] /\ (ni, nj) <> (0, 0) /\
     forall f' a', file_pos f' < file_pos f -> rd f' = Ok a' -> shape a' = [0; 0])
  \/ ((ni, nj) = (0, 0) /\ forall f a, rd f = Ok a -> shape a = [0; 0]).

Lemma name_of_text f : name_of f = field_text f.
Proof. destruct f; reflexivity. Qed.

Lemma mds_fold L fo fs rundir : forall l g ni nj,
  NoDup l -> (forall f a, In f l -> found L fo fs rundir f = Ok a -> length (shape a) = 2) ->
  exists g' ni' nj',
    foldM (mds_step (b64ops L) b64codec b32codec fo fs rundir) l (g, ni, nj) = Ok (g', ni', nj') /\
    (forall f, In f l -> match found L fo fs rundir f with
       | Ok a => exists m, g' f = Some m /\ recast_of f a m
       | Err _ => g' f = g f end) /\
    (forall f, ~ In f l -> g' f = g f) /\
    (((ni, nj) <> (0, 0) /\ (ni', nj') = (ni, nj))
     \/ (ni, nj) = (0, 0) /\
        ((exists l1 f l2 a, l = l1 ++ f :: l2 /\ found L fo fs rundir f = Ok a /\ shape a = [nj'; ni'] /\
           (ni', nj') <> (0, 0) /\ forall f' a', In f' l1 -> found L fo fs rundir f' = Ok a' -> shape a' = [0; 0])
         \/ (ni', nj') = (0, 0) /\ forall f a, In f l -> found L fo fs rundir f = Ok a -> shape a = [0; 0])).
Proof.
  induction l as [|f l IH]; intros g ni nj ND TD.
  - exists g, ni, nj. split; [reflexivity|]. split; [intros f []|]. split; [reflexivity|].
    destruct ni as [|ni], nj as [|nj]; [right|left|left|left]; try (split; [discriminate | reflexivity]).
    split; [reflexivity|]. right. split; [reflexivity|]. intros f a [].
  - inversion ND as [|x y NI ND']; subst. cbn [foldM]. unfold mds_step at 1.
    rewrite <- name_of_text. fold (rdmds64 L fo). fold (found L fo fs rundir f).
    destruct (found L fo fs rundir f) as [a|e] eqn:R; cbn [rbind].
    + pose proof (TD f a (or_introl eq_refl) R) as T.
      destruct (shape a) as [|r [|c [|]]] eqn:SA; try discriminate T. clear T.
      unfold recast. rewrite SA. cbn [rbind].
      set (m := mkmat _ _ _).
      set (g1 := fun f' => if field_beq f' f then Some m else g f').
      set (ni1 := if (ni =? 0) && (nj =? 0) then c else ni).
      set (nj1 := if (ni =? 0) && (nj =? 0) then r else nj).
      assert (ST : (if (ni =? 0) && (nj =? 0) then Ok (g1, c, r) else Ok (g1, ni, nj)) = Ok (g1, ni1, nj1))
        by (unfold ni1, nj1; destruct ((ni =? 0) && (nj =? 0)); reflexivity).
      unfold g1 in ST |- *. rewrite ST. cbn [rbind]. fold g1.
      destruct (IH g1 ni1 nj1 ND') as (g' & ni' & nj' & E & A & B & C).
      { intros f' a' I. apply TD. now right. }
      exists g', ni', nj'. split; [exact E|]. split; [|split].
      * intros f' [<-|I].
        -- rewrite R. exists m. split.
           ++ rewrite B by assumption. unfold g1. now rewrite (proj2 (field_beq_eq f f) eq_refl).
           ++ exists r, c. split; [exact SA|].
              unfold m. rewrite rows_of_delta, cols_of_delta. split; [reflexivity|]. split; [reflexivity|]. split.
              ** intros i j I J. cbn [mat_at].
                 apply Nat.ltb_lt in I. apply Nat.ltb_lt in J. now rewrite I, J.
              ** unfold inside. intros i j (I & J) O. rewrite rows_of_delta in I. rewrite cols_of_delta in J.
                 cbn [mat_at].
                 destruct (Nat.ltb_spec i c), (Nat.ltb_spec j r); try reflexivity. now elim O.
        -- specialize (A f' I). destruct (found L fo fs rundir f'); [exact A|].
           rewrite A. unfold g1. destruct (field_beq f' f) eqn:Q; [|reflexivity].
           apply field_beq_eq in Q. subst. contradiction.
      * intros f' NI'. rewrite B by (intros I; apply NI'; now right).
        unfold g1. destruct (field_beq f' f) eqn:Q; [|reflexivity].
        apply field_beq_eq in Q. subst. elim NI'. now left.
      * destruct ((ni =? 0) && (nj =? 0)) eqn:Z.
        -- right. apply andb_prop in Z. destruct Z as [Z1 Z2]. apply Nat.eqb_eq in Z1. apply Nat.eqb_eq in Z2.
           subst ni nj. split; [reflexivity|]. subst ni1 nj1. cbn in C.
           destruct C as [(C1 & C2)|(C1 & [(l1 & f2 & l2 & a2 & -> & C2 & C3 & C4 & C5)|(C2 & C3)])].
           ++ left. exists [], f, l, a. inversion C2; subst. rewrite SA. repeat split; auto. intros f' a' [].
           ++ left. exists (f :: l1), f2, l2, a2. repeat split; auto.
              intros f' a' [<-|I] R'; [|now apply (C5 f')]. rewrite R in R'. inversion R'; subst.
              inversion C1; subst. exact SA.
           ++ right. split; [exact C2|]. intros f' a' [<-|I] R'; [|now apply (C3 f')].
              rewrite R in R'. inversion R'; subst. inversion C1; subst. exact SA.
        -- left. assert (X : (ni, nj) <> (0, 0)) by (intros X; inversion X; subst; discriminate Z).
           split; [exact X|]. subst ni1 nj1. destruct C as [(_ & C)|(C & _)]; [exact C | contradiction].
    + destruct (IH g ni nj ND') as (g' & ni' & nj' & E & A & B & C).
      { intros f' a' I. apply TD. now right. }
      exists g', ni', nj'. split; [exact E|]. split; [|split].
      * intros f' [<-|I]; [rewrite R; now apply B | now apply A].
      * intros f' NI'. apply B. intros I. apply NI'. now right.
      * destruct C as [C|(C1 & [(l1 & f2 & l2 & a2 & -> & C2 & C3 & C4 & C5)|(C2 & C3)])]; [now left|right..].
        -- split; [exact C1|]. left. exists (f :: l1), f2, l2, a2. repeat split; auto.
           intros f' a' [<-|I] R'; [congruence | now apply (C5 f')].
        -- split; [exact C1|]. right. split; [exact C2|]. intros f' a' [<-|I] R'; [congruence | now apply (C3 f')].
Qed.

Lemma fields_pos f : nth_error fields (file_pos f) = Some f.
Proof. destruct f; reflexivity. Qed.

Lemma fields_before l1 f l2 f' : fields = l1 ++ f :: l2 -> file_pos f' < file_pos f -> In f' l1.
Proof.
  intros E P.
  assert (K : length l1 = file_pos f).
  { apply (proj1 (NoDup_nth_error fields) fields_NoDup).
    - rewrite E, app_length. cbn. lia.
    - rewrite fields_pos, E, nth_error_app2, Nat.sub_diag by lia. reflexivity. }
  pose proof (fields_pos f') as Q. rewrite E, nth_error_app1 in Q by lia.
  eapply nth_error_In. exact Q.
Qed.

Theorem C53_mds_fields :
  forall (L : libm) fo fs rundir,
  (forall f a, found L fo fs rundir f = Ok a -> length (shape a) = 2) ->
  exists g ni nj, mds2mitgrid64 L fo fs rundir = Ok (g, ni, nj) /\
    (forall f, match found L fo fs rundir f with
               | Ok a => exists m, g f = Some m /\ recast_of f a m
               | Err _ => g f = None
               end) /\
    first_counts (found L fo fs rundir) ni nj.
Proof.
  intros L fo fs rundir TD.
  destruct (mds_fold L fo fs rundir fields (fun _ => None) 0 0 fields_NoDup) as (g & ni & nj & E & A & _ & C).
  { intros f a _. apply TD. }
  exists g, ni, nj. split; [exact E|]. split.
  - intros f. apply (A f). eapply nth_error_In, fields_pos.
  - destruct C as [(C & _)|(_ & [(l1 & f & l2 & a & C1 & C2 & C3 & C4 & C5)|(C1 & C2)])]; [now elim C|left|right].
    + exists f, a. repeat split; auto. intros f' a' P. apply C5. eapply fields_before; eassumption.
    + split; [exact C1|]. intros f a. apply C2. eapply nth_error_In, fields_pos.
Qed.

(** Where the readable fields agree in shape, the result is a grid that can be written and
    read back in strict mode; unreadable fields come back as NaN. *)
Theorem C53_result_can_be_written :
  forall (L : libm) fo fs rundir r c strict,
  (forall f a, found L fo fs rundir f = Ok a -> shape a = [r; c]) ->
  (exists f a, found L fo fs rundir f = Ok a) ->
  exists g bs g', mds2mitgrid64 L fo fs rundir = Ok (g, c, r) /\
    write_mitgrid (b64ops L) b64codec (mds_entry g) c r = (bs, Ok tt) /\
    read_mitgrid (b64ops L) b64codec bs c r strict = Ok g' /\
    forall f, mrows (g' f) = rows_of f c /\ mcols (g' f) = cols_of f r /\
      forall i j, inside f c r i j ->
        match found L fo fs rundir f with
        | Ok a => mat_at (g' f) i j = if (i <? c) && (j <? r) then at_ a [j; i] else b64_zero
        | Err _ => is_nan 53 1024 (mat_at (g' f) i j) = true
        end.
Proof.
  intros L fo fs rundir r c strict SH (f0 & a0 & R0).
  destruct (C53_mds_fields L fo fs rundir) as (g & ni & nj & E & A & C).
  { intros f a R. now rewrite (SH f a R). }
  assert (CN : ni = c /\ nj = r).
  { destruct C as [(f & a & R & S & _)|(Z & S)].
    - rewrite (SH f a R) in S. inversion S. auto.
    - pose proof (S f0 a0 R0) as S0. rewrite (SH f0 a0 R0) in S0. inversion S0; subst. now inversion Z. }
  destruct CN as (-> & ->).
  destruct (none_fields (b64ops L) b64codec b64_codec_laws eq_refl (mds_entry g) c r strict) as (bs & g' & W & R & M).
  { intros f. unfold mds_entry. specialize (A f). destruct (found L fo fs rundir f) as [a|] eqn:F.
    - destruct A as (m & -> & nj & ni & S & M1 & M2 & _). rewrite (SH f a F) in S. inversion S; subst. split; assumption.
    - rewrite A. exact I. }
  exists g, bs, g'. split; [exact E|]. split; [exact W|]. split; [exact R|].
  intros f. destruct (M f) as (M1 & M2 & M3). split; [exact M1|]. split; [exact M2|].
  intros i j (I & J). rewrite M3 by assumption. unfold mds_entry. specialize (A f).
  destruct (found L fo fs rundir f) as [a|] eqn:F.
  - destruct A as (m & -> & nj & ni & S & _ & _ & M4 & M5). rewrite (SH f a F) in S. inversion S; subst.
    cbn [value_of]. destruct (Nat.ltb_spec i ni), (Nat.ltb_spec j nj); cbn [andb].
    + now apply M4.
    + apply M5; [now split | lia].
    + apply M5; [now split | lia].
    + apply M5; [now split | lia].
  - rewrite A. vm_compute. reflexivity.
Qed.

(** A directory with three of the sixteen fields. *)
Definition ex_rundir : directory :=
  let put fs n k := fst (wrmds64 fs (lit n) (mk_nd [1; 2] (fun idx => ex_dbl (k + offset [1; 2] idx))) None
                           (lit "float64") None None None None (lit "b")) in
  put (put (put [] "run/YC"%string 10) "run/XG"%string 20) "run/DXG"%string 30.
Definition mds_view (r : res ((field -> option (mat binary64)) * nat * nat)) (f : field)
  : option (nat * nat * option (nat * nat * list Z)) :=
  match r with
  | Ok (g, ni, nj) => Some (ni, nj, option_map (fun m => (mrows m, mcols m,
      flat_map (fun i => map (fun j => bits_of_b64 (mat_at m i j)) (seq 0 (mcols m))) (seq 0 (mrows m)))) (g f))
  | Err _ => None
  end.
Example C53_case :
  let r := mds2mitgrid64 ex_libm ex_float_of ex_rundir (lit "run") in
  let b k := bits_of_b64 (ex_dbl k) in
  mds_view r XC = Some (2, 1, None) /\
  mds_view r YC = Some (2, 1, Some (2, 1, [b 10; b 11])) /\
  mds_view r XG = Some (2, 1, Some (3, 2, [b 20; 0%Z; b 21; 0%Z; 0%Z; 0%Z])) /\
  mds_view r DXG = Some (2, 1, Some (2, 2, [b 30; 0%Z; b 31; 0%Z])).
Proof. vm_compute. repeat split; reflexivity. Qed.
Definition shapes_are (rd : field -> res (nd binary64)) (sh : list nat) : bool :=
  forallb (fun f => match rd f with
                    | Ok a => if list_eq_dec Nat.eq_dec (shape a) sh then true else false
                    | Err _ => true
                    end) fields.
Example C53_written_case :
  (forall f a, found ex_libm ex_float_of ex_rundir (lit "run") f = Ok a -> shape a = [1; 2]) /\
  exists f a, found ex_libm ex_float_of ex_rundir (lit "run") f = Ok a.
Proof.
  split.
  - assert (H : shapes_are (found ex_libm ex_float_of ex_rundir (lit "run")) [1; 2] = true) by (vm_compute; reflexivity).
    intros f a R. unfold shapes_are in H. rewrite forallb_forall in H.
    specialize (H f (nth_error_In _ _ (fields_pos f))). rewrite R in H.
    destruct (list_eq_dec Nat.eq_dec (shape a) [1; 2]); [assumption | discriminate].
  - exists YC. assert (H : option_map fst (rdbits (found ex_libm ex_float_of ex_rundir (lit "run") YC)) = Some [1; 2]) by (vm_compute; reflexivity).
    destruct (found ex_libm ex_float_of ex_rundir (lit "run") YC) as [a|]; [now exists a | discriminate].
Qed.
