(** Property C89: how wrmds splits an array into records, and two further cases of C49 and C73. *)
From Coq Require Import Ascii String List Bool PeanoNat NArith ZArith Init.Byte Reals Lia Lra.
From Flocq Require Import Core IEEE754.BinarySingleNaN IEEE754.Binary IEEE754.Bits.
Import ListNotations.
From Verif Require Import Prelude PreludeFacts Num Mat MatFacts Fields GridIO Float64 Float64Facts
  Float32 Float32Facts SpecGrid GridIOFacts GridIOProofs MdsMeta Mds SpecMds MdsTextFacts MdsParseFacts
  SpecGlob GlobFacts MdsScanFacts MdsFacts RdMds SpecRdMds RdMdsAgree Samples PropMds PropRdMds
  FmtE FmtEFacts PyFloat PyFloatFacts FloorDivFacts SpecTimes TimeFacts WrMds WrMdsFacts WrTimesFacts PropWrMds.
Local Open Scope nat_scope.
Local Open Scope list_scope.

(** ** Leading dimensions that make up r records: no fewer of them would do. *)
Definition product (l : list nat) : nat := fold_right Nat.mul 1 l.
Definition makes_up (lead : list nat) (r : nat) : Prop :=
  product lead = r /\ forall k, k < length lead -> product (firstn k lead) < r.

Lemma fold_dims_iff : forall sh n r m, fold_dims sh n r = Ok m <->
  exists lead d, sh = lead ++ d /\ m = length d /\ n * product lead = r /\ forall k, k < length lead -> n * product (firstn k lead) < r.
Proof.
  induction sh as [|x sh IH]; intros n r m; cbn [fold_dims].
  - destruct (Nat.ltb_spec n r) as [LT|GE].
    + split; [discriminate|]. intros (lead & d & E & _ & P & _). symmetry in E. apply app_eq_nil in E. destruct E as (-> & ->).
      cbn in P. lia.
    + destruct (Nat.eqb_spec n r) as [->|NE].
      * split; [intros [= <-]; exists [], []; cbn; repeat split; lia|].
        intros (lead & d & E & -> & _). symmetry in E. apply app_eq_nil in E. destruct E as (-> & ->). reflexivity.
      * split; [discriminate|]. intros (lead & d & E & _ & P & _). symmetry in E. apply app_eq_nil in E. destruct E as (-> & ->).
        cbn in P. lia.
  - destruct (Nat.ltb_spec n r) as [LT|GE].
    + rewrite IH. split.
      * intros (lead & d & -> & -> & P & Q). exists (x :: lead), d. split; [reflexivity|]. split; [reflexivity|].
        split; [cbn [product fold_right]; fold (product lead); lia|].
        intros [|k] K; [cbn; lia|]. cbn [firstn product fold_right length] in *. specialize (Q k ltac:(lia)). unfold product in Q. lia.
      * intros (lead & d & E & -> & P & Q). destruct lead as [|y lead]; [cbn in P; lia|]. injection E as <- ->.
        exists lead, d. split; [reflexivity|]. split; [reflexivity|].
        split; [cbn [product fold_right] in P; fold (product lead) in P; lia|].
        intros k K. specialize (Q (S k)). cbn [firstn product fold_right length] in Q. unfold product. specialize (Q ltac:(lia)). lia.
    + destruct (Nat.eqb_spec n r) as [->|NE].
      * split.
        -- intros [= <-]. exists [], (x :: sh). cbn [app length product fold_right]. repeat split; [lia|]. intros k K. cbn in K. lia.
        -- intros (lead & d & E & -> & P & Q). destruct lead as [|y lead]; [cbn [app] in E; now rewrite E|].
           specialize (Q 0 ltac:(cbn; lia)). cbn in Q. lia.
      * split; [discriminate|]. intros (lead & d & E & _ & P & Q). destruct lead as [|y lead]; [cbn in P; lia|].
        specialize (Q 0 ltac:(cbn; lia)). cbn in Q. lia.
Qed.
Lemma fold_dims_err : forall sh n r e, fold_dims sh n r = Err e -> e = IndexError \/ e = AssertionError.
Proof.
  induction sh as [|x sh IH]; intros n r e; cbn [fold_dims]; destruct (n <? r).
  - intros [= <-]. now left.
  - destruct (n =? r); [discriminate|]. intros [= <-]. now right.
  - apply IH.
  - destruct (n =? r); [discriminate|]. intros [= <-]. now right.
Qed.
Lemma records_split sh r m : ndims_of sh None (Some r) = Ok m <-> exists lead d, sh = lead ++ d /\ m = length d /\ makes_up lead r.
Proof.
  cbn [ndims_of]. rewrite fold_dims_iff. split; intros (lead & d & E & M & P & Q); exists lead, d; unfold makes_up in *.
  - repeat split; auto; [lia|]. intros k K. specialize (Q k K). lia.
  - repeat split; auto; [lia|]. intros k K. specialize (Q k K). lia.
Qed.

(** Leaving ndims out is the same as giving the number of the other dimensions. *)
Theorem C89_records_given :
  forall fs fbase a itr dp r times fields sim mf deltat dimlist lead d,
  shape a = lead ++ d -> makes_up lead r ->
  write64 fs fbase a itr dp None (Some r) times fields sim mf deltat dimlist
  = write64 fs fbase a itr dp (Some (length d)) (Some r) times fields sim mf deltat dimlist.
Proof.
  intros fs fbase a itr dp r times fields sim mf deltat dimlist lead d SH MU.
  assert (E : ndims_of (shape a) None (Some r) = Ok (length d)) by (apply records_split; now exists lead, d).
  unfold write64, wrmds_full64, wrmds_full. rewrite E. reflexivity.
Qed.

Theorem C89_records_read_back :
  forall (L : libm) fs fbase (a : nd binary64) itr dp p r fields sim mf lead d,
  shape a = lead ++ d -> 2 <= length d -> makes_up lead r ->
  plain_name (stem fbase itr) -> NoDup (names fs) -> ~ has_tile (names fs) (stem fbase itr) -> known_order mf ->
  prec_name dp p -> sim_ok sim -> fields_ok fields ->
  exists fs' b itrs meta,
    write64 fs fbase a itr dp None (Some r) TimesNone fields sim mf None None = (fs', Ok tt) /\
    read64 L fs' fbase itr mf = (fs', Ok (b, itrs, meta)) /\
    shape b = (if r =? 1 then [] else [r]) ++ d /\ ravel b = map (stored p) (ravel a).
Proof.
  intros L fs fbase a itr dp p r fields sim mf lead d SH LD MU PL ND NT KO PN SO FO.
  rewrite (C89_records_given _ _ _ _ _ _ _ _ _ _ _ _ lead d SH MU).
  assert (LL : length (shape a) - length d = length lead) by (rewrite SH, app_length; lia).
  assert (RC : records a (length d) = r).
  { unfold records. rewrite LL, SH, firstn_app, Nat.sub_diag, firstn_O, app_nil_r, firstn_all. apply MU. }
  assert (ID : inner_dims a (length d) = d).
  { unfold inner_dims. rewrite LL, SH, skipn_app, Nat.sub_diag, skipn_all. reflexivity. }
  assert (R1 : 1 <= r).
  { destruct MU as (P & Q). destruct lead as [|x lead]; [cbn in P; lia|]. specialize (Q 0 ltac:(cbn; lia)). cbn in Q. lia. }
  destruct (written_core L fs fbase a (length d) p itr dp (Some (length d)) (Some r) TimesNone fields sim mf None None itr None None)
    as (fs' & t & o & W & _ & _ & _ & _ & b & RD & SB & RB).
  - rewrite <- RC. unfold writable. repeat (split; [assumption|]).
    split; [split; [exact LD|rewrite SH, app_length; lia]|]. split; [lia|]. split; [now left|]. split; [now right|].
    split; [now left|]. now split.
  - now destruct itr.
  - reflexivity.
  - exists fs', b. eexists. eexists. split; [exact W|]. split; [exact RD|]. rewrite RC, ID in SB. now split.
Qed.

(** Records that no leading dimensions make up are refused, and so is one record per element. *)
Theorem C89_other_counts_refused :
  forall fs fbase a itr dp p r times fields sim mf deltat dimlist,
  known_order mf -> prec_name dp p ->
  ((forall lead d, shape a = lead ++ d -> ~ makes_up lead r) ->
   exists e, (e = IndexError \/ e = AssertionError) /\
     write64 fs fbase a itr dp None (Some r) times fields sim mf deltat dimlist = (fs, Err e)) /\
  (makes_up (shape a) r -> r <> 1 ->
   write64 fs fbase a itr dp None (Some r) times fields sim mf deltat dimlist = (fs, Err (ValueError "Shape/nrecords mismatch"))).
Proof.
  intros fs fbase a itr dp p r times fields sim mf deltat dimlist KO PN.
  destruct (known_order_prefix mf KO) as (o & O). pose proof (prec_name_suffix dp p PN) as TS.
  unfold write64, wrmds_full64, wrmds_full. rewrite O, TS. split.
  - intros NO. destruct (ndims_of (shape a) None (Some r)) as [n|e] eqn:E.
    + apply records_split in E. destruct E as (lead & d & SH & _ & MU). now elim (NO lead d SH).
    + exists e. split; [|reflexivity]. cbn [ndims_of] in E. now apply fold_dims_err in E.
  - intros MU R1. assert (E : ndims_of (shape a) None (Some r) = Ok 0).
    { apply records_split. exists (shape a), []. rewrite app_nil_r. auto. }
    rewrite E. cbn [lead_dims size fold_right]. destruct (Nat.eqb_spec r 1); [contradiction|]. reflexivity.
Qed.

Example C89_case :
  makes_up [2; 3] 6 /\ shape (ex_nd [2; 3; 1; 2; 2]) = [2; 3] ++ [1; 2; 2] /\
  (forall lead d, shape (ex_nd [2; 3; 1; 2; 2]) = lead ++ d -> ~ makes_up lead 4) /\ makes_up (shape (ex_nd [2; 3])) 6.
Proof.
  assert (M : makes_up [2; 3] 6) by (split; [reflexivity|]; intros [|[|k]] K; cbn in *; lia).
  split; [exact M|]. split; [reflexivity|]. split; [|exact M].
  intros lead d E (P & Q). cbn [ex_nd shape] in E.
  destruct lead as [|x1 [|x2 [|x3 [|x4 [|x5 [|x6 l]]]]]]; cbn in E; try discriminate P; injection E; intros; subst; cbn in P; lia.
Qed.

(** ** C73, continued: an infinite time step *)
Theorem C73_infinite_step :
  forall fs fbase a dp ndims nrecords times fields sim mf dimlist earlier t (s : bool),
  given_times times = earlier ++ [t] -> is_finite 53 1024 t = true ->
  let step := if Req_EM_T (B2R 53 1024 t) 0 then 0%Z
              else if Rlt_dec (B2R 53 1024 t) 0 then (if s then 0%Z else (-1)%Z) else (if s then (-1)%Z else 0%Z) in
  write64 fs fbase a None dp ndims nrecords times fields sim mf (Some (B754_infinity 53 1024 s)) dimlist
  = write64 fs fbase a (Some step) dp ndims nrecords times fields sim mf None dimlist.
Proof.
  intros fs fbase a dp ndims nrecords times fields sim mf dimlist earlier t s GT FT step.
  apply same_steps. rewrite given_list by (rewrite GT; intros E; apply app_eq_nil in E; destruct E; discriminate).
  cbn [step_and_times]. unfold steps_of. rewrite GT, rev_app_distr. cbn [rev app t_steps b64times].
  assert (E : b64_floordiv t (B754_infinity 53 1024 s) = Whole_number step).
  { subst step. destruct t as [st| | |st m e B]; try discriminate FT; cbn [b64_floordiv B2R].
    - now destruct (Req_EM_T 0 0).
    - destruct (Req_EM_T _ 0) as [Z|NZ].
      + exfalso. apply eq_0_F2R in Z. destruct st; discriminate Z.
      + destruct (Rlt_dec _ 0) as [LT|GE].
        * destruct st; [now destruct s|].
          exfalso. revert LT. apply Rle_not_lt. apply F2R_ge_0. cbn. lia.
        * destruct st; [|now destruct s]. exfalso. apply GE. apply F2R_lt_0. cbn. lia. }
  now rewrite E.
Qed.

Example C73_infinite_case :
  given_times (TimesList [ex_dbl 1; ex_dbl 3]) = [ex_dbl 1] ++ [ex_dbl 3] /\
  b64_floordiv (ex_dbl 3) (B754_infinity 53 1024 true) = Whole_number (-1) /\
  b64_floordiv (ex_dbl 3) (B754_infinity 53 1024 false) = Whole_number 0.
Proof. split; [reflexivity|]. split; vm_compute; reflexivity. Qed.

(** ** Names of byte orders and precisions that do not exist *)
Theorem C89_unknown_names_refused :
  forall fs fbase a itr dp ndims nrecords times fields sim mf deltat dimlist,
  ((forall od, ~ byte_order mf od) ->
   write64 fs fbase a itr dp ndims nrecords times fields sim mf deltat dimlist = (fs, Err KeyError)) /\
  (known_order mf -> dp <> lit "float32" -> dp <> lit "float64" ->
   write64 fs fbase a itr dp ndims nrecords times fields sim mf deltat dimlist
   = (fs, Err (ValueError "dataprec must be 'float32' or 'float64'."))).
Proof.
  intros fs fbase a itr dp ndims nrecords times fields sim mf deltat dimlist. unfold write64, wrmds_full64, wrmds_full. split.
  - intros NB. destruct (typeprefix mf) as [od|] eqn:E; [|reflexivity]. elim (NB od). unfold typeprefix in E. cbn [existsb] in E.
    unfold byte_order. rewrite !orb_false_r in E.
    repeat (match type of E with context [text_eqb mf ?x] =>
              let Q := fresh in destruct (text_eqb mf x) eqn:Q;
                [apply text_eqb_eq in Q; rewrite Q; cbn [orb] in E; injection E as <-; cbn [In]; tauto|] end; cbn [orb] in E).
    discriminate E.
  - intros KO N32 N64. destruct (known_order_prefix mf KO) as (o & ->). unfold typesuffix.
    destruct (text_eqb dp (lit "float32")) eqn:E; [apply text_eqb_eq in E; contradiction|].
    destruct (text_eqb dp (lit "float64")) eqn:E'; [apply text_eqb_eq in E'; contradiction|]. reflexivity.
Qed.
Example C89_names_case : (forall od, ~ byte_order (lit "big") od) /\ lit "float" <> lit "float32" /\ lit "float" <> lit "float64".
Proof. split; [intros od H; cbn in H; intuition discriminate|]. split; discriminate. Qed.
