(** Property C91: cell counts that are negative. *)
From Coq Require Import Ascii String List Bool PeanoNat ZArith Lia Init.Byte.
Import ListNotations.
From Flocq Require Import IEEE754.BinarySingleNaN IEEE754.Binary IEEE754.Bits.
From Verif Require Import Prelude PreludeFacts Mat Num Fields GridIO Float64 Float64Facts Float32 SpecGrid Util Refine Regrid PropFill AddFringe
  Cli MdsMeta Mds GetObcs ArgParse Main MdsTextFacts SpecArgs SpecRegrid SourceFacts PropRegrid GridIOFacts GridIOProofs ArgFacts ArgLines Counts CountsFacts CountsRun Samples PropGridIO PropMkGrid PropFringe PropCli PropObcs
  PropArgs PropPair.
Local Open Scope nat_scope.
Local Open Scope list_scope.

(** ** Every accepted line is run *)

Lemma text_option g argv given n req : line g argv given -> In (n, A_text, req) (options_of g) -> req = true ->
  exists v, get_text (rev given) n = Some v.
Proof.
  intros H I ->. pose proof (C74_values_typed g argv given n A_text true H I) as T.
  destruct (last_given given n) as [a|] eqn:E; [|discriminate]. destruct T as (T & _).
  apply typed_text in T as (v & ->). exists v. now apply get_text_given.
Qed.
Lemma path_option g argv given n : line g argv given -> In (n, A_text, true) (options_of g) ->
  exists v, path_arg (rev given) n = Some v.
Proof.
  intros H I. destruct (text_option g argv given n true H I eq_refl) as (v & E). unfold path_arg. rewrite E. eexists. reflexivity.
Qed.
Lemma int_option g argv given n : line g argv given -> In (n, An_integer, true) (options_of g) ->
  exists z, get_int (rev given) n = Some z.
Proof.
  intros H I. pose proof (C74_values_typed g argv given n An_integer true H I) as T.
  destruct (last_given given n) as [a|] eqn:E; [|discriminate]. destruct T as (T & _).
  apply typed_int in T as (v & ->). exists v. now apply get_int_given.
Qed.
Lemma float_option g argv given n : line g argv given -> In (n, A_double, true) (options_of g) ->
  exists x, get_float (rev given) n = Some x.
Proof.
  intros H I. pose proof (C74_values_typed g argv given n A_double true H I) as T.
  destruct (last_given given n) as [a|] eqn:E; [|discriminate]. destruct T as (T & _).
  apply typed_float in T as (v & ->). exists v. now apply get_float_given.
Qed.

Ltac pick E := match type of E with
  | context [match ?x with Some _ => _ | None => _ end] =>
      lazymatch x with context [match _ with Some _ => _ | None => _ end] => fail | _ => destruct x; cbn beta iota in E |- * end
  end.
Ltac picks E := repeat (pick E; try discriminate E).

Definition counted (g : program) : Prop := g = Sgregrid \/ g = Sgaddfringe \/ g = Sgstitch.

Lemma in_options {A} (x : A) l : (exists k, nth_error l k = Some x) -> In x l.
Proof. intros (k & H). eapply nth_error_In; eauto. Qed.

Ltac opt := first [exact (or_introl eq_refl) | right; opt].

Lemma commandZ_given g argv given : counted g -> line g argv given ->
  exists c, command_ofZ g (rev given) = Some c.
Proof.
  intros Hg H. destruct Hg as [-> |Hg].
  - cbn [command_ofZ].
    destruct (int_option _ _ _ "ni" H ltac:(cbn; opt)) as (? & ->).
    destruct (int_option _ _ _ "nj" H ltac:(cbn; opt)) as (? & ->).
    destruct (float_option _ _ _ "lon1" H ltac:(cbn; opt)) as (? & ->).
    destruct (float_option _ _ _ "lat1" H ltac:(cbn; opt)) as (? & ->).
    destruct (float_option _ _ _ "lon2" H ltac:(cbn; opt)) as (? & ->).
    destruct (float_option _ _ _ "lat2" H ltac:(cbn; opt)) as (? & ->).
    destruct (int_option _ _ _ "lon_subscale" H ltac:(cbn; opt)) as (? & ->).
    destruct (int_option _ _ _ "lat_subscale" H ltac:(cbn; opt)) as (? & ->).
    destruct (path_option _ _ _ "outfile" H ltac:(cbn; opt)) as (? & ->). eexists. reflexivity.
  - assert (T : exists t o, tiles_ofZ (rev given) = Some t /\ path_arg (rev given) "outfile" = Some o).
    { unfold tiles_ofZ. destruct Hg as [-> | ->];
      (destruct (path_option _ _ _ "tilea" H ltac:(cbn; opt)) as (? & ->);
       destruct (int_option _ _ _ "nia" H ltac:(cbn; opt)) as (? & ->);
       destruct (int_option _ _ _ "nja" H ltac:(cbn; opt)) as (? & ->);
       destruct (path_option _ _ _ "tileb" H ltac:(cbn; opt)) as (? & ->);
       destruct (int_option _ _ _ "nib" H ltac:(cbn; opt)) as (? & ->);
       destruct (int_option _ _ _ "njb" H ltac:(cbn; opt)) as (? & ->);
       destruct (path_option _ _ _ "outfile" H ltac:(cbn; opt)) as (? & ->)); do 2 eexists; split; reflexivity. }
    destruct T as (t & o & Et & Eo).
    destruct Hg as [-> | ->]; cbn [command_ofZ]; rewrite Et, Eo; eexists; reflexivity.
Qed.

Section Runs.
Variables (L : libm) (G : geod binary64) (loadtxt : list byte -> res (option (mat binary64))).
Variables lay o3 : nat -> nat -> list (nat * nat).
Variable fuel : nat.

Definition runZ64 := runZ (b64ops L) b64codec G loadtxt lay o3 fuel.
Definition runsZ (w : string -> bool) (fs : filesystem) (c : commandZ binary64) : filesystem * ending :=
  (fst (runZ64 w fs c), Ended (snd (runZ64 w fs c))).

Lemma get_count_int ns n k : get_count ns n = Some k -> get_int ns n = Some (Z.of_nat k).
Proof.
  unfold get_count. destruct (get_int ns n) as [z|]; [|discriminate]. destruct (Z.ltb_spec z 0); [discriminate|].
  intros K. injection K as <-. now rewrite Z2Nat.id.
Qed.

Lemma command_ofZ_same g ns c : command_of g ns = Some c -> g <> Sgmkgrid ->
  exists c', command_ofZ g ns = Some c' /\ same_command c = Some c'.
Proof.
  intros E Hg. destruct g; cbn [command_of] in E; try congruence.
  - destruct (get_count ns "ni") as [ni|] eqn:E1; [|discriminate]. destruct (get_count ns "nj") as [nj|] eqn:E2; [|discriminate].
    cbn [command_ofZ]. rewrite (get_count_int _ _ _ E1), (get_count_int _ _ _ E2).
    picks E. injection E as <-. eexists. split; reflexivity.
  - unfold tiles_of in E. cbn [command_ofZ]. unfold tiles_ofZ.
    destruct (get_count ns "nia") as [n1|] eqn:E1; [|destruct (path_arg ns "tilea"); discriminate].
    destruct (get_count ns "nja") as [n2|] eqn:E2; [|destruct (path_arg ns "tilea"); discriminate].
    destruct (get_count ns "nib") as [n3|] eqn:E3; [|destruct (path_arg ns "tilea"), (path_arg ns "tileb"); discriminate].
    destruct (get_count ns "njb") as [n4|] eqn:E4; [|destruct (path_arg ns "tilea"), (path_arg ns "tileb"); discriminate].
    rewrite (get_count_int _ _ _ E1), (get_count_int _ _ _ E2), (get_count_int _ _ _ E3), (get_count_int _ _ _ E4).
    picks E. injection E as <-. eexists. split; reflexivity.
  - unfold tiles_of in E. cbn [command_ofZ]. unfold tiles_ofZ.
    destruct (get_count ns "nia") as [n1|] eqn:E1; [|destruct (path_arg ns "tilea"); discriminate].
    destruct (get_count ns "nja") as [n2|] eqn:E2; [|destruct (path_arg ns "tilea"); discriminate].
    destruct (get_count ns "nib") as [n3|] eqn:E3; [|destruct (path_arg ns "tilea"), (path_arg ns "tileb"); discriminate].
    destruct (get_count ns "njb") as [n4|] eqn:E4; [|destruct (path_arg ns "tilea"), (path_arg ns "tileb"); discriminate].
    rewrite (get_count_int _ _ _ E1), (get_count_int _ _ _ E2), (get_count_int _ _ _ E3), (get_count_int _ _ _ E4).
    picks E. injection E as <-. eexists. split; reflexivity.
Qed.

(** With counts of either sign the line runs the same command. *)
Lemma main_runsZ g argv given c w fs : line g argv given -> command_ofZ g (rev given) = Some c ->
  main L G loadtxt lay o3 fuel g argv w fs = runsZ w fs c.
Proof.
  intros H E. unfold runsZ, runZ64. destruct (command_of g (rev given)) as [c1|] eqn:E1.
  - rewrite (main_runs L G loadtxt lay o3 fuel g argv given c1 w fs H E1) by (destruct g; [discriminate E|reflexivity..]).
    destruct (command_ofZ_same g _ _ E1) as (c2 & E2 & S); [intros ->; discriminate E|].
    rewrite E in E2. injection E2 as <-. unfold runs, run64.
    now rewrite (runZ_nat (b64ops L) b64codec G loadtxt lay o3 fuel w fs c1 c S).
  - unfold main. rewrite (line_parsed g argv given H), E1, E.
    assert (U : unprintable g (rev given) = false) by (destruct g; [discriminate E|reflexivity..]). rewrite U.
    destruct (runZ _ _ _ _ _ _ _ _ _ _). reflexivity.
Qed.
End Runs.

Theorem C91_every_line_runs : forall L G loadtxt lay o3 fuel g argv w fs, g <> Sggetobcs ->
  snd (main L G loadtxt lay o3 fuel g argv w fs) <> Unmodelled.
Proof.
  intros L G loadtxt lay o3 fuel g argv w fs Hg.
  destruct (parse_args (parser_of g) argv) as [c|ns] eqn:P.
  { unfold main. rewrite P. discriminate. }
  apply parse_args_line in P as (given & P & ->). destruct g; try congruence.
  - unfold main. rewrite (line_parsed _ _ _ P). cbn [command_of].
    destruct (unprintable _ _); [discriminate|]. destruct (run _ _ _ _ _ _ _ _ _ _). discriminate.
  - destruct (commandZ_given Sgregrid argv given (or_introl eq_refl) P) as (c & E).
    rewrite (main_runsZ L G loadtxt lay o3 fuel _ _ _ _ w fs P E). discriminate.
  - destruct (commandZ_given Sgaddfringe argv given (or_intror (or_introl eq_refl)) P) as (c & E).
    rewrite (main_runsZ L G loadtxt lay o3 fuel _ _ _ _ w fs P E). discriminate.
  - destruct (commandZ_given Sgstitch argv given (or_intror (or_intror eq_refl)) P) as (c & E).
    rewrite (main_runsZ L G loadtxt lay o3 fuel _ _ _ _ w fs P E). discriminate.
Qed.

Lemma obcsZ_given argv given : line Sggetobcs argv given -> exists a n, obcs_ofZ (rev given) = Some (a, n).
Proof.
  intros H. unfold obcs_ofZ.
  destruct (int_option _ _ _ "ni_parent" H ltac:(cbn; opt)) as (? & ->).
  destruct (int_option _ _ _ "nj_parent" H ltac:(cbn; opt)) as (? & ->).
  destruct (int_option _ _ _ "ni_regional" H ltac:(cbn; opt)) as (? & ->).
  destruct (int_option _ _ _ "nj_regional" H ltac:(cbn; opt)) as (? & ->). do 2 eexists. reflexivity.
Qed.

Theorem C91_every_obcs_line_runs : forall W L G fo lay o3 fuel (xw : _ -> _ -> _ -> _ -> res W) xv argv ws fs,
  snd (main_obcs L G lay o3 fuel fo xw xv argv ws fs) <> Unmodelled.
Proof.
  intros W L G fo lay o3 fuel xw xv argv ws fs. unfold main_obcs.
  destruct (parse_args (parser_of Sggetobcs) argv) as [c|ns] eqn:P; [discriminate|].
  apply parse_args_line in P as (given & P & ->). destruct (obcsZ_given argv given P) as (a & n & ->).
  destruct (obcs_of (rev given)); [destruct (getobcs _ _ _ _ _ _ _ _ _ _ _ _ _) as ((w1, f1), r1); discriminate|].
  destruct (getobcsZ _ _ _ _ _ _ _ _ _ _ _ _ _ _) as ((w1, f1), r1). discriminate.
Qed.

(** ** Lines with a negative count *)

(** They fail and change nothing, or do what the line does with some counts that are not
    negative. *)
Theorem C91_fails_or_as_with_other_counts : forall L G loadtxt lay o3, layouts lay ->
  forall fuel g argv given w fs c, line g argv given -> command_ofZ g (rev given) = Some c ->
  (exists e, main L G loadtxt lay o3 fuel g argv w fs = (fs, Ended (Err e))) \/
  exists c', other_counts c c' /\ main L G loadtxt lay o3 fuel g argv w fs = runs L G loadtxt lay o3 fuel w fs c'.
Proof.
  intros L G loadtxt lay o3 Hl fuel g argv given w fs c H E.
  rewrite (main_runsZ L G loadtxt lay o3 fuel g argv given c w fs H E). unfold runsZ, runZ64.
  destruct (counts_cases (b64ops L) (b64_laws L) b64codec G loadtxt lay o3 (layouts_order_ok lay Hl) fuel w fs c)
    as [(e & R)|(c' & Oc & R)]; rewrite R; [left; exists e; reflexivity|right].
  exists c'. split; [exact Oc|reflexivity].
Qed.

Definition below_zero (given : list (text * argval)) (n : string) : Prop := exists z, gives given n (Some (AInt z)) /\ (z < 0)%Z.

Theorem C91_negative_tile_counts_fail : forall L G loadtxt lay o3 fuel g argv given w fs n,
  g = Sgaddfringe \/ g = Sgstitch -> line g argv given ->
  In n ["nia"; "nja"; "nib"; "njb"]%string -> below_zero given n ->
  exists e, main L G loadtxt lay o3 fuel g argv w fs = (fs, Ended (Err e)).
Proof.
  intros L G loadtxt lay o3 fuel g argv given w fs n Hg H I (z & Gz & Hz).
  destruct (commandZ_given g argv given (or_intror Hg) H) as (c & E).
  rewrite (main_runsZ L G loadtxt lay o3 fuel g argv given c w fs H E). unfold runsZ, runZ64, runZ.
  apply get_int_given in Gz.
  assert (Neg : negative_files c).
  { destruct Hg as [-> | ->]; cbn [command_ofZ] in E; unfold tiles_ofZ in E;
      (destruct (path_arg (rev given) "tilea"); [|discriminate]);
      (destruct (get_int (rev given) "nia") eqn:G1; [|discriminate]);
      (destruct (get_int (rev given) "nja") eqn:G2; [|discriminate]);
      (destruct (path_arg (rev given) "tileb"); [|discriminate]);
      (destruct (get_int (rev given) "nib") eqn:G3; [|discriminate]);
      (destruct (get_int (rev given) "njb") eqn:G4; [|discriminate]);
      (destruct (path_arg (rev given) "outfile"); [|discriminate]);
      injection E as <-; cbn [negative_files]; unfold negative_tiles; cbn [tz_nia tz_nja tz_nib tz_njb];
      cbn [In] in I; destruct I as [<-|[<-|[<-|[<-|[]]]]]; rewrite Gz in *;
      repeat match goal with K : Some _ = Some _ |- _ => injection K as -> end; auto. }
  destruct (computeZ_negative (b64ops L) b64codec G loadtxt lay o3 fuel fs c Neg) as (e & ->). exists e. reflexivity.
Qed.

Theorem C91_negative_mitgrid_counts_fail : forall L G loadtxt lay o3 fuel argv given w fs n f,
  line Sgregrid argv given -> gives given "mitgridfile" (Some (file_named f)) -> f <> EmptyString ->
  In n ["ni"; "nj"]%string -> below_zero given n ->
  exists e, main L G loadtxt lay o3 fuel Sgregrid argv w fs = (fs, Ended (Err e)).
Proof.
  intros L G loadtxt lay o3 fuel argv given w fs n f H Gf Hf I (z & Gz & Hz).
  destruct (commandZ_given Sgregrid argv given (or_introl eq_refl) H) as (c & E).
  rewrite (main_runsZ L G loadtxt lay o3 fuel _ argv given c w fs H E). unfold runsZ, runZ64, runZ.
  apply get_int_given in Gz.
  assert (Neg : negative_files c).
  { cbn [command_ofZ] in E. rewrite (path_given _ _ _ Gf) in E.
    destruct (get_int (rev given) "ni") eqn:G1; [|discriminate].
    destruct (get_int (rev given) "nj") eqn:G2; [|discriminate].
    repeat match type of E with context [match ?x with Some _ => _ | None => _ end] => destruct x; try discriminate E end.
    injection E as <-. cbn [negative_files]. split; [destruct f; [congruence|discriminate]|].
    cbn [In] in I. destruct I as [<-|[<-|[]]]; rewrite Gz in *;
      repeat match goal with K : Some _ = Some _ |- _ => injection K as -> end; auto. }
  destruct (computeZ_negative (b64ops L) b64codec G loadtxt lay o3 fuel fs c Neg) as (e & ->). exists e. reflexivity.
Qed.

(** sggetobcs may have made a weight file by then. *)
Theorem C91_negative_obcs_counts_fail : forall W L G fo lay o3 fuel (xw : _ -> _ -> _ -> _ -> res W) xv argv given ws fs n fn f,
  line Sggetobcs argv given ->
  In (fn, n) [("parent_mitgridfile", "ni_parent"); ("parent_mitgridfile", "nj_parent");
              ("regional_mitgridfile", "ni_regional"); ("regional_mitgridfile", "nj_regional")]%string ->
  gives given fn (Some (AText f)) -> f <> [] -> below_zero given n ->
  exists ws' e, main_obcs L G lay o3 fuel fo xw xv argv ws fs = (ws', fs, Ended (Err e)).
Proof.
  intros W L G fo lay o3 fuel xw xv argv given ws fs n fn f H I Gf Hf (z & Gz & Hz).
  apply get_int_given in Gz. apply get_text_given in Gf.
  unfold main_obcs. rewrite (line_parsed _ _ _ H).
  assert (N : obcs_of (rev given) = None).
  { unfold obcs_of, get_count. cbn [In] in I.
    destruct I as [I|[I|[I|[I|[]]]]]; injection I as <- <-; rewrite Gz;
      (destruct (Z.ltb_spec z 0); [|lia]);
      repeat match goal with |- context [match ?x with Some _ => _ | None => _ end] => destruct x end; reflexivity. }
  rewrite N. destruct (obcsZ_given argv given H) as (a & k & E). rewrite E.
  assert (U : ~ (usable (oa_parent_file a) (oc_nip k) (oc_njp k) /\ usable (oa_regional_file a) (oc_nir k) (oc_njr k))).
  { unfold obcs_ofZ in E.
    destruct (get_int (rev given) "ni_parent") eqn:G1; [|discriminate].
    destruct (get_int (rev given) "nj_parent") eqn:G2; [|discriminate].
    destruct (get_int (rev given) "ni_regional") eqn:G3; [|discriminate].
    destruct (get_int (rev given) "nj_regional") eqn:G4; [|discriminate].
    injection E as <- <-. cbn [oa_parent_file oa_regional_file oc_nip oc_njp oc_nir oc_njr].
    assert (T : txt_arg (Some f) <> None) by (destruct f; [congruence|discriminate]).
    unfold usable. intros (U1 & U2). cbn [In] in I.
    destruct I as [I|[I|[I|[I|[]]]]]; injection I as <- <-; rewrite Gz in *; rewrite Gf in *;
      repeat match goal with K : Some _ = Some _ |- _ => injection K as -> end;
      (destruct U1 as [U1|U1]; destruct U2 as [U2|U2]; try congruence; lia). }
  destruct (getobcsZ_negative (b64ops L) b64codec G b32codec fo lay o3 fuel W xw xv ws fs a k U) as (ws' & e & R).
  rewrite R. exists ws', e. reflexivity.
Qed.

(** ** Pairs of files *)

(** Two lines that differ in --ni and --nj only. *)
Definition but_counts (given given' : list (text * argval)) : Prop :=
  forall n, n <> "ni"%string -> n <> "nj"%string -> last_given given' n = last_given given n.

(** The files of a pair are used. *)
Definition pair_used (given : list (text * argval)) (px py : string) : Prop :=
  (gives given "mitgridfile" None \/ gives given "mitgridfile" (Some (file_named EmptyString))) /\
  gives given "xg_file" (Some (file_named px)) /\ gives given "yg_file" (Some (file_named py)) /\
  px <> EmptyString /\ py <> EmptyString.

Lemma pair_commands argv given argv' given' px py ni nj ni' nj' :
  line Sgregrid argv given -> but_counts given given' -> pair_used given px py ->
  gives given "ni" (Some (AInt ni)) -> gives given "nj" (Some (AInt nj)) ->
  gives given' "ni" (Some (AInt ni')) -> gives given' "nj" (Some (AInt nj')) -> line Sgregrid argv' given' ->
  exists mg lon1 lat1 lon2 lat2 ls lt strict o, str_arg mg = None /\
    command_ofZ Sgregrid (rev given) = Some (zregrid mg (Some px) (Some py) ni nj lon1 lat1 lon2 lat2 ls lt strict o) /\
    command_ofZ Sgregrid (rev given') = Some (zregrid mg (Some px) (Some py) ni' nj' lon1 lat1 lon2 lat2 ls lt strict o).
Proof.
  intros H B (Mg & Gx & Gy & Px & Py) I J I' J' _.
  assert (Kt : forall n, n <> "ni"%string -> n <> "nj"%string -> path_arg (rev given') n = path_arg (rev given) n).
  { intros n N1 N2. specialize (B n N1 N2). unfold last_given in B. unfold path_arg, get_text. now rewrite B. }
  assert (Ki : forall n, n <> "ni"%string -> n <> "nj"%string -> get_int (rev given') n = get_int (rev given) n).
  { intros n N1 N2. specialize (B n N1 N2). unfold last_given in B. unfold get_int. now rewrite B. }
  assert (Kf : forall n, n <> "ni"%string -> n <> "nj"%string -> get_float (rev given') n = get_float (rev given) n).
  { intros n N1 N2. specialize (B n N1 N2). unfold last_given in B. unfold get_float. now rewrite B. }
  assert (Kb : forall n, n <> "ni"%string -> n <> "nj"%string -> get_flag (rev given') n = get_flag (rev given) n).
  { intros n N1 N2. specialize (B n N1 N2). unfold last_given in B. unfold get_flag. now rewrite B. }
  cbn [command_ofZ].
  rewrite (get_int_given _ _ _ I), (get_int_given _ _ _ J), (get_int_given _ _ _ I'), (get_int_given _ _ _ J').
  rewrite !Kt, !Ki, !Kf, !Kb by discriminate. rewrite (path_given _ _ _ Gx), (path_given _ _ _ Gy).
  destruct (float_option _ _ _ "lon1" H ltac:(cbn; opt)) as (lon1 & ->).
  destruct (float_option _ _ _ "lat1" H ltac:(cbn; opt)) as (lat1 & ->).
  destruct (float_option _ _ _ "lon2" H ltac:(cbn; opt)) as (lon2 & ->).
  destruct (float_option _ _ _ "lat2" H ltac:(cbn; opt)) as (lat2 & ->).
  destruct (int_option _ _ _ "lon_subscale" H ltac:(cbn; opt)) as (ls & ->).
  destruct (int_option _ _ _ "lat_subscale" H ltac:(cbn; opt)) as (lt & ->).
  destruct (path_option _ _ _ "outfile" H ltac:(cbn; opt)) as (o & ->).
  exists (path_arg (rev given) "mitgridfile"), lon1, lat1, lon2, lat2, ls, lt, (get_flag (rev given) "strict"), o.
  split; [|split; reflexivity].
  destruct Mg as [Mg|Mg]; [change (gives given "mitgridfile" (file_arg None)) in Mg; now rewrite (path_opt _ _ _ Mg)|].
  now rewrite (path_given _ _ _ Mg).
Qed.

Lemma same_pair_same_run L G loadtxt lay o3 fuel w fs mg px py ni nj ni' nj' lon1 lat1 lon2 lat2 ls lt strict o :
  str_arg mg = None -> px <> EmptyString -> py <> EmptyString ->
  (ni <> 0)%Z -> (nj <> 0)%Z -> (ni' <> 0)%Z -> (nj' <> 0)%Z ->
  read_pairZ (b64ops L) b64codec loadtxt fs px py ni nj = read_pairZ (b64ops L) b64codec loadtxt fs px py ni' nj' ->
  runZ64 L G loadtxt lay o3 fuel w fs (zregrid mg (Some px) (Some py) ni nj lon1 lat1 lon2 lat2 ls lt strict o) =
  runZ64 L G loadtxt lay o3 fuel w fs (zregrid mg (Some px) (Some py) ni' nj' lon1 lat1 lon2 lat2 ls lt strict o).
Proof.
  intros M Px Py N1 N2 N3 N4 E. unfold runZ64, runZ.
  assert (S : forall a b, (a <> 0)%Z -> (b <> 0)%Z ->
    sourceZ (b64ops L) b64codec loadtxt fs mg (Some px) (Some py) a b strict = read_pairZ (b64ops L) b64codec loadtxt fs px py a b).
  { intros a b A B. unfold sourceZ. rewrite M. destruct px as [|? ?]; [congruence|]. destruct py as [|? ?]; [congruence|].
    cbn [str_arg]. unfold nonzero. destruct (Z.eqb_spec a 0), (Z.eqb_spec b 0); try congruence. reflexivity. }
  cbn [computeZ]. rewrite !S by assumption. rewrite E. reflexivity.
Qed.

(** The counts given with a pair of csv files do not matter, if they are not 0. *)
Theorem C91_csv_counts_unused : forall L G loadtxt lay o3 fuel argv given argv' given' px py ni nj ni' nj' w fs,
  line Sgregrid argv given -> line Sgregrid argv' given' -> but_counts given given' ->
  pair_used given px py -> csv_name px -> csv_name py ->
  gives given "ni" (Some (AInt ni)) -> gives given "nj" (Some (AInt nj)) ->
  gives given' "ni" (Some (AInt ni')) -> gives given' "nj" (Some (AInt nj')) ->
  (ni <> 0)%Z -> (nj <> 0)%Z -> (ni' <> 0)%Z -> (nj' <> 0)%Z ->
  main L G loadtxt lay o3 fuel Sgregrid argv w fs = main L G loadtxt lay o3 fuel Sgregrid argv' w fs.
Proof.
  intros L G loadtxt lay o3 fuel argv given argv' given' px py ni nj ni' nj' w fs H H' B U Cx Cy I J I' J' N1 N2 N3 N4.
  destruct (pair_commands argv given argv' given' px py ni nj ni' nj' H B U I J I' J' H')
    as (mg & lon1 & lat1 & lon2 & lat2 & ls & lt & strict & o & M & E & E').
  rewrite (main_runsZ L G loadtxt lay o3 fuel _ _ _ _ w fs H E), (main_runsZ L G loadtxt lay o3 fuel _ _ _ _ w fs H' E').
  destruct U as (_ & _ & _ & Px & Py). unfold runsZ.
  rewrite (same_pair_same_run L G loadtxt lay o3 fuel w fs mg px py ni nj ni' nj') by
    (assumption || (unfold read_pairZ; rewrite (proj2 (csv_test px py) (conj Cx Cy)); reflexivity)). reflexivity.
Qed.

(** Of a pair with a binary file one count may be left out: a number below -1 is taken to
    mean what the length of the files gives. *)
Theorem C91_count_left_out : forall L G loadtxt lay o3 fuel argv given argv' given' px py ni nj n m bx by_ w fs,
  line Sgregrid argv given -> line Sgregrid argv' given' -> but_counts given given' ->
  pair_used given px py -> ~ (csv_name px /\ csv_name py) -> fs px = Some bx -> fs py = Some by_ ->
  length bx / 8 = (n + 1) * (m + 1) -> length by_ / 8 = (n + 1) * (m + 1) -> 0 < n -> 0 < m ->
  gives given "ni" (Some (AInt (Z.of_nat n))) -> gives given "nj" (Some (AInt (Z.of_nat m))) ->
  gives given' "ni" (Some (AInt ni)) -> gives given' "nj" (Some (AInt nj)) ->
  ((ni < -1)%Z /\ nj = Z.of_nat m) \/ (ni = Z.of_nat n /\ (nj < -1)%Z) ->
  main L G loadtxt lay o3 fuel Sgregrid argv w fs = main L G loadtxt lay o3 fuel Sgregrid argv' w fs.
Proof.
  intros L G loadtxt lay o3 fuel argv given argv' given' px py ni nj n m bx by_ w fs H H' B U Cx Fx Fy Lx Ly Hn Hm I J I' J' Hc.
  destruct (pair_commands argv given argv' given' px py _ _ ni nj H B U I J I' J' H')
    as (mg & lon1 & lat1 & lon2 & lat2 & ls & lt & strict & o & M & E & E').
  rewrite (main_runsZ L G loadtxt lay o3 fuel _ _ _ _ w fs H E), (main_runsZ L G loadtxt lay o3 fuel _ _ _ _ w fs H' E').
  destruct U as (_ & _ & _ & Px & Py). unfold runsZ.
  rewrite (same_pair_same_run L G loadtxt lay o3 fuel w fs mg px py (Z.of_nat n) (Z.of_nat m) ni nj); try assumption; try lia; [reflexivity|].
  unfold read_pairZ. destruct (String.eqb (ext px) ".csv" && String.eqb (ext py) ".csv")%bool eqn:Cs;
    [destruct (Cx (proj1 (csv_test px py) Cs))|].
  unfold read_bytes. rewrite Fx, Fy. cbn [rbind].
  replace (Z.of_nat n + 1)%Z with (Z.of_nat (n + 1)) by lia. replace (Z.of_nat m + 1)%Z with (Z.of_nat (m + 1)) by lia.
  rewrite !reshapeZ_nat. destruct Hc as [(Hi & ->)|(-> & Hj)].
  - replace (Z.of_nat m + 1)%Z with (Z.of_nat (m + 1)) by lia.
    rewrite (reshapeZ_rows (b64ops L) (fromfile b64codec bx) (ni + 1) (n + 1) (m + 1)) by (rewrite ?fromfile_length; lia).
    rewrite (reshapeZ_rows (b64ops L) (fromfile b64codec by_) (ni + 1) (n + 1) (m + 1)) by (rewrite ?fromfile_length; lia).
    reflexivity.
  - replace (Z.of_nat n + 1)%Z with (Z.of_nat (n + 1)) by lia.
    rewrite (reshapeZ_cols (b64ops L) (fromfile b64codec bx) (nj + 1) (m + 1) (n + 1)) by (rewrite ?fromfile_length; lia).
    rewrite (reshapeZ_cols (b64ops L) (fromfile b64codec by_) (nj + 1) (m + 1) (n + 1)) by (rewrite ?fromfile_length; lia).
    reflexivity.
Qed.

(** ** The functions on files *)

Theorem C91_as_before : forall L bs d ni nj strict,
  read_mitgridZ (b64ops L) b64codec bs (Z.of_nat ni) (Z.of_nat nj) strict = read64 L bs ni nj strict /\
  write_mitgridZ (b64ops L) b64codec d (Z.of_nat ni) (Z.of_nat nj) = write64 L d ni nj.
Proof. intros L bs d ni nj strict. split;
  [exact (read_mitgridZ_nat (b64ops L) b64codec bs ni nj strict)|exact (write_mitgridZ_nat (b64ops L) b64codec d ni nj)].
Qed.

(** A file read with a negative count: an error, or no values in any field but XC. *)
Theorem C91_negative_read : forall L bs ni nj strict g f, (ni < 0 \/ nj < 0)%Z ->
  read_mitgridZ (b64ops L) b64codec bs ni nj strict = Ok g -> f <> XC -> mrows (g f) = 0 \/ mcols (g f) = 0.
Proof.
  intros L bs ni nj strict g f H E Hf. exact (read_mitgridZ_negative (b64ops L) b64codec bs ni nj strict g f H Hf E).
Qed.

Lemma foldM_all {A B} (f : B -> A -> res B) (P : B -> A -> Prop) l :
  (forall b a, exists b', f b a = Ok b' /\ P b' a) -> (forall b a a' b', P b a -> f b a' = Ok b' -> P b' a) ->
  forall b, exists b', foldM f l b = Ok b' /\ forall a, In a l -> P b' a.
Proof.
  intros F K.
  assert (M : forall m b b' a, P b a -> foldM f m b = Ok b' -> P b' a).
  { induction m as [|x m IH]; intros b b' a Hp E; cbn [foldM] in E; [congruence|].
    destruct (f b x) as [c|] eqn:Ec; [|discriminate]. cbn [rbind] in E. eauto. }
  induction l as [|x m IH]; intros b; cbn [foldM]; [exists b; split; [reflexivity|intros a []]|].
  destruct (F b x) as (c & Ec & Pc). rewrite Ec. cbn [rbind]. destruct (IH c) as (d & Ed & Pd).
  exists d. split; [exact Ed|]. intros a [<-|I]; eauto.
Qed.

Lemma all_fields (f : field) : In f fields.
Proof. destruct f; cbn; tauto. Qed.

(** With -1 cells along i any file is read, as a grid without values; it is written as an
    empty file. *)
Theorem C91_minus_one_reads_anything : forall L bs nj, (0 <= nj)%Z -> exists g,
  read_mitgridZ (b64ops L) b64codec bs (-1) nj false = Ok g /\
  (forall f, mrows (g f) = 0 /\ mcols (g f) = cols_of f (Z.to_nat nj)) /\
  write_mitgridZ (b64ops L) b64codec (dict_of_grid g) (-1) nj = ([], Ok tt).
Proof.
  intros L bs nj Hn.
  set (P := fun (g : grid binary64) (f : field) => mrows (g f) = 0 /\ mcols (g f) = cols_of f (Z.to_nat nj)).
  destruct (foldM_all (read_fieldZ (b64ops L) (fromfile b64codec bs) (-1) nj false) P fields)
    with (b := fun _ : field => mconst 0 0 (nzero (b64ops L))) as (g & E & Pg).
  - intros g f. unfold read_fieldZ.
    replace ((-1 + 1) * (nj + 1))%Z with 0%Z by lia. replace (-1 + 1)%Z with 0%Z by lia. rewrite !Z.mul_0_l.
    replace (py_slice (fromfile b64codec bs) 0 0) with (@nil binary64)
      by (unfold py_slice; rewrite py_bound_nonneg by lia; rewrite Nat.min_0_r; reflexivity).
    replace (nj + 1)%Z with (Z.of_nat (Z.to_nat nj + 1)) by lia. change 0%Z with (Z.of_nat 0) at 1. rewrite reshapeZ_nat.
    unfold reshapeF. cbn [length Nat.mul Nat.eqb rbind]. eexists. split; [reflexivity|].
    unfold P, upd. rewrite field_beq_refl. unfold py_trim, mtrim. cbn [mrows mcols]. split.
    + pose proof (py_bound_le 0 (-1 + Z.of_nat (ni_delta f))). lia.
    + rewrite py_bound_nonneg by lia. unfold cols_of; destruct f; cbn [nj_delta place_of]; lia.
  - intros g f f' g' Hg E. unfold read_fieldZ in E. mok E. mok E. destruct a0; [discriminate|]. injection E as <-.
    unfold P, upd in *. destruct (field_beq f f') eqn:Eb; [|exact Hg].
    (* the same field once more *)
    replace ((-1 + 1) * (nj + 1))%Z with 0%Z in Ha by lia. replace (-1 + 1)%Z with 0%Z in Ha by lia. rewrite !Z.mul_0_l in Ha.
    replace (py_slice (fromfile b64codec bs) 0 0) with (@nil binary64) in Ha
      by (unfold py_slice; rewrite py_bound_nonneg by lia; rewrite Nat.min_0_r; reflexivity).
    replace (nj + 1)%Z with (Z.of_nat (Z.to_nat nj + 1)) in Ha by lia. change 0%Z with (Z.of_nat 0) in Ha at 1.
    rewrite reshapeZ_nat in Ha. apply reshapeF_ok in Ha as (_ & R & Cc). unfold py_trim, mtrim. cbn [mrows mcols]. rewrite R, Cc.
    assert (f = f') as <- by (destruct f, f'; (reflexivity || discriminate Eb)). split.
    + pose proof (py_bound_le 0 (-1 + Z.of_nat (ni_delta f))). lia.
    + rewrite py_bound_nonneg by lia. unfold cols_of; destruct f; cbn [nj_delta place_of]; lia.
  - exists g. split; [exact E|]. assert (Q : forall f, P g f) by (intros f; apply Pg, all_fields). split; [exact Q|].
    unfold write_mitgridZ. clear E Pg. generalize fields. intros l. induction l as [|f l IH]; [reflexivity|]. cbn [write_fieldsZ]. rewrite IH.
    destruct (Q f) as (R & Cc). unfold paddedZ, dict_of_grid. replace (-1 + 1)%Z with 0%Z by lia.
    destruct (Z.ltb_spec 0 0); [lia|]. destruct (Z.ltb_spec (nj + 1) 0); [lia|]. cbn [orb]. rewrite R, Cc.
    replace (py_bound (Z.to_nat 0) (-1 + Z.of_nat (ni_delta f))) with 0 by (pose proof (py_bound_le (Z.to_nat 0) (-1 + Z.of_nat (ni_delta f))); lia).
    rewrite py_bound_nonneg by lia.
    assert (Bc : bcast_ok (cols_of f (Z.to_nat nj)) (Nat.min (Z.to_nat (nj + 1)) (Z.to_nat (nj + Z.of_nat (nj_delta f)))) = true).
    { unfold bcast_ok. apply orb_true_intro. left. apply Nat.eqb_eq. unfold cols_of; destruct f; cbn [nj_delta place_of]; lia. }
    rewrite Bc. cbn [bcast_ok Nat.eqb orb andb Z.to_nat]. unfold ravelF. cbn [mrows mcols].
    cbn [seq map]. generalize (seq 0 (Z.to_nat (nj + 1))). clear. intros l. induction l; [reflexivity|exact IHl].
Qed.

(** Both counts below -1: nothing is read, of any file. *)
Theorem C91_two_unknown_refused : forall L bs ni nj strict, (ni < -1)%Z -> (nj < -1)%Z ->
  exists msg, read_mitgridZ (b64ops L) b64codec bs ni nj strict = Err (ValueError msg).
Proof.
  intros L bs ni nj strict Hi Hj. unfold read_mitgridZ. cbn [fields foldM]. unfold read_fieldZ at 1, reshapeZ, extents.
  destruct (Z.ltb_spec (ni + 1) 0); [|lia]. destruct (Z.ltb_spec (nj + 1) 0); [|lia]. cbn [rbind]. eexists. reflexivity.
Qed.

(** A count below -1 makes write_mitgridfile leave an empty file and fail. *)
Theorem C91_negative_write : forall L d ni nj, (ni < -1 \/ nj < -1)%Z ->
  exists msg, write_mitgridZ (b64ops L) b64codec d ni nj = ([], Err (ValueError msg)).
Proof.
  intros L d ni nj H. unfold write_mitgridZ. cbn [fields write_fieldsZ]. unfold paddedZ.
  destruct (Z.ltb_spec (ni + 1) 0), (Z.ltb_spec (nj + 1) 0); try lia; cbn [orb]; eexists; reflexivity.
Qed.

(** ** Cases *)

(** What a line leaves in the file s, by its last bytes; whether it fails. *)
Definition left_in (fs : filesystem) (g : program) (argv : list string) : option (nat * list byte) :=
  match main ex_libm ex_geod ex_load indices indices 4 g (args argv) yes fs with
  | (fs', Ended (Ok _)) => match fs' "s"%string with Some bs => Some (length bs, firstn 100 bs) | None => None end
  | _ => None
  end.
Definition fails (fs : filesystem) (g : program) (argv : list string) : bool :=
  match main ex_libm ex_geod ex_load indices indices 4 g (args argv) yes fs with
  | (_, Ended (Err _)) => true
  | _ => false
  end.
Definition pair_line (ni nj : string) : list string :=
  ["--xg_file"; "x.bin"; "--yg_file"; "y.csv"; "--ni"; ni; "--nj"; nj; "--lon1"; "0"; "--lat1"; "2"; "--lon2"; "3"; "--lat2"; "0";
   "--lon_subscale"; "2"; "--lat_subscale"; "1"; "--outfile"; "s"]%string.
Definition tile_line (nia njb : string) : list string :=
  ["--tilea"; "a"; "--nia"; nia; "--nja"; "2"; "--tileb"; "b"; "--nib"; "1"; "--njb"; njb; "--outfile"; "s"]%string.
Definition mitgrid_line (ni : string) : list string :=
  ["--mitgridfile"; "a"; "--ni"; ni; "--nj"; "2"; "--lon1"; "1"; "--lat1"; "3"; "--lon2"; "3"; "--lat2"; "1";
    "--lon_subscale"; "2"; "--lat_subscale"; "1"; "--outfile"; "s"]%string.

Example C91_case :
  left_in pair_files Sgregrid (pair_line "2" "3") <> None /\
  left_in pair_files Sgregrid (pair_line "-5" "3") = left_in pair_files Sgregrid (pair_line "2" "3") /\
  left_in pair_files Sgregrid (pair_line "2" "-2") = left_in pair_files Sgregrid (pair_line "2" "3") /\
  fails pair_files Sgregrid (pair_line "-1" "3") = true /\ fails pair_files Sgregrid (pair_line "-5" "-5") = true /\
  fails pair_files Sgregrid (pair_line "-5" "4") = true /\
  left_in ex_fs Sgaddfringe (tile_line "2" "2") <> None /\ fails ex_fs Sgaddfringe (tile_line "-1" "2") = true /\
  fails ex_fs Sgstitch (tile_line "2" "-2") = true /\
  left_in ex_fs Sgregrid (mitgrid_line "2") <> None /\ fails ex_fs Sgregrid (mitgrid_line "-2") = true /\
  ~ (csv_name "x.bin" /\ csv_name "y.csv") /\
  length bin_x / 8 = (2 + 1) * (3 + 1) /\ length mix_y / 8 = (2 + 1) * (3 + 1).
Proof.
  repeat match goal with |- _ /\ _ => split end;
    try (vm_compute; (reflexivity || discriminate)).
  intros (K & _). apply ext_csv in K. vm_compute in K. discriminate.
Qed.

(** The hypotheses of the theorems on lines, for lines of the case above. *)
Lemma gives_shown g argv l given n s :
  shown_line g argv = Parsed l -> line g (args argv) given ->
  option_map snd (find (fun e => String.eqb (fst e) n) (rev l)) = Some s -> exists a, gives given n (Some a) /\ show a = s.
Proof.
  intros E H F. destruct (shown_is_line g argv l E) as (given' & H' & M).
  rewrite (C74_lines_unambiguous g _ _ _ H H'). destruct (find _ (rev l)) as [e|] eqn:Ef; [|discriminate].
  cbn [option_map] in F. injection F as <-. eapply shown_gives; eauto.
Qed.

Definition unshow (s : shown) : argval :=
  match s with ShText t => AText (lit t) | ShInt z => AInt z | ShBits z => AFloat (b64_of_bits z) | ShOn => ATrue end.
Lemma unshow_show a : unshow (show a) = a.
Proof.
  destruct a; cbn [show unshow]; try reflexivity.
  - unfold lit. now rewrite list_ascii_of_string_of_list_ascii.
  - f_equal. apply (binary_float_of_bits_of_binary_float 52 11 eq_refl eq_refl eq_refl).
Qed.
Lemma shown_last given l n : map (fun e => (string_of_list_ascii (fst e), show (snd e))) given = l ->
  last_given given n = option_map (fun e => unshow (snd e)) (find (fun e => String.eqb (fst e) n) (rev l)).
Proof.
  intros <-. unfold last_given. rewrite <- map_rev. unfold text in *. induction (rev given) as [|(k, a) m IH]; [reflexivity|].
  cbn [map find dget fst snd]. destruct (String.eqb_spec (string_of_list_ascii k) n) as [<-|N].
  - cbn [option_map snd]. rewrite unshow_show. replace (lit (string_of_list_ascii k)) with k
      by (unfold lit; now rewrite list_ascii_of_string_of_list_ascii).
    destruct (text_eqb k k) eqn:E; [reflexivity|]. apply text_eqb_neq in E. congruence.
  - rewrite IH. destruct (text_eqb (lit n) k) eqn:E; [|reflexivity]. apply text_eqb_eq in E. subst k. destruct N.
    unfold lit. apply string_of_list_ascii_of_string.
Qed.

Example C91_lines_case :
  (exists given, line Sgaddfringe (args (tile_line "-1" "2")) given /\ below_zero given "nia") /\
  (exists given given', line Sgregrid (args (pair_line "2" "3")) given /\ line Sgregrid (args (pair_line "-5" "3")) given' /\
     but_counts given given' /\ pair_used given "x.bin" "y.csv" /\ gives given "ni" (Some (AInt 2)) /\ gives given "nj" (Some (AInt 3)) /\
     gives given' "ni" (Some (AInt (-5))) /\ gives given' "nj" (Some (AInt 3))).
Proof.
  split.
  - assert (E : exists l, shown_line Sgaddfringe (tile_line "-1" "2") = Parsed l /\
      option_map snd (find (fun e => String.eqb (fst e) "nia") (rev l)) = Some (ShInt (-1))) by (eexists; split; vm_compute; reflexivity).
    destruct E as (l & E & F). destruct (shown_is_line _ _ _ E) as (given & H & _). exists given. split; [exact H|].
    destruct (gives_shown _ _ _ _ _ _ E H F) as ([?|z|?|] & Gz & S); try discriminate S. injection S as ->. exists (-1)%Z. split; [exact Gz|lia].
  - set (ints := fun l : list (string * shown) => map (fun n => option_map snd (find (fun e => String.eqb (fst e) n) (rev l)))
      ["ni"; "nj"; "xg_file"; "yg_file"]%string).
    assert (E : exists l, shown_line Sgregrid (pair_line "2" "3") = Parsed l /\
      ints l = [Some (ShInt 2); Some (ShInt 3); Some (ShText "x.bin"); Some (ShText "y.csv")] /\
      find (fun e => String.eqb (fst e) "mitgridfile") (rev l) = None) by (eexists; repeat split; vm_compute; reflexivity).
    assert (E' : exists l, shown_line Sgregrid (pair_line "-5" "3") = Parsed l /\
      ints l = [Some (ShInt (-5)); Some (ShInt 3); Some (ShText "x.bin"); Some (ShText "y.csv")]) by (eexists; repeat split; vm_compute; reflexivity).
    destruct E as (l & E & F & Fm). destruct E' as (l' & E' & F').
    assert (K : match shown_line Sgregrid (pair_line "2" "3"), shown_line Sgregrid (pair_line "-5" "3") with
      | Parsed a, Parsed b => filter (fun e => negb (String.eqb (fst e) "ni")) (rev a) = filter (fun e => negb (String.eqb (fst e) "ni")) (rev b)
      | _, _ => False end) by (vm_compute; reflexivity).
    rewrite E, E' in K.
    destruct (shown_is_line _ _ _ E) as (given & H & M). destruct (shown_is_line _ _ _ E') as (given' & H' & M').
    exists given, given'. split; [exact H|]. split; [exact H'|].
    assert (Fi : forall n m, n <> "ni"%string -> find (fun e : string * shown => String.eqb (fst e) n) m =
      find (fun e => String.eqb (fst e) n) (filter (fun e => negb (String.eqb (fst e) "ni")) m)).
    { intros n m N. induction m as [|e m IH]; [reflexivity|]. cbn [filter find].
      destruct (String.eqb_spec (fst e) n) as [X|X], (String.eqb_spec (fst e) "ni") as [Y|Y]; cbn [negb find]; try congruence;
        (destruct (String.eqb_spec (fst e) n); [|try contradiction]; congruence || exact IH). }
    cbn [map ints] in F, F'. unfold ints in F, F'. cbn [map] in F, F'. injection F as F1 F2 F3 F4. injection F' as G1 G2 _ _.
    destruct (gives_shown _ _ _ _ _ _ E H F1) as ([?|z|?|] & A1 & S); try discriminate S; injection S as ->.
    destruct (gives_shown _ _ _ _ _ _ E H F2) as ([?|z|?|] & A2 & S); try discriminate S; injection S as ->.
    destruct (gives_shown _ _ _ _ _ _ E' H' G1) as ([?|z|?|] & A3 & S); try discriminate S; injection S as ->.
    destruct (gives_shown _ _ _ _ _ _ E' H' G2) as ([?|z|?|] & A4 & S); try discriminate S; injection S as ->.
    split; [|split; [|auto]].
    + intros n N1 N2. rewrite (shown_last given _ n M), (shown_last given' _ n M'), (Fi n (rev l) N1), (Fi n (rev l') N1), K. reflexivity.
    + split; [left; unfold gives; rewrite (shown_last given _ _ M), Fm; reflexivity|].
      unfold gives. rewrite !(shown_last given _ _ M).
      destruct (find _ (rev l)) as [e3|] eqn:X3 in F3; [|discriminate F3]. injection F3 as F3. rewrite X3.
      destruct (find (fun e => String.eqb (fst e) "yg_file") (rev l)) as [e4|] eqn:X4; [|discriminate F4]. injection F4 as F4.
      cbn [option_map]. rewrite F3, F4. repeat split; discriminate.
Qed.

(** A pair of csv files; sggetobcs. *)
Definition csv_files (p : string) : option (list byte) :=
  if String.eqb p "x.csv" then Some [] else if String.eqb p "y.csv" then Some [x00] else None.
Definition csv_load (bs : list byte) : res (option (mat binary64)) :=
  match bs with [] => Ok (Some ex_xg) | _ => Ok (Some ex_yg) end.
Definition csv_line (ni nj : string) : list string :=
  ["--xg_file"; "x.csv"; "--yg_file"; "y.csv"; "--ni"; ni; "--nj"; nj; "--lon1"; "0"; "--lat1"; "2"; "--lon2"; "3"; "--lat2"; "0";
   "--lon_subscale"; "2"; "--lat_subscale"; "1"; "--outfile"; "s"]%string.
Definition csv_left (ni nj : string) : option (nat * list byte) :=
  match main ex_libm ex_geod csv_load indices indices 4 Sgregrid (args (csv_line ni nj)) yes csv_files with
  | (fs', Ended (Ok _)) => match fs' "s"%string with Some bs => Some (length bs, firstn 100 bs) | None => None end
  | _ => None
  end.
Example C91_csv_case :
  csv_left "2" "3" <> None /\ csv_left "-7" "-1" = csv_left "2" "3" /\ csv_left "99" "1" = csv_left "2" "3" /\ csv_left "0" "3" = None /\
  csv_name "x.csv" /\ csv_name "y.csv".
Proof.
  repeat match goal with |- csv_name _ /\ _ => fail 1 | |- _ /\ _ => split end; try (vm_compute; (reflexivity || discriminate)).
  split; apply ext_csv; reflexivity.
Qed.
Example C91_obcs_case :
  snd (fst (ex_obmain ["--resultsdir"; "o"]%string [])) = None /\
  snd (fst (ex_obmain ["--resultsdir"; "o"; "--ni_parent"; "-2"]%string [])) <> None /\
  snd (fst (ex_obmain ["--resultsdir"; "o"; "--nj_regional"; "-1"]%string [])) <> None.
Proof. vm_compute. repeat split; discriminate. Qed.
