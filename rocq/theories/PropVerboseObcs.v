(** Property C93: what sggetobcs prints with --verbose, and what that says about the files. *)
From Coq Require Import Ascii String List Bool PeanoNat ZArith Lia Init.Byte Logic.FunctionalExtensionality.
Import ListNotations.
From Flocq Require Import IEEE754.Binary IEEE754.Bits.
From Verif Require Import Prelude PreludeFacts Mat Num Fields GridIO Float64 Float64Facts Float32 SpecGrid Refine MkGrid Regrid PropRegrid
  MdsMeta Mds SpecMds MdsTextFacts GetObcs SpecObcs GetObcsFacts ArgParse Main Samples PropMds PropObcs SpecArgs ArgFacts ArgLines Counts CountsFacts Cli
  PropArgs PropCounts Verbose VerboseFacts VerboseSays VerboseObcs VerboseObcsFacts MainV PropVerbose.
Local Open Scope nat_scope.
Local Open Scope list_scope.
Local Arguments Nat.mul : simpl never.

Definition obcsV64 (L : libm) (G : geod binary64) (fo : text -> option binary64) (v : bool) lay o3 fuel
    {W} (xw : mat binary64 -> mat binary64 -> mat binary64 -> mat binary64 -> res W)
    (xv : W -> mat binary64 -> nat -> nat -> binary64) :=
  getobcsV (b64ops L) b64codec G b32codec fo v lay o3 fuel xw xv.

(** ** Printing changes nothing else *)

Theorem C93_output_apart : forall W L G fo lay o3 fuel (xw : _ -> _ -> _ -> _ -> res W) xv,
  (forall v ws fs a n, snd (obcsV64 L G fo v lay o3 fuel xw xv ws fs a n) =
     getobcsZ (b64ops L) b64codec G b32codec fo lay o3 fuel xw xv ws fs a n) /\
  (forall argv ws fs, snd (mainV_obcs L G lay o3 fuel fo xw xv argv ws fs) = main_obcs L G lay o3 fuel fo xw xv argv ws fs).
Proof.
  intros W L G fo lay o3 fuel xw xv. split; [intros v ws fs a n; unfold obcsV64; rewrite getobcsV_snd; reflexivity|]. intros argv ws fs.
  unfold mainV_obcs, main_obcs. destruct (parse_args (parser_of Sggetobcs) argv) as [c|ns]; [reflexivity|].
  assert (Z : match obcs_ofZ ns with
    | Some (a, n) => snd (let o := getobcsV (b64ops L) b64codec G b32codec fo (get_flag ns "verbose") lay o3 fuel xw xv ws fs a n in
          (fst o, (fst (snd o), Ended (snd (snd o)))))
    | None => (ws, fs, Unmodelled) end =
    match obcs_ofZ ns with
    | Some (a, n) => let '(ws', fs', r) := getobcsZ (b64ops L) b64codec G b32codec fo lay o3 fuel xw xv ws fs a n in (ws', fs', Ended r)
    | None => (ws, fs, Unmodelled) end).
  { destruct (obcs_ofZ ns) as [(a, n)|]; [|reflexivity]. cbv zeta. cbn [snd]. rewrite getobcsV_snd.
    now destruct (getobcsZ _ _ _ _ _ _ _ _ _ _ _ _ _ _) as ((w1, f1), r1). }
  transitivity (match obcs_ofZ ns with
    | Some (a, n) => snd (let o := getobcsV (b64ops L) b64codec G b32codec fo (get_flag ns "verbose") lay o3 fuel xw xv ws fs a n in
          (fst o, (fst (snd o), Ended (snd (snd o)))))
    | None => (ws, fs, Unmodelled) end); [now destruct (obcs_ofZ ns) as [(a, n)|]|].
  rewrite Z. clear Z. destruct (obcs_of ns) as [a|] eqn:A; [|reflexivity].
  assert (K : exists a' n, obcs_ofZ ns = Some (a', n) /\ with_counts a' n = a /\
     usable (oa_parent_file a') (oc_nip n) (oc_njp n) /\ usable (oa_regional_file a') (oc_nir n) (oc_njr n)).
  { unfold obcs_of, get_count in A. unfold obcs_ofZ.
    repeat (match type of A with context [match get_int ns ?k with _ => _ end] =>
      let z := fresh "z" in destruct (get_int ns k) as [z|] in *; [|discriminate A]; destruct (Z.ltb_spec z 0); [discriminate A|] end).
    injection A as <-. do 2 eexists. split; [reflexivity|]. split; [reflexivity|].
    cbn [oa_parent_file oa_regional_file oc_nip oc_njp oc_nir oc_njr]. unfold usable. split; right; lia. }
  destruct K as (a' & n & -> & <- & U1 & U2). rewrite getobcsZ_nat; [reflexivity|exact U1|exact U2].
Qed.

Theorem C93_verbose_changes_nothing_else :
  forall W L G fo lay o3 fuel (xw : _ -> _ -> _ -> _ -> res W) xv argv given argv' given' ws fs,
  SpecArgs.line Sggetobcs argv given -> SpecArgs.line Sggetobcs argv' given' ->
  (forall n, n <> "verbose"%string -> last_given given' n = last_given given n) ->
  snd (mainV_obcs L G lay o3 fuel fo xw xv argv' ws fs) = snd (mainV_obcs L G lay o3 fuel fo xw xv argv ws fs).
Proof.
  intros W L G fo lay o3 fuel xw xv argv given argv' given' ws fs P P' Same.
  rewrite !(proj2 (C93_output_apart W L G fo lay o3 fuel xw xv)). unfold main_obcs.
  rewrite (line_parsed _ _ _ P), (line_parsed _ _ _ P').
  assert (D : forall n, n <> "verbose"%string -> dget (rev given') (lit n) = dget (rev given) (lit n)) by exact Same.
  assert (O : ob_option (rev given') = ob_option (rev given)).
  { apply functional_extensionality. intros s. unfold ob_option, get_int. destruct s; rewrite !D by discriminate; reflexivity. }
  assert (E1 : obcs_of (rev given') = obcs_of (rev given)).
  { unfold obcs_of, get_count, get_int, get_text, get_flag. rewrite !D, ?O by discriminate. reflexivity. }
  assert (E2 : obcs_ofZ (rev given') = obcs_ofZ (rev given)).
  { unfold obcs_ofZ, get_int, get_text, get_flag. rewrite !D, ?O by discriminate. reflexivity. }
  now rewrite E1, E2.
Qed.

Theorem C93_quiet_prints_nothing :
  forall W L G fo lay o3 fuel (xw : _ -> _ -> _ -> _ -> res W) xv argv given ws fs,
  SpecArgs.line Sggetobcs argv given -> switched given "verbose" false ->
  fst (mainV_obcs L G lay o3 fuel fo xw xv argv ws fs) = [].
Proof.
  intros W L G fo lay o3 fuel xw xv argv given ws fs P V. unfold mainV_obcs. rewrite (line_parsed _ _ _ P).
  rewrite (flag_given _ _ _ "verbose"%string _ P ltac:(exists "v"%char; cbn; auto) V).
  destruct (obcs_ofZ _) as [(a, n)|]; [|reflexivity]. cbv zeta. cbn [fst]. apply getobcsV_silent.
Qed.

(** With the switch the command prints what getobcs prints. *)
Theorem C93_verbose_command :
  forall W L G fo lay o3 fuel (xw : _ -> _ -> _ -> _ -> res W) xv argv given ws fs,
  SpecArgs.line Sggetobcs argv given -> switched given "verbose" true ->
  exists a n, obcs_ofZ (rev given) = Some (a, n) /\
    forall o ws' fs' r, obcsV64 L G fo true lay o3 fuel xw xv ws fs a n = (o, (ws', fs', r)) ->
      mainV_obcs L G lay o3 fuel fo xw xv argv ws fs = (o, (ws', fs', Ended r)).
Proof.
  intros W L G fo lay o3 fuel xw xv argv given ws fs P V. destruct (obcsZ_given _ _ P) as (a & n & E).
  exists a, n. split; [exact E|]. intros o ws' fs' r R. unfold mainV_obcs. rewrite (line_parsed _ _ _ P), E.
  rewrite (flag_given _ _ _ "verbose"%string _ P ltac:(exists "v"%char; cbn; auto) V).
  fold (obcsV64 L G fo true lay o3 fuel xw xv ws fs a n). now rewrite R.
Qed.

(** ** The messages *)

Definition announcement (resp : string) : item binary64 :=
  Text (lit "computing obcs for '" ++ lit resp ++ lit "'..." ++ ["010"%char]).
Definition grid_messages (which : string) (source : text) (between : list (item binary64)) (ni nj : Z) : list (item binary64) :=
  [Text (lit "reading " ++ lit which ++ lit " grid from " ++ source ++ lit "..." ++ ["010"%char])] ++ between ++
  [Text (lit "...successfully read " ++ int_text ni ++ lit "x" ++ int_text nj ++ lit " grid." ++ ["010"%char])].
Definition doubles_read (p : text) (ni nj : Z) : list (item binary64) :=
  [Text (lit "reading " ++ int_text (16 * ((ni + 1) * (nj + 1))) ++ lit " doubles from " ++ p ++ lit "... ");
   Text (lit " done." ++ ["010"%char])] ++ shapes_printed ni nj.
(** Names at the right of three places. *)
Definition name_right (f : field) : string :=
  match f with
  | XC => " XC" | YC => " YC" | DXF => "DXF" | DYF => "DYF" | RAC => "RAC" | XG => " XG" | YG => " YG" | DXV => "DXV"
  | DYU => "DYU" | RAZ => "RAZ" | DXC => "DXC" | DYC => "DYC" | RAW => "RAW" | RAS => "RAS" | DXG => "DXG" | DYG => "DYG"
  end.
Definition field_found (g : field -> option (mat binary64)) (f : field) : list (item binary64) :=
  Text (lit "reading " ++ lit (name_right f) ++ lit "...") ::
  match g f with
  | Some _ => [Text (lit "reformatting..."); Text (lit "done" ++ ["010"%char])]
  | None => [Text (lit "............no data" ++ ["010"%char])]
  end.
Definition fields_found (g : field -> option (mat binary64)) : list (item binary64) :=
  field_found g XC ++ field_found g YC ++ field_found g DXF ++ field_found g DYF ++ field_found g RAC ++ field_found g XG ++
  field_found g YG ++ field_found g DXV ++ field_found g DYU ++ field_found g RAZ ++ field_found g DXC ++ field_found g DYC ++
  field_found g RAW ++ field_found g RAS ++ field_found g DXG ++ field_found g DYG.

(** mds2mitgrid: the fields in the order of the mitgrid file, done for those it returns and no
    data for the others. *)
Theorem C93_mds_fields : forall L fo fs dir g ni nj,
  snd (mds2mitgridV (b64ops L) b64codec b32codec fo true fs dir) = Ok (g, ni, nj) ->
  fst (mds2mitgridV (b64ops L) b64codec b32codec fo true fs dir) = fields_found g.
Proof.
  intros L fo fs dir g ni nj H. rewrite (mds_says _ _ _ _ _ _ _ _ _ H).
  assert (K : forall f, mds_said f (g f) = field_found g f) by (intros []; reflexivity).
  unfold fields_found. rewrite <- !K. cbn [flat_map fields]. now rewrite app_nil_r.
Qed.

Lemma read_grid_ok (o : out binary64 (griddict binary64 * Z * Z)) d ni nj : snd (read_grid true o) = Ok (d, ni, nj) ->
  snd o = Ok (d, ni, nj) /\ fst (read_grid true o) = fst o ++
    [Text (lit "...successfully read " ++ int_text ni ++ lit "x" ++ int_text nj ++ lit " grid." ++ ["010"%char])].
Proof.
  unfold read_grid. intros H. do 2 ook H. cbn [snd still] in H. injection H as ->. split; [exact Hx|].
  cbn [fst snd say still]. f_equal. unfold Verbose.line, Verbose.newline. now rewrite app_nil_r, <- !app_assoc.
Qed.

Lemma reading_line which source :
  [reading_from which source] = [Text (F := binary64) (lit "reading " ++ lit which ++ lit " grid from " ++ source ++ lit "..." ++ ["010"%char])].
Proof. unfold reading_from, Verbose.line, Verbose.newline. now rewrite <- !app_assoc. Qed.

Lemma from_file_says L which fs p ni nj strict d ni' nj' :
  snd (grid_from_fileV (b64ops L) b64codec true which fs p ni nj strict) = Ok (d, ni', nj') ->
  ni' = ni /\ nj' = nj /\ fst (grid_from_fileV (b64ops L) b64codec true which fs p ni nj strict) =
    [Text (lit "reading " ++ lit which ++ lit " grid from " ++ p ++ lit "..." ++ ["010"%char])] ++ doubles_read p ni nj.
Proof.
  unfold grid_from_fileV. destruct (_ && _); [|discriminate]. intros H. do 2 ook H. cbn [snd still] in H. injection H as _ -> ->.
  split; [reflexivity|]. split; [reflexivity|]. rewrite (C92_reading _ _ _ _ _ _ _ Hx0).
  cbn [fst say still]. rewrite reading_line, app_nil_r. f_equal. unfold doubles_read.
  now replace (lit (string_of_list_ascii p)) with p by (unfold lit; now rewrite list_ascii_of_string_of_list_ascii).
Qed.

(** Where the parent grid comes from: a file that is named, matrices that are not empty, or
    the results directory; and the counts that are used. *)
Theorem C93_parent_grid : forall L fo fs a n dir d ni nj,
  snd (parent_gridV (b64ops L) b64codec b32codec fo true fs a n dir) = Ok (d, ni, nj) ->
  let o := fst (parent_gridV (b64ops L) b64codec b32codec fo true fs a n dir) in
  (forall p, oa_parent_file a = Some p -> p <> [] -> o = grid_messages "parent" p (doubles_read p ni nj) ni nj) /\
  ((oa_parent_file a = None \/ oa_parent_file a = Some []) ->
     (forall m f, oa_parent_matrices a = Some m -> m f <> Missing ->
        d = m /\ o = grid_messages "parent" (lit "parent_mitgrid_matrices") [] ni nj) /\
     ((oa_parent_matrices a = None \/ exists m, oa_parent_matrices a = Some m /\ forall f, m f = Missing) ->
        exists g, d = mds_entry g /\ o = grid_messages "parent" dir (fields_found g) ni nj)).
Proof.
  intros L fo fs a n dir d ni nj H. cbv zeta. unfold parent_gridV in *. apply read_grid_ok in H as (H & ->). unfold grid_messages.
  rewrite (app_assoc [_]).
  split; [|intros NF; split].
  - intros p Ep Np. rewrite Ep in *. destruct p as [|c p]; [congruence|]. cbn [txt_arg] in *.
    destruct (from_file_says _ _ _ _ _ _ _ _ _ _ H) as (-> & -> & ->). reflexivity.
  - intros m f Em Mf. replace (txt_arg (oa_parent_file a)) with (@None text) in * by (destruct NF as [-> | ->]; reflexivity).
    rewrite Em in *. unfold given_matrices in *. destruct (dict_empty m) eqn:De.
    { exfalso. apply Mf. unfold dict_empty in De. rewrite forallb_forall in De.
      specialize (De f ltac:(destruct f; cbn; tauto)). now destruct (m f). }
    do 2 ook H. cbn [snd still] in H, Hx0. unfold grid_from_matrices in Hx0.
    cbn [fst say still]. rewrite reading_line. split; [|reflexivity].
    repeat match type of Hx0 with context [match ?y with _ => _ end] => destruct y; try discriminate Hx0 end.
    injection Hx0 as <-. cbn [with_integers] in H. now injection H.
  - intros Em. replace (txt_arg (oa_parent_file a)) with (@None text) in * by (destruct NF as [-> | ->]; reflexivity).
    replace (given_matrices (oa_parent_matrices a)) with (@None (griddict binary64)) in *.
    2:{ unfold given_matrices. destruct Em as [-> |(m & -> & Em)]; [reflexivity|].
        replace (dict_empty m) with true; [reflexivity|]. symmetry. unfold dict_empty. apply forallb_forall. intros f _. now rewrite Em. }
    do 2 ook H. destruct x0 as ((g, mi), mj). cbn [with_integers snd still] in H. injection H as <- <- <-.
    exists g. split; [reflexivity|]. rewrite (C93_mds_fields _ _ _ _ _ _ _ Hx0). cbn [fst say still]. rewrite reading_line.
    now rewrite app_nil_r.
Qed.

Theorem C93_regional_grid : forall L fs a n d ni nj,
  snd (regional_gridV (b64ops L) b64codec true fs a n) = Ok (d, ni, nj) ->
  let o := fst (regional_gridV (b64ops L) b64codec true fs a n) in
  (exists p, oa_regional_file a = Some p /\ p <> [] /\ o = grid_messages "regional" p (doubles_read p ni nj) ni nj) \/
  ((oa_regional_file a = None \/ oa_regional_file a = Some []) /\ oa_regional_matrices a = Some d /\ (exists f, d f <> Missing) /\
   o = grid_messages "regional" (lit "regional_mitgrid_matrices") [] ni nj).
Proof.
  intros L fs a n d ni nj H. cbv zeta. unfold regional_gridV in *. apply read_grid_ok in H as (H & ->). unfold grid_messages.
  rewrite (app_assoc [_]).
  destruct (oa_regional_file a) as [[|c p]|] eqn:Ep; cbn [txt_arg] in *.
  2:{ left. exists (c :: p). split; [reflexivity|]. split; [discriminate|].
      destruct (from_file_says _ _ _ _ _ _ _ _ _ _ H) as (-> & -> & ->). reflexivity. }
  all: right; (split; [auto|]).
  all: unfold given_matrices in *; destruct (oa_regional_matrices a) as [m|]; [|discriminate H].
  all: destruct (dict_empty m) eqn:De; [discriminate H|].
  all: do 2 ook H; cbn [snd still] in H, Hx0; unfold grid_from_matrices in Hx0.
  all: cbn [fst say still]; rewrite reading_line.
  all: repeat match type of Hx0 with context [match ?y with _ => _ end] => destruct y; try discriminate Hx0 end.
  all: injection Hx0 as <-; cbn [with_integers] in H; injection H as <- <- <-.
  all: split; [reflexivity|]; split; [|reflexivity].
  all: unfold dict_empty in De; apply not_true_iff_false in De.
  all: assert (K : exists f, In f fields /\ m f <> Missing) by
    (clear - De; induction fields as [|f l IH]; [now elim De|]; cbn [forallb] in De;
     destruct (m f) eqn:E; try (exists f; split; [now left|congruence]);
     destruct (IH De) as (f' & I & Nf); exists f'; split; [now right|exact Nf]).
  all: destruct K as (f & _ & K); eauto.
Qed.

(** ** Announcements *)

(** The responses whose files a run has completed: those announced, but not the last if the
    run failed. *)
Definition completed (r : res unit) (said : list string) : list string :=
  match r with Ok _ => said | Err _ => removelast said end.

(** The order of the code. *)
Definition in_order : list string := ["T"; "S"; "Eta"; "W"; "U"; "UICE"; "V"; "VICE"]%string.
(** [l] lists what satisfies P, in that order. *)
Definition those (P : string -> Prop) (l : list string) : Prop :=
  exists keep, (forall x, keep x = true <-> P x) /\ l = filter keep in_order.

Lemma announce_eq resp : announce resp = announcement resp.
Proof. unfold announce, announcement, Verbose.line, Verbose.newline. now rewrite <- !app_assoc. Qed.

Lemma announcement_c resp : small_c (announcement resp).
Proof. reflexivity. Qed.

Lemma those_kept fs dir : those (fun resp => result_file (names fs) (path_join dir (lit resp))) (filter (has_data fs dir) (map fst responses)).
Proof. exists (has_data fs dir). split; [|reflexivity]. intros x. apply result_file_iff. Qed.

Lemma not_announced o : Forall (fun i : item binary64 => ~ small_c i) o -> forall resp, ~ In (announcement resp) o.
Proof. intros H resp I. rewrite Forall_forall in H. apply (H _ I). apply announcement_c. Qed.

(** However the run ends: the announcements come last, they are a prefix of those for the
    responses with result files, all of them if the run succeeds; and the boundary files of
    the responses announced before the failure, and only these, have been written in full. *)
Theorem C93_announced_and_written :
  forall W L G fo lay o3 fuel (xw : _ -> _ -> _ -> _ -> res W) xv ws fs a n o ws' fs' r dir out,
  obcsV64 L G fo true lay o3 fuel xw xv ws fs a n = (o, (ws', fs', r)) -> runs_in a dir out ->
  exists before said unsaid,
    o = before ++ map announcement said /\ (forall resp, ~ In (announcement resp) before) /\
    those (fun resp => result_file (names fs) (path_join dir (lit resp))) (said ++ unsaid) /\
    (r = Ok tt -> unsaid = []) /\
    (forall g ni nj times, regional_gridZ (b64ops L) b64codec fs a n = Ok (g, ni, nj) -> times_of fs dir = Ok times ->
       forall resp s, In resp (completed r said) -> exists bs nd,
         dget fs' (ob_file out s resp) = Some bs /\
         depths_of (response64 L fo fs dir resp (nth 0 times 0%Z)) = Ok nd /\
         length bs = 8 * (cells_along (Z.to_nat ni) (Z.to_nat nj) s * nd * length times)) /\
    (forall name, (forall resp s, In resp (completed r said) -> name <> ob_file out s resp) -> dget fs' name = dget fs name).
Proof.
  intros W L G fo lay o3 fuel xw xv ws fs a n o ws' fs' r dir out H (Hd & ->). unfold obcsV64 in H. apply getobcsV_parts in H.
  destruct H as [(-> & (e & ->) & Nc)|(dir' & gp & gr & bd & rg & nt & times & E0 & E1 & E2 & E3 & E4 & H)].
  - exists o, [], (filter (has_data fs dir) (map fst responses)). cbn [map completed removelast app]. split; [now rewrite app_nil_r|].
    split; [now apply not_announced|]. split; [apply those_kept|]. split; [discriminate|]. split; [intros g ni nj times _ _ resp s []|]. auto.
  - rewrite Hd in E0. injection E0 as <-. cbv zeta in H. destruct H as (-> & H).
    match type of H with snd ?l = _ => destruct l as (ol, lr) eqn:El end. cbn [fst snd] in *. subst lr.
    apply loop_announced in El; [|exact (ob_allZ_used _ _ _ _ E3)|apply responses_NoDup|apply incl_refl].
    destruct El as (sd & un & J1 & J2 & J3 & _ & J5 & J6).
    set (gP := fst (parent_gridV _ _ _ _ _ _ _ _ _)). set (gR := fst (regional_gridV _ _ _ _ _ _)).
    assert (Np : Forall (fun i => ~ small_c i) gP) by apply parent_gridV_nc.
    assert (Nr : Forall (fun i => ~ small_c i) gR) by apply regional_gridV_nc. clearbody gP gR.
    exists (gP ++ gR ++ [computing nt (length times)]), sd, un. split; [|split; [|split; [|split; [exact J3|split]]]].
    + rewrite J1, <- !app_assoc, (map_ext _ _ announce_eq). reflexivity.
    + apply not_announced. apply Forall_app. split; [exact Np|]. apply Forall_app. split; [exact Nr|].
      constructor; [|constructor]. cbn. discriminate.
    + rewrite <- J2. apply those_kept.
    + intros g ni nj times' Er Et resp s I. rewrite regional_gridV_snd, Er in E2. injection E2 as <-. cbn [fst snd] in *.
      assert (times' = times) as ->.
      { unfold times_and_depths in E4. rewrite Et in E4. cbn [rbind] in E4. destruct times' as [|t0 ts]; [discriminate|].
        mok E4. destruct (shape a0); [discriminate|]. now injection E4. }
      destruct (J5 resp s I) as (k & nd & ar & _ & A2 & A3). eexists _, nd. split; [exact A3|].
      edestruct @assemble_inv as ((t0 & rr & Etm & Hnd) & _); [exact (ob_allZ_used _ _ _ _ E3)|exact A2|].
      split; [rewrite Etm; exact Hnd|].
      assert (Hw : forall x, length (enc b64codec x) = 8) by (apply (enc_len b64_codec_laws)).
      rewrite (tofile3_len _ Hw), side_len_eq. lia.
    + exact J6.
Qed.

(** A run that succeeds: the messages of the two grids, the first extent of T and the number
    of times, and one announcement for every response with result files. *)
Theorem C93_successful_run :
  forall W L G fo lay o3 fuel (xw : _ -> _ -> _ -> _ -> res W) xv ws fs a n o ws' fs' dir out,
  obcsV64 L G fo true lay o3 fuel xw xv ws fs a n = (o, (ws', fs', Ok tt)) -> runs_in a dir out ->
  exists times T1 n1 rest said,
    times_of fs dir = Ok times /\ response64 L fo fs dir "T" (nth 0 times 0%Z) = Ok T1 /\ shape T1 = n1 :: rest /\
    those (fun resp => result_file (names fs) (path_join dir (lit resp))) said /\
    o = fst (parent_gridV (b64ops L) b64codec b32codec fo true fs a n dir) ++ fst (regional_gridV (b64ops L) b64codec true fs a n) ++
        [Text (lit "Computing boundary matrices for " ++ int_text (Z.of_nat n1) ++ lit " depths and " ++
               int_text (Z.of_nat (length times)) ++ lit " times..." ++ ["010"%char])] ++ map announcement said.
Proof.
  intros W L G fo lay o3 fuel xw xv ws fs a n o ws' fs' dir out H (Hd & ->). unfold obcsV64 in H. apply getobcsV_parts in H.
  destruct H as [(-> & (e & He) & Nc)|(dir' & gp & gr & bd & rg & nt & times & E0 & E1 & E2 & E3 & E4 & H)]; [discriminate|].
  rewrite Hd in E0. injection E0 as <-. cbv zeta in H. destruct H as (-> & H).
  match type of H with snd ?l = _ => destruct l as (ol, lr) eqn:El end. cbn [fst snd] in *. subst lr.
  apply loop_announced in El; [|exact (ob_allZ_used _ _ _ _ E3)|apply responses_NoDup|apply incl_refl].
  destruct El as (sd & un & J1 & J2 & J3 & _). specialize (J3 eq_refl). subst un. rewrite app_nil_r in J2.
  unfold times_and_depths in E4. mok E4. destruct a0 as [|t0 ts]; [discriminate|]. mok E4.
  destruct (shape a0) as [|n1 rest] eqn:Sh; [discriminate|]. injection E4 as <- <-.
  exists (t0 :: ts), a0, n1, rest, sd. split; [exact Ha|]. split; [exact Ha0|]. split; [exact Sh|].
  split; [rewrite <- J2; apply those_kept|]. rewrite J1, (map_ext _ _ announce_eq).
  set (gP := fst (parent_gridV _ _ _ _ _ _ _ _ _)). set (gR := fst (regional_gridV _ _ _ _ _ _)). clearbody gP gR.
  unfold computing, Verbose.line, Verbose.newline. now rewrite <- !app_assoc.
Qed.

(** ** A concrete run *)
Definition texts (o : list (item binary64)) : list (option string) :=
  map (fun i => match i with Text t => Some (string_of_list_ascii t) | Array _ => None end) o.
Definition ex_obcsV v fs a := obcsV64 ex_libm ex_geod ex_float_of v indices indices 3 ex_xw ex_xv [] fs a (mk_obcs_counts 0 0 0 0).
Definition ex_saidV v fs a : list (option string) * option exn := 
  let r := ex_obcsV v fs a in (texts (fst r), failure (snd (snd r))).

(** T, U and V; an index out of range: only T is announced, and nothing is written; silence. *)
Example C93_case :
  ex_saidV true ex_results (ex_ob (fun _ => ONone)) =
    ([Some ("reading parent grid from parent_mitgrid_matrices..." ++ nl); Some ("...successfully read 2x1 grid." ++ nl);
      Some ("reading regional grid from regional_mitgrid_matrices..." ++ nl); Some ("...successfully read 2x1 grid." ++ nl);
      Some ("Computing boundary matrices for 1 depths and 1 times..." ++ nl);
      Some ("computing obcs for 'T'..." ++ nl); Some ("computing obcs for 'U'..." ++ nl); Some ("computing obcs for 'V'..." ++ nl)]%string, None) /\
  ex_saidV true ex_results (ex_ob (ex_south [2%Z])) =
    ([Some ("reading parent grid from parent_mitgrid_matrices..." ++ nl); Some ("...successfully read 2x1 grid." ++ nl);
      Some ("reading regional grid from regional_mitgrid_matrices..." ++ nl); Some ("...successfully read 2x1 grid." ++ nl);
      Some ("Computing boundary matrices for 1 depths and 1 times..." ++ nl); Some ("computing obcs for 'T'..." ++ nl)]%string, Some IndexError) /\
  ex_saidV false ex_results (ex_ob (fun _ => ONone)) = ([], None).
Proof. split; [vm_compute; reflexivity|]. split; vm_compute; reflexivity. Qed.

(** The command with and without the switch, as C93_verbose_changes_nothing_else,
    C93_quiet_prints_nothing and C93_verbose_command want it; no file of the parent grid is
    there, and all the same it was successfully read. *)
Definition obcs_line : list string :=
  ["--parent_mitgridfile="; "--ni_parent"; "0"; "--nj_parent"; "0"; "--regional_mitgridfile"; "r"; "--ni_regional"; "1"; "--nj_regional"; "1";
   "--parent_resultsdir"; "run"; "--resultsdir"; "out"]%string.
Definition said_obcs (argv : list string) : list (option string) :=
  texts (fst (mainV_obcs ex_libm ex_geod indices indices 3 ex_float_of ex_xw ex_xv (args argv) [] ex_results)).
Example C93_case_lines :
  (exists given given', SpecArgs.line Sggetobcs (args obcs_line) given /\ SpecArgs.line Sggetobcs (args ("-v"%string :: obcs_line)) given' /\
     switched given "verbose" false /\ switched given' "verbose" true /\
     (forall n, n <> "verbose"%string -> last_given given' n = last_given given n)) /\
  said_obcs obcs_line = [] /\
  (let l := said_obcs ("-v"%string :: obcs_line) in (length l, firstn 3 l, skipn 31 l)) =
    (36, [Some ("reading parent grid from run..." ++ nl); Some "reading  XC..."; Some ("............no data" ++ nl)],
     [Some "reading DYG..."; Some ("............no data" ++ nl); Some ("...successfully read 0x0 grid." ++ nl);
      Some ("reading regional grid from r..." ++ nl); Some "reading 64 doubles from r... "])%string.
Proof.
  split; [|split; vm_compute; reflexivity].
  assert (E : exists ns, parse_args (parser_of Sggetobcs) (args obcs_line) = Parsed ns /\
    parse_args (parser_of Sggetobcs) (args ("-v"%string :: obcs_line)) = Parsed (ns ++ [(lit "verbose", ATrue)]) /\
    forallb (fun x => negb (text_eqb (lit "verbose") (fst x))) ns = true) by (eexists; vm_compute; auto).
  destruct E as (ns & E & E' & N).
  apply parse_args_line in E as (given & P & ->). apply parse_args_line in E' as (given' & P' & Eg).
  assert (Eg' : given' = (lit "verbose", ATrue) :: given).
  { rewrite <- (rev_involutive given'), <- Eg, rev_app_distr, rev_involutive. reflexivity. }
  exists given, given'. split; [exact P|]. split; [exact P'|]. unfold switched. split; [|split].
  - split; [discriminate|]. intros I. exfalso. rewrite forallb_forall in N. apply in_map_iff in I as (x & Ex & I).
    apply in_rev in I. specialize (N x I). rewrite Ex in N. now rewrite (proj2 (text_eqb_eq _ _) eq_refl) in N.
  - rewrite Eg'. split; [|reflexivity]. intros _. now left.
  - intros n Hn. unfold last_given. rewrite <- Eg. now apply dget_other_end.
Qed.

(** ** The messages are not always true *)

(** A grid said to be read need not be there. *)
Theorem C93_success_message_refuted :
  ~ (forall L fo fs a n dir d ni nj, snd (parent_gridV (b64ops L) b64codec b32codec fo true fs a n dir) = Ok (d, ni, nj) ->
       exists f m, d f = Arr m).
Proof.
  intros H. specialize (H ex_libm ex_float_of [] (mk_obcs_args None None None None None None None None (Some (lit "run")) (fun _ => ONone) None true)
    (mk_obcs_counts 0 0 0 0) (lit "run") (mds_entry (fun _ => None)) 0%Z 0%Z eq_refl).
  destruct H as (f & m & H). discriminate.
Qed.

(** The number of depths printed is wrong for two-dimensional results: a 1 x 2 grid. *)
Definition ex_tall : griddict binary64 :=
  fun f => match f with
    | XG => Arr (ex_mat [[0; 0; 0]; [1; 1; 1]]%Z)
    | YG => Arr (ex_mat [[0; 1; 2]; [0; 1; 2]]%Z)
    | _ => Arr (ex_mat [[5; 6]]%Z)
    end.
Definition ex_tall_results : directory :=
  fst (wrmds64 [] (lit "run/T") (mk_nd [2; 1] (fun idx => ex_dbl (10 + offset [2; 1] idx))) (Some 7%Z)
         (lit "float64") None None None None (lit "b")).
Definition ex_tall_args : @obcs_args binary64 :=
  mk_obcs_args None (Some ex_tall) None None None (Some ex_tall) None None (Some (lit "run")) (fun _ => ONone) None true.

Theorem C93_depths_printed_refuted :
  ~ (forall W L G fo lay o3 fuel (xw : _ -> _ -> _ -> _ -> res W) xv ws fs a n o ws' fs' dir out g ni nj depths times bs,
      obcsV64 L G fo true lay o3 fuel xw xv ws fs a n = (o, (ws', fs', Ok tt)) -> runs_in a dir out ->
      regional_gridZ (b64ops L) b64codec fs a n = Ok (g, ni, nj) ->
      In (Text (lit "Computing boundary matrices for " ++ int_text (Z.of_nat depths) ++ lit " depths and " ++
               int_text (Z.of_nat times) ++ lit " times..." ++ ["010"%char])) o ->
      dget fs' (ob_file out South "T") = Some bs ->
      length bs = 8 * (Z.to_nat ni * depths * times)).
Proof.
  intros H. destruct (ex_obcsV true ex_tall_results ex_tall_args) as (o, ((ws', fs'), r)) eqn:E.
  assert (V : (let q := ex_obcsV true ex_tall_results ex_tall_args in
      (nth 4 (texts (fst q)) None, failure (snd (snd q)), option_map (fun bs => length bs) (dget (snd (fst (snd q))) (ob_file (lit "run_obcs") South "T")))) =
    (Some ("Computing boundary matrices for 2 depths and 1 times..." ++ nl)%string, None, Some 8)) by (vm_compute; reflexivity).
  rewrite E in V. cbv zeta in V. cbn [fst snd] in V. pose proof (f_equal (fun x => fst (fst x)) V) as V1.
  pose proof (f_equal (fun x => snd (fst x)) V) as V2. pose proof (f_equal snd V) as V3. cbn [fst snd] in V1, V2, V3. clear V.
  destruct r as [[]|]; [|discriminate V2]. destruct (dget fs' (ob_file (lit "run_obcs") South "T")) as [bs|] eqn:D; cbn [option_map] in V3; [|discriminate V3].
  injection V3 as V3.
  assert (I : nth 4 o (Text []) = Text (lit "Computing boundary matrices for " ++ int_text (Z.of_nat 2) ++ lit " depths and " ++
               int_text (Z.of_nat 1) ++ lit " times..." ++ ["010"%char])).
  { clear - V1. unfold texts in V1.
    assert (K : nth 4 (map (fun i : item binary64 => match i with Text t => Some (string_of_list_ascii t) | Array _ => None end) o) (Some EmptyString) =
      match nth 4 o (Text []) with Text t => Some (string_of_list_ascii t) | Array _ => None end).
    { exact (map_nth (fun i : item binary64 => match i with Text t => Some (string_of_list_ascii t) | Array _ => None end) o (Text []) 4). }
    assert (Lo : 4 < length o).
    { destruct (Nat.lt_ge_cases 4 (length o)) as [Lo|Lo]; [exact Lo|]. rewrite nth_overflow in V1 by (rewrite map_length; lia). discriminate. }
    rewrite (nth_indep _ (Some EmptyString) None) in K by (rewrite map_length; lia). rewrite V1 in K.
    destruct (nth 4 o (Text [])) as [t|]; [|discriminate]. injection K as K. f_equal.
    rewrite <- (list_ascii_of_string_of_list_ascii t), <- K. reflexivity. }
  assert (J : In (Text (lit "Computing boundary matrices for " ++ int_text (Z.of_nat 2) ++ lit " depths and " ++
               int_text (Z.of_nat 1) ++ lit " times..." ++ ["010"%char])) o).
  { rewrite <- I. apply nth_In. destruct (Nat.lt_ge_cases 4 (length o)) as [Lo|Lo]; [exact Lo|]. rewrite nth_overflow in I by lia. discriminate I. }
  specialize (H nat ex_libm ex_geod ex_float_of indices indices 3 ex_xw ex_xv [] ex_tall_results ex_tall_args (mk_obcs_counts 0 0 0 0)
    o ws' fs' (lit "run") (lit "run_obcs") ex_tall 1%Z 2%Z 2 1 bs E (conj eq_refl eq_refl) eq_refl J D).
  rewrite V3 in H. discriminate H.
Qed.
