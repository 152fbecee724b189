(** Property C92: what the commands print with --verbose, and that printing changes nothing
    else. *)
From Coq Require Import Ascii String List Bool PeanoNat ZArith Reals Lia Lra Init.Byte.
Import ListNotations.
From Flocq Require Import Core.Core IEEE754.BinarySingleNaN IEEE754.Binary IEEE754.Bits.
From Verif Require Import Prelude PreludeFacts Mat Num Fields GridIO Float64 Float64Facts Float32 SpecGrid Util ComputeGridFacts Refine MkGrid Regrid MatchEdges PropFill AddFringe
  Cli MdsMeta Mds GetObcs ArgParse Main MdsTextFacts SpecArgs SpecRegrid SourceFacts PropRegrid GridIOFacts GridIOProofs ArgFacts ArgLines Counts CountsFacts CountsRun Samples PropGridIO PropMkGrid PropFringe PropCli PropObcs
  PropArgs PropPair PropCounts SpecTimes FmtE FmtF FmtFFacts Verbose VerboseFacts VerboseSays MainV.
Local Open Scope nat_scope.
Local Open Scope list_scope.

Section Main.
Variables (L : libm) (G : geod binary64) (loadtxt : list byte -> res (option (mat binary64))).
Variables lay o3 : nat -> nat -> list (nat * nat).
Variable fuel : nat.
Notation mainV := (mainV L G loadtxt lay o3 fuel).
Notation main := (main L G loadtxt lay o3 fuel).

Lemma missing_coordinate (a b c d : option binary64) :
  match a, b, c, d with Some _, Some _, Some _, Some _ => false | _, _, _, _ => true end = true <-> In None [a; b; c; d].
Proof. destruct a, b, c, d; cbn; intuition discriminate. Qed.

Lemma mainV_snd : layouts o3 -> forall g argv w fs, g <> Sggetobcs ->
  snd (mainV g argv w fs) = main g argv w fs.
Proof.
  intros Hl g argv w fs Hg. destruct (parse_args (parser_of g) argv) as [c|ns] eqn:P.
  { unfold MainV.mainV, Main.main. now rewrite P. }
  pose proof P as P0. apply parse_args_line in P as (given & P & ->).
  assert (Z : forall c, command_ofZ g (rev given) = Some c -> snd (mainV g argv w fs) = main g argv w fs).
  { intros c E. rewrite (main_runsZ L G loadtxt lay o3 fuel g argv given c w fs P E). unfold MainV.mainV. rewrite P0.
    assert (K := runV_snd (b64ops L) b64codec G fmt_9_4f (get_flag (rev given) "verbose") lay o3 (layouts_order_ok o3 Hl) loadtxt fuel w fs c).
    destruct g; try discriminate E; rewrite E; cbv zeta; cbn [snd fst]; unfold runsZ, runZ64; now rewrite K. }
  destruct g; [|destruct (commandZ_given Sgregrid argv given (or_introl eq_refl) P) as (c & E); now apply (Z c)
   |destruct (commandZ_given Sgaddfringe argv given (or_intror (or_introl eq_refl)) P) as (c & E); now apply (Z c)
   |destruct (commandZ_given Sgstitch argv given (or_intror (or_intror eq_refl)) P) as (c & E); now apply (Z c)|congruence].
  clear Z. unfold MainV.mainV, Main.main. rewrite P0. cbv zeta. cbn [snd fst]. unfold unprintable. cbn [command_of].
  set (v := get_flag _ _).
  set (x1 := get_float (rev given) "lon1"). set (y1 := get_float (rev given) "lat1").
  set (x2 := get_float (rev given) "lon2"). set (y2 := get_float (rev given) "lat2").
  destruct (v && _) eqn:U.
  - apply andb_true_iff in U as (V & M). apply missing_coordinate in M.
    unfold run_mkgridV. rewrite (mkgridV_none (b64ops L) G fmt_9_4f v x1 y1 x2 y2 _ _ V M). reflexivity.
  - assert (M : v = false \/ ~ In None [x1; y1; x2; y2]).
    { destruct v; [right|now left]. intros M. apply missing_coordinate in M. rewrite M in U. discriminate. }
    unfold run_mkgridV. rewrite (mkgridV_snd (b64ops L) G fmt_9_4f v x1 y1 x2 y2 _ _ M).
    unfold run, compute.
    destruct (get_int (rev given) "lon_subscale") as [ls|], (get_int (rev given) "lat_subscale") as [lt|]; try reflexivity.
    set (r := mkgrid _ _ _ _ _ _ _ _). destruct r as [((gr, ni), nj)|e]; [|reflexivity].
    cbn [outfile_of]. destruct (path_arg (rev given) "outfile") as [p|]; [|reflexivity].
    unfold write_outV, Cli.write_file. cbn [snd fst]. destruct (w p); [|reflexivity].
    rewrite (write_mitgridZ_nat (b64ops L) b64codec). destruct (write_mitgrid _ _ _ _ _). reflexivity.
Qed.

(** ** The last two messages *)

Lemma write_outV_done st w fs p (g : grid binary64) ni nj (W := write_outV (b64ops L) b64codec true st w fs p g ni nj) :
  (In done_line (fst W) <-> snd (snd W) = Ok tt) /\
  (snd (snd W) = Ok tt -> fst W = [Verbose.line (writing_text st p ni nj); done_line] /\
     exists bs, fst (snd W) = fs_set fs p bs /\ Z.of_nat (length bs) = (128 * (ni + 1) * (nj + 1))%Z).
Proof.
  subst W. unfold write_outV. cbn [fst snd]. destruct (w p).
  - destruct (write_mitgridZ (b64ops L) b64codec (dict_of_grid g) ni nj) as (bs, [[]|e]) eqn:E; cbn [fst snd].
    + split; [cbn; intuition|]. intros _. split; [reflexivity|]. exists bs. split; [reflexivity|].
      exact (write_mitgridZ_size (b64ops L) b64codec b64_codec_laws _ _ _ _ E).
    + split; [|discriminate]. split; [|discriminate]. intros [K|[]]. now apply writing_not_done in K.
  - cbn [fst snd]. split; [|discriminate]. split; [|discriminate]. intros [K|[]]. now apply writing_not_done in K.
Qed.

Lemma not_done_in (l : list (item binary64)) : Forall (fun i => i <> done_line) l -> In done_line l -> False.
Proof. intros H K. rewrite Forall_forall in H. now apply H in K. Qed.

(** What the end of a verbose run says. *)
Definition ended_well (st : bool) (p : option string) (fs : filesystem)
    (r : list (item binary64) * (filesystem * res unit)) : Prop :=
  (In done_line (fst r) <-> snd (snd r) = Ok tt) /\
  (snd (snd r) = Ok tt -> exists before q ni nj bs, p = Some q /\
     fst r = before ++ [Verbose.line (writing_text st q ni nj); done_line] /\
     fst (snd r) = fs_set fs q bs /\ Z.of_nat (length bs) = (128 * (ni + 1) * (nj + 1))%Z).

Lemma after_output st p fs pre (W : list (item binary64) * (filesystem * res unit)) ni nj :
  Forall (fun i => i <> done_line) pre ->
  (In done_line (fst W) <-> snd (snd W) = Ok tt) /\
  (snd (snd W) = Ok tt -> fst W = [Verbose.line (writing_text st p ni nj); done_line] /\
     exists bs, fst (snd W) = fs_set fs p bs /\ Z.of_nat (length bs) = (128 * (ni + 1) * (nj + 1))%Z) ->
  ended_well st (Some p) fs (pre ++ fst W, snd W).
Proof.
  intros N (D & K). split; cbn [fst snd].
  - rewrite <- D, in_app_iff. split; [|auto]. intros [I|I]; [|exact I]. now apply not_done_in in I.
  - intros E. destruct (K E) as (E1 & bs & E2 & E3). exists pre, p, ni, nj, bs. rewrite E1. auto.
Qed.

Lemma failed_output st p fs pre e : Forall (fun i => i <> done_line) pre -> ended_well st p fs (pre, (fs, Err e)).
Proof.
  intros N. split; cbn [fst snd]; [|discriminate]. split; [|discriminate]. intros I. now apply not_done_in in I.
Qed.

Lemma runV_done w fs c : ended_well (is_stitch c) (Some (outfileZ c)) fs
  (runV (b64ops L) b64codec G fmt_9_4f true lay o3 loadtxt fuel w fs c).
Proof.
  unfold runV. pose proof (computeV_nd (b64ops L) b64codec G fmt_9_4f true lay o3 loadtxt fuel fs c) as N.
  set (o := computeV _ _ _ _ _ _ _ _ _ _ _) in *. unfold not_done in N. destruct (snd o) as [((g, ni), nj)|e].
  - eapply after_output; [exact N|]. apply write_outV_done.
  - now apply failed_output.
Qed.

Lemma run_mkgridV_done w fs lon1 lat1 lon2 lat2 ls lt out : ended_well false out fs
  (run_mkgridV (b64ops L) b64codec G fmt_9_4f true w fs lon1 lat1 lon2 lat2 ls lt out).
Proof.
  unfold run_mkgridV. pose proof (mkgridV_nd (b64ops L) G fmt_9_4f true lon1 lat1 lon2 lat2 ls lt) as N.
  set (o := mkgridV _ _ _ _ _ _ _ _ _ _) in *. unfold not_done in N. destruct (snd o) as [((g, ni), nj)|e].
  - destruct out as [p|]; [|now apply failed_output]. eapply after_output; [exact N|]. apply write_outV_done.
  - now apply failed_output.
Qed.

Lemma outfileZ_of g given c : command_ofZ g (rev given) = Some c -> path_arg (rev given) "outfile" = Some (outfileZ c).
Proof.
  intros Ez. destruct g; cbn [command_ofZ] in Ez; try discriminate Ez;
    repeat match type of Ez with context [match ?x with Some _ => _ | None => _ end] => destruct x; try discriminate Ez end;
    injection Ez as <-; reflexivity.
Qed.

Lemma is_stitch_of g given c : command_ofZ g (rev given) = Some c -> (is_stitch c = true <-> g = Sgstitch).
Proof.
  intros Ez. destruct g; cbn [command_ofZ] in Ez; try discriminate Ez;
    repeat match type of Ez with context [match ?x with Some _ => _ | None => _ end] => destruct x; try discriminate Ez end;
    injection Ez as <-; cbn; intuition discriminate.
Qed.

Lemma mainV_shape g argv given w fs : g <> Sggetobcs -> SpecArgs.line g argv given -> get_flag (rev given) "verbose" = true ->
  exists st r, mainV g argv w fs = (fst r, (fst (snd r), Ended (snd (snd r)))) /\
    (st = true <-> g = Sgstitch) /\ ended_well st (path_arg (rev given) "outfile") fs r.
Proof.
  intros Hg P V. pose proof (line_parsed _ _ _ P) as P0.
  assert (Z : forall c, command_ofZ g (rev given) = Some c -> exists st r,
      mainV g argv w fs = (fst r, (fst (snd r), Ended (snd (snd r)))) /\
      (st = true <-> g = Sgstitch) /\ ended_well st (path_arg (rev given) "outfile") fs r).
  { intros c E. rewrite (outfileZ_of _ _ _ E). exists (is_stitch c). eexists. split; [|split; [exact (is_stitch_of _ _ _ E)|apply runV_done]].
    unfold MainV.mainV. rewrite P0, V. destruct g; try discriminate E; rewrite E; reflexivity. }
  destruct g; [|destruct (commandZ_given Sgregrid argv given (or_introl eq_refl) P) as (c & E); now apply (Z c)
   |destruct (commandZ_given Sgaddfringe argv given (or_intror (or_introl eq_refl)) P) as (c & E); now apply (Z c)
   |destruct (commandZ_given Sgstitch argv given (or_intror (or_intror eq_refl)) P) as (c & E); now apply (Z c)|congruence].
  exists false. eexists. split; [|split; [split; discriminate|apply run_mkgridV_done]].
  unfold MainV.mainV. rewrite P0, V. reflexivity.
Qed.
End Main.

(** ** Printing changes nothing else *)

(** Files and outcome are those of the model without output. *)
Theorem C92_output_apart : forall L G loadtxt lay o3 fuel g argv w fs, layouts o3 -> g <> Sggetobcs ->
  snd (mainV L G loadtxt lay o3 fuel g argv w fs) = main L G loadtxt lay o3 fuel g argv w fs.
Proof. intros L G loadtxt lay o3 fuel g argv w fs Hl Hg. now apply mainV_snd. Qed.

(** Two lines that differ at most in --verbose do the same; sgmkgrid needs its coordinates. *)
Theorem C92_verbose_changes_nothing_else : forall L G loadtxt lay o3 fuel g argv given argv' given' w fs,
  layouts o3 -> g <> Sggetobcs -> SpecArgs.line g argv given -> SpecArgs.line g argv' given' ->
  (forall n, n <> "verbose"%string -> last_given given' n = last_given given n) ->
  (g = Sgmkgrid -> forall n, In n ["lon1"; "lat1"; "lon2"; "lat2"]%string -> last_given given n <> None) ->
  snd (mainV L G loadtxt lay o3 fuel g argv' w fs) = snd (mainV L G loadtxt lay o3 fuel g argv w fs).
Proof.
  intros L G loadtxt lay o3 fuel g argv given argv' given' w fs Hl Hg P P' Same Crd.
  rewrite !mainV_snd by assumption. unfold main. rewrite (line_parsed _ _ _ P), (line_parsed _ _ _ P').
  assert (D : forall n, n <> "verbose"%string -> dget (rev given') (lit n) = dget (rev given) (lit n)) by exact Same.
  assert (U : unprintable g (rev given) = false /\ unprintable g (rev given') = false).
  { destruct g; try (split; reflexivity). unfold unprintable, get_float. rewrite !D by discriminate.
    assert (F : forall n, In n ["lon1"; "lat1"; "lon2"; "lat2"]%string -> exists x, dget (rev given) (lit n) = Some (AFloat x)).
    { intros n I. specialize (Crd eq_refl n I). pose proof (C74_values_typed Sgmkgrid argv given n A_double false P) as T.
      assert (I' : In (n, A_double, false) (options_of Sgmkgrid))
        by (cbn; destruct I as [<-|[<-|[<-|[<-|[]]]]]; auto 10).
      specialize (T I'). unfold last_given in *. destruct (dget (rev given) (lit n)) as [a|]; [|congruence]. destruct T as (T & _).
      apply typed_float in T as (x & ->). eauto. }
    destruct (F "lon1"%string) as (? & ->); [cbn; auto|]. destruct (F "lat1"%string) as (? & ->); [cbn; auto|].
    destruct (F "lon2"%string) as (? & ->); [cbn; auto|]. destruct (F "lat2"%string) as (? & ->); [cbn; auto|].
    now rewrite !andb_false_r. }
  destruct U as (-> & ->).
  assert (E1 : command_of g (rev given') = command_of g (rev given)).
  { destruct g; cbn [command_of]; unfold tiles_of, get_count, get_float, get_int, path_arg, get_text, get_flag;
      rewrite ?D by discriminate; reflexivity. }
  assert (E2 : command_ofZ g (rev given') = command_ofZ g (rev given)).
  { destruct g; cbn [command_ofZ]; unfold tiles_ofZ, get_float, get_int, path_arg, get_text, get_flag;
      rewrite ?D by discriminate; reflexivity. }
  now rewrite E1, E2.
Qed.

(** Without the switch nothing is printed. *)
Theorem C92_quiet_prints_nothing : forall L G loadtxt lay o3 fuel g argv given w fs,
  g <> Sggetobcs -> SpecArgs.line g argv given -> switched given "verbose" false ->
  fst (mainV L G loadtxt lay o3 fuel g argv w fs) = [].
Proof.
  intros L G loadtxt lay o3 fuel g argv given w fs Hg P V. unfold mainV. rewrite (line_parsed _ _ _ P).
  assert (Vs : exists c, In (c, "verbose"%string) (switches_of g)).
  { destruct g; [exists "v"%char; cbn; auto..|congruence]. }
  rewrite (flag_given _ _ _ _ _ P Vs V). cbv zeta.
  destruct g; try congruence; try (destruct (command_ofZ _ _); [cbn [fst]; apply runV_silent|reflexivity]).
  cbn [fst]. apply run_mkgridV_silent.
Qed.

(** sgmkgrid -v without a coordinate: one message and TypeError, before anything is
    computed. *)
Theorem C92_mkgrid_missing_coordinate : forall L G loadtxt lay o3 fuel argv given w fs n,
  SpecArgs.line Sgmkgrid argv given -> switched given "verbose" true ->
  In n ["lon1"; "lat1"; "lon2"; "lat2"]%string -> gives given n None ->
  exists t, mainV L G loadtxt lay o3 fuel Sgmkgrid argv w fs = ([Text t], (fs, Ended (Err TypeError))).
Proof.
  intros L G loadtxt lay o3 fuel argv given w fs n P V I M. unfold mainV. rewrite (line_parsed _ _ _ P).
  rewrite (flag_given _ _ _ _ _ P (ex_intro _ "v"%char (or_introl eq_refl)) V). cbv zeta.
  set (x1 := get_float (rev given) "lon1"). set (y1 := get_float (rev given) "lat1").
  set (x2 := get_float (rev given) "lon2"). set (y2 := get_float (rev given) "lat2").
  assert (K : In None [x1; y1; x2; y2]).
  { assert (K : get_float (rev given) n = None) by (unfold gives, last_given in M; unfold get_float; now rewrite M).
    cbn. destruct I as [<-|[<-|[<-|[<-|[]]]]]; auto 10. }
  unfold run_mkgridV. rewrite (mkgridV_none (b64ops L) G fmt_9_4f true x1 y1 x2 y2 _ _ eq_refl K). cbn [fst snd]. unfold Verbose.line. eauto.
Qed.

(** ** The end of a verbose run *)

(** ...done. is printed if and only if the run succeeds, and then as the last thing, after the
    message with the name and the size of the file; the file is there in that size. *)
Theorem C92_done_means_written : forall L G loadtxt lay o3 fuel g argv given w fs o fs' e,
  g <> Sggetobcs -> SpecArgs.line g argv given -> switched given "verbose" true ->
  mainV L G loadtxt lay o3 fuel g argv w fs = (o, (fs', e)) ->
  (In (Text (lit "...done." ++ ["010"%char])) o <-> e = Ended (Ok tt)) /\
  (e = Ended (Ok tt) -> exists before f ni nj bs,
     o = before ++
       [Text (lit (match g with Sgstitch => "writing combined tile to " | _ => "writing " end) ++ lit f ++
              lit " with ni=" ++ int_text ni ++ lit ", nj=" ++ int_text nj ++ lit "..." ++ ["010"%char]);
        Text (lit "...done." ++ ["010"%char])] /\
     gives given "outfile" (Some (file_named f)) /\
     fs' f = Some bs /\ Z.of_nat (length bs) = (128 * (ni + 1) * (nj + 1))%Z /\
     forall q, q <> f -> fs' q = fs q).
Proof.
  intros L G loadtxt lay o3 fuel g argv given w fs o fs' e Hg P V E.
  assert (Vs : exists c, In (c, "verbose"%string) (switches_of g)).
  { destruct g; [exists "v"%char; cbn; auto..|congruence]. }
  pose proof (flag_given _ _ _ _ _ P Vs V) as V'.
  destruct (mainV_shape L G loadtxt lay o3 fuel g argv given w fs Hg P V') as (st & r & Er & Est & D & K).
  rewrite Er in E. injection E as <- <- <-.
  change (Text (lit "...done." ++ ["010"%char])) with (done_line (F := binary64)).
  split; [rewrite D; split; [now intros ->|intros Q; now injection Q]|].
  intros Q. injection Q as Q. destruct (K Q) as (before & f & ni & nj & bs & Ep & Eo & Ef & Es).
  exists before, f, ni, nj, bs. split; [|split; [|split; [|split; [exact Es|]]]].
  - rewrite Eo. do 2 f_equal. unfold Verbose.line, writing_text, path_text, Verbose.newline. rewrite <- !app_assoc.
    destruct st; [rewrite (proj1 Est eq_refl); reflexivity|]. destruct g; try reflexivity. exfalso.
    assert (false = true) by now apply Est. discriminate.
  - unfold path_arg, get_text in Ep. unfold gives, last_given, file_named.
    destruct (dget (rev given) (lit "outfile")) as [[t| | |]|]; try discriminate Ep. injection Ep as <-.
    unfold lit. now rewrite list_ascii_of_string_of_list_ascii.
  - rewrite Ef. unfold fs_set. now rewrite String.eqb_refl.
  - intros q Hq. rewrite Ef. unfold fs_set. destruct (String.eqb_spec q f); congruence.
Qed.

(** ** What the functions print when they succeed *)

(** A file is read: the number of doubles asked for, then a line for each of the sixteen
    matrices, in the order of the file and with the shape that it is returned in. *)
Definition formatted (f : field) (name : string) (rows cols : Z) : list (item binary64) :=
  [Text (lit "formatting " ++ lit name ++ lit " (" ++ int_text rows ++ lit "x" ++ int_text cols ++ lit ")... ");
   Text (lit " done." ++ ["010"%char])].
Definition shapes_printed (ni nj : Z) : list (item binary64) :=
  formatted XC "XC " ni nj ++ formatted YC "YC " ni nj ++ formatted DXF "DXF" ni nj ++ formatted DYF "DYF" ni nj ++
  formatted RAC "RAC" ni nj ++ formatted XG "XG " (ni + 1) (nj + 1) ++ formatted YG "YG " (ni + 1) (nj + 1) ++
  formatted DXV "DXV" (ni + 1) (nj + 1) ++ formatted DYU "DYU" (ni + 1) (nj + 1) ++ formatted RAZ "RAZ" (ni + 1) (nj + 1) ++
  formatted DXC "DXC" (ni + 1) nj ++ formatted DYC "DYC" ni (nj + 1) ++ formatted RAW "RAW" (ni + 1) nj ++
  formatted RAS "RAS" ni (nj + 1) ++ formatted DXG "DXG" ni (nj + 1) ++ formatted DYG "DYG" (ni + 1) nj.

Theorem C92_reading : forall L fs p ni nj strict g,
  snd (read_tileV (b64ops L) b64codec true fs p ni nj strict) = Ok g ->
  fst (read_tileV (b64ops L) b64codec true fs p ni nj strict) =
    [Text (lit "reading " ++ int_text (16 * ((ni + 1) * (nj + 1))) ++ lit " doubles from " ++ lit p ++ lit "... ");
     Text (lit " done." ++ ["010"%char])] ++ shapes_printed ni nj.
Proof.
  intros L fs p ni nj strict g H. rewrite (read_tileV_says _ _ _ _ _ _ _ _ H). cbn [app]. do 2 f_equal.
  unfold shapes_printed, formatted. cbn [flat_map fields app].
  cbn [field_name ni_delta nj_delta Z.of_nat Pos.of_succ_nat]. rewrite !Z.add_0_r. reflexivity.
Qed.

(** regrid says first how often it turned the grid, then what it will make: with the message
    of one quarter turn each the coordinates returned are the given ones turned that often,
    and the counts are those of the result. *)
Theorem C92_regrid_says : forall L G lay o3 fuel a d r,
  snd (regrid_fromV (b64ops L) G fmt_9_4f true lay o3 fuel a d) = Ok r ->
  exists xg yg turns n m rest, d XG = Arr xg /\ d YG = Arr yg /\
    rr_dict r XG = Arr (Nat.iter (length turns) rot90 xg) /\ rr_dict r YG = Arr (Nat.iter (length turns) rot90 yg) /\
    Z.of_nat (rr_ni r) = (Z.of_nat n * ra_lon_subscale a)%Z /\ Z.of_nat (rr_nj r) = (Z.of_nat m * ra_lat_subscale a)%Z /\
    fst (regrid_fromV (b64ops L) G fmt_9_4f true lay o3 fuel a d) =
      flat_map (fun t : located binary64 * located binary64 =>
        [Text (lit "performing 90 degree XG, YG rotation..." ++ ["010"%char]);
         Text (lit "...start: " ++ located_text (fst t) ++ ["010"%char]);
         Text (lit "...end:   " ++ located_text (snd t) ++ ["010"%char])]) turns ++
      [Text (lit "remeshing " ++ int_text (Z.of_nat n) ++ lit " x " ++ int_text (Z.of_nat m) ++ lit " cell grid based on" ++ ["010"%char]);
       Text (lit "located corner points (" ++ fmt_9_4f (ra_lon1 a) ++ lit "," ++ fmt_9_4f (ra_lat1 a) ++ lit ") and ("
             ++ fmt_9_4f (ra_lon2 a) ++ lit "," ++ fmt_9_4f (ra_lat2 a) ++ lit ")" ++ ["010"%char]);
       Text (lit "resulting grid will be " ++ int_text (Z.of_nat (rr_ni r)) ++ lit " x " ++ int_text (Z.of_nat (rr_nj r)) ++
             lit " cells (lon/lat subscale = " ++ int_text (ra_lon_subscale a) ++ lit "/" ++ int_text (ra_lat_subscale a) ++ lit ")"
             ++ ["010"%char])] ++ rest.
Proof.
  intros L G lay o3 fuel a d r H.
  destruct (regrid_fromV_says _ _ _ _ _ _ _ _ _ H) as (xg & yg & turns & n & m & rest & E1 & E2 & E3 & E4 & E5 & E6 & (Lp & Lq) & E7).
  exists xg, yg, turns, n, m, rest. repeat (split; [assumption|]). split; [nia|]. split; [nia|].
  rewrite E7. unfold turn_lines, count_line, Verbose.line, Verbose.newline, corners_text. f_equal.
  cbn [app]. rewrite <- !app_assoc. reflexivity.
Qed.

(** The edges that matchedges names are those it returns. *)
Definition compass (e : nat) (name : string) : Prop :=
  In (e, name) [(0, "northern"); (1, "southern"); (2, "eastern"); (3, "western")]%string.
Theorem C92_edges_named : forall L G a b m,
  snd (matchedgesV (b64ops L) G true a b) = Ok m ->
  exists na nb rest, compass (me_a m) na /\ compass (me_b m) nb /\
    fst (matchedgesV (b64ops L) G true a b) =
      Text (lit na ++ lit " edge of tile 'a' matches " ++ lit nb ++ lit " edge of tile 'b'" ++ ["010"%char]) :: rest.
Proof.
  intros L G a b m. unfold matchedgesV. intros H. do 3 ook H. cbv zeta in H |- *. do 3 ook H. injection H as <-.
  cbn [snd still] in Hx1. cbn [fst say still app me_a me_b].
  assert (R : fst x1 < 4 /\ snd x1 < 4).
  { destruct x1 as (ea, eb). unfold decide4 in Hx1. destruct (nltb _ _ _); [discriminate|].
    assert (K : forall t c e, find_edge (F := binary64) t c = Some e -> e < 4).
    { intros t c e. unfold find_edge, eN, eS, eE, eW. repeat destruct (_ && _); intros K; try discriminate; injection K as <-; lia. }
    destruct (find_edge _ _) as [e|] eqn:E in Hx1; [|discriminate]. apply K in E.
    destruct (find_edge _ _) as [e'|] eqn:E' in Hx1; [|discriminate]. apply K in E'.
    destruct (_ && _); [discriminate|]. injection Hx1 as <- <-. auto. }
  destruct R as (R1 & R2). unfold match_text.
  assert (N : forall e, e < 4 -> exists n, compass e n /\ edge_name e = lit n).
  { intros e He. unfold compass. destruct e as [|[|[|[|e]]]]; [| | | |lia]; eexists; (split; [|reflexivity]); cbn; auto 10. }
  destruct (N _ R1) as (na & Ca & ->). destruct (N _ R2) as (nb & Cb & ->).
  exists na, nb. eexists. split; [exact Ca|]. split; [exact Cb|]. unfold Verbose.line, Verbose.newline. now rewrite <- !app_assoc.
Qed.

(** mkgrid and regrid show every matrix that they return under its name. *)
Theorem C92_fields_shown : forall L G f,
  (forall lon1 lat1 lon2 lat2 ls lt g ni nj,
    snd (mkgridV (b64ops L) G fmt_9_4f true lon1 lat1 lon2 lat2 ls lt) = Ok (g, ni, nj) ->
    exists before after, fst (mkgridV (b64ops L) G fmt_9_4f true lon1 lat1 lon2 lat2 ls lt) =
      before ++ [Text (lit "outgrid['" ++ field_name f ++ lit "']:" ++ ["010"%char]); Array (g f)] ++ after) /\
  (forall lay o3 fuel a d r,
    snd (regrid_fromV (b64ops L) G fmt_9_4f true lay o3 fuel a d) = Ok r ->
    exists before after, fst (regrid_fromV (b64ops L) G fmt_9_4f true lay o3 fuel a d) =
      before ++ [Text (lit "outgrid['" ++ field_name f ++ lit "']:" ++ ["010"%char]); Array (rr_grid r f)] ++ after).
Proof.
  intros L G f.
  assert (S : forall g : mat binary64, [Text (lit "outgrid['" ++ field_name f ++ lit "']:" ++ ["010"%char]); Array g] = Verbose.shown f g).
  { intros g. unfold Verbose.shown, Verbose.line, Verbose.newline. now rewrite <- !app_assoc. }
  split; intros; rewrite S; [now apply (mkgridV_shows _ _ _ _ _ _ _ _ _ _ ni nj)|now apply regrid_fromV_shows].
Qed.

(** A coordinate that is a number is printed in at least nine places: spaces, the sign, and
    its absolute value to the nearest ten thousandth, halves to even. *)
Theorem C92_coordinates : forall x, is_finite 53 1024 x = true ->
  exists k a b, fmt_9_4f x = repeat " "%char k ++ (if Bsign 53 1024 x then ["-"%char] else []) ++ a ++ "."%char :: b /\
    forallb is_digit a = true /\ forallb is_digit b = true /\ a <> [] /\ length b = 4 /\
    (number a * 10 ^ 4 + number b)%Z = ZnearestE (Rabs (B2R 53 1024 x) * 10 ^ 4) /\
    9 <= length (fmt_9_4f x) /\ (k = 0 \/ length (fmt_9_4f x) = 9).
Proof.
  intros x Fx. unfold fmt_9_4f, padl. rewrite (f4_text_parts x Fx).
  assert (Q : (0 <= f4_parts x)%Z).
  { rewrite (f4_parts_nearest x Fx). apply ZnearestE_nonneg. apply Rmult_le_pos; [apply Rabs_pos|]. apply pow_le. lra. }
  destruct (f4_digits_split _ Q) as (a & b & E & Da & Db & Na & Lb & V). rewrite E.
  eexists _, a, b. split; [reflexivity|]. rewrite V, (f4_parts_nearest x Fx). repeat (split; [assumption|]).
  split; [reflexivity|]. rewrite !app_length, repeat_length. lia.
Qed.

(** ** -v is not harmless: with coordinates missing sgmkgrid writes a grid of NaNs, and with
    -v it fails *)
Definition without_coordinates : list string := ["--lon_subscale"; "1"; "--lat_subscale"; "1"; "--outfile"; "m"]%string.
Definition said (g : program) (argv : list string) : list (option string) :=
  map (fun i => match i with Text t => Some (string_of_list_ascii t) | Array _ => None end)
    (fst (mainV ex_libm ex_geod ex_load indices indices 4 g (args argv) yes ex_fs)).
Definition outcome (g : program) (argv : list string) : option (res unit) * option nat :=
  match snd (mainV ex_libm ex_geod ex_load indices indices 4 g (args argv) yes ex_fs) with
  | (fs, Ended r) => (Some r, option_map (fun bs => length bs) (fs "m"%string))
  | _ => (None, None)
  end.

Lemma dget_other_end {A} (l : list (text * A)) (a : A) n : n <> "verbose"%string ->
  dget (l ++ [(lit "verbose", a)]) (lit n) = dget l (lit n).
Proof.
  intros N. induction l as [|(k, b) l IH]; cbn [app dget].
  - destruct (text_eqb (lit n) (lit "verbose")) eqn:T; [|reflexivity]. exfalso. apply N.
    apply text_eqb_eq in T. rewrite <- (string_of_list_ascii_of_string n), <- (string_of_list_ascii_of_string "verbose").
    unfold lit in T. now rewrite T.
  - destruct (text_eqb (lit n) k); [reflexivity|exact IH].
Qed.

Theorem C92_verbose_never_matters_refuted :
  ~ (forall L G loadtxt lay o3 fuel g argv given argv' given' w fs,
      layouts o3 -> g <> Sggetobcs -> SpecArgs.line g argv given -> SpecArgs.line g argv' given' ->
      (forall n, n <> "verbose"%string -> last_given given' n = last_given given n) ->
      snd (mainV L G loadtxt lay o3 fuel g argv' w fs) = snd (mainV L G loadtxt lay o3 fuel g argv w fs)).
Proof.
  intros H.
  assert (E : exists ns, parse_args (parser_of Sgmkgrid) (args without_coordinates) = Parsed ns) by (eexists; vm_compute; reflexivity).
  assert (E' : parse_args (parser_of Sgmkgrid) (args ("-v"%string :: without_coordinates)) =
    match parse_args (parser_of Sgmkgrid) (args without_coordinates) with
    | Parsed ns => Parsed (ns ++ [(lit "verbose", ATrue)]) | Exit c => Exit c end) by (vm_compute; reflexivity).
  destruct E as (ns & E). rewrite E in E'. pose proof E as P. pose proof E' as P'.
  apply parse_args_line in P as (given & P & ->). apply parse_args_line in P' as (given' & P' & Eg).
  specialize (H ex_libm ex_geod ex_load indices indices 4 Sgmkgrid _ _ _ _ yes ex_fs layouts_indices ltac:(discriminate) P P').
  assert (S : forall n, n <> "verbose"%string -> last_given given' n = last_given given n).
  { intros n N. unfold last_given. rewrite <- Eg. now apply dget_other_end. }
  specialize (H S).
  assert (O1 : outcome Sgmkgrid without_coordinates = (Some (Ok tt), Some 512)) by (vm_compute; reflexivity).
  assert (O2 : outcome Sgmkgrid ("-v"%string :: without_coordinates) = (Some (Err TypeError), None)) by (vm_compute; reflexivity).
  unfold outcome in O1, O2. rewrite H in O2. rewrite O1 in O2. discriminate.
Qed.

(** ** Examples *)
Definition nl : string := String "010" EmptyString.
Definition turned_line : list string :=
  ["--mitgridfile"; "a"; "--ni"; "2"; "--nj"; "2"; "--lon1"; "1"; "--lat1"; "1"; "--lon2"; "3"; "--lat2"; "3";
   "--lon_subscale"; "2"; "--lat_subscale"; "1"; "--outfile"; "m"]%string.
Definition stitch_line : list string :=
  ["--tilea"; "a"; "--nia"; "2"; "--nja"; "2"; "--tileb"; "b"; "--nib"; "1"; "--njb"; "2"; "--outfile"; "m"]%string.

(** A grid made, a regrid after three quarter turns, two tiles joined; the same without the
    switch. *)
Example C92_case :
  (said Sgmkgrid ("-v"%string :: ex_mkline) =
    [Some ("creating simple 2 x 1 rectangular grid between the extents" ++ nl); Some ("(   0.0000,   2.0000) and (   8.0000,   0.0000)" ++ nl);
     Some ("compute_grid after x-edge subdivision:" ++ nl); Some ("compute_grid_xg:" ++ nl); None; Some ("compute_grid_yg:" ++ nl); None;
     Some ("compute_grid after y_direction subdivision fill-in:" ++ nl); Some ("compute_grid_xg:" ++ nl); None; Some ("compute_grid_yg:" ++ nl); None;
     Some ("compute_edges_x:" ++ nl); None; Some ("compute_edges_y:" ++ nl); None; Some ("compute_areas nonzero subset:" ++ nl); None;
     Some ("outgrid['XC']:" ++ nl); None; Some ("outgrid['YC']:" ++ nl); None; Some ("outgrid['XG']:" ++ nl); None; Some ("outgrid['YG']:" ++ nl); None;
     Some ("outgrid['DXG']:" ++ nl); None; Some ("outgrid['DYG']:" ++ nl); None; Some ("outgrid['RAC']:" ++ nl); None; Some ("outgrid['DXC']:" ++ nl); None;
     Some ("outgrid['DYC']:" ++ nl); None; Some ("outgrid['RAZ']:" ++ nl); None; Some ("outgrid['DXV']:" ++ nl); None; Some ("outgrid['DYF']:" ++ nl); None;
     Some ("outgrid['RAW']:" ++ nl); None; Some ("outgrid['DXF']:" ++ nl); None; Some ("outgrid['DYU']:" ++ nl); None; Some ("outgrid['RAS']:" ++ nl); None;
     Some ("writing m with ni=2, nj=1..." ++ nl); Some ("...done." ++ nl)]%string) /\
  firstn 14 (skipn 32 (said Sgregrid ("-v"%string :: turned_line))) =
    [Some ("formatting DYG (3x2)... "); Some (" done." ++ nl);
     Some ("performing 90 degree XG, YG rotation..." ++ nl); Some ("...start: (i,j)_nw = (0,0), (i,j)_se = (2,2)" ++ nl);
     Some ("...end:   (i,j)_nw = (2,0), (i,j)_se = (0,2)" ++ nl);
     Some ("performing 90 degree XG, YG rotation..." ++ nl); Some ("...start: (i,j)_nw = (2,0), (i,j)_se = (0,2)" ++ nl);
     Some ("...end:   (i,j)_nw = (2,2), (i,j)_se = (0,0)" ++ nl);
     Some ("performing 90 degree XG, YG rotation..." ++ nl); Some ("...start: (i,j)_nw = (2,2), (i,j)_se = (0,0)" ++ nl);
     Some ("...end:   (i,j)_nw = (0,2), (i,j)_se = (2,0)" ++ nl);
     Some ("remeshing 2 x 2 cell grid based on" ++ nl); Some ("located corner points (   1.0000,   1.0000) and (   3.0000,   3.0000)" ++ nl);
     Some ("resulting grid will be 4 x 2 cells (lon/lat subscale = 2/1)" ++ nl)]%string /\
  (let l := said Sgstitch ("-v"%string :: stitch_line) in (firstn 2 l, nth 69 l None, firstn 2 (rev l))) =
    ([Some ("joining a and b along a common edge..." ++ nl); Some "reading 144 doubles from a... "],
     Some ("eastern edge of tile 'a' matches western edge of tile 'b'" ++ nl),
     [Some ("...done." ++ nl); Some ("writing combined tile to m with ni=3, nj=2..." ++ nl)])%string /\
  said Sgmkgrid ex_mkline = [] /\ said Sgstitch stitch_line = [] /\
  outcome Sgmkgrid ("-v"%string :: ex_mkline) = (Some (Ok tt), Some 768).
Proof.
  split; [vm_compute; reflexivity|]. split; [vm_compute; reflexivity|]. split; [vm_compute; reflexivity|].
  split; [vm_compute; reflexivity|]. split; vm_compute; reflexivity.
Qed.

(** Lines as C92_verbose_changes_nothing_else and C92_mkgrid_missing_coordinate want them; the
    matrices of C92_regrid_says and C92_edges_named are those of the runs above. *)
Example C92_case_lines :
  (exists given given', SpecArgs.line Sgstitch (args stitch_line) given /\ SpecArgs.line Sgstitch (args ("-v"%string :: stitch_line)) given' /\
     switched given "verbose" false /\ switched given' "verbose" true /\
     (forall n, n <> "verbose"%string -> last_given given' n = last_given given n)) /\
  (exists given, SpecArgs.line Sgmkgrid (args ("-v"%string :: without_coordinates)) given /\ switched given "verbose" true /\ gives given "lat2" None).
Proof.
  assert (K : forall g rest ns, parse_args (parser_of g) (args rest) = Parsed ns ->
      parse_args (parser_of g) (args ("-v"%string :: rest)) = Parsed (ns ++ [(lit "verbose", ATrue)]) ->
      ~ In (lit "verbose") (map fst ns) ->
    exists given given', SpecArgs.line g (args rest) given /\ SpecArgs.line g (args ("-v"%string :: rest)) given' /\
     switched given "verbose" false /\ switched given' "verbose" true /\
     (forall n, n <> "verbose"%string -> last_given given' n = last_given given n) /\
     (forall n, n <> "verbose"%string -> last_given given' n = dget ns (lit n))).
  { intros g rest ns E E' N.
    apply parse_args_line in E as (given & P & ->). apply parse_args_line in E' as (given' & P' & Eg).
    assert (Eg' : given' = (lit "verbose", ATrue) :: given).
    { rewrite <- (rev_involutive given'), <- Eg, rev_app_distr, rev_involutive. reflexivity. }
    exists given, given'. split; [exact P|]. split; [exact P'|]. unfold switched. split; [|split; [|split]].
    - split; [discriminate|]. intros I. exfalso. apply N. rewrite map_rev. now apply -> in_rev.
    - rewrite Eg'. split; [|reflexivity]. intros _. now left.
    - intros n Hn. unfold last_given. rewrite <- Eg. now apply dget_other_end.
    - intros n Hn. unfold last_given. rewrite <- Eg. now apply dget_other_end. }
  split.
  - destruct (K Sgstitch stitch_line (match parse_args (parser_of Sgstitch) (args stitch_line) with Parsed ns => ns | Exit _ => [] end))
      as (given & given' & A & B & C & D & E & _).
    + vm_compute. reflexivity.
    + vm_compute. reflexivity.
    + vm_compute. intuition discriminate.
    + exists given, given'. auto.
  - destruct (K Sgmkgrid without_coordinates (match parse_args (parser_of Sgmkgrid) (args without_coordinates) with Parsed ns => ns | Exit _ => [] end))
      as (given & given' & A & B & C & D & E & R).
    + vm_compute. reflexivity.
    + vm_compute. reflexivity.
    + vm_compute. intuition discriminate.
    + exists given'. split; [exact B|]. split; [exact D|]. unfold gives. rewrite R by discriminate. vm_compute. reflexivity.
Qed.

(** Coordinates as they are printed: a tie, a carry, a negative number that rounds to zero, and
    one too long for the field. *)
Example C92_case_coordinates :
  map (fun z => string_of_list_ascii (fmt_9_4f (b64_of_bits z)))
    [13862060966932474346; 4584664420663164928; 4607182328728024861; 13755392620465711345; 4683220298617585664; 9218868437227405312]%Z =
  ["-127.7345"; "   0.0312"; "   1.0000"; "  -0.0000"; "123456.7812"; "      inf"]%string.
Proof. vm_compute. reflexivity. Qed.
