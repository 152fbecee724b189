(** The meta file of a tile, parsed. *)
From Coq Require Import Ascii String List Bool PeanoNat NArith ZArith Lia.
Import ListNotations.
From Verif Require Import Prelude MdsMeta Mds SpecMds MdsTextFacts MdsParseFacts RdMds SpecRdMds.
Set Implicit Arguments.
Local Open Scope nat_scope.
Local Open Scope list_scope.

Section TileText.
Context {F : Type} (float_of : text -> option F).
Notation parse := (parse float_of).

Ltac no_nl := let I := fresh in intros I; repeat (destruct I as [I|I]; [discriminate I|]); destruct I.

Definition ttrip (t : Z * Z * Z) : list (nat * Z) :=
  let '(d, lo, hi) := t in
  [(S (S (5 - length (int_text d))), d); (5 - length (int_text lo), lo); (5 - length (int_text hi), hi)].

Lemma numbers_ttrip t : numbers (ttrip t) = lit "  " ++ tile_line t.
Proof. destruct t as [[d lo] hi]. unfold numbers, ttrip, tile_line, fmt_d, padl.
  cbn [map join fst snd lit list_ascii_of_string repeat].
  cbn [app]. rewrite <- !app_assoc. reflexivity. Qed.

Fixpoint tile_rows (dims : list (Z * Z * Z)) : list text :=
  match dims with
  | [] => []
  | [d] => [" "%char :: tile_line d ++ [newline]]
  | d :: r => (" "%char :: (tile_line d ++ [","%char]) ++ [newline]) :: tile_rows r
  end.

Lemma tile_line_chars d : forallb meta_char (tile_line d) = true.
Proof. destruct d as [[d lo] hi]. unfold tile_line. rewrite !forallb_app, !fmt_meta_chars. reflexivity. Qed.

Lemma tile_line_last d : exists r c, tile_line d = r ++ [c] /\ int_char c = true.
Proof.
  destruct d as [[d lo] hi]. unfold tile_line. set (x := fmt_d 5 d) at 1. unfold fmt_d at 2, padl.
  destruct (int_text_last hi) as (r & c & E & C). rewrite E.
  set (n := 5 - _). exists (x ++ [","%char] ++ fmt_d 5 lo ++ [","%char] ++ repeat " "%char n ++ r), c.
  split; [|exact C]. now rewrite <- !app_assoc.
Qed.

Lemma lines_tile dims t : dims <> [] ->
  lines_of (" "%char :: join ([","%char] ++ [newline] ++ [" "%char]) (map tile_line dims) ++ newline :: t)
  = tile_rows dims ++ lines_of t.
Proof.
  induction dims as [|d r IH]; intros E; [now elim E|].
  destruct r as [|d' r].
  - cbn [map join tile_rows app].
    change (" "%char :: tile_line d ++ newline :: t) with ((" "%char :: tile_line d) ++ newline :: t).
    rewrite lines_of_line; [reflexivity|]. intros [I|I]; [discriminate I|].
    revert I. apply meta_no_newline, tile_line_chars.
  - specialize (IH ltac:(discriminate)). cbn [map] in IH |- *. rewrite join_cons.
    cbn [app] in IH |- *.
    assert (RE : " "%char :: (tile_line d ++ ","%char :: newline :: " "%char ::
                   join [","%char; newline; " "%char] (tile_line d' :: map tile_line r)) ++ newline :: t
       = (" "%char :: tile_line d ++ [","%char]) ++ newline ::
           (" "%char :: join [","%char; newline; " "%char] (tile_line d' :: map tile_line r) ++ newline :: t)).
    { cbn [app]. rewrite <- !app_assoc. reflexivity. }
    rewrite RE. clear RE. rewrite lines_of_line.
    + rewrite IH. reflexivity.
    + intros [I|I]; [discriminate I|]. apply in_app_iff in I. destruct I as [I|[I|[]]]; [|discriminate I].
      revert I. apply meta_no_newline, tile_line_chars.
Qed.

Lemma strip_tile_line d :
  rstrip is_space (strip_comments (" "%char :: tile_line d ++ [newline])) = " "%char :: tile_line d.
Proof.
  destruct (tile_line_last d) as (r & c & E & C).
  pose proof (tile_line_chars d) as H. rewrite E in *. rewrite forallb_app in H. apply andb_prop in H.
  rewrite <- app_assoc. change (" "%char :: r ++ [c] ++ [newline]) with ((" "%char :: r) ++ [c] ++ [newline]).
  rewrite strip_row; [reflexivity | cbn [forallb]; now rewrite (proj1 H) | |]; now apply int_char_facts.
Qed.

Lemma strip_tile_line_comma d :
  rstrip is_space (strip_comments (" "%char :: (tile_line d ++ [","%char]) ++ [newline])) = " "%char :: tile_line d ++ [","%char].
Proof.
  rewrite <- app_assoc.
  change (" "%char :: tile_line d ++ [","%char] ++ [newline]) with ((" "%char :: tile_line d) ++ [","%char] ++ [newline]).
  rewrite strip_row; [reflexivity | cbn [forallb]; now rewrite tile_line_chars | reflexivity | reflexivity].
Qed.

Lemma gather_tile dims : forall acc rest, dims <> [] -> ~ In "]"%char acc ->
  gather "]" acc (tile_rows dims ++ (lit " ];" ++ [newline]) :: rest)
  = Ok (acc ++ numbers (flat_map ttrip dims) ++ lit "  ];", rest).
Proof.
  induction dims as [|d r IH]; intros acc rest E A; [now elim E|].
  destruct r as [|d' r].
  - cbn [tile_rows app flat_map].
    set (tl := " ];"%string). cbn [gather]. rewrite (proj2 (has_false _ _) A). rewrite strip_tile_line.
    assert (A1 : has "]" (acc ++ " "%char :: " "%char :: tile_line d) = false).
    { apply has_false. rewrite in_app_iff. intros [I|[I|[I|I]]]; try discriminate I; [auto|].
      revert I. apply meta_no_bracket, tile_line_chars. }
    rewrite A1. rewrite app_nil_r.
    change (rstrip is_space (strip_comments (lit tl ++ [newline]))) with (lit " ];").
    assert (A2 : has "]" ((acc ++ " "%char :: " "%char :: tile_line d) ++ " "%char :: lit " ];") = true).
    { apply has_in. rewrite in_app_iff. right. right; right; left; reflexivity. }
    destruct rest as [|r0 rest]; cbn [gather]; rewrite A2; f_equal; f_equal;
      rewrite numbers_ttrip, <- !app_assoc; reflexivity.
  - cbn [tile_rows app]. cbn [gather]. rewrite (proj2 (has_false _ _) A).
    rewrite strip_tile_line_comma.
    change (match r with [] => [" "%char :: tile_line d' ++ [newline]] | _ :: _ =>
       (" "%char :: (tile_line d' ++ [","%char]) ++ [newline]) :: tile_rows r end) with (tile_rows (d' :: r)).
    rewrite IH.
    + f_equal. f_equal.
      change (flat_map ttrip (d :: d' :: r)) with (ttrip d ++ flat_map ttrip (d' :: r)).
      rewrite numbers_app by (destruct d as [[? ?] ?], d' as [[? ?] ?]; discriminate). rewrite numbers_ttrip. cbn [lit list_ascii_of_string app].
      rewrite <- !app_assoc. cbn [app]. rewrite <- !app_assoc. reflexivity.
    + discriminate.
    + rewrite in_app_iff. intros [I|[I|[I|I]]]; try discriminate I; [auto|].
      rewrite in_app_iff in I. destruct I as [I|[I|[]]]; [|discriminate I].
      revert I. apply meta_no_bracket, tile_line_chars.
Qed.

Definition tile_values (dims : list (Z * Z * Z)) : list (value F) :=
  flat_map (fun t => let '(d, lo, hi) := t in [Vint d; Vint lo; Vint hi]) dims.

Lemma parse_tile dims rest d : dims <> [] ->
  parse (entry_line (lit "dimList") (lit "[") :: tile_rows dims ++ (lit " ];" ++ [newline]) :: rest) d
  = parse rest (dset d (lit "dimList") (tile_values dims)).
Proof.
  intros E. eapply parse_entry.
  - vm_compute. reflexivity.
  - vm_compute. reflexivity.
  - vm_compute. reflexivity.
  - reflexivity.
  - apply (@gather_tile dims (lit "[") rest E). intros [I|[]]. discriminate I.
  - destruct dims as [|d0 r]; [now elim E|].
    change (flat_map ttrip (d0 :: r)) with (ttrip d0 ++ flat_map ttrip r).
    set (l := ttrip d0 ++ flat_map ttrip r).
    replace (lit "[" ++ numbers l ++ lit "  ];") with ("["%char :: (numbers l ++ repeat " "%char 2) ++ lit "];")
      by (cbn [lit list_ascii_of_string app repeat]; now rewrite <- app_assoc).
    cbn [hd]. destruct d0 as [[x0 lo0] hi0]. unfold l, ttrip at 1. cbn [app]. rewrite value_numbers. f_equal.
    cbn [map snd tile_values flat_map app]. do 3 f_equal. clear. unfold tile_values.
    induction r as [|[[x lo] hi] r IH]; [reflexivity|]. cbn [flat_map ttrip app map snd]. now rewrite IH.
Qed.


(** An entry holding two numbers. *)
Lemma parse_pair_entry key w a b rest d :
  forallb is_word key = true -> key <> [] ->
  parse (entry_line key (lit "[ " ++ fmt_d w a ++ [","%char] ++ fmt_d w b ++ lit " ];") :: rest) d
  = parse rest (dset d key [Vint a; Vint b]).
Proof.
  intros K KE.
  set (V := lit "[ " ++ fmt_d w a ++ [","%char] ++ fmt_d w b ++ lit " ];").
  assert (EV : V = "["%char :: (numbers [(S (w - length (int_text a)), a); (w - length (int_text b), b)]
                    ++ repeat " "%char 1) ++ lit "];").
  { unfold V, fmt_d, padl, numbers. cbn [map join fst snd].
    cbn [lit list_ascii_of_string app repeat]. rewrite <- !app_assoc. cbn [app]. rewrite <- !app_assoc. reflexivity. }
  eapply parse_entry with (val := V) (cl := "]"%char) (whole := V).
  - apply strip_comments_plain. unfold entry_line, V. rewrite !forallb_app.
    rewrite (forallb_imp is_word plain_char key) by (auto; intros x A; now apply word_not).
    rewrite !(forallb_imp meta_char plain_char (fmt_d w _)) by (apply fmt_meta_chars || (intros x A; now apply meta_char_facts)).
    reflexivity.
  - eapply match_entry_line with (c := "["%char) (e := ";"%char); try assumption; try discriminate.
    + reflexivity.
    + exists (lit "[ " ++ fmt_d w a ++ [","%char] ++ fmt_d w b ++ lit " ]"). unfold V. rewrite <- !app_assoc. reflexivity.
    + unfold V. rewrite !in_app_iff. intros [I|[I|[I|[I|I]]]].
      * repeat (destruct I as [I|I]; [discriminate I|]). destruct I.
      * pose proof (fmt_meta_chars w a) as H. rewrite forallb_forall in H. apply H in I. discriminate I.
      * repeat (destruct I as [I|I]; [discriminate I|]). destruct I.
      * pose proof (fmt_meta_chars w b) as H. rewrite forallb_forall in H. apply H in I. discriminate I.
      * repeat (destruct I as [I|I]; [discriminate I|]). destruct I.
  - apply entry_line_not_blank.
  - reflexivity.
  - assert (HH : has "]" V = true).
    { unfold V. apply has_in. rewrite !in_app_iff. do 4 right. now right; left. }
    destruct rest as [|r0 rest0]; cbn [gather]; rewrite HH; reflexivity.
  - rewrite EV. cbn [hd]. rewrite value_numbers. reflexivity.
Qed.

Definition tile_dict (h : tile_head) : metadict F :=
  [(lit "nDims", [Vint (Z.of_nat (length (th_dims h)))]); (lit "dimList", tile_values (th_dims h))]
  ++ match th_map h with Some (a, b) => [(lit "map2glob", [Vint a; Vint b])] | None => [] end
  ++ [(lit "dataprec", [Vstr (prec_text (th_prec h))]); (lit "nrecords", [Vint (Z.of_nat (th_nrec h))])]
  ++ match th_step h with Some i => [(lit "timeStepNumber", [Vint i])] | None => [] end.

Lemma tile_text_parses h : th_dims h <> [] -> parsemeta float_of (tile_text h) = Ok (tile_dict h).
Proof.
  destruct h as [dims p nrec mp step]. cbn [th_dims]. intros D. unfold tile_text, tile_dict. cbn [th_dims th_prec th_nrec th_map th_step].
  change (parsemeta float_of ?t) with (parse (lines_of t) []).
  set (rest_itr := match step with Some i => _ | None => [] end).
  assert (PI : forall d, parse (lines_of rest_itr) d
      = Ok (match step with Some i => dset d (lit "timeStepNumber") [Vint i] | None => d end)).
  { intros d. unfold rest_itr. destruct step as [i|]; [|reflexivity].
    change [newline] with (newline :: []).
    rewrite (parse_int_line float_of " timeStepNumber = [ " "timeStepNumber"); [reflexivity | reflexivity | reflexivity | discriminate]. }
  clearbody rest_itr.
  assert (PN : forall d, parse (lines_of (lit " nrecords = [ " ++ fmt_d 5 (Z.of_nat nrec) ++ lit " ];" ++ [newline] ++ rest_itr)) d
     = parse (lines_of rest_itr) (dset d (lit "nrecords") [Vint (Z.of_nat nrec)])).
  { intros d. change ([newline] ++ rest_itr) with (newline :: rest_itr).
    apply (parse_int_line float_of " nrecords = [ " "nrecords"); [reflexivity | reflexivity | discriminate]. }
  set (tail2 := lit " nrecords = [ " ++ _) in *.
  assert (PP : forall d, parse (lines_of (lit " dataprec = [ '" ++ prec_text p ++ lit "' ];" ++ [newline] ++ tail2)) d
     = parse (lines_of tail2) (dset d (lit "dataprec") [Vstr (prec_text p)])).
  { intros d. change ([newline] ++ tail2) with (newline :: tail2).
    replace (lit " dataprec = [ '" ++ prec_text p ++ lit "' ];" ++ newline :: tail2)
      with ((lit " dataprec = [ '" ++ prec_text p ++ lit "' ];") ++ newline :: tail2) by (now rewrite <- !app_assoc).
    rewrite lines_of_line.
    - replace ((lit " dataprec = [ '" ++ prec_text p ++ lit "' ];") ++ [newline])
        with (entry_line (lit "dataprec") (lit "[ '" ++ prec_text p ++ lit "' ];"))
        by (unfold entry_line; rewrite <- !app_assoc; reflexivity).
      apply parse_dataprec. destruct p; cbn; auto.
    - destruct p; no_nl. }
  clearbody tail2. set (tail3 := lit " dataprec = [ '" ++ _) in *.
  set (mtext := match mp with Some _ => _ | None => [] end).
  assert (PG : forall d, parse (lines_of (mtext ++ tail3)) d
     = parse (lines_of tail3) (match mp with Some (a, b) => dset d (lit "map2glob") [Vint a; Vint b] | None => d end)).
  { intros d. unfold mtext. destruct mp as [[a b]|]; [|reflexivity].
    rewrite <- !app_assoc. change ([newline] ++ tail3) with (newline :: tail3).
    replace (lit " map2glob = [ " ++ fmt_d 5 a ++ [","%char] ++ fmt_d 5 b ++ lit " ];" ++ newline :: tail3)
      with ((lit " map2glob = [ " ++ fmt_d 5 a ++ [","%char] ++ fmt_d 5 b ++ lit " ];") ++ newline :: tail3)
      by (now rewrite <- !app_assoc).
    rewrite lines_of_line.
    - replace ((lit " map2glob = [ " ++ fmt_d 5 a ++ [","%char] ++ fmt_d 5 b ++ lit " ];") ++ [newline])
        with (entry_line (lit "map2glob") (lit "[ " ++ fmt_d 5 a ++ [","%char] ++ fmt_d 5 b ++ lit " ];"))
        by (unfold entry_line; rewrite <- !app_assoc; reflexivity).
      apply parse_pair_entry; [reflexivity | discriminate].
    - rewrite !in_app_iff. intros [I|[I|[I|[I|I]]]]; revert I;
        first [no_nl | apply meta_no_newline, fmt_meta_chars]. }
  clearbody mtext tail3. set (tail4 := mtext ++ tail3) in *.
  assert (PD : forall d, parse (lines_of (lit " dimList = [" ++ [newline] ++ [" "%char]
      ++ join ([","%char] ++ [newline] ++ [" "%char]) (map tile_line dims)
      ++ [newline] ++ lit " ];" ++ [newline] ++ tail4)) d
     = parse (lines_of tail4) (dset d (lit "dimList") (tile_values dims))).
  { intros d. change ([newline] ++ tail4) with (newline :: tail4).
    change ([newline] ++ lit " ];" ++ newline :: tail4) with (newline :: lit " ];" ++ newline :: tail4).
    set (J := join _ _).
    change ([newline] ++ [" "%char] ++ J ++ newline :: lit " ];" ++ newline :: tail4)
      with (newline :: (" "%char :: J ++ newline :: (lit " ];" ++ newline :: tail4))).
    rewrite lines_of_line by no_nl. unfold J.
    rewrite lines_tile by assumption. rewrite lines_of_line by no_nl.
    change (lit " dimList = [" ++ [newline]) with (entry_line (lit "dimList") (lit "[")).
    now apply parse_tile. }
  clearbody tail4. set (tail5 := lit " dimList = [" ++ _) in *.
  assert (PM : forall d, parse (lines_of (lit " nDims = [ " ++ fmt_d 3 (Z.of_nat (length dims)) ++ lit " ];" ++ [newline] ++ tail5)) d
     = parse (lines_of tail5) (dset d (lit "nDims") [Vint (Z.of_nat (length dims))])).
  { intros d. change ([newline] ++ tail5) with (newline :: tail5).
    apply (parse_int_line float_of " nDims = [ " "nDims"); [reflexivity | reflexivity | discriminate]. }
  clearbody tail5.
  rewrite PM, PD, PG, PP, PN, PI. f_equal.
  destruct mp as [[a b]|], step; reflexivity.
Qed.

End TileText.
