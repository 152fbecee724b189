(** Properties C74-C78: the command lines of the five programs. *)
From Coq Require Import Ascii String List Bool PeanoNat ZArith Reals Lia Permutation Init.Byte.
Import ListNotations.
From Flocq Require Import Core IEEE754.BinarySingleNaN IEEE754.Binary IEEE754.Bits.
From Verif Require Import Prelude PreludeFacts Mat Num Fields GridIO Float64 Float64Facts Float32 SpecGrid Util PropFill AddFringe Cli MdsMeta Mds MdsTextFacts
  GetObcs GetObcsFacts SpecObcs PyFloat PyFloatFacts FmtEFacts SpecTimes ArgParse Main SpecArgs ArgFacts ArgLines ArgNumbers
  Samples Counts CountsFacts CountsRun PropGridIO PropMkGrid PropFringe PropCli PropMds PropObcs.
Local Open Scope nat_scope.
Local Open Scope list_scope.

(** ** C74: which lines are accepted, and what they set *)

Theorem C74_accepted_lines : forall g argv ns,
  parse_args (parser_of g) argv = Parsed ns <-> exists given, line g argv given /\ ns = rev given.
Proof. exact parse_args_line. Qed.

Lemma line_parsed g argv given : line g argv given -> parse_args (parser_of g) argv = Parsed (rev given).
Proof. intros H. apply parse_args_line. eauto. Qed.

(** A line can be read in one way only. *)
Theorem C74_lines_unambiguous : forall g argv l l', line g argv l -> line g argv l' -> l = l'.
Proof.
  intros g argv l l' H H'. apply line_parsed in H, H'. rewrite H in H'. injection H' as E.
  rewrite <- (rev_involutive l), <- (rev_involutive l'). now rewrite E.
Qed.

Lemma Forall2_permuted {A B} (R : A -> B -> Prop) l l' : Permutation l l' -> forall m, Forall2 R l m ->
  exists m', Permutation m m' /\ Forall2 R l' m'.
Proof.
  intros P. induction P; intros m F.
  - inversion F; subst. exists []. auto.
  - inversion F; subst. destruct (IHP _ H3) as (m' & Q & G). exists (y :: m'). split; auto.
  - inversion F as [|? b ? ? R1 F1]; subst. inversion F1 as [|? c ? ? R2 F2]; subst.
    exists (c :: b :: l'0). split; [constructor|auto].
  - destruct (IHP1 _ F) as (m1 & Q1 & G1). destruct (IHP2 _ G1) as (m2 & Q2 & G2). exists m2. split; eauto using Permutation_trans.
Qed.

Lemma concat_permuted {A} (l l' : list (list A)) : Permutation l l' -> Permutation (concat l) (concat l').
Proof.
  intros P. induction P; cbn [concat]; auto.
  - now apply Permutation_app_head.
  - rewrite !app_assoc. apply Permutation_app_tail, Permutation_app_comm.
  - eauto using Permutation_trans.
Qed.

Lemma last_given_in given n a : NoDup (map fst given) -> (last_given given n = Some a <-> In (lit n, a) given).
Proof.
  intros N. unfold last_given. split.
  - intros H. apply dget_in in H. now apply in_rev.
  - intros H. apply dget_nodup; [|now apply -> in_rev]. rewrite map_rev. now apply NoDup_rev.
Qed.

(** The order of the options does not matter, as long as none is given twice. *)
Theorem C74_order_irrelevant : forall g ps gs ps',
  Forall2 (sets g) ps gs -> line g (flat_map written ps) (concat gs) -> NoDup (map fst (concat gs)) ->
  Permutation ps ps' ->
  exists given', line g (flat_map written ps') given' /\ forall n, last_given given' n = last_given (concat gs) n.
Proof.
  intros g ps gs ps' F H N P. set (given := concat gs) in *.
  destruct (Forall2_permuted _ _ _ P _ F) as (gs' & Q & F'). apply concat_permuted in Q. fold given in Q.
  exists (concat gs'). split.
  - exists ps', gs'. repeat split; auto. intros n ty I. destruct H as (_ & _ & _ & _ & _ & R).
    eapply Permutation_in; [|exact (R n ty I)]. now apply Permutation_map.
  - assert (N' : NoDup (map fst (concat gs'))) by (eapply Permutation_NoDup; [apply Permutation_map; exact Q|exact N]).
    intros n. destruct (last_given given n) as [a|] eqn:Eg.
    + apply last_given_in; auto. apply last_given_in in Eg; auto. eapply Permutation_in; eauto.
    + destruct (last_given (concat gs') n) as [a|] eqn:Eg'; [|reflexivity].
      apply last_given_in in Eg'; auto. apply Permutation_sym in Q. eapply Permutation_in in Eg'; [|exact Q].
      apply (last_given_in given n a N) in Eg'. congruence.
Qed.

(** ** Values have the type of their option *)

Definition typed (ty : vtype) (a : argval) : Prop :=
  match ty, a with
  | A_text, AText _ | An_integer, AInt _ | A_double, AFloat _ => True
  | _, _ => False
  end.

Lemma lit_inj a b : lit a = lit b -> a = b.
Proof.
  unfold lit. intros H. rewrite <- (string_of_list_ascii_of_string a), <- (string_of_list_ascii_of_string b). now rewrite H.
Qed.

Lemma option_type g n t r t' r' : In (n, t, r) (options_of g) -> In (n, t', r') (options_of g) -> t = t' /\ r = r'.
Proof.
  intros H H'. apply option_in, strings_get in H. apply option_in, strings_get in H'. rewrite H in H'.
  injection H' as E1 E2. split; [|exact E2]. destruct t, t'; try reflexivity; discriminate.
Qed.

Lemma option_not_switch g n t r c : In (n, t, r) (options_of g) -> In (c, n) (switches_of g) -> False.
Proof.
  intros H H'. apply option_in, strings_get in H. apply switch_in, strings_get in H'. rewrite H in H'.
  injection H' as E1 E2. destruct t; discriminate.
Qed.

(** The word of the option and the value are on the line. *)
Definition on_line (g : program) (argv : list text) (n : string) (v : text) : Prop :=
  exists w, stands_for g w (lit n) /\ ((In w argv /\ In v argv) \/ In (w ++ "="%char :: v) argv).

Lemma given_from g argv given k a : line g argv given -> In (k, a) given ->
  (exists n ty r v, k = lit n /\ In (n, ty, r) (options_of g) /\ has_type ty v a /\ on_line g argv n v) \/
  (exists c n, k = lit n /\ In (c, n) (switches_of g) /\ a = ATrue).
Proof.
  intros (ps & gs & -> & F & -> & _) I. apply in_concat in I as (l & Il & I).
  apply In_nth_error in Il as (m & Il).
  destruct (nth_error ps m) as [p|] eqn:Ep.
  2:{ exfalso. clear - F Il Ep. revert m Il Ep. induction F; intros [|m] Il Ep; try discriminate; cbn in *; eauto. }
  assert (S : sets g p l).
  { clear - F Il Ep. revert m Il Ep. induction F; intros [|m] Il Ep; try discriminate; cbn in *; [congruence|eauto]. }
  apply nth_error_In in Ep.
  assert (W : forall x, In x (written p) -> In x (flat_map written ps)) by (intros x X; apply in_flat_map; eauto).
  destruct S as [n ty req w v a' H S Pl T|n ty req w v a' H S T|c n w H S|cs nms N FF].
  - destruct I as [I|[]]. injection I as <- <-. left. exists n, ty, req, v. repeat split; auto.
    exists w. split; auto. left. split; apply W; cbn; auto.
  - destruct I as [I|[]]. injection I as <- <-. left. exists n, ty, req, v. repeat split; auto.
    exists w. split; auto. right. apply W. cbn. auto.
  - destruct I as [I|[]]. injection I as <- <-. right. eauto.
  - apply in_map_iff in I as (n & E & I). injection E as <- <-. right.
    clear - FF I. induction FF as [|c n' cs ns' Hc FF IH]; [destruct I|]. destruct I as [-> |I]; eauto.
Qed.

(** Every value given has the type of its option; what must be given has one. *)
Theorem C74_values_typed : forall g argv given n ty req,
  line g argv given -> In (n, ty, req) (options_of g) ->
  match last_given given n with
  | Some a => typed ty a /\ exists v, has_type ty v a /\ on_line g argv n v
  | None => req = false
  end.
Proof.
  intros g argv given n ty req H I. destruct (last_given given n) as [a|] eqn:E.
  - unfold last_given in E. apply dget_in, in_rev in E.
    destruct (given_from g argv given _ a H E) as [(n' & ty' & r' & v & En & I' & T & V)|(c & n' & En & I' & _)];
      apply lit_inj in En; subst n'.
    + destruct (option_type g n ty req ty' r' I I') as (-> & _). split; [|eauto]. destruct T; exact Logic.I.
    + destruct (option_not_switch g n ty req c I I').
  - destruct req; [|reflexivity]. destruct H as (_ & _ & _ & _ & _ & R). specialize (R n ty I).
    unfold last_given in E. apply dget_none in E. destruct E. rewrite map_rev. now apply -> in_rev.
Qed.

Lemma typed_text a : typed A_text a -> exists v, a = AText v.
Proof. destruct a; cbn; try tauto; eauto. Qed.
Lemma typed_int a : typed An_integer a -> exists z, a = AInt z.
Proof. destruct a; cbn; try tauto; eauto. Qed.
Lemma typed_float a : typed A_double a -> exists x, a = AFloat x.
Proof. destruct a; cbn; try tauto; eauto. Qed.

(** ** C75: what the commands run *)

(** The double, integer, file name given for an option, if one is. *)
Definition gives (given : list (text * argval)) (n : string) (v : option argval) : Prop := last_given given n = v.
Definition file_named (f : string) : argval := AText (lit f).

(** A switch is on if it is given. *)
Definition switched (given : list (text * argval)) (n : string) (b : bool) : Prop :=
  b = true <-> In (lit n) (map fst given).

Lemma get_text_given given n v : gives given n (Some (AText v)) -> get_text (rev given) n = Some v.
Proof. unfold gives, last_given, get_text. now intros ->. Qed.
Lemma get_int_given given n z : gives given n (Some (AInt z)) -> get_int (rev given) n = Some z.
Proof. unfold gives, last_given, get_int. now intros ->. Qed.
Lemma get_float_given given n x : gives given n (Some (AFloat x)) -> get_float (rev given) n = Some x.
Proof. unfold gives, last_given, get_float. now intros ->. Qed.
Lemma path_given given n f : gives given n (Some (file_named f)) -> path_arg (rev given) n = Some f.
Proof.
  intros H. unfold path_arg, file_named in *. rewrite (get_text_given _ _ _ H). cbn [option_map].
  unfold lit. now rewrite string_of_list_ascii_of_string.
Qed.

Definition double_arg (x : option binary64) : option argval := option_map AFloat x.
Definition int_arg (z : option Z) : option argval := option_map AInt z.
Definition file_arg (f : option string) : option argval := option_map file_named f.

Lemma get_float_opt given n x : gives given n (double_arg x) -> get_float (rev given) n = x.
Proof. unfold gives, last_given, get_float. intros ->. destruct x; reflexivity. Qed.
Lemma get_int_opt given n x : gives given n (int_arg x) -> get_int (rev given) n = x.
Proof. unfold gives, last_given, get_int. intros ->. destruct x; reflexivity. Qed.
Lemma path_opt given n x : gives given n (file_arg x) -> path_arg (rev given) n = x.
Proof.
  destruct x as [f|]; cbn [file_arg option_map]; [apply path_given|].
  unfold gives, last_given, path_arg, get_text. now intros ->.
Qed.

Lemma flag_given g argv given n b : line g argv given -> (exists c, In (c, n) (switches_of g)) ->
  switched given n b -> get_flag (rev given) n = b.
Proof.
  intros H (c & I) S. unfold get_flag. destruct (dget (rev given) (lit n)) as [a|] eqn:E.
  - apply dget_in, in_rev in E.
    destruct (given_from g argv given _ a H E) as [(n' & ty' & r' & v & En & I' & T & V)|(c' & n' & En & I' & ->)];
      apply lit_inj in En; subst n'.
    + destruct (option_not_switch g n ty' r' c I' I).
    + symmetry. apply S. apply in_map_iff. now exists (lit n, ATrue).
  - apply dget_none in E. rewrite map_rev in E. destruct b; [|reflexivity].
    destruct E. apply -> in_rev. now apply S.
Qed.

Section Runs.
Variables (L : libm) (G : geod binary64) (loadtxt : list byte -> res (option (mat binary64))).
Variables lay o3 : nat -> nat -> list (nat * nat).
Variable fuel : nat.

Definition runs (w : string -> bool) (fs : filesystem) (c : command binary64) : filesystem * ending :=
  (fst (run64 L G loadtxt lay o3 fuel w fs c), Ended (snd (run64 L G loadtxt lay o3 fuel w fs c))).

Lemma main_runs g argv given c w fs : line g argv given -> command_of g (rev given) = Some c ->
  unprintable g (rev given) = false ->
  main L G loadtxt lay o3 fuel g argv w fs = runs w fs c.
Proof.
  intros H E U. unfold main, runs, run64. rewrite (line_parsed g argv given H), U, E.
  destruct (run _ _ _ _ _ _ _ _ _ _); reflexivity.
Qed.

Theorem C75_sgmkgrid_sec : forall argv given w fs lon1 lat1 lon2 lat2 ls lt out,
  line Sgmkgrid argv given ->
  gives given "lon1" (double_arg lon1) -> gives given "lat1" (double_arg lat1) ->
  gives given "lon2" (double_arg lon2) -> gives given "lat2" (double_arg lat2) ->
  gives given "lon_subscale" (int_arg ls) -> gives given "lat_subscale" (int_arg lt) ->
  gives given "outfile" (file_arg out) ->
  switched given "verbose" false \/ ~ In None [lon1; lat1; lon2; lat2] ->
  main L G loadtxt lay o3 fuel Sgmkgrid argv w fs = runs w fs (sgmkgrid lon1 lat1 lon2 lat2 ls lt out).
Proof.
  intros argv given w fs lon1 lat1 lon2 lat2 ls lt out H A1 A2 A3 A4 A5 A6 A7 V.
  eapply main_runs; [exact H| |].
  - cbn [command_of].
    now rewrite !(get_float_opt _ _ _ A1), !(get_float_opt _ _ _ A2), !(get_float_opt _ _ _ A3), !(get_float_opt _ _ _ A4),
      (get_int_opt _ _ _ A5), (get_int_opt _ _ _ A6), (path_opt _ _ _ A7).
  - unfold unprintable.
    rewrite (get_float_opt _ _ _ A1), (get_float_opt _ _ _ A2), (get_float_opt _ _ _ A3), (get_float_opt _ _ _ A4).
    destruct V as [V|V].
    + now rewrite (flag_given _ _ _ _ _ H (ex_intro _ "v"%char (or_introl eq_refl)) V).
    + destruct lon1, lat1, lon2, lat2; try (destruct V; cbn; now auto 10). apply andb_false_r.
Qed.

Lemma count_given given n k : gives given n (Some (AInt (Z.of_nat k))) -> get_count (rev given) n = Some k.
Proof.
  intros H. unfold get_count. rewrite (get_int_given _ _ _ H). destruct (Z.ltb_spec (Z.of_nat k) 0); [lia|].
  now rewrite Nat2Z.id.
Qed.

Theorem C75_sgregrid_sec : forall argv given w fs mg xg yg ni nj lon1 lat1 lon2 lat2 ls lt out strict,
  line Sgregrid argv given ->
  gives given "mitgridfile" (file_arg mg) -> gives given "xg_file" (file_arg xg) -> gives given "yg_file" (file_arg yg) ->
  gives given "ni" (Some (AInt (Z.of_nat ni))) -> gives given "nj" (Some (AInt (Z.of_nat nj))) ->
  gives given "lon1" (Some (AFloat lon1)) -> gives given "lat1" (Some (AFloat lat1)) ->
  gives given "lon2" (Some (AFloat lon2)) -> gives given "lat2" (Some (AFloat lat2)) ->
  gives given "lon_subscale" (Some (AInt ls)) -> gives given "lat_subscale" (Some (AInt lt)) ->
  gives given "outfile" (Some (file_named out)) -> switched given "strict" strict ->
  main L G loadtxt lay o3 fuel Sgregrid argv w fs =
    runs w fs (sgregrid mg xg yg ni nj lon1 lat1 lon2 lat2 ls lt strict out).
Proof.
  intros argv given w fs mg xg yg ni nj lon1 lat1 lon2 lat2 ls lt out strict H A1 A2 A3 A4 A5 A6 A7 A8 A9 B1 B2 B3 B4.
  eapply main_runs; [exact H| |reflexivity]. cbn [command_of].
  rewrite (path_opt _ _ _ A1), (path_opt _ _ _ A2), (path_opt _ _ _ A3), (count_given _ _ _ A4), (count_given _ _ _ A5),
    (get_float_given _ _ _ A6), (get_float_given _ _ _ A7), (get_float_given _ _ _ A8), (get_float_given _ _ _ A9),
    (get_int_given _ _ _ B1), (get_int_given _ _ _ B2), (path_given _ _ _ B3), (flag_given _ _ _ _ _ H (ex_intro _ _ (or_introl eq_refl)) B4).
  reflexivity.
Qed.

Definition tiles_given given (t : two_tiles) (out : string) : Prop :=
  gives given "tilea" (Some (file_named (tt_a t))) /\ gives given "nia" (Some (AInt (Z.of_nat (tt_nia t)))) /\
  gives given "nja" (Some (AInt (Z.of_nat (tt_nja t)))) /\
  gives given "tileb" (Some (file_named (tt_b t))) /\ gives given "nib" (Some (AInt (Z.of_nat (tt_nib t)))) /\
  gives given "njb" (Some (AInt (Z.of_nat (tt_njb t)))) /\
  gives given "outfile" (Some (file_named out)) /\ switched given "strict" (tt_strict t).

Lemma tiles_of_given g argv given t out : g = Sgaddfringe \/ g = Sgstitch -> line g argv given ->
  tiles_given given t out -> tiles_of (rev given) = Some t /\ path_arg (rev given) "outfile" = Some out.
Proof.
  intros Hg H (A1 & A2 & A3 & A4 & A5 & A6 & A7 & A8).
  assert (S : exists c, In (c, "strict"%string) (switches_of g)) by (destruct Hg as [-> | ->]; exists "s"%char; now left).
  split; [|now apply path_given]. unfold tiles_of.
  rewrite (path_given _ _ _ A1), (count_given _ _ _ A2), (count_given _ _ _ A3), (path_given _ _ _ A4),
    (count_given _ _ _ A5), (count_given _ _ _ A6), (flag_given _ _ _ _ _ H S A8).
  now destruct t.
Qed.

Theorem C75_sgaddfringe_sec : forall argv given w fs t out,
  line Sgaddfringe argv given -> tiles_given given t out ->
  main L G loadtxt lay o3 fuel Sgaddfringe argv w fs = runs w fs (sgaddfringe t out).
Proof.
  intros argv given w fs t out H T. eapply main_runs; [exact H| |reflexivity]. cbn [command_of].
  destruct (tiles_of_given Sgaddfringe argv given t out (or_introl eq_refl) H T) as (-> & ->). reflexivity.
Qed.
Theorem C75_sgstitch_sec : forall argv given w fs t out,
  line Sgstitch argv given -> tiles_given given t out ->
  main L G loadtxt lay o3 fuel Sgstitch argv w fs = runs w fs (sgstitch t out).
Proof.
  intros argv given w fs t out H T. eapply main_runs; [exact H| |reflexivity]. cbn [command_of].
  destruct (tiles_of_given Sgstitch argv given t out (or_intror eq_refl) H T) as (-> & ->). reflexivity.
Qed.
End Runs.

(** Each accepted line runs the command with the values on it. *)
Theorem C75_sgmkgrid_runs : forall L G loadtxt lay o3 fuel argv given w fs lon1 lat1 lon2 lat2 ls lt out,
  line Sgmkgrid argv given ->
  gives given "lon1" (double_arg lon1) -> gives given "lat1" (double_arg lat1) ->
  gives given "lon2" (double_arg lon2) -> gives given "lat2" (double_arg lat2) ->
  gives given "lon_subscale" (int_arg ls) -> gives given "lat_subscale" (int_arg lt) ->
  gives given "outfile" (file_arg out) ->
  switched given "verbose" false \/ ~ In None [lon1; lat1; lon2; lat2] ->
  main L G loadtxt lay o3 fuel Sgmkgrid argv w fs =
    runs L G loadtxt lay o3 fuel w fs (sgmkgrid lon1 lat1 lon2 lat2 ls lt out).
Proof. exact C75_sgmkgrid_sec. Qed.

Theorem C75_sgregrid_runs : forall L G loadtxt lay o3 fuel argv given w fs mg xg yg ni nj lon1 lat1 lon2 lat2 ls lt out strict,
  line Sgregrid argv given ->
  gives given "mitgridfile" (file_arg mg) -> gives given "xg_file" (file_arg xg) -> gives given "yg_file" (file_arg yg) ->
  gives given "ni" (Some (AInt (Z.of_nat ni))) -> gives given "nj" (Some (AInt (Z.of_nat nj))) ->
  gives given "lon1" (Some (AFloat lon1)) -> gives given "lat1" (Some (AFloat lat1)) ->
  gives given "lon2" (Some (AFloat lon2)) -> gives given "lat2" (Some (AFloat lat2)) ->
  gives given "lon_subscale" (Some (AInt ls)) -> gives given "lat_subscale" (Some (AInt lt)) ->
  gives given "outfile" (Some (file_named out)) -> switched given "strict" strict ->
  main L G loadtxt lay o3 fuel Sgregrid argv w fs =
    runs L G loadtxt lay o3 fuel w fs (sgregrid mg xg yg ni nj lon1 lat1 lon2 lat2 ls lt strict out).
Proof. exact C75_sgregrid_sec. Qed.

Theorem C75_sgaddfringe_runs : forall L G loadtxt lay o3 fuel argv given w fs t out,
  line Sgaddfringe argv given -> tiles_given given t out ->
  main L G loadtxt lay o3 fuel Sgaddfringe argv w fs = runs L G loadtxt lay o3 fuel w fs (sgaddfringe t out).
Proof. exact C75_sgaddfringe_sec. Qed.

Theorem C75_sgstitch_runs : forall L G loadtxt lay o3 fuel argv given w fs t out,
  line Sgstitch argv given -> tiles_given given t out ->
  main L G loadtxt lay o3 fuel Sgstitch argv w fs = runs L G loadtxt lay o3 fuel w fs (sgstitch t out).
Proof. exact C75_sgstitch_sec. Qed.

(** From a line with all of sgmkgrid's options to the file: it is written, and holds a grid of
    the stated size. *)
Theorem C75_sgmkgrid_writes : forall L G loadtxt lay o3 fuel argv given w fs lon1 lat1 lon2 lat2 ls lt out,
  layouts lay -> layouts o3 ->
  line Sgmkgrid argv given ->
  gives given "lon1" (Some (AFloat lon1)) -> gives given "lat1" (Some (AFloat lat1)) ->
  gives given "lon2" (Some (AFloat lon2)) -> gives given "lat2" (Some (AFloat lat2)) ->
  gives given "lon_subscale" (Some (AInt (Z.of_nat ls))) -> gives given "lat_subscale" (Some (AInt (Z.of_nat lt))) ->
  gives given "outfile" (Some (file_named out)) -> 1 <= ls -> 1 <= lt -> w out = true ->
  exists gr bs g', mkgrid64 L G lon1 lat1 lon2 lat2 (Z.of_nat ls) (Z.of_nat lt) = Ok (gr, ls, lt) /\
    main L G loadtxt lay o3 fuel Sgmkgrid argv w fs = (fs_set fs out bs, Ended (Ok tt)) /\
    read64 L bs ls lt true = Ok g' /\ geq g' gr /\ length bs = file_bytes ls lt.
Proof.
  intros L G loadtxt lay o3 fuel argv given w fs lon1 lat1 lon2 lat2 ls lt out Hl Ho H A1 A2 A3 A4 A5 A6 A7 P1 P2 W.
  destruct (mkgrid64_ok L G lon1 lat1 lon2 lat2 ls lt) as (gr & _ & E & _); auto.
  exists gr.
  destruct (C38_results_can_be_read_back L G loadtxt lay o3 Hl Ho fuel w fs
    (sgmkgrid (Some lon1) (Some lat1) (Some lon2) (Some lat2) (Some (Z.of_nat ls)) (Some (Z.of_nat lt)) (Some out))
    out gr ls lt) as (bs & g' & R & Rd & Ge & Le); auto.
  exists bs, g'. repeat split; auto; try apply Ge.
  rewrite (C75_sgmkgrid_runs L G loadtxt lay o3 fuel argv given w fs (Some lon1) (Some lat1) (Some lon2) (Some lat2)
    (Some (Z.of_nat ls)) (Some (Z.of_nat lt)) (Some out)); auto.
  2:{ right. cbn. intuition discriminate. }
  unfold runs. now rewrite R.
Qed.

(** ** C76: numbers and other values on the line *)

(** A decimal number means the nearest double, with its sign. *)
Theorem C76_decimals_are_nearest : forall neg a point b, decimal_parts a point b ->
  let r := round radix2 fexp64 ZnearestE (IZR (number (a ++ b)) / 10 ^ length b) in
  (r < bpow radix2 1024)%R ->
  exists x, has_type A_double (decimal_text neg a point b) (AFloat x) /\ is_finite 53 1024 x = true /\
    B2R 53 1024 x = (if neg then - r else r)%R /\ Bsign 53 1024 x = neg.
Proof.
  intros neg a point b P r R. destruct (decimal_nearest neg a point b P R) as (x & E & H).
  exists x. split; [now constructor|exact H].
Qed.

(** It can follow its option, except for a negative one that ends in its point. *)
Theorem C76_decimals_follow_their_option : forall g neg a point b, decimal_parts a point b ->
  (plain g (decimal_text neg a point b) <-> ~ (neg = true /\ point = true /\ b = [])).
Proof. exact decimal_plain. Qed.

(** Integers, leading zeros or not. *)
Theorem C76_integers : forall g (neg : bool) a, decimal_parts a false [] ->
  plain g (decimal_text neg a false []) /\
  has_type An_integer (decimal_text neg a false []) (AInt (if neg then - number a else number a)).
Proof.
  intros g neg a P. split.
  - apply decimal_plain; [exact P|]. intros (_ & K & _). discriminate.
  - destruct P as (A & _ & N & _). rewrite app_nil_r in N. apply all_digits_forallb in A. constructor.
    rewrite number_value by exact A. unfold decimal_text. rewrite app_nil_r. destruct neg; cbn [app].
    + unfold int_of_text. rewrite strip_none.
      * cbn [Ascii.eqb Bool.eqb]. rewrite digits_loop_value by auto. reflexivity.
      * cbn [forallb]. eapply forallb_imp; [|exact A]. intros x X. apply negb_true_iff. now apply digit_facts.
    + now apply int_of_digits.
Qed.

(** A value that cannot follow its option: the line is refused. *)
Theorem C76_other_values_refused : forall g pre post w n ty req v,
  In (n, ty, req) (options_of g) -> stands_for g w (lit n) -> ~ plain g v ->
  forall ns, parse_args (parser_of g) (pre ++ w :: v :: post) <> Parsed ns.
Proof.
  intros g pre post w n ty req v I S P ns E. apply parse_args_line in E as (given & (ps & gs & E & F & _) & _).
  revert pre E. induction F as [|p l ps gs Sp F IH]; intros pre E; [destruct pre; discriminate|].
  assert (Nw : ~ plain g w).
  { intros K. apply plain_iff in K as (_ & K). rewrite (stands_option _ _ _ _ S (option_in _ _ _ _ I)) in K. discriminate. }
  cbn [flat_map] in E.
  assert (One : forall x, pre ++ w :: v :: post = [x] ++ flat_map written ps -> x <> w -> False).
  { intros x E' Nx. destruct pre as [|y pre]; [injection E' as E' _; congruence|]. injection E' as -> E'. eauto. }
  destruct Sp as [n' ty' req' w' v' a' I' S' P' T'|n' ty' req' w' v' a' I' S' T'|c n' w' I' S'|cs nms N FF]; cbn [written] in E.
  - destruct pre as [|y [|z pre]]; injection E; intros; subst; try contradiction.
    eauto.
  - eapply One; [exact E|]. intros K. destruct (stands_dashed _ _ _ S) as (r & -> & _ & Ne).
    apply no_eq_dashed in Ne. apply Ne. rewrite <- K. apply in_or_app. right. now left.
  - eapply One; [exact E|]. intros ->. pose proof (stands_unique _ _ _ _ S S') as K. apply lit_inj in K. subst n'.
    eapply option_not_switch; eauto.
  - eapply One; [exact E|]. intros <-. destruct FF as [|c m cs nms Hc FF]; [congruence|].
    eapply stands_letters; [exact S| |reflexivity]. now apply (switch_letter _ _ _ Hc).
Qed.

(** README.rst gives the Python example lon2=-128. but the command line -128.0: not every number
    float() reads can follow its option. *)
Definition minus128 : text := lit "-128.".
Theorem C76_every_number_follows_its_option_refuted :
  ~ forall n req v x, In (n, A_double, req) (options_of Sgmkgrid) -> float_arg v = Some x ->
    exists ns, parse_args (parser_of Sgmkgrid) [dashed (lit n); v] = Parsed ns.
Proof.
  intros H. destruct (H "lon1"%string false minus128 (b64_ratio true 128 1)) as (ns & K).
  - now left.
  - unfold minus128. change (lit "-128.") with (decimal_text true (lit "128") true []). rewrite decimal_read.
    + reflexivity.
    + repeat split; try discriminate; repeat constructor.
  - vm_compute in K. discriminate.
Qed.

(** ** C77: lines that are refused *)

(** A help word, or a group of letters with an h. *)
Definition help_asked (g : program) (argv : list text) : Prop :=
  exists a, In a argv /\ (stands_for g a (lit "help") \/ exists l, a = "-"%char :: l /\ In "h"%char l).

Definition helps (o : opt) : Prop := o_kind o = OHelp.

Lemma take_exit ns o a c : take ns o a = Exit c -> c = 2%Z \/ (c = 0%Z /\ helps o).
Proof.
  unfold take, helps, usage. destruct (o_kind o); intros E.
  1-3: destruct a as [t|]; [destruct (convert _ t); [discriminate|]|]; injection E as <-; auto.
  - discriminate.
  - injection E as <-. auto.
Qed.

Lemma take_all_exit l : forall ns c, take_all ns l = Exit c -> c = 2%Z \/ (c = 0%Z /\ exists o a, In (o, a) l /\ helps o).
Proof.
  induction l as [|(o, a) l IH]; intros ns c E; [discriminate|]. cbn [take_all] in E.
  destruct (take ns o a) as [c'|ns'] eqn:T.
  - injection E as ->. destruct (take_exit _ _ _ _ T) as [-> |(-> & H)]; auto. right. split; auto. exists o, a. split; auto. now left.
  - destruct (IH _ _ E) as [-> |(-> & o' & a' & I & H)]; auto. right. split; auto. exists o', a'. split; auto. now right.
Qed.

Definition used (u : use) : list opt :=
  match u with UAll l | URest l => map fst l | UNext l o => map fst l ++ [o] | UError => [] end.

Lemma used_cons a u : forall o, In o (used (use_cons a u)) -> o = fst a \/ In o (used u).
Proof. intros o. destruct u; cbn; intuition. Qed.

Lemma explicit_used g e : forall o sep x, takes_value o = false -> In x (used (explicit (parser_of g) o false sep e)) ->
  x = o \/ exists c, In c e /\ In (["-"%char; c], x) (strings_of g).
Proof.
  assert (H : forall n e, length e <= n -> forall o sep x, takes_value o = false -> In x (used (explicit (parser_of g) o false sep e)) ->
    x = o \/ exists c, In c e /\ In (["-"%char; c], x) (strings_of g)).
  2:{ eapply H. reflexivity. }
  clear e. induction n as [|n IH]; intros e Le o sep x To I.
  { destruct e; [|cbn in Le; lia]. cbn [explicit] in I. rewrite To in I. destruct I. }
  destruct e as [|c r]; cbn [explicit] in I; rewrite To in I; [destruct I|].
  cbn [orb] in I. destruct (sep || is_dash c); [destruct I|].
  change (option_strings (parser_of g)) with (strings_of g) in I.
  destruct (dget (strings_of g) ["-"%char; c]) as [o'|] eqn:D.
  2:{ destruct I as [I|[]]. left. now symmetry. }
  apply dget_in in D. pose proof (short_takes _ _ _ D) as To'. apply used_cons in I as [I|I]; [now left|]. right.
  assert (Here : x = o' -> exists c0, In c0 (c :: r) /\ In (["-"%char; c0], x) (strings_of g)).
  { intros ->. exists c. split; [now left|exact D]. }
  destruct r as [|d r].
  - destruct I as [I|[]]. now apply Here.
  - cbn [length] in Le. destruct (Ascii.eqb d "=").
    + destruct (IH r ltac:(lia) o' true x To' I) as [-> |(c0 & Ic & Dc)]; [now apply Here|].
      exists c0. split; [right; now right|exact Dc].
    + destruct (IH (d :: r) ltac:(cbn [length]; lia) o' false x To' I) as [-> |(c0 & Ic & Dc)]; [now apply Here|].
      exists c0. split; [now right|exact Dc].
Qed.

Lemma helps_word g w o : In (w, o) (strings_of g) -> helps o -> w = lit "-h" \/ w = lit "--help".
Proof.
  intros I H. destruct (entry_cases _ _ _ I) as [(_ & K)|[(n & t & r & _ & _ & ->)|(c & n & _ & _ & ->)]].
  - exact K.
  - destruct t; discriminate.
  - discriminate.
Qed.

Lemma helps_letter g c o : In (["-"%char; c], o) (strings_of g) -> helps o -> c = "h"%char.
Proof. intros I H. destruct (helps_word _ _ _ I H) as [K|K]; [now injection K|discriminate]. Qed.

Lemma tokens_cases g argv : forall ts, tokens (parser_of g) argv = Some ts ->
  forall a t, In (a, t) ts -> In a argv /\ (token_of g a t \/ t = TValue \/ t = TDashes).
Proof.
  induction argv as [|b l IH]; intros ts E a t I; cbn [tokens] in E.
  - injection E as <-. destruct I.
  - destruct (text_eqb b (lit "--")) eqn:Eb.
    + injection E as <-. destruct I as [I|I].
      * injection I as <- <-. split; [now left|auto].
      * apply in_map_iff in I as (x & K & I). injection K as <- <-. split; [now right|auto].
    + destruct (classify (parser_of g) b) as [t'|] eqn:C; [|discriminate].
      destruct (tokens (parser_of g) l) as [ts'|]; [|discriminate]. injection E as <-. destruct I as [I|I].
      * injection I as <- <-. split; [now left|]. left. split; [now apply text_eqb_neq|exact C].
      * destruct (IH _ eq_refl _ _ I) as (Ia & Ta). split; [now right|exact Ta].
Qed.

(** What a token asks for. *)
Lemma token_helps g a t o : token_of g a t -> helps o ->
  match t with
  | TOption o' => o' = o
  | TWith o' td sep e => In o (used (explicit (parser_of g) o' td sep e))
  | _ => False
  end -> stands_for g a (lit "help") \/ exists l, a = "-"%char :: l /\ In "h"%char l.
Proof.
  intros (Na & Ca) H U. pose proof (classify_reading g a Na) as R. rewrite Ca in R.
  destruct t as [o'|o' td sep e| | |]; try contradiction.
  - subst o'. inversion R as [m o' S I|c o' K I| | | | |r K N L W U'|]; subst.
    + left. destruct (helps_word _ _ _ I H) as [K|K]; [|].
      * destruct S as (S & _). destruct (word_cases _ _ S) as [(c & E & N & _)|(n & E & N & _)].
        -- rewrite K in E. unfold dashed in K. injection K as K _. discriminate K.
        -- unfold dashed in K. injection K as K _. discriminate K.
      * assert (m = lit "help") as -> by (unfold dashed in K; injection K as K; exact K). exact S.
    + right. exists [c]. split; [reflexivity|]. left. eapply helps_letter; eauto.
    + unfold unmatched in U'. destruct (_ || _); discriminate.
  - inversion R as [| |w m o1 v K S I|c o1 d r K N I|c o1 r K I| |r K N L W U'|]; subst.
    + exfalso. destruct (stands_entry _ _ _ _ S I) as [-> |[(n0 & t & r & -> & J & ->)|(c & n0 & -> & J & ->)]].
      * destruct e; destruct U.
      * assert (X : explicit (parser_of g) (value_opt n0 (kind_of t) r) true true e = UAll [(value_opt n0 (kind_of t) r, Some e)])
          by (destruct e; cbn [explicit]; now rewrite value_takes).
        rewrite X in U. destruct U as [<-|[]]. destruct t; discriminate.
      * destruct e; destruct U.
    + right. eexists. split; [reflexivity|].
      destruct (explicit_used g (d :: r) o' false o (short_takes _ _ _ I) U) as [-> |(x & Ix & Dx)].
      * left. eapply helps_letter; eauto.
      * right. assert (x = "h"%char) as <- by (eapply helps_letter; eauto). exact Ix.
    + right. eexists. split; [reflexivity|].
      destruct (explicit_used g e o' true o (short_takes _ _ _ I) U) as [-> |(x & Ix & Dx)].
      * left. eapply helps_letter; eauto.
      * right. right. assert (x = "h"%char) as <- by (eapply helps_letter; eauto). exact Ix.
    + unfold unmatched in U'. destruct (_ || _); discriminate.
Qed.

Lemma consume_exit g l : (forall a t, In (a, t) l -> token_of g a t \/ t = TValue \/ t = TDashes) -> forall x ns c,
  consume (parser_of g) l x ns = Exit c ->
  c = 2%Z \/ (c = 0%Z /\ exists a t, In (a, t) l /\ (stands_for g a (lit "help") \/ exists l, a = "-"%char :: l /\ In "h"%char l)).
Proof.
  assert (H : forall n l, length l <= n -> (forall a t, In (a, t) l -> token_of g a t \/ t = TValue \/ t = TDashes) -> forall x ns c,
    consume (parser_of g) l x ns = Exit c ->
    c = 2%Z \/ (c = 0%Z /\ exists a t, In (a, t) l /\ (stands_for g a (lit "help") \/ exists l, a = "-"%char :: l /\ In "h"%char l))).
  2:{ eapply H. reflexivity. }
  clear l. induction n as [|n IH]; intros [|(a, t) l] Ll T x ns c E; cbn [length] in Ll; try lia; try discriminate.
  assert (Rest : forall l' x' ns', length l' <= n -> incl l' l -> consume (parser_of g) l' x' ns' = Exit c ->
    c = 2%Z \/ (c = 0%Z /\ exists a0 t0, In (a0, t0) ((a, t) :: l) /\ (stands_for g a0 (lit "help") \/ exists l, a0 = "-"%char :: l /\ In "h"%char l))).
  { intros l' x' ns' Le Inc E'. destruct (IH l' Le (fun a t I => T a t (or_intror (Inc _ I))) _ _ _ E') as [-> |(-> & a0 & t0 & I & K)]; auto.
    right. split; auto. exists a0, t0. split; auto. right. now apply Inc. }
  assert (Rest1 : forall x' ns', consume (parser_of g) l x' ns' = Exit c ->
    c = 2%Z \/ (c = 0%Z /\ exists a0 t0, In (a0, t0) ((a, t) :: l) /\ (stands_for g a0 (lit "help") \/ exists l, a0 = "-"%char :: l /\ In "h"%char l))).
  { intros x' ns'. apply Rest; [lia|apply incl_refl]. }
  assert (Rest2 : forall v l' x' ns', l = v :: l' -> consume (parser_of g) l' x' ns' = Exit c ->
    c = 2%Z \/ (c = 0%Z /\ exists a0 t0, In (a0, t0) ((a, t) :: l) /\ (stands_for g a0 (lit "help") \/ exists l, a0 = "-"%char :: l /\ In "h"%char l))).
  { intros v l' x' ns' ->. apply Rest; [cbn [length] in Ll; lia|apply incl_tl, incl_refl]. }
  assert (Here : forall o, helps o -> t <> TValue -> t <> TDashes ->
    match t with
    | TOption o' => o' = o
    | TWith o' td sep e => In o (used (explicit (parser_of g) o' td sep e))
    | _ => False
    end -> exists a0 t0, In (a0, t0) ((a, t) :: l) /\ (stands_for g a0 (lit "help") \/ exists l, a0 = "-"%char :: l /\ In "h"%char l)).
  { intros o Ho N1 N2 U. exists a, t. split; [now left|]. destruct (T a t (or_introl eq_refl)) as [K|[K|K]]; try contradiction.
    eapply token_helps; eauto. }
  cbn [consume] in E. destruct t as [o|o td sep e| | |]; eauto.
  - destruct (takes_value o) eqn:To.
    + destruct l as [|(v, []) l']; try (injection E as <-; auto).
      destruct (take ns o (Some v)) as [c'|ns'] eqn:Tk; [|eapply Rest2; eauto]. injection E as ->.
      destruct (take_exit _ _ _ _ Tk) as [-> |(-> & Ho)]; auto. right. split; auto. apply (Here o); auto; discriminate.
    + destruct (take ns o None) as [c'|ns'] eqn:Tk; [|eauto]. injection E as ->.
      destruct (take_exit _ _ _ _ Tk) as [-> |(-> & Ho)]; auto. right. split; auto. apply (Here o); auto; discriminate.
  - assert (All : forall us c', take_all ns us = Exit c' -> (forall o0 a0, In (o0, a0) us -> In o0 (used (explicit (parser_of g) o td sep e))) ->
      c' = 2%Z \/ (c' = 0%Z /\ exists a0 t0, In (a0, t0) ((a, TWith o td sep e) :: l) /\ (stands_for g a0 (lit "help") \/ exists l, a0 = "-"%char :: l /\ In "h"%char l))).
    { intros us c' Tk Sub. destruct (take_all_exit _ _ _ Tk) as [-> |(-> & o0 & a0 & I & Ho)]; auto.
      right. split; auto. apply (Here o0); auto; try discriminate. eapply Sub; eauto. }
    destruct (explicit (parser_of g) o td sep e) as [us|us|us o'|] eqn:X.
    + destruct (take_all ns us) as [c'|ns'] eqn:Tk; [|eauto]. injection E as ->. eapply All; [exact Tk|].
      intros o0 a0 I. cbn [used]. now apply (in_map fst) in I.
    + destruct (take_all ns us) as [c'|ns'] eqn:Tk; [|eauto]. injection E as ->. eapply All; [exact Tk|].
      intros o0 a0 I. cbn [used]. now apply (in_map fst) in I.
    + assert (Sub : forall z o0 a0, In (o0, a0) (us ++ [(o', z)]) -> In o0 (used (UNext us o'))).
      { intros z o0 a0 I. cbn [used]. apply in_app_or in I. apply in_or_app. destruct I as [I|[I|[]]].
        - left. now apply (in_map fst) in I.
        - injection I as -> _. right. now left. }
      destruct (takes_value o').
      * destruct l as [|(v, []) l']; try (injection E as <-; auto).
        destruct (take_all ns (us ++ [(o', Some v)])) as [c'|ns'] eqn:Tk; [|eapply Rest2; eauto]. injection E as ->.
        eapply All; [exact Tk|apply Sub].
      * destruct (take_all ns (us ++ [(o', None)])) as [c'|ns'] eqn:Tk; [|eauto]. injection E as ->.
        eapply All; [exact Tk|apply Sub].
    + injection E as <-. auto.
Qed.

(** A refused line ends with status 2, or with 0 after the help text was asked for. *)
Theorem C77_exit_codes : forall g argv c, parse_args (parser_of g) argv = Exit c ->
  c = 2%Z \/ (c = 0%Z /\ help_asked g argv).
Proof.
  intros g argv c E. unfold parse_args in E. destruct (tokens (parser_of g) argv) as [ts|] eqn:Et; [|injection E as <-; auto].
  pose proof (tokens_cases g argv ts Et) as Tc.
  destruct (consume (parser_of g) ts false []) as [c'|(ns, x)] eqn:C.
  - injection E as ->. destruct (consume_exit g ts (fun a t I => proj2 (Tc a t I)) _ _ _ C) as [-> |(-> & a & t & I & H)]; auto.
    right. split; auto. exists a. split; [now apply (Tc a t)|exact H].
  - destruct (_ && _); [discriminate|]. injection E as <-. auto.
Qed.

(** A required option left out. *)
Theorem C77_required_options : forall g argv n ty,
  In (n, ty, true) (options_of g) -> (forall v, ~ on_line g argv n v) ->
  exists c, parse_args (parser_of g) argv = Exit c.
Proof.
  intros g argv n ty I H. destruct (parse_args (parser_of g) argv) as [c|ns] eqn:E; [eauto|].
  apply parse_args_line in E as (given & E & _). pose proof (C74_values_typed g argv given n ty true E I) as T.
  destruct (last_given given n); [|discriminate]. destruct T as (_ & v & _ & K). destruct (H v K).
Qed.

(** Nothing is written unless the line is accepted, and then only the file that follows
    --outfile. *)
Theorem C77_refused_lines_change_nothing : forall L G loadtxt lay o3 fuel g argv w fs fs' c,
  main L G loadtxt lay o3 fuel g argv w fs = (fs', Exited c) ->
  fs' = fs /\ (c = 2%Z \/ (c = 0%Z /\ help_asked g argv)).
Proof.
  intros L G loadtxt lay o3 fuel g argv w fs fs' c E. unfold main in E.
  destruct (parse_args (parser_of g) argv) as [c'|ns] eqn:P.
  - injection E as <- <-. split; auto. now apply C77_exit_codes.
  - destruct (unprintable g ns); [discriminate|].
    destruct (command_of g ns) as [cmd|]; [destruct (run _ _ _ _ _ _ _ _ _ _); discriminate|].
    destruct (command_ofZ g ns) as [cmd|]; [|discriminate]. destruct (runZ _ _ _ _ _ _ _ _ _ _). discriminate.
Qed.

Lemma path_line g argv given n p : line g argv given -> In (n, A_text) (map fst (options_of g)) ->
  path_arg (rev given) n = Some p -> on_line g argv n (lit p).
Proof.
  intros H I E. apply in_map_iff in I as (((n' & ty) & req) & K & I). injection K as -> ->.
  pose proof (C74_values_typed g argv given n A_text req H I) as T.
  unfold path_arg, get_text in E. fold (last_given given n) in E.
  destruct (last_given given n) as [[t|z|x|]|]; try discriminate E. destruct T as (_ & v & T & O).
  inversion T; subst. injection E as <-. unfold lit. rewrite list_ascii_of_string_of_list_ascii. exact O.
Qed.

Theorem C77_only_the_named_file : forall L G loadtxt lay o3, layouts lay -> layouts o3 ->
  forall fuel g argv w fs fs' r q,
  main L G loadtxt lay o3 fuel g argv w fs = (fs', r) -> fs' q <> fs q ->
  r = Ended (Ok tt) /\ on_line g argv "outfile" (lit q).
Proof.
  intros L G loadtxt lay o3 Hl Ho fuel g argv w fs fs' r q E D. unfold main in E.
  destruct (parse_args (parser_of g) argv) as [c'|ns] eqn:P; [injection E as <- <-; congruence|].
  apply parse_args_line in P as (given & P & ->).
  destruct (unprintable g (rev given)); [injection E as <- <-; congruence|].
  destruct (command_of g (rev given)) as [cmd|] eqn:Ec.
  2:{ destruct (command_ofZ g (rev given)) as [cmd|] eqn:Ez; [|injection E as <- <-; congruence].
    destruct (counts_cases (b64ops L) (b64_laws L) b64codec G loadtxt lay o3 (layouts_order_ok lay Hl) fuel w fs cmd)
      as [(e & R)|(c' & Oc & R)]; rewrite R in E; [injection E as <- <-; congruence|].
    fold (run64 L G loadtxt lay o3 fuel w fs c') in E.
    destruct (run64 L G loadtxt lay o3 fuel w fs c') as (fs1, r1) eqn:R1. injection E as <- <-.
    destruct (C39_failed_commands_change_nothing L G loadtxt lay o3 Hl Ho fuel w fs c' fs1 r1 R1) as (K1 & K2).
    destruct r1 as [[]|e]; [|now specialize (K1 e eq_refl q)]. split; [reflexivity|].
    destruct (K2 eq_refl) as (p & Eo' & _ & Oth). rewrite (other_counts_outfile _ _ Oc) in Eo'. injection Eo' as <-.
    destruct (string_dec q (outfileZ cmd)) as [-> |N]; [|now specialize (Oth q N)].
    assert (Po : path_arg (rev given) "outfile" = Some (outfileZ cmd)).
    { destruct g; cbn [command_ofZ] in Ez; try discriminate Ez;
        repeat match type of Ez with context [match ?x with Some _ => _ | None => _ end] => destruct x; try discriminate Ez end;
        injection Ez as <-; reflexivity. }
    eapply path_line; [exact P| |exact Po].
    destruct g; cbn; intuition. discriminate Ez. }
  fold (run64 L G loadtxt lay o3 fuel w fs cmd) in E.
  destruct (run64 L G loadtxt lay o3 fuel w fs cmd) as (fs1, r1) eqn:R. injection E as <- <-.
  destruct (C39_failed_commands_change_nothing L G loadtxt lay o3 Hl Ho fuel w fs cmd fs1 r1 R) as (K1 & K2).
  destruct r1 as [[]|e]; [|now specialize (K1 e eq_refl q)]. split; [reflexivity|].
  destruct (K2 eq_refl) as (p & Eo & _ & Oth).
  destruct (string_dec q p) as [-> |N]; [|now specialize (Oth q N)]. clear K1 K2 Oth D R.
  eapply path_line; [exact P| |].
  - destruct g; cbn; intuition. discriminate Ec.
  - destruct g; cbn [command_of] in Ec.
    + injection Ec as <-. exact Eo.
    + repeat match type of Ec with context [match ?x with Some _ => _ | None => _ end] => destruct x; try discriminate Ec end.
      injection Ec as <-. exact Eo.
    + destruct (tiles_of (rev given)); [|discriminate]. destruct (path_arg (rev given) "outfile"); [|discriminate].
      injection Ec as <-. exact Eo.
    + destruct (tiles_of (rev given)); [|discriminate]. destruct (path_arg (rev given) "outfile"); [|discriminate].
      injection Ec as <-. exact Eo.
    + discriminate.
Qed.

(** Without any option sgmkgrid fails only when it computes. *)
Theorem C77_sgmkgrid_requires_nothing : forall L G loadtxt lay o3 fuel w fs,
  main L G loadtxt lay o3 fuel Sgmkgrid [] w fs = (fs, Ended (Err TypeError)).
Proof. reflexivity. Qed.

(** ** C78: sggetobcs *)

Definition ob_name (s : side) : string :=
  match s with North => "OB_Jnorth" | South => "OB_Jsouth" | East => "OB_Ieast" | West => "OB_Iwest" end.

(** The calls of getobcs() the command can make: no matrices, one integer per side. *)
Definition obcs_line (given : list (text * argval)) (a : @obcs_args binary64) : Prop :=
  exists pf nip njp rf nir njr dir out ob strict,
  gives given "parent_mitgridfile" (Some (AText pf)) /\
  gives given "ni_parent" (Some (AInt (Z.of_nat nip))) /\ gives given "nj_parent" (Some (AInt (Z.of_nat njp))) /\
  gives given "regional_mitgridfile" (Some (AText rf)) /\
  gives given "ni_regional" (Some (AInt (Z.of_nat nir))) /\ gives given "nj_regional" (Some (AInt (Z.of_nat njr))) /\
  gives given "parent_resultsdir" (Some (AText dir)) /\ gives given "resultsdir" (Some (AText out)) /\
  (forall s, gives given (ob_name s) (int_arg (ob s))) /\ switched given "strict" strict /\
  a = mk_obcs_args (Some pf) None (Some nip) (Some njp) (Some rf) None (Some nir) (Some njr) (Some dir)
        (fun s => match ob s with Some z => OScalar z | None => ONone end) (Some out) strict.

Definition same_args (a b : @obcs_args binary64) : Prop := exists ob, a = with_ob b ob /\ forall s, ob s = oa_ob b s.

Lemma same_args_run {W} L G fo lay o3 fuel (xw : _ -> _ -> _ -> _ -> res W) xv ws fs a b : same_args a b ->
  obcs64 L G fo lay o3 fuel xw xv ws fs a = obcs64 L G fo lay o3 fuel xw xv ws fs b.
Proof.
  intros (ob & -> & H). symmetry. apply C49_zero_means_default. intros s. left. apply H.
Qed.

Lemma obcs_of_line argv given a : line Sggetobcs argv given -> obcs_line given a ->
  exists a', obcs_of (rev given) = Some a' /\ same_args a' a.
Proof.
  intros H (pf & nip & njp & rf & nir & njr & dir & out & ob & strict & A1 & A2 & A3 & A4 & A5 & A6 & A7 & A8 & A9 & B1 & ->).
  unfold obcs_of. rewrite (count_given _ _ _ A2), (count_given _ _ _ A3), (count_given _ _ _ A5), (count_given _ _ _ A6).
  rewrite (get_text_given _ _ _ A1), (get_text_given _ _ _ A4), (get_text_given _ _ _ A7), (get_text_given _ _ _ A8).
  rewrite (flag_given _ _ _ _ _ H (ex_intro _ _ (or_introl eq_refl)) B1).
  eexists. split; [reflexivity|]. exists (ob_option (rev given)). split; [reflexivity|].
  intros s. cbn [oa_ob]. unfold ob_option. pose proof (get_int_opt _ _ _ (A9 s)) as K. unfold ob_name in K.
  destruct s; now rewrite K.
Qed.

(** The command calls getobcs() with the values on the line. *)
Theorem C78_sggetobcs_runs : forall W L G fo lay o3 fuel (xw : _ -> _ -> _ -> _ -> res W) xv argv given ws fs a,
  line Sggetobcs argv given -> obcs_line given a ->
  main_obcs L G lay o3 fuel fo xw xv argv ws fs =
    (let '(ws', fs', r) := obcs64 L G fo lay o3 fuel xw xv ws fs a in (ws', fs', Ended r)).
Proof.
  intros W L G fo lay o3 fuel xw xv argv given ws fs a H A. unfold main_obcs. rewrite (line_parsed _ _ _ H).
  destruct (obcs_of_line argv given a H A) as (a' & -> & S).
  rewrite <- (same_args_run L G fo lay o3 fuel xw xv ws fs a' a S). reflexivity.
Qed.

(** A refused line changes nothing. *)
Theorem C78_refused_lines_change_nothing : forall W L G fo lay o3 fuel (xw : _ -> _ -> _ -> _ -> res W) xv argv ws fs ws' fs' c,
  main_obcs L G lay o3 fuel fo xw xv argv ws fs = (ws', fs', Exited c) ->
  ws' = ws /\ fs' = fs /\ (c = 2%Z \/ (c = 0%Z /\ help_asked Sggetobcs argv)).
Proof.
  intros W L G fo lay o3 fuel xw xv argv ws fs ws' fs' c E. unfold main_obcs in E.
  destruct (parse_args (parser_of Sggetobcs) argv) as [c'|ns] eqn:P.
  - injection E as <- <- <-. repeat split. now apply C77_exit_codes.
  - destruct (obcs_of ns) as [a|]; [destruct (getobcs _ _ _ _ _ _ _ _ _ _ _ _ _) as ((w1, f1), r1); discriminate|].
    destruct (obcs_ofZ ns) as [(a, n)|]; [|discriminate].
    destruct (getobcsZ _ _ _ _ _ _ _ _ _ _ _ _ _ _) as ((w1, f1), r1). discriminate.
Qed.

(** --resultsdir has a documented default but is required. *)
Theorem C78_resultsdir_always_given : forall argv given, line Sggetobcs argv given ->
  exists d, gives given "resultsdir" (Some (AText d)).
Proof.
  intros argv given H. assert (I : In ("resultsdir"%string, A_text, true) (options_of Sggetobcs)) by (cbn; auto 20).
  pose proof (C74_values_typed _ _ _ _ _ _ H I) as T. unfold gives.
  destruct (last_given given "resultsdir") as [a|]; [|discriminate]. destruct T as (T & _).
  destruct (typed_text a T) as (d & ->). eauto.
Qed.

(** *** The OB options *)

Definition ob_key (k : text) : bool := existsb (fun s => text_eqb k (lit (ob_name s))) sides.

Lemma ob_key_name s : ob_key (lit (ob_name s)) = true.
Proof. destruct s; reflexivity. Qed.

Lemma dget_filter {A} (f : text -> bool) (l : list (text * A)) k : f k = true ->
  dget (filter (fun e => f (fst e)) l) k = dget l k.
Proof.
  intros H. induction l as [|(k', v) l IH]; [reflexivity|]. cbn [filter fst dget].
  destruct (text_eqb k k') eqn:E.
  - apply text_eqb_eq in E. subst k'. rewrite H. cbn [dget]. now rewrite text_eqb_refl.
  - destruct (f k'); [cbn [dget]; now rewrite E|exact IH].
Qed.

Lemma filter_rev {A} (f : A -> bool) l : filter f (rev l) = rev (filter f l).
Proof.
  induction l as [|x l IH]; [reflexivity|]. cbn [rev filter]. rewrite filter_app, IH. cbn [filter].
  destruct (f x); [reflexivity|apply app_nil_r].
Qed.

(** The line with the OB options left off. *)
Lemma without_ob argv given : line Sggetobcs argv given ->
  exists argv', line Sggetobcs argv' (filter (fun e => negb (ob_key (fst e))) given).
Proof.
  intros (ps & gs & -> & F & -> & R).
  assert (K : exists ps' gs', Forall2 (sets Sggetobcs) ps' gs' /\ concat gs' = filter (fun e => negb (ob_key (fst e))) (concat gs)).
  { clear R. induction F as [|p l ps gs S F (ps' & gs' & F' & E)]; [exists [], []; split; [constructor|reflexivity]|].
    cbn [concat]. rewrite filter_app, <- E.
    destruct (forallb (fun e => negb (ob_key (fst e))) l) eqn:Fl.
    - exists (p :: ps'), (l :: gs'). split; [now constructor|]. cbn [concat]. f_equal.
      clear - Fl. induction l as [|e l IH]; [reflexivity|]. cbn [forallb filter] in *. apply andb_prop in Fl as (-> & Fl). f_equal. auto.
    - exists ps', gs'. split; [exact F'|]. replace (filter _ l) with (@nil (text * argval)); [reflexivity|].
      destruct S as [n ty req w v a H S Pl T|n ty req w v a H S T|c n w H S|cs nms N FF].
      + cbn [forallb filter] in *. rewrite andb_true_r in Fl. now rewrite Fl.
      + cbn [forallb filter] in *. rewrite andb_true_r in Fl. now rewrite Fl.
      + cbn [forallb filter] in *. rewrite andb_true_r in Fl. now rewrite Fl.
      + exfalso. apply not_true_iff_false in Fl. apply Fl. apply forallb_forall. intros e I.
        apply in_map_iff in I as (n & <- & I). cbn [fst].
        assert (J : exists c, In (c, n) (switches_of Sggetobcs)).
        { clear - FF I. induction FF as [|c n' cs ns' Hc FF IH]; [destruct I|]. destruct I as [-> |I]; eauto. }
        destruct J as (c & [J|[J|[]]]); injection J as _ <-; reflexivity. }
  destruct K as (ps' & gs' & F' & E). exists (flat_map written ps'), ps', gs'. repeat split; auto.
  intros n ty I. specialize (R n ty I). apply in_map_iff in R as ((k & a) & Ek & Ik). cbn [fst] in Ek.
  apply in_map_iff. exists (k, a). split; [exact Ek|]. apply filter_In. split; [exact Ik|]. cbn [fst]. rewrite Ek.
  cbn in I. repeat (destruct I as [I|I]; [injection I; intros; subst; (discriminate || reflexivity)|]). destruct I.
Qed.

(** The call made for a namespace. *)
Definition obcs_called {W} L G fo lay o3 fuel (xw : _ -> _ -> _ -> _ -> res W) xv ws fs ns :=
  match obcs_of ns with
  | Some a => let '(ws', fs', r) := getobcs (b64ops L) b64codec b32codec G fo lay o3 fuel xw xv ws fs a in (ws', fs', Ended r)
  | None =>
  match obcs_ofZ ns with
  | Some (a, n) =>
      let '(ws', fs', r) := getobcsZ (b64ops L) b64codec G b32codec fo lay o3 fuel xw xv ws fs a n in (ws', fs', Ended r)
  | None => (ws, fs, Unmodelled)
  end
  end.

(** A call that succeeds is one with counts that are not negative; namespaces that differ in
    the OB options only make calls that differ in these. *)
Lemma obcs_called_ok {W} L G fo lay o3 fuel (xw : _ -> _ -> _ -> _ -> res W) xv ws fs ns ws' fs' :
  obcs_called L G fo lay o3 fuel xw xv ws fs ns = (ws', fs', Ended (Ok tt)) ->
  exists a, obcs64 L G fo lay o3 fuel xw xv ws fs a = (ws', fs', Ok tt) /\ oa_ob a = ob_option ns /\
    forall ns', (forall k, ob_key k = false -> dget ns' k = dget ns k) ->
      obcs_called L G fo lay o3 fuel xw xv ws fs ns' =
      (let '(ws', fs', r) := obcs64 L G fo lay o3 fuel xw xv ws fs (with_ob a (ob_option ns')) in (ws', fs', Ended r)).
Proof.
  intros E. unfold obcs_called in *. destruct (obcs_of ns) as [a|] eqn:Ea.
  - fold (obcs64 L G fo lay o3 fuel xw xv ws fs a) in E.
    destruct (obcs64 L G fo lay o3 fuel xw xv ws fs a) as ((ws1, fs1), r1) eqn:Ro. injection E as -> -> ->.
    exists a. split; [exact Ro|]. split.
    { unfold obcs_of in Ea. repeat match type of Ea with context [match ?x with Some _ => _ | None => _ end] => destruct x; try discriminate Ea end.
      injection Ea as <-. reflexivity. }
    intros ns' Same.
    assert (Ea' : obcs_of ns' = Some (with_ob a (ob_option ns'))).
    { revert Ea. unfold obcs_of, get_count, get_int, get_text, get_flag. rewrite !Same by reflexivity.
      repeat match goal with |- context [match ?x with Some _ => _ | None => _ end] => destruct x; try discriminate end;
      try (intros K; injection K as <-; reflexivity). }
    now rewrite Ea'.
  - destruct (obcs_ofZ ns) as [(a, n)|] eqn:Ez; [|discriminate].
    destruct (getobcsZ _ _ _ _ _ _ _ _ _ _ ws fs a n) as ((ws1, fs1), r1) eqn:Ro. injection E as -> -> ->.
    assert (U : usable (oa_parent_file a) (oc_nip n) (oc_njp n) /\ usable (oa_regional_file a) (oc_nir n) (oc_njr n)).
    { destruct (classic_usable (oa_parent_file a) (oc_nip n) (oc_njp n)) as [U1|U1];
      [destruct (classic_usable (oa_regional_file a) (oc_nir n) (oc_njr n)) as [U2|U2]; [auto|]|];
      (destruct (getobcsZ_negative (b64ops L) b64codec G b32codec fo lay o3 fuel W xw xv ws fs a n) as (w & e & R); [tauto|]);
      rewrite R in Ro; discriminate. }
    destruct U as (U1 & U2).
    rewrite (getobcsZ_nat (b64ops L) b64codec G b32codec fo lay o3 fuel W xw xv ws fs a n U1 U2) in Ro.
    exists (with_counts a n). split; [exact Ro|]. split.
    { unfold obcs_ofZ in Ez. repeat match type of Ez with context [match ?x with Some _ => _ | None => _ end] => destruct x; try discriminate Ez end.
      injection Ez as <- <-. reflexivity. }
    intros ns' Same.
    assert (Ea' : obcs_of ns' = None).
    { revert Ea. unfold obcs_of, get_count, get_int. rewrite !Same by reflexivity.
      repeat match goal with |- context [match ?x with Some _ => _ | None => _ end] => destruct x; try discriminate; try reflexivity end. }
    assert (Ez' : obcs_ofZ ns' = Some (with_ob a (ob_option ns'), n)).
    { revert Ez. unfold obcs_ofZ, get_int, get_text, get_flag. rewrite !Same by reflexivity.
      repeat match goal with |- context [match ?x with Some _ => _ | None => _ end] => destruct x; try discriminate end;
      try (intros K; injection K as <- <-; reflexivity). }
    rewrite Ea', Ez'. rewrite getobcsZ_nat; [reflexivity|exact U1|exact U2].
Qed.

(** What a successful run can have been given for a side: nothing or 0; and the line without
    the OB options does the same. *)
Theorem C78_ob_options_do_nothing :
  forall W L G fo lay o3 fuel (xw : _ -> _ -> _ -> _ -> res W) xv argv given ws fs ws' fs',
  line Sggetobcs argv given ->
  main_obcs L G lay o3 fuel fo xw xv argv ws fs = (ws', fs', Ended (Ok tt)) ->
  (forall s z, gives given (ob_name s) (Some (AInt z)) -> z = 0%Z) /\
  exists argv' given', line Sggetobcs argv' given' /\
    (forall s, gives given' (ob_name s) None) /\
    (forall n, (forall s, n <> ob_name s) -> last_given given' n = last_given given n) /\
    main_obcs L G lay o3 fuel fo xw xv argv' ws fs = (ws', fs', Ended (Ok tt)).
Proof.
  intros W L G fo lay o3 fuel xw xv argv given ws fs ws' fs' H E.
  pose proof E as E0. unfold main_obcs in E0. rewrite (line_parsed _ _ _ H) in E0.
  fold (obcs_called L G fo lay o3 fuel xw xv ws fs (rev given)) in E0.
  destruct (obcs_called_ok L G fo lay o3 fuel xw xv ws fs _ _ _ E0) as (a & Ro & Ob & Ea).
  assert (V : forall s, void_arg (ob_option (rev given) s)).
  { pose proof Ro as R2. unfold obcs64 in R2. apply getobcs_ok in R2.
    destruct R2 as (dir & p & pi & pj & r & ni & nj & bd & rg & times & _ & _ & _ & E3 & _).
    intros s. specialize (E3 s). rewrite Ob in E3.
    assert (A : accepted (ob_option (rev given) s)) by (apply (resolve_accepted ni nj s); eexists; exact E3).
    destruct A as [A|(z & A)]; [exact A|]. unfold ob_option in A. destruct (get_int _ _); discriminate. }
  split.
  { intros s z Gz. specialize (V s). unfold ob_option in V. pose proof (get_int_given _ _ _ Gz) as K. unfold ob_name in K.
    assert (V' : void_arg (OScalar z)) by (destruct s; rewrite K in V; exact V).
    unfold void_arg in V'. destruct V' as [V'|[V'|[V'|V']]]; try discriminate. now injection V'. }
  destruct (without_ob argv given H) as (argv' & H'). set (given' := filter (fun e => negb (ob_key (fst e))) given) in *.
  assert (Same : forall k, ob_key k = false -> dget (rev given') k = dget (rev given) k).
  { intros k Hk. unfold given'. rewrite <- filter_rev. apply (dget_filter (fun k => negb (ob_key k))). now rewrite Hk. }
  assert (None_ : forall s, gives given' (ob_name s) None).
  { intros s. unfold gives, last_given. apply dget_none. rewrite map_rev. intros I. apply in_rev in I.
    apply in_map_iff in I as (e & Ee & Ie). unfold given' in Ie. apply filter_In in Ie as (_ & Ie). rewrite Ee, ob_key_name in Ie. discriminate. }
  exists argv', given'. split; [exact H'|]. split; [exact None_|]. split.
  { intros n Hn. apply Same. unfold ob_key, sides. cbn [existsb]. rewrite orb_false_r.
    repeat apply orb_false_intro; apply text_eqb_neq; intros K; apply lit_inj in K; eapply Hn; exact K. }
  unfold main_obcs. rewrite (line_parsed _ _ _ H').
  fold (obcs_called L G fo lay o3 fuel xw xv ws fs (rev given')). rewrite (Ea (rev given') Same).
  rewrite <- (C49_zero_means_default W L G fo lay o3 fuel xw xv ws fs a (ob_option (rev given'))).
  - rewrite Ro. reflexivity.
  - intros s. right. rewrite Ob. split; [apply V|]. unfold ob_option.
    pose proof (None_ s) as K. unfold gives, last_given in K. unfold get_int, ob_name in *. destruct s; now rewrite K.
Qed.

(** ** Examples *)

Definition args (l : list string) : list text := map lit l.

(** The values of a parsed line, doubles as bits. *)
Inductive shown := ShText (t : string) | ShInt (z : Z) | ShBits (z : Z) | ShOn.
Definition show (a : argval) : shown :=
  match a with AText t => ShText (string_of_list_ascii t) | AInt z => ShInt z | AFloat x => ShBits (bits_of_b64 x) | ATrue => ShOn end.
Definition shown_line (g : program) (argv : list string) : parsed (list (string * shown)) :=
  match parse_args (parser_of g) (args argv) with
  | Exit c => Exit c
  | Parsed ns => Parsed (map (fun e => (string_of_list_ascii (fst e), show (snd e))) (rev ns))
  end.

Lemma shown_is_line g argv l : shown_line g argv = Parsed l -> exists given, line g (args argv) given /\
  map (fun e => (string_of_list_ascii (fst e), show (snd e))) given = l.
Proof.
  unfold shown_line. destruct (parse_args (parser_of g) (args argv)) as [c|ns] eqn:E; [discriminate|].
  apply parse_args_line in E as (given & H & ->). rewrite rev_involutive. intros K. injection K as <-. eauto.
Qed.

(** README.rst:132-144; the same in another order, abbreviated, and with letters; an
    abbreviation of two options; an option given twice. *)
Definition readme_regrid : list string :=
  ["--mitgridfile"; "tile005.mitgrid"; "--ni"; "270"; "--nj"; "90"; "--lon1"; "-127.73445435"; "--lat1"; "67.56064719";
   "--lon2"; "-128.0"; "--lat2"; "67.40168504"; "--lon_subscale"; "10"; "--lat_subscale"; "10";
   "--outfile"; "regrid005.mitgrid"; "--strict"]%string.
Example C74_case :
  shown_line Sgregrid readme_regrid =
  Parsed [("mitgridfile", ShText "tile005.mitgrid"); ("ni", ShInt 270); ("nj", ShInt 90);
    ("lon1", ShBits 13862060966932474346); ("lat1", ShBits 4634454574835460412);
    ("lon2", ShBits 13862079653046386688); ("lat2", ShBits 4634443388868593131);
    ("lon_subscale", ShInt 10); ("lat_subscale", ShInt 10); ("outfile", ShText "regrid005.mitgrid"); ("strict", ShOn)]%string /\
  shown_line Sgregrid ["-sv"; "--o=a=b"; "--lon_s"; "10"; "--ni"; "1"; "--nj=2"; "--lon1"; "1"; "--lat1"; "1"; "--lon2"; "1"; "--lat2"; "1";
    "--lat_s"; "10"; "--ni"; "3"]%string =
  Parsed [("strict", ShOn); ("verbose", ShOn); ("outfile", ShText "a=b"); ("lon_subscale", ShInt 10); ("ni", ShInt 1); ("nj", ShInt 2);
    ("lon1", ShBits 4607182418800017408); ("lat1", ShBits 4607182418800017408); ("lon2", ShBits 4607182418800017408);
    ("lat2", ShBits 4607182418800017408); ("lat_subscale", ShInt 10); ("ni", ShInt 3)]%string /\
  shown_line Sgmkgrid ["--l"; "1"]%string = Exit 2 /\
  (exists given, line Sgregrid (args readme_regrid) given /\ NoDup (map fst given)).
Proof.
  split; [vm_compute; reflexivity|]. split; [vm_compute; reflexivity|]. split; [vm_compute; reflexivity|].
  assert (E : exists l, shown_line Sgregrid readme_regrid = Parsed l) by (eexists; vm_compute; reflexivity).
  destruct E as (l & E). destruct (shown_is_line _ _ _ E) as (given & H & <-). exists given. split; [exact H|].
  assert (K : map fst (map (fun e => (string_of_list_ascii (fst e), show (snd e))) given) =
    ["mitgridfile"; "ni"; "nj"; "lon1"; "lat1"; "lon2"; "lat2"; "lon_subscale"; "lat_subscale"; "outfile"; "strict"]%string).
  { assert (E' : match shown_line Sgregrid readme_regrid with Parsed l => map fst l | Exit _ => [] end =
      ["mitgridfile"; "ni"; "nj"; "lon1"; "lat1"; "lon2"; "lat2"; "lon_subscale"; "lat_subscale"; "outfile"; "strict"]%string)
      by (vm_compute; reflexivity).
    rewrite E in E'. exact E'. }
  rewrite map_map in K. cbn [fst] in K. rewrite <- map_map with (g := string_of_list_ascii) in K.
  apply NoDup_map_inv with (f := string_of_list_ascii). refine (eq_ind_r (@NoDup string) _ K). clear.
  repeat constructor; cbn; intuition discriminate.
Qed.

(** README.rst:94-103 with smaller numbers; a run of each of the other commands. *)
Definition ex_mkline : list string :=
  ["--lon1"; "0."; "--lat1"; "2."; "--lon2"; "8."; "--lat2"; "0."; "--lon_subscale"; "2"; "--lat_subscale"; "1"; "--outfile"; "m"]%string.
Definition ended (g : program) (argv : list string) : option (list (string * nat)) :=
  match main ex_libm ex_geod ex_load indices indices 4 g (args argv) yes ex_fs with
  | (fs, Ended (Ok _)) => Some (flat_map (fun p => match fs p with Some bs => [(p, length bs)] | None => [] end) ["a"; "b"; "m"; "s"]%string)
  | _ => None
  end.
Example C75_case :
  ended Sgmkgrid ex_mkline = Some [("a", 1152); ("b", 768); ("m", 768)]%string /\
  ended Sgaddfringe ["--tilea"; "a"; "--nia"; "2"; "--nja"; "2"; "--tileb"; "b"; "--nib"; "1"; "--njb"; "2"; "--outfile"; "s"; "-s"]%string
    = Some [("a", 1152); ("b", 768); ("s", 1152)]%string /\
  ended Sgstitch ["--tilea"; "a"; "--nia"; "2"; "--nja"; "2"; "--tileb"; "b"; "--nib"; "1"; "--njb"; "2"; "--outfile"; "s"; "-s"]%string
    = Some [("a", 1152); ("b", 768); ("s", 1536)]%string /\
  ended Sgregrid ["--mitgridfile"; "a"; "--ni"; "2"; "--nj"; "2"; "--lon1"; "1"; "--lat1"; "3"; "--lon2"; "3"; "--lat2"; "1";
    "--lon_subscale"; "2"; "--lat_subscale"; "1"; "--outfile"; "s"]%string = Some [("a", 1152); ("b", 768); ("s", 1920)]%string.
Proof. vm_compute. repeat split; reflexivity. Qed.

(** The hypotheses of C75 for the line above. *)
Lemma shown_gives (given : list (text * argval)) l n : map (fun e => (string_of_list_ascii (fst e), show (snd e))) given = l ->
  forall e, find (fun e => String.eqb (fst e) n) (rev l) = Some e -> exists a, gives given n (Some a) /\ show a = snd e.
Proof.
  intros <- e. unfold gives, last_given. rewrite <- map_rev. unfold text in *. induction (rev given) as [|(k, a) l IH]; cbn [map find dget fst snd]; [discriminate|].
  destruct (String.eqb_spec (string_of_list_ascii k) n) as [<-|N].
  - intros K. injection K as <-. exists a. split; [|reflexivity]. destruct (text_eqb _ k) eqn:E; [reflexivity|]. apply text_eqb_neq in E. destruct E.
    apply list_ascii_of_string_of_list_ascii.
  - intros K. destruct (text_eqb (lit n) k) eqn:E; [|auto]. apply text_eqb_eq in E. subst k. destruct N.
    unfold lit. apply string_of_list_ascii_of_string.
Qed.
Example C75_gives_case : exists given lon1 lat1 lon2 lat2,
  line Sgmkgrid (args ex_mkline) given /\
  gives given "lon1" (Some (AFloat lon1)) /\ gives given "lat1" (Some (AFloat lat1)) /\
  gives given "lon2" (Some (AFloat lon2)) /\ gives given "lat2" (Some (AFloat lat2)) /\
  gives given "lon_subscale" (Some (AInt 2)) /\ gives given "lat_subscale" (Some (AInt 1)) /\
  gives given "outfile" (Some (file_named "m")) /\
  map bits_of_b64 [lon1; lat1; lon2; lat2] = map bits_of_b64 [ex_int 0; ex_int 2; ex_int 8; ex_int 0].
Proof.
  assert (E : exists l, shown_line Sgmkgrid ex_mkline = Parsed l /\
    map (fun n => option_map snd (find (fun e => String.eqb (fst e) n) (rev l))) ["lon1"; "lat1"; "lon2"; "lat2"; "lon_subscale"; "lat_subscale"; "outfile"]%string =
    map (fun x => Some (ShBits (bits_of_b64 x))) [ex_int 0; ex_int 2; ex_int 8; ex_int 0] ++ [Some (ShInt 2); Some (ShInt 1); Some (ShText "m")])
    by (eexists; split; vm_compute; reflexivity).
  destruct E as (l & E & F). destruct (shown_is_line _ _ _ E) as (given & H & M). cbn [map app] in F.
  injection F as F1 F2 F3 F4 F5 F6 F7.
  assert (P : forall n s, option_map snd (find (fun e => String.eqb (fst e) n) (rev l)) = Some s -> exists a, gives given n (Some a) /\ show a = s).
  { intros n s. destruct (find (fun e => String.eqb (fst e) n) (rev l)) as [e|] eqn:Ef; intros K; [|discriminate K]. cbn [option_map] in K. assert (snd e = s) as <- by congruence. eapply shown_gives; eauto. }
  destruct (P _ _ F1) as ([?|?|x1|] & G1 & S1); try discriminate S1.
  destruct (P _ _ F2) as ([?|?|x2|] & G2 & S2); try discriminate S2.
  destruct (P _ _ F3) as ([?|?|x3|] & G3 & S3); try discriminate S3.
  destruct (P _ _ F4) as ([?|?|x4|] & G4 & S4); try discriminate S4.
  destruct (P _ _ F5) as ([?|z5|?|] & G5 & S5); try discriminate S5.
  destruct (P _ _ F6) as ([?|z6|?|] & G6 & S6); try discriminate S6.
  destruct (P _ _ F7) as ([t7|?|?|] & G7 & S7); try discriminate S7.
  exists given, x1, x2, x3, x4. cbn [show] in *.
  assert (Z5 : z5 = 2%Z) by congruence. assert (Z6 : z6 = 1%Z) by congruence. subst z5 z6.
  assert (T7 : t7 = lit "m").
  { assert (K : string_of_list_ascii t7 = "m"%string) by congruence. rewrite <- K. unfold lit.
    now rewrite list_ascii_of_string_of_list_ascii. }
  subst t7. repeat (split; [assumption|]). cbn [map].
  assert (B : forall a b, ShBits a = ShBits b -> a = b) by (intros a b K; now injection K).
  apply B in S1. apply B in S2. apply B in S3. apply B in S4. rewrite S1, S2, S3, S4. reflexivity.
Qed.

(** -128. and -1e5 cannot follow their option, but can be joined to it; a minus sign with
    letters, an infinity, no number. *)
Example C76_case :
  shown_line Sgmkgrid ["--lon1"; "-128."]%string = Exit 2 /\
  shown_line Sgmkgrid ["--lon1=-128."]%string = Parsed [("lon1", ShBits 13862079653046386688)]%string /\
  shown_line Sgmkgrid ["--lon1"; "-1e5"]%string = Exit 2 /\
  shown_line Sgmkgrid ["--lon1=-1e5"]%string = Parsed [("lon1", ShBits 13904980397738950656)]%string /\
  shown_line Sgmkgrid ["--lon1"; "-inf"]%string = Exit 2 /\
  shown_line Sgmkgrid ["--lon1"; "inf"]%string = Parsed [("lon1", ShBits 9218868437227405312)]%string /\
  shown_line Sgmkgrid ["--lon_subscale"; "-007"]%string = Parsed [("lon_subscale", ShInt (-7))]%string /\
  shown_line Sgmkgrid ["--lon_subscale"; "2.0"]%string = Exit 2 /\
  decimal_parts (lit "127") true (lit "73445435") /\ decimal_text true (lit "127") true (lit "73445435") = lit "-127.73445435" /\
  ~ plain Sgmkgrid minus128.
Proof.
  repeat (split; [vm_compute; reflexivity|]). split; [repeat split; try discriminate; repeat constructor|].
  split; [reflexivity|]. intros K. apply (decimal_plain Sgmkgrid true (lit "128") true []) in K; auto.
  repeat split; try discriminate; repeat constructor.
Qed.

Example C77_case :
  shown_line Sgstitch ["--tilea"; "a"; "--he"]%string = Exit 0 /\ shown_line Sgstitch ["-vhx"]%string = Exit 0 /\
  shown_line Sgstitch []%string = Exit 2 /\ shown_line Sgmkgrid []%string = Parsed [] /\
  shown_line Sgmkgrid ["-s"]%string = Exit 2 /\ shown_line Sgmkgrid ["out"]%string = Exit 2 /\
  shown_line Sgmkgrid ["--"; "--help"]%string = Exit 2 /\ shown_line Sgmkgrid ["--outfile"]%string = Exit 2 /\
  help_asked Sgstitch (args ["--tilea"; "a"; "--he"]%string).
Proof.
  repeat (split; [vm_compute; reflexivity|]).
  exists (lit "--he"). split; [cbn; auto|]. left.
  split; [cbn; auto|]. right. split; [exists (lit "he"); repeat split; try discriminate; cbn; intuition discriminate|].
  split; [exists (lit "lp"); reflexivity|].
  split; [vm_compute; intuition discriminate|].
  intros t I (r & ->). cbn in I.
  repeat (destruct I as [I|I]; [try discriminate I; injection I; intros; subst; reflexivity|]). destruct I.
Qed.

(** Two tiles of 2 x 2 cells as parent and regional grid; T at iteration 7. *)
Definition ex_obfs : directory :=
  fst (wrmds64 [(lit "g", ex_file 1 1 2 2)] (lit "run/T") (mk_nd [2; 2] (fun idx => ex_dbl (10 + offset [2; 2] idx))) (Some 7%Z)
         (lit "float64") None None None None (lit "b")).
Definition ex_obline (more : list string) : list text :=
  args (["--parent_mitgridfile"; "g"; "--ni_parent"; "2"; "--nj_parent"; "2";
         "--regional_mitgridfile"; "g"; "--ni_regional"; "2"; "--nj_regional"; "2"; "--parent_resultsdir"; "run"]%string ++ more).
Definition ex_obmain (more : list string) (l : list string) : option Z * option exn * list (option (list Z)) :=
  let '(_, fs, e) := main_obcs ex_libm ex_geod indices indices 3 ex_float_of ex_xw ex_xv (ex_obline more) [] ex_obfs in
  (match e with Exited c => Some c | _ => None end, match e with Ended r => failure r | _ => None end,
   map (fun n => doubles (dget fs (lit n))) l).
Example C78_case :
  ex_obmain ["--resultsdir"; "o"]%string ["o/OBNt"; "o/OBSt"; "run_obcs/OBSt"]%string =
    (None, None, [Some [dbits 12; dbits 13]; Some [dbits 10; dbits 11]; None]) /\
  ex_obmain ["--resultsdir"; "o"; "--OB_Jnorth"; "0"]%string ["o/OBNt"]%string = (None, None, [Some [dbits 12; dbits 13]]) /\
  ex_obmain ["--resultsdir="]%string ["run_obcs/OBSt"]%string = (None, None, [Some [dbits 10; dbits 11]]) /\
  ex_obmain ["--resultsdir"; "o"; "--OB_Jnorth"; "1"]%string ["o/OBNt"]%string = (None, Some TypeError, [None]) /\
  ex_obmain ["--resultsdir"; "o"; "--OB_Jnorth"; "1"; "1"]%string ["o/OBNt"]%string = (Some 2%Z, None, [None]) /\
  ex_obmain [] ["o/OBNt"]%string = (Some 2%Z, None, [None]).
Proof. vm_compute. repeat split; reflexivity. Qed.
