(** Property C69: the xg/yg file pair of regrid. *)
From Coq Require Import ZArith String List Bool PeanoNat Lia Init.Byte.
From Flocq Require Import IEEE754.Binary IEEE754.Bits.
Import ListNotations.
From Verif Require Import Prelude PreludeFacts Mat Num Fields GridIO Float64 Float64Facts GridIOFacts GridIOProofs SpecGrid
  Util SpecRegrid Regrid SourceFacts Samples PropUtil PropMkGrid PropRegrid.
Local Open Scope nat_scope.
Local Open Scope list_scope.
Local Arguments Nat.mul : simpl never.

(** ** specification *)
(** A binary file of an r x c matrix: big-endian doubles, one column after the other, and
    nothing more than an incomplete double behind them. *)
Definition holds_matrix (bs : list byte) (r c : nat) (m : mat binary64) : Prop :=
  8 * (r * c) <= length bs < 8 * (r * c) + 8 /\ mrows m = r /\ mcols m = c /\
  forall i j, i < r -> j < c -> bits_of_b64 (mat_at m i j) = word_at bs (j * r + i).

(** The pair is the source: no mitgrid file, both names and both counts given. *)
Definition pair_given (a : regrid_args binary64) (px py : string) (ni nj : nat) : Prop :=
  no_str (ra_mitgridfile a) /\ given_str (ra_xg_file a) px /\ given_str (ra_yg_file a) py /\
  given_num (ra_ni a) ni /\ given_num (ra_nj a) nj.

(** The same call with matrices instead of the pair. *)
Definition from_memory (a : regrid_args binary64) (x y xc : mat binary64) : regrid_args binary64 :=
  mk_regrid_args None None None
    (Some (fun f => match f with XG => Arr x | YG => Arr y | XC => Arr xc | _ => NoneVal end)) None None
    (ra_lon1 a) (ra_lat1 a) (ra_lon2 a) (ra_lat2 a) (ra_lon_subscale a) (ra_lat_subscale a) (ra_strict a).

Definition same_outcome (r r' : res (regrid_result binary64)) : Prop :=
  match r, r' with
  | Ok u, Ok v => rr_ni u = rr_ni v /\ rr_nj u = rr_nj v /\ forall f, rr_grid u f = rr_grid v f
  | Err e, Err e' => e = e'
  | _, _ => False
  end.

(** ** proofs *)
Lemma same_source L G loadtxt fs lay o3 fuel a a' d d' x y :
  source (b64ops L) b64codec loadtxt fs a = Ok d -> source (b64ops L) b64codec loadtxt fs a' = Ok d' ->
  d XG = Arr x -> d YG = Arr y -> d' XG = Arr x -> d' YG = Arr y ->
  ra_lon1 a = ra_lon1 a' -> ra_lat1 a = ra_lat1 a' -> ra_lon2 a = ra_lon2 a' -> ra_lat2 a = ra_lat2 a' ->
  ra_lon_subscale a = ra_lon_subscale a' -> ra_lat_subscale a = ra_lat_subscale a' ->
  same_outcome (regrid64 L G loadtxt fs lay o3 fuel a) (regrid64 L G loadtxt fs lay o3 fuel a').
Proof.
  intros Es Es' Ex Ey Ex' Ey' E1 E2 E3 E4 E5 E6.
  assert (El : forall xg yg o, locate (b64ops L) G a xg yg o = locate (b64ops L) G a' xg yg o).
  { intros. unfold locate. rewrite E1, E2, E3, E4. reflexivity. }
  assert (Er : forall fuel l, rot_loop (b64ops L) G fuel a l = rot_loop (b64ops L) G fuel a' l).
  { induction fuel0 as [|f IH]; intros l; cbn [rot_loop]; auto. destruct (aligned l); auto.
    rewrite El. destruct (locate _ _ _ _ _ _); cbn [rbind]; auto. }
  unfold regrid64, regrid, regrid_from. rewrite Es, Es'. cbn [rbind]. unfold xg_yg. rewrite Ex, Ey, Ex', Ey'. cbn [rbind].
  rewrite El. destruct (locate _ _ _ _ _ _) as [l0|]; cbn [rbind]; [|reflexivity].
  destruct ((fst (lc_nw l0) =? fst (lc_se l0))%Z || _); [reflexivity|].
  rewrite Er, E5, E6. destruct (rot_loop _ _ _ _ _) as [l|]; cbn [rbind]; [|reflexivity].
  repeat match goal with
  | |- same_outcome (rbind ?r _) (rbind ?r _) => destruct r; cbn [rbind]; [|reflexivity]
  | |- same_outcome (let _ := ?r in _) _ => cbv zeta
  | |- same_outcome (if ?c then _ else _) (if ?c then _ else _) => destruct c
  | |- same_outcome (match ?c with _ => _ end) (match ?c with _ => _ end) => destruct c
  | |- same_outcome (Ok _) (Ok _) => cbn; auto
  end; try reflexivity; cbn; auto.
Qed.

Lemma memory_source L loadtxt fs a x y xc :
  source (b64ops L) b64codec loadtxt fs (from_memory a x y xc) =
  Ok (fun f => match f with XG => Arr x | YG => Arr y | XC => Arr xc | _ => NoneVal end).
Proof. reflexivity. Qed.

Lemma reshape_holds L bs r c : 8 * (r * c) <= length bs < 8 * (r * c) + 8 ->
  exists m, reshapeF (b64ops L) (fromfile b64codec bs) r c = Ok m /\ holds_matrix bs r c m.
Proof.
  intros Hl.
  assert (Hd : length bs / 8 = r * c).
  { symmetry. apply (Nat.div_unique _ 8 (r * c) (length bs - 8 * (r * c))); lia. }
  unfold reshapeF. rewrite fromfile_length, Hd, Nat.eqb_refl. eexists. split; [reflexivity|].
  split; [exact Hl|]. split; [reflexivity|]. split; [reflexivity|].
  intros i j Hi Hj. cbn [mat_at].
  assert (j * r + i < r * c) by nia.
  rewrite fromfile_nth by lia. unfold word_at. rewrite word_of_dec; [reflexivity|]. apply double_at_length. lia.

Qed.

Lemma pair_args a px py ni nj : pair_given a px py ni nj ->
  str_arg (ra_mitgridfile a) = None /\ str_arg (ra_xg_file a) = Some px /\ str_arg (ra_yg_file a) = Some py /\
  num_arg (ra_ni a) = Some ni /\ num_arg (ra_nj a) = Some nj.
Proof.
  intros (H1 & H2 & H3 & H4 & H5). rewrite <- str_arg_none in H1. rewrite <- str_arg_some in H2, H3.
  rewrite <- num_arg_some in H4, H5. auto.
Qed.

(** ** C69 *)
(** Two names in .csv: the two texts. *)
Theorem C69_csv_pair : forall L G loadtxt fs lay o3 fuel a px py ni nj bx by_ x y xc,
  pair_given a px py ni nj -> csv_name px -> csv_name py ->
  fs px = Some bx -> fs py = Some by_ -> loadtxt bx = Ok (Some x) -> loadtxt by_ = Ok (Some y) ->
  same_outcome (regrid64 L G loadtxt fs lay o3 fuel a)
               (regrid64 L G loadtxt fs lay o3 fuel (from_memory a x y xc)).
Proof.
  intros L G loadtxt fs lay o3 fuel a px py ni nj bx by_ x y xc Hp Hx Hy Fx Fy Lx Ly.
  destruct (pair_args _ _ _ _ _ Hp) as (A1 & A2 & A3 & A4 & A5).
  eapply same_source with (x := x) (y := y); try reflexivity.
  unfold source. rewrite A1, A2, A3, A4, A5. unfold read_pair.
  rewrite (proj2 (csv_test px py) (conj Hx Hy)). unfold read_bytes. rewrite Fx, Fy. cbn [rbind].
  rewrite Lx. cbn [rbind]. rewrite Ly. cbn [rbind]. reflexivity.
  all: reflexivity.
Qed.

(** Any other two names: the two binary files, which must have the right size. *)
Theorem C69_binary_pair : forall L G loadtxt fs lay o3 fuel a px py ni nj bx by_,
  pair_given a px py ni nj -> ~ (csv_name px /\ csv_name py) -> fs px = Some bx -> fs py = Some by_ ->
  length bx / 8 = (ni + 1) * (nj + 1) -> length by_ / 8 = (ni + 1) * (nj + 1) ->
  exists x y, holds_matrix bx (ni + 1) (nj + 1) x /\ holds_matrix by_ (ni + 1) (nj + 1) y /\
  forall xc, same_outcome (regrid64 L G loadtxt fs lay o3 fuel a)
               (regrid64 L G loadtxt fs lay o3 fuel (from_memory a x y xc)).
Proof.
  intros L G loadtxt fs lay o3 fuel a px py ni nj bx by_ Hp Hn Fx Fy Lx Ly.
  destruct (pair_args _ _ _ _ _ Hp) as (A1 & A2 & A3 & A4 & A5).
  pose proof (Nat.div_mod (length bx) 8 ltac:(lia)) as Dx. pose proof (Nat.mod_upper_bound (length bx) 8 ltac:(lia)).
  pose proof (Nat.div_mod (length by_) 8 ltac:(lia)) as Dy. pose proof (Nat.mod_upper_bound (length by_) 8 ltac:(lia)).
  destruct (reshape_holds L bx (ni + 1) (nj + 1)) as (x & Ex & Hx); [lia|].
  destruct (reshape_holds L by_ (ni + 1) (nj + 1)) as (y & Ey & Hy); [lia|].
  exists x, y. split; auto. split; auto. intros xc.
  eapply same_source with (x := x) (y := y); try reflexivity.
  unfold source. rewrite A1, A2, A3, A4, A5. unfold read_pair.
  destruct (String.eqb (ext px) ".csv" && String.eqb (ext py) ".csv")%bool eqn:E;
    [exfalso; apply Hn; apply csv_test; exact E|].
  unfold read_bytes. rewrite Fx, Fy. cbn [rbind]. rewrite Ex. cbn [rbind]. rewrite Ey. cbn [rbind]. reflexivity.
  all: reflexivity.
Qed.

Theorem C69_binary_size_checked : forall L G loadtxt fs lay o3 fuel a px py ni nj bx by_,
  pair_given a px py ni nj -> ~ (csv_name px /\ csv_name py) -> fs px = Some bx -> fs py = Some by_ ->
  length bx / 8 <> (ni + 1) * (nj + 1) \/ length by_ / 8 <> (ni + 1) * (nj + 1) ->
  exists msg, regrid64 L G loadtxt fs lay o3 fuel a = Err (ValueError msg).
Proof.
  intros L G loadtxt fs lay o3 fuel a px py ni nj bx by_ Hp Hn Fx Fy Hl.
  destruct (pair_args _ _ _ _ _ Hp) as (A1 & A2 & A3 & A4 & A5).
  unfold regrid64, regrid, regrid_from, source. rewrite A1, A2, A3, A4, A5. unfold read_pair.
  destruct (String.eqb (ext px) ".csv" && String.eqb (ext py) ".csv")%bool eqn:E;
    [exfalso; apply Hn; apply csv_test; exact E|].
  unfold read_bytes. rewrite Fx, Fy. cbn [rbind]. unfold reshapeF. rewrite !fromfile_length.
  destruct (Nat.eqb_spec (length bx / 8) ((ni + 1) * (nj + 1))); cbn [rbind]; [|eauto].
  destruct (Nat.eqb_spec (length by_ / 8) ((ni + 1) * (nj + 1))); cbn [rbind]; [lia|eauto].
Qed.

(** The documentation (regrid.py:28-34, 81-86) lets each name decide: a file is text if its
    name ends in .csv and binary otherwise. *)
Definition documented_content (loadtxt : list byte -> res (option (mat binary64))) (p : string) (bs : list byte)
    (ni nj : nat) (m : mat binary64) : Prop :=
  (csv_name p -> loadtxt bs = Ok (Some m)) /\ (~ csv_name p -> holds_matrix bs (ni + 1) (nj + 1) m).

Lemma pair_given_intro px py mx ni nj x1 y1 x2 y2 s1 s2 st : px <> EmptyString -> py <> EmptyString -> ni <> 0 -> nj <> 0 ->
  pair_given (mk_regrid_args None (Some px) (Some py) mx (Some ni) (Some nj) x1 y1 x2 y2 s1 s2 st) px py ni nj.
Proof.
  intros. split; [left; reflexivity|]. split; [split; [reflexivity|auto]|]. split; [split; [reflexivity|auto]|].
  split; (split; [reflexivity|auto]).
Qed.

(** A text file beside a binary one is read as binary. *)
Definition mix_x : list byte := [x33; x2c; x32].
Definition mix_y : list byte :=
  flat_map (enc b64codec) (map ex_int [0; 1; 2; 0; 1; 2; 0; 1; 2; 0; 1; 2]%Z).
Definition mix_files (p : string) : option (list byte) :=
  if String.eqb p "x.csv" then Some mix_x else if String.eqb p "y.bin" then Some mix_y else None.
Definition mix_loadtxt (_ : list byte) : res (option (mat binary64)) := Ok (Some ex_xg).
Definition mix_args : regrid_args binary64 :=
  mk_regrid_args None (Some "x.csv"%string) (Some "y.bin"%string) None (Some 2) (Some 3)
    (ex_int 0) (ex_int 2) (ex_int 3) (ex_int 0) 2 1 true.

Definition succeeds {A} (r : res A) : bool := match r with Ok _ => true | Err _ => false end.
Lemma outcome_differs r r' e : same_outcome r r' -> r = Err e -> succeeds r' = true -> False.
Proof. intros H -> S. destruct r'; [exact H|discriminate]. Qed.
Lemma mix_given : pair_given mix_args "x.csv" "y.bin" 2 3.
Proof. apply pair_given_intro; congruence. Qed.

Theorem C69_each_name_decides_refuted :
  ~ forall L G loadtxt fs lay o3 fuel a px py ni nj bx by_ x y xc,
    pair_given a px py ni nj -> fs px = Some bx -> fs py = Some by_ ->
    documented_content loadtxt px bx ni nj x -> documented_content loadtxt py by_ ni nj y ->
    same_outcome (regrid64 L G loadtxt fs lay o3 fuel a)
                 (regrid64 L G loadtxt fs lay o3 fuel (from_memory a x y xc)).
Proof.
  intros H.
  assert (Hcx : csv_name "x.csv") by (apply ext_csv; reflexivity).
  assert (Hcy : ~ csv_name "y.bin") by (rewrite <- ext_csv; vm_compute; discriminate).
  specialize (H ex_libm ex_geod mix_loadtxt mix_files indices indices 3 mix_args "x.csv"%string "y.bin"%string 2 3
    mix_x mix_y ex_xg ex_yg ex_xg).
  assert (Hp : pair_given mix_args "x.csv" "y.bin" 2 3).
  { apply mix_given. }
  specialize (H Hp eq_refl eq_refl).
  assert (Hx : documented_content mix_loadtxt "x.csv" mix_x 2 3 ex_xg).
  { split; [reflexivity|]. intros K. destruct (K Hcx). }
  assert (Hy : documented_content mix_loadtxt "y.bin" mix_y 2 3 ex_yg).
  { split; [intros K; destruct (Hcy K)|]. intros _. split; [vm_compute; lia|]. split; [reflexivity|].
    split; [reflexivity|]. intros i j Hi Hj.
    do 3 (destruct i as [|i]; [do 4 (destruct j as [|j]; [vm_compute; reflexivity|]); lia|]). lia. }
  specialize (H Hx Hy).
  assert (Hs : length mix_x / 8 <> (2 + 1) * (3 + 1) \/ length mix_y / 8 <> (2 + 1) * (3 + 1))
    by (left; vm_compute; discriminate).
  pose proof (C69_binary_size_checked ex_libm ex_geod mix_loadtxt mix_files indices indices 3 mix_args
    "x.csv"%string "y.bin"%string 2 3 mix_x mix_y Hp (fun K => Hcy (proj2 K)) eq_refl eq_refl Hs) as (msg & E).
  assert (Hok : succeeds (regrid64 ex_libm ex_geod mix_loadtxt mix_files indices indices 3
                            (from_memory mix_args ex_xg ex_yg ex_xg)) = true) by (vm_compute; reflexivity).
  exact (outcome_differs _ _ _ H E Hok).
Qed.

(** The same two matrices as two binary files, one of them with three stray bytes, and as
    two texts. *)
Definition bin_x : list byte :=
  flat_map (enc b64codec) (map ex_int [3; 3; 3; 2; 2; 2; 1; 1; 1; 0; 0; 0]%Z) ++ [x01; x02; x03].
Definition pair_files (p : string) : option (list byte) :=
  if String.eqb p "x.bin" then Some bin_x else if String.eqb p "y.csv" then Some mix_y else None.
Definition pair_args_ex : regrid_args binary64 :=
  mk_regrid_args None (Some "x.bin"%string) (Some "y.csv"%string) (Some ex_dict) (Some 2) (Some 3)
    (ex_int 0) (ex_int 2) (ex_int 3) (ex_int 0) 2 1 true.
Example C69_case :
  pair_given pair_args_ex "x.bin" "y.csv" 2 3 /\ ~ (csv_name "x.bin" /\ csv_name "y.csv") /\
  length bin_x / 8 = (2 + 1) * (3 + 1) /\ length mix_y / 8 = (2 + 1) * (3 + 1) /\
  rgbits (regrid64 ex_libm ex_geod no_loadtxt pair_files indices indices 3 pair_args_ex)
     [(XG, 2, 2); (YG, 2, 2); (XG, 0, 2); (YG, 0, 2); (XC, 1, 0)] =
  rgbits (ex_regrid ex_a) [(XG, 2, 2); (YG, 2, 2); (XG, 0, 2); (YG, 0, 2); (XC, 1, 0)] /\
  csv_name "a/b.csv" /\ ~ csv_name ".csv".
Proof.
  split; [apply pair_given_intro; congruence|].
  split; [intros (K & _); apply ext_csv in K; vm_compute in K; discriminate|].
  split; [vm_compute; reflexivity|]. split; [vm_compute; reflexivity|]. split; [vm_compute; reflexivity|].
  split; [apply ext_csv; reflexivity|]. intros K. apply ext_csv in K. vm_compute in K. discriminate.
Qed.
