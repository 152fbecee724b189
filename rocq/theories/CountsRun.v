(** What the commands do with counts of any sign: fail and change nothing, or do the same as
    with some counts that are not negative. *)
From Coq Require Import Ascii String List Bool PeanoNat ZArith Lia Init.Byte.
Import ListNotations.
From Verif Require Import Prelude PreludeFacts Num Mat Fields GridIO Util ComputeGridFacts Refine Regrid RegridFacts
  AddFringe Cli Counts CountsFacts.
Local Open Scope nat_scope.
Local Open Scope list_scope.

Section Facts.
Context {F : Type} (N : numops F) (NL : numlaws N) (C : codec F) (G : geod F).
Variable loadtxt : list byte -> res (option (mat F)).
Variables lay o3 : nat -> nat -> list (nat * nat).
Hypothesis Hlay : order_ok lay.
Variable fuel : nat.

Lemma regrid_from_dict a d d' rr : xg_yg d = xg_yg d' -> regrid_from N G lay o3 fuel a d = Ok rr ->
  exists rr', regrid_from N G lay o3 fuel a d' = Ok rr'.
Proof.
  intros E H. unfold regrid_from in *. rewrite <- E. mok H. rewrite Ha. cbn [rbind]. destruct a0 as (x, y).
  mok H. rewrite Ha0. cbn [rbind]. destruct (_ || _); [discriminate|]. mok H. rewrite Ha1. cbn [rbind].
  mok H. rewrite Ha2. cbn [rbind]. mok H. rewrite Ha3. cbn [rbind]. mok H. rewrite Ha4. cbn [rbind]. eauto.
Qed.

(** A result needs two rows and two columns of points. *)
Lemma regrid_from_shapes a d x y rr : d XG = Arr x -> d YG = Arr y -> regrid_from N G lay o3 fuel a d = Ok rr ->
  2 <= mrows x /\ 2 <= mcols x /\ mrows y = mrows x /\ mcols y = mcols x.
Proof.
  intros Ex Ey H. set (d' := setd d XC x).
  assert (Exy : xg_yg d' = xg_yg d) by reflexivity.
  destruct (regrid_from_dict a d d' rr (eq_sym Exy) H) as (rr' & H').
  set (a' := mk_regrid_args None None None (Some d') None None (ra_lon1 a) (ra_lat1 a) (ra_lon2 a) (ra_lat2 a)
               (ra_lon_subscale a) (ra_lat_subscale a) false).
  assert (R : regrid N C G (fun _ => Err OSError) (fun _ => None) lay o3 fuel a' = Ok rr').
  { unfold regrid, source. cbn [a' ra_mitgridfile ra_xg_file ra_yg_file ra_matrices str_arg].
    assert (De : dict_empty d' = false) by reflexivity. rewrite De.
    change (d' XC) with (Arr x). cbn [rbind]. rewrite <- H'. now apply regrid_from_args. }
  destruct (regrid_inv N NL G C (fun _ => Err OSError) (fun _ => None) lay o3 Hlay fuel a' rr' R)
    as (d1 & x1 & y1 & i1 & j1 & i2 & j2 & ls & lt & Es & Exy1 & Fd & Hi & Hj & _).
  assert (d1 = d').
  { unfold source in Es. cbn [a' ra_mitgridfile ra_xg_file ra_yg_file ra_matrices str_arg] in Es.
    assert (De : dict_empty d' = false) by reflexivity. rewrite De in Es.
    change (d' XC) with (Arr x) in Es. congruence. }
  subst d1. rewrite Exy in Exy1. unfold xg_yg in Exy1. rewrite Ex, Ey in Exy1. injection Exy1 as <- <-.
  apply found_locate in Fd. destruct (locate_cases N NL G a' x y lay _ Hlay Fd) as (_ & _ & _ & Hr & Hc & H1 & H2).
  cbn [lc_nw lc_se] in H1, H2. unfold in_mat in H1, H2. cbn [fst snd] in H1, H2.
  assert (A1 : i1 < mrows x /\ j1 < mcols x) by (destruct H1 as [H1|H1]; [injection H1; lia|lia]).
  assert (A2 : i2 < mrows x /\ j2 < mcols x) by (destruct H2 as [H2|H2]; [injection H2; lia|lia]).
  repeat split; auto; lia.
Qed.

Lemma reshapeZ_shape v r c m : reshapeZ N v r c = Ok m -> reshapeF N v (mrows m) (mcols m) = Ok m.
Proof.
  unfold reshapeZ. intros H. mok H. destruct a as (r', c'). pose proof (reshapeF_ok _ _ _ _ _ H) as (_ & -> & ->). exact H.
Qed.

(** The counts of the command are not negative. *)
Definition natural (c : commandZ F) : Prop := exists c', same_command c' = Some c.

Lemma natural_or_negative c : natural c \/
  match c with
  | zregrid _ _ _ ni nj _ _ _ _ _ _ _ _ => (ni < 0 \/ nj < 0)%Z
  | zaddfringe t _ | zstitch t _ => negative_tiles t
  end.
Proof.
  assert (T : forall t, negative_tiles t \/ exists t', t = tilesZ t').
  { intros [a nia nja b nib njb s]. unfold negative_tiles. cbn.
    destruct (Z.ltb_spec nia 0); [auto|]. destruct (Z.ltb_spec nja 0); [auto|].
    destruct (Z.ltb_spec nib 0); [auto|]. destruct (Z.ltb_spec njb 0); [auto|]. right.
    exists (mk_two_tiles a (Z.to_nat nia) (Z.to_nat nja) b (Z.to_nat nib) (Z.to_nat njb) s).
    unfold tilesZ. cbn. now rewrite !Z2Nat.id. }
  destruct c as [mg xg yg ni nj lon1 lat1 lon2 lat2 ls lt strict o|t o|t o].
  - destruct (Z.ltb_spec ni 0); [auto|]. destruct (Z.ltb_spec nj 0); [auto|]. left.
    exists (sgregrid mg xg yg (Z.to_nat ni) (Z.to_nat nj) lon1 lat1 lon2 lat2 ls lt strict o).
    cbn [same_command]. now rewrite !Z2Nat.id.
  - destruct (T t) as [H|(t' & ->)]; [auto|]. left. now exists (sgaddfringe t' o).
  - destruct (T t) as [H|(t' & ->)]; [auto|]. left. now exists (sgstitch t' o).
Qed.

Notation computeZ := (computeZ N C G loadtxt lay o3 fuel).
Notation compute := (compute N C G loadtxt lay o3 fuel).
Notation runZ := (runZ N C G loadtxt lay o3 fuel).
Notation run := (run N C G loadtxt lay o3 fuel).

Lemma run_of_compute w fs c c' : computeZ fs c = (' (g, ni, nj) <- compute fs c' ;; Ok (g, Z.of_nat ni, Z.of_nat nj)) ->
  outfile_of c' = Some (outfileZ c) -> runZ w fs c = run w fs c'.
Proof.
  intros E Eo. unfold Counts.runZ, Cli.run. rewrite E.
  destruct (compute fs c') as [((g, ni), nj)|]; [|reflexivity]. cbn [rbind]. rewrite Eo. unfold write_file.
  now rewrite write_mitgridZ_nat.
Qed.

(** A pair of files with a count left out, or any csv files. *)
Lemma pair_reduces fs xg yg ni nj a d rr : (ni < 0 \/ nj < 0)%Z ->
  read_pairZ N C loadtxt fs xg yg ni nj = Ok d ->
  regrid_from N G lay o3 fuel a d = Ok rr ->
  exists n m, 0 < n /\ 0 < m /\ read_pair N C loadtxt fs xg yg n m = Ok d.
Proof.
  intros Hn E H. unfold read_pairZ in E. unfold read_pair in *.
  destruct (String.eqb _ _ && String.eqb _ _) eqn:Cs.
  - exists 1, 1. split; [lia|]. split; [lia|]. exact E.
  - mok E. rename a0 into bx. mok E. rename a0 into x. mok E. rename a0 into by_. mok E. rename a0 into y.
    injection E as <-.
    destruct (regrid_from_shapes a _ x y rr eq_refl eq_refl H) as (Hr & Hc & Yr & Yc).
    exists (mrows x - 1), (mcols x - 1). split; [lia|]. split; [lia|].
    replace (mrows x - 1 + 1) with (mrows x) by lia. replace (mcols x - 1 + 1) with (mcols x) by lia.
    apply reshapeZ_shape in Ha0, Ha2. rewrite Yr, Yc in Ha2. rewrite Ha. cbn [rbind]. rewrite Ha0. cbn [rbind].
    rewrite Ha1. cbn [rbind]. rewrite Ha2. reflexivity.
Qed.

(** The same command but for the counts. *)
Inductive other_counts : commandZ F -> command F -> Prop :=
| other_regrid : forall mg xg yg ni nj n m lon1 lat1 lon2 lat2 ls lt strict o,
    other_counts (zregrid mg xg yg ni nj lon1 lat1 lon2 lat2 ls lt strict o)
      (sgregrid mg xg yg n m lon1 lat1 lon2 lat2 ls lt strict o)
| other_fringe : forall a nia nja b nib njb nia' nja' nib' njb' strict o,
    other_counts (zaddfringe (mk_two_tilesZ a nia nja b nib njb strict) o)
      (sgaddfringe (mk_two_tiles a nia' nja' b nib' njb' strict) o)
| other_stitch : forall a nia nja b nib njb nia' nja' nib' njb' strict o,
    other_counts (zstitch (mk_two_tilesZ a nia nja b nib njb strict) o)
      (sgstitch (mk_two_tiles a nia' nja' b nib' njb' strict) o).

Lemma other_counts_outfile c c' : other_counts c c' -> outfile_of c' = Some (outfileZ c).
Proof. intros []; reflexivity. Qed.

Lemma same_command_other c c' : same_command c' = Some c -> other_counts c c'.
Proof.
  destruct c' as [| |[]|[]]; intros E; try discriminate E; injection E as <-; constructor.
Qed.

Theorem counts_cases w fs c :
  (exists e, runZ w fs c = (fs, Err e)) \/
  exists c', other_counts c c' /\ runZ w fs c = run w fs c'.
Proof.
  destruct (natural_or_negative c) as [(c' & E)|Hn].
  { right. exists c'. split; [now apply same_command_other|now apply runZ_nat]. }
  assert (Fail : forall e, computeZ fs c = Err e -> exists e', runZ w fs c = (fs, Err e')).
  { intros e E. exists e. unfold Counts.runZ. now rewrite E. }
  destruct (computeZ fs c) as [res|e] eqn:E; [|left; eauto].
  destruct c as [mg xg yg ni nj lon1 lat1 lon2 lat2 ls lt strict o|t o|t o].
  - destruct (str_arg mg) as [p|] eqn:Em.
    { destruct (computeZ_negative N C G loadtxt lay o3 fuel fs (zregrid mg xg yg ni nj lon1 lat1 lon2 lat2 ls lt strict o)) as (e & E');
        [split; [congruence|exact Hn]|]. congruence. }
    right. cbn [Counts.computeZ] in E. mok E. rename a into d. mok E. rename a into rr.
    pose proof Ha as Hs. unfold sourceZ in Hs. rewrite Em in Hs.
    destruct (str_arg xg) as [x|] eqn:Ex; [|discriminate]. destruct (str_arg yg) as [y|] eqn:Ey; [|discriminate].
    destruct (nonzero ni && nonzero nj); [|discriminate].
    destruct (pair_reduces fs x y ni nj _ d rr Hn Hs Ha0) as (n & m & Pn & Pm & R).
    exists (sgregrid mg xg yg n m lon1 lat1 lon2 lat2 ls lt strict o). split; [constructor|].
    apply run_of_compute; [|reflexivity]. cbn [Counts.computeZ Cli.compute]. rewrite Ha. cbn [rbind].
    unfold regrid, source. cbn [ra_mitgridfile ra_xg_file ra_yg_file ra_ni ra_nj ra_matrices]. rewrite Em, Ex, Ey.
    destruct n as [|n]; [lia|]. destruct m as [|m]; [lia|]. cbn [num_arg]. rewrite R. cbn [rbind].
    rewrite (regrid_from_args N G lay o3 fuel _ (mk_regrid_args mg xg yg None (Some (S n)) (Some (S m)) lon1 lat1 lon2 lat2 ls lt strict) d)
      by reflexivity.
    clear. destruct (regrid_from N G lay o3 fuel _ d); reflexivity.
  - destruct (computeZ_negative N C G loadtxt lay o3 fuel fs (zaddfringe t o) Hn) as (e & E'). congruence.
  - destruct (computeZ_negative N C G loadtxt lay o3 fuel fs (zstitch t o) Hn) as (e & E'). congruence.
Qed.
End Facts.
