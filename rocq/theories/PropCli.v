(** Properties C38-C40: the four command-line programs. *)
From Coq Require Import ZArith String List Bool PeanoNat Lia Init.Byte.
From Flocq Require Import IEEE754.BinarySingleNaN IEEE754.Binary IEEE754.Bits.
Import ListNotations.
From Verif Require Import Prelude PreludeFacts Mat MatFacts Num Fields GridIO Float64 Float64Facts SpecGrid SpecHalf
  GridIOProofs Util ComputeGrid Refine RefineFacts MkGrid Regrid MatchEdges AddFringe FringeFacts Stitch Cli Samples PropGridIO PropFill PropMkGrid
  PropMatchEdges PropFringe PropStitch.
Local Open Scope nat_scope.
Local Open Scope list_scope.
Local Arguments Nat.mul : simpl never.

Section Programs.
Variables (L : libm) (G : geod binary64).
Variable loadtxt : list byte -> res (option (mat binary64)).
Variables lay o3 : nat -> nat -> list (nat * nat).
Hypothesis (Hlay : layouts lay) (Ho3 : layouts o3).

Definition compute64 fuel := compute (b64ops L) b64codec G loadtxt lay o3 fuel.
Definition run64 fuel := run (b64ops L) b64codec G loadtxt lay o3 fuel.
Definition history64 fuel := history (b64ops L) b64codec G loadtxt lay o3 fuel.

Lemma compute_shaped fuel fs c g ni nj : compute64 fuel fs c = Ok (g, ni, nj) -> shaped g ni nj.
Proof.
  destruct c as [lon1 lat1 lon2 lat2 ls lt o|mg xg yg ni0 nj0 lon1 lat1 lon2 lat2 ls lt strict o|t o|t o];
    cbn [compute64 compute]; intros E.
  - unfold compute64, compute in E. destruct ls as [sl|], lt as [st|]; try discriminate E.
    fold (mkgrid64 L G) in E.
    assert (Hpos : (1 <= sl /\ 1 <= st)%Z).
    { pose proof E as E0. unfold mkgrid64, mkgrid in E0.
      destruct (cg_check (2 * sl + 3) (2 * st + 3) sl st) as [[]|] eqn:Ec; [|discriminate].
      apply cg_check_ok in Ec. lia. }
    destruct (mkgrid64_ok L G (as_double (b64ops L) lon1) (as_double (b64ops L) lat1) (as_double (b64ops L) lon2)
      (as_double (b64ops L) lat2) (Z.to_nat sl) (Z.to_nat st)) as (g' & H & E' & _ & Hg); try lia.
    rewrite !Z2Nat.id in E' by lia. rewrite E' in E. inversion E. subst.
    eapply grid_of_shaped; eauto.
  - unfold compute64, compute in E. mok E. inversion E. subst.
    destruct (regrid64_grid L G loadtxt fs lay o3 fuel _ a Hlay Ho3 Ha)
      as (C & n & m & ls' & lt' & H & E1 & E2 & _ & _ & _ & _ & _ & _ & _ & Hg).
    rewrite E1, E2. eapply grid_of_shaped; eauto.
  - unfold compute64, compute in E. mok E. destruct a as [[ea eb] g']. inversion E. subst.
    destruct (addfringe64_tiles L G fs t _ Ha) as (a & b & _ & _ & Ef & Hs & _).
    exact (fringe_shaped _ (b64_laws L) G a b _ _ _ _ _ Hs Ef).
  - destruct (C34_stitch_places_every_entry L G fs t g ni nj E) as (s & a' & b & _ & _ & _ & _ & _ & Hs & _).
    exact Hs.
Qed.

(** ** C38 *)
Theorem C38_results_can_be_read_back_sec : forall fuel can_write fs c p g ni nj,
  compute64 fuel fs c = Ok (g, ni, nj) -> outfile_of c = Some p -> can_write p = true ->
  exists bs g', run64 fuel can_write fs c = (fs_set fs p bs, Ok tt) /\
    read64 L bs ni nj true = Ok g' /\ geq g' g /\ length bs = file_bytes ni nj.
Proof.
  intros fuel w fs c p g ni nj E Eo Ew. pose proof (compute_shaped fuel fs c g ni nj E) as Hs.
  destruct (C01_write_read_roundtrip L g ni nj true Hs) as (bs & g' & Hw & Hr & Hg).
  exists bs, g'. split.
  - unfold run64, run. unfold compute64 in E. rewrite E, Eo. unfold write_file. rewrite Ew.
    unfold write64 in Hw. rewrite Hw. reflexivity.
  - split; [exact Hr|]. split; [|exact (write_length _ _ b64_codec_laws _ _ _ _ Hw)].
    intros f. destruct (Hg f) as (R & C0 & V). destruct (Hs f) as (R' & C').
    split; [congruence|]. split; [congruence|]. intros i j Hi Hj. apply V; congruence.
Qed.

(** the possible outcomes of one command *)
Lemma run_cases fuel can_write fs c :
  (exists e, run64 fuel can_write fs c = (fs, Err e)) \/
  (exists p bs g' ni nj, outfile_of c = Some p /\ run64 fuel can_write fs c = (fs_set fs p bs, Ok tt) /\
     read64 L bs ni nj true = Ok g' /\ length bs = file_bytes ni nj).
Proof.
  destruct (compute64 fuel fs c) as [[[g ni] nj]|e] eqn:E.
  - destruct (outfile_of c) as [p|] eqn:Eo.
    + destruct (can_write p) eqn:Ew.
      * right. destruct (C38_results_can_be_read_back_sec fuel can_write fs c p g ni nj E Eo Ew)
          as (bs & g' & Hr & Hread & _ & Hlen). exists p, bs, g', ni, nj. auto.
      * left. exists OSError. unfold run64, run. unfold compute64 in E. rewrite E, Eo. unfold write_file.
        rewrite Ew. reflexivity.
    + left. exists TypeError. unfold run64, run. unfold compute64 in E. rewrite E, Eo. reflexivity.
  - left. exists e. unfold run64, run. unfold compute64 in E. rewrite E. reflexivity.
Qed.
End Programs.

Theorem C38_results_can_be_read_back : forall (L : libm) (G : geod binary64) loadtxt lay o3,
  layouts lay -> layouts o3 -> forall fuel can_write fs c p g ni nj,
  compute64 L G loadtxt lay o3 fuel fs c = Ok (g, ni, nj) -> outfile_of c = Some p -> can_write p = true ->
  exists bs g', run64 L G loadtxt lay o3 fuel can_write fs c = (fs_set fs p bs, Ok tt) /\
    read64 L bs ni nj true = Ok g' /\ geq g' g /\ length bs = file_bytes ni nj.
Proof. exact C38_results_can_be_read_back_sec. Qed.

(** ** C39 *)
Theorem C39_failed_commands_change_nothing : forall (L : libm) (G : geod binary64) loadtxt lay o3,
  layouts lay -> layouts o3 -> forall fuel can_write fs c fs' r,
  run64 L G loadtxt lay o3 fuel can_write fs c = (fs', r) ->
  (forall e, r = Err e -> forall q, fs' q = fs q) /\
  (r = Ok tt -> exists p, outfile_of c = Some p /\ fs' p <> None /\ forall q, q <> p -> fs' q = fs q).
Proof.
  intros L G loadtxt lay o3 Hlay Ho3 fuel w fs c fs' r E.
  destruct (run_cases L G loadtxt lay o3 Hlay Ho3 fuel w fs c) as [(e & E')|(p & bs & g' & ni & nj & Eo & E' & _)];
    rewrite E in E'; inversion E'; subst; split.
  - auto.
  - discriminate.
  - intros e K. discriminate.
  - intros _. exists p. split; [exact Eo|]. unfold fs_set. split.
    + rewrite String.eqb_refl. discriminate.
    + intros q Hq. apply String.eqb_neq in Hq. rewrite Hq. reflexivity.
Qed.

(** ** C40 *)
Definition whole_grid_file (L : libm) (bs : list byte) : Prop :=
  exists ni nj g, length bs = file_bytes ni nj /\ read64 L bs ni nj true = Ok g.

Theorem C40_histories_keep_files_whole : forall (L : libm) (G : geod binary64) loadtxt lay o3,
  layouts lay -> layouts o3 -> forall fuel l fs p,
  let fs' := history64 L G loadtxt lay o3 fuel fs l in
  fs' p = fs p \/ exists bs, fs' p = Some bs /\ whole_grid_file L bs.
Proof.
  intros L G loadtxt lay o3 Hlay Ho3 fuel l. unfold history64, history.
  induction l as [|[c w] l IH]; intros fs p; cbn [fold_left fst snd]; [left; reflexivity|].
  fold (run64 L G loadtxt lay o3 fuel w fs c).
  destruct (run_cases L G loadtxt lay o3 Hlay Ho3 fuel w fs c) as [(e & E)|(p' & bs & g' & ni & nj & _ & E & Hr & Hl)];
    rewrite E; cbn [fst].
  - apply IH.
  - destruct (IH (fs_set fs p' bs) p) as [H|H]; [|right; exact H].
    cbv zeta in H. rewrite H. unfold fs_set. destruct (String.eqb p p') eqn:Ep; [|left; reflexivity].
    right. exists bs. split; [reflexivity|]. exists ni, nj, g'. auto.
Qed.

(** ** a concrete history: make a grid, stitch two tiles, a command that fails, one whose
    output cannot be written *)
Definition ex_load : list byte -> res (option (mat binary64)) := fun _ => Ok None.
Definition run_ok (L : libm) (G : geod binary64) fs w c (n : nat) : bool :=
  match run64 L G ex_load indices indices n w fs c with (_, Ok _) => true | _ => false end.
Definition ex_mkcmd : command binary64 :=
  sgmkgrid (Some (ex_int 0)) (Some (ex_int 2)) (Some (ex_int 8)) (Some (ex_int 0)) (Some 2%Z) (Some 1%Z) (Some "m"%string).
Definition sizes (L : libm) (G : geod binary64) fs l : list (option nat) :=
  map (fun p => option_map (@length byte) (history64 L G ex_load indices indices 4 fs l p))
    ["a"; "b"; "m"; "s"]%string.
Definition yes (p : string) := true.
Definition no (p : string) := false.

Example C38_case :
  run_ok ex_libm ex_geod ex_fs yes ex_mkcmd 4 = true /\
  run_ok ex_libm ex_geod ex_fs yes (sgstitch ex_ab "s"%string) 4 = true /\
  run_ok ex_libm ex_geod ex_fs yes (sgaddfringe ex_ab "s"%string) 4 = true /\
  run_ok ex_libm ex_geod ex_fs yes
    (sgregrid (Some "a"%string) None None 2 2 (ex_int 1) (ex_int 3) (ex_int 3) (ex_int 1) 2 1 true "s"%string) 4 = true.
Proof. vm_compute. repeat split; reflexivity. Qed.

Example C39_case :
  run_ok ex_libm ex_geod ex_fs no ex_mkcmd 4 = false /\
  run_ok ex_libm ex_geod ex_fs yes (sgstitch (mk_two_tiles "a"%string 2 2 "a"%string 2 2 true) "a"%string) 4 = false /\
  run_ok ex_libm ex_geod ex_fs yes (sgmkgrid None None None None None None None) 4 = false.
Proof. vm_compute. repeat split; reflexivity. Qed.

Example C40_case :
  sizes ex_libm ex_geod ex_fs [(ex_mkcmd, yes); (sgstitch ex_ab "s"%string, yes);
    (sgaddfringe ex_ab "a"%string, no); (sgstitch (mk_two_tiles "a"%string 2 2 "m"%string 2 1 true) "b"%string, yes)] =
  [Some (file_bytes 2 2); Some (file_bytes 1 2); Some (file_bytes 2 1); Some (file_bytes 3 2)].
Proof. vm_compute. reflexivity. Qed.
