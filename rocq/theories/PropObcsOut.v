(** Property C49, continued: where getobcs puts its files, and how large they are. *)
From Coq Require Import Ascii String List Bool PeanoNat ZArith Lia Init.Byte.
From Flocq Require Import IEEE754.Binary IEEE754.Bits.
Import ListNotations.
From Verif Require Import Prelude PreludeFacts Num Mat MatFacts Fields GridIO Float64 Float32 SpecGrid
  Refine MkGrid Regrid MdsMeta Mds SpecMds GetObcs SpecObcs Samples PropRegrid PropMds PropObcs.
Local Open Scope nat_scope.
Local Open Scope list_scope.

(** Without resultsdir the files go beside the results: slashes at the end are dropped and
    _obcs is added.  resultsdir is taken as it is. *)
Theorem C49_output_directory :
  forall (a : @obcs_args binary64) dir,
  oa_parent_resultsdir a = Some dir -> dir <> [] ->
  ((oa_resultsdir a = None \/ oa_resultsdir a = Some []) ->
   forall stem k, dir = stem ++ repeat "/"%char k -> (forall q, stem <> q ++ ["/"%char]) -> runs_in a dir (stem ++ lit "_obcs")) /\
  (forall d, oa_resultsdir a = Some d -> d <> [] -> runs_in a dir d).
Proof.
  intros a dir PD NE.
  assert (T : forall t, t <> [] -> txt_arg (Some t) = Some t) by (intros [|c t] H; [now elim H|reflexivity]).
  split.
  - intros N stem k E NS. split; [now rewrite PD, T|]. unfold results_dir.
    replace (txt_arg (oa_resultsdir a)) with (@None text) by (destruct N as [-> | ->]; reflexivity).
    f_equal. subst dir. unfold rstrip. rewrite rev_app_distr.
    assert (RR : rev (repeat "/"%char k) = repeat "/"%char k).
    { clear. induction k as [|k IH]; [reflexivity|]. cbn [repeat rev]. rewrite IH. clear. induction k as [|k IH]; [reflexivity|].
      cbn [repeat app]. now rewrite IH. }
    rewrite RR. clear - NS. 
    induction k as [|k IH]; cbn [repeat app lstrip]; [|exact IH].
    destruct (rev stem) as [|c q] eqn:E.
    + apply (f_equal (@rev _)) in E. rewrite rev_involutive in E. now subst.
    + cbn [lstrip]. destruct (Ascii.eqb_spec c "/") as [->|NC].
      * apply (f_equal (@rev _)) in E. rewrite rev_involutive in E. cbn [rev] in E. now elim (NS (rev q)).
      * rewrite <- E. now rewrite rev_involutive.
  - intros d RD ND. split; [now rewrite PD, T|]. unfold results_dir. now rewrite RD, T.
Qed.

(** A file has one number for every cell along the side, level and time; two-dimensional
    results have one level. *)
Theorem C49_file_sizes :
  forall W L G fo lay o3 fuel (xw : _ -> _ -> _ -> _ -> res W) xv ws fs a ws' fs' dir out r ni nj times resp k s A,
  obcs64 L G fo lay o3 fuel xw xv ws fs a = (ws', fs', Ok tt) -> runs_in a dir out ->
  regional64 L fs a = Ok (r, ni, nj) -> times_of fs dir = Ok times ->
  In (resp, k) responses -> result_file (names fs) (path_join dir (lit resp)) ->
  response64 L fo fs dir resp (nth 0 times 0%Z) = Ok A ->
  exists bs, dget fs' (ob_file out s resp) = Some bs /\
    (forall ny nx, shape A = [ny; nx] -> length bs = 8 * cells_along ni nj s * length times) /\
    (forall nz ny nx, shape A = [nz; ny; nx] -> length bs = 8 * cells_along ni nj s * nz * length times).
Proof.
  intros W L G fo lay o3 fuel xw xv ws fs a ws' fs' dir out r ni nj times resp k s A H RI RG TI IR RF RA.
  destruct (run_files L G fo lay o3 fuel xw xv ws fs a ws' fs' dir out H RI) as
    (p & pi & pj & r' & ni' & nj' & bd & rg & times' & _ & E2 & _ & _ & E5 & FI).
  rewrite RG in E2. rewrite TI in E5. injection E2 as <- <- <-. injection E5 as <-.
  destruct (FI resp k s IR RF) as (nd & bs & D & DE & FH & _). exists bs. split; [exact D|].
  rewrite RA in DE. unfold depths_of in DE. split.
  - intros ny nx SA. rewrite SA in DE. cbn [rev app] in DE. injection DE as <-. rewrite FH. lia.
  - intros nz ny nx SA. rewrite SA in DE. cbn [rev app] in DE. injection DE as <-. rewrite FH. lia.
Qed.

Example C49_output_case :
  (forall q, lit "run" <> q ++ ["/"%char]) /\ lit "run//" = lit "run" ++ repeat "/"%char 2 /\
  times_of ex_results (lit "run") = Ok [7%Z] /\
  option_map fst (rdbits (response64 ex_libm ex_float_of ex_results (lit "run") "T" 7%Z)) = Some [1; 2] /\ In ("T"%string, Tracer) responses.
Proof.
  split; [|split; [reflexivity|split; [vm_compute; reflexivity|split; [vm_compute; reflexivity|cbn; tauto]]]].
  intros q E. apply (f_equal (@rev _)) in E. rewrite rev_app_distr in E. cbn in E. discriminate E.
Qed.
