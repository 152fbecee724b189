(** Property C53, continued: the parent grid getobcs takes from a directory of results. *)
From Coq Require Import Ascii String List Bool PeanoNat ZArith Lia Init.Byte.
From Flocq Require Import IEEE754.Binary IEEE754.Bits.
Import ListNotations.
From Verif Require Import Prelude PreludeFacts Num Mat MatFacts Fields GridIO Float64 Float32 SpecGrid
  Refine MkGrid Regrid MdsMeta Mds SpecMds GetObcs SpecObcs Samples PropRegrid PropMds PropObcs.
Local Open Scope nat_scope.
Local Open Scope list_scope.

(** Without a parent file and parent matrices, getobcs takes the grid from the result files.
    Its cell counts are those of the arrays: the second index of an array runs along x. *)
Theorem C53_parent_of_getobcs :
  forall (L : libm) fo fs (a : @obcs_args binary64) dir r c,
  oa_parent_file a = None \/ oa_parent_file a = Some [] ->
  oa_parent_matrices a = None \/ (exists d, oa_parent_matrices a = Some d /\ forall f, d f = Missing) ->
  (forall f x, found L fo fs dir f = Ok x -> shape x = [r; c]) ->
  (exists f x, found L fo fs dir f = Ok x) ->
  exists p, parent64 L fo fs a dir = Ok (p, c, r) /\
    forall f, match found L fo fs dir f with
              | Ok x => exists m, p f = Arr m /\ mrows m = rows_of f c /\ mcols m = cols_of f r /\
                          forall i j, i < c -> j < r -> mat_at m i j = at_ x [j; i]
              | Err _ => p f = NoneVal
              end.
Proof.
  intros L fo fs a dir r c PF PM SH (f0 & x0 & R0).
  destruct (C53_mds_fields L fo fs dir) as (g & ni & nj & E & A & C).
  { intros f x R. now rewrite (SH f x R). }
  assert (CN : ni = c /\ nj = r).
  { destruct C as [(f & x & R & S & _)|(Z & S)].
    - rewrite (SH f x R) in S. inversion S. auto.
    - pose proof (S f0 x0 R0) as S0. rewrite (SH f0 x0 R0) in S0. inversion S0; subst. now inversion Z. }
  destruct CN as (-> & ->). unfold mds2mitgrid64 in E. exists (mds_entry g). split.
  - unfold parent64, parent_grid. assert (T : txt_arg (oa_parent_file a) = None) by (destruct PF as [-> | ->]; reflexivity).
    rewrite T. destruct PM as [->|(d & -> & D)].
    + rewrite E. reflexivity.
    + rewrite (proj2 (dict_empty_iff d) D), E. reflexivity.
  - intros f. unfold mds_entry. specialize (A f). destruct (found L fo fs dir f) as [x|] eqn:F.
    + destruct A as (m & -> & nj & ni & S & M1 & M2 & M3 & _). rewrite (SH f x F) in S. inversion S; subst.
      exists m. auto.
    + now rewrite A.
Qed.

Definition ex_from_results : @obcs_args binary64 :=
  mk_obcs_args None None None None None (Some (fun _ => Missing)) None None (Some (lit "run")) (fun _ => ONone) None true.
Example C53_parent_case :
  oa_parent_file ex_from_results = None /\ oa_parent_matrices ex_from_results = None /\
  match parent64 ex_libm ex_float_of ex_rundir ex_from_results (lit "run") with
  | Ok (p, ni, nj) => Some (ni, nj, match p YC with Arr m => map (fun i => bits_of_b64 (mat_at m i 0)) [0; 1] | _ => [] end)
  | Err _ => None
  end = Some (2, 1, [bits_of_b64 (ex_dbl 10); bits_of_b64 (ex_dbl 11)]).
Proof. split; [reflexivity|]. split; [reflexivity|]. vm_compute. reflexivity. Qed.
