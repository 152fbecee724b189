(** simplegrid/mkgrid.py *)
From Coq Require Import String List ZArith Bool PeanoNat.
Import ListNotations.
From Verif Require Import Prelude Num Mat Fields Util ComputeGrid Refine.
Set Implicit Arguments.
Local Open Scope nat_scope.

Section MkGrid.
Context {F : Type} (N : numops F) (G : geod F).

(** mkgrid.py:133-148: the four corners, both matrices at once. *)
Definition mk_corners (lon1 lat1 lon2 lat2 : F) (iub jub : nat) : res (mat (F * F)) :=
  let cg := mconst (iub + 2) (jub + 2) (nzero N, nzero N) in
  cg <- mset cg 1 1 (lon1, lat2) ;;
  cg <- mset cg 1 jub (lon1, lat1) ;;
  cg <- mset cg iub 1 (lon2, lat2) ;;
  mset cg iub jub (lon2, lat1).

(** mkgrid.py:45-163.  All six arguments are given; subscales are arbitrary integers.
    The verbose output: see Verbose.v. *)
Definition mkgrid (lon1 lat1 lon2 lat2 : F) (lon_subscale lat_subscale : Z)
    : res (grid F * nat * nat) :=
  _ <- cg_check (2 * lon_subscale + 3) (2 * lat_subscale + 3) lon_subscale lat_subscale ;;
  let ls := Z.to_nat lon_subscale in
  let lt := Z.to_nat lat_subscale in
  cg <- mk_corners lon1 lat1 lon2 lat2 (1 + 2 * ls) (1 + 2 * lt) ;;
  g <- finish N G cg ls lt ls lt ;;
  Ok (g, ls, lt).
End MkGrid.
