(** Steps shared by mkgrid and regrid. *)
From Coq Require Import String List ZArith Bool PeanoNat.
Import ListNotations.
From Verif Require Import Prelude Num Mat Fields Util ComputeGrid.
Set Implicit Arguments.
Local Open Scope nat_scope.

(** What allocating the compute grid and writing its corners does for arbitrary integer
    subscales (mkgrid.py:120-148, regrid.py:249-282): np.zeros rejects negative extents,
    index 1 is out of range for extent 1, and fill rejects slice step 0.  [rows], [cols]
    are the extents 2*subscale*cells+3; the smallest non-negative ones with a
    non-positive subscale are 1 and 3. *)
Definition cg_check (rows cols ls lt : Z) : res unit :=
  if ((rows <? 0) || (cols <? 0))%Z then Err (ValueError "negative dimensions are not allowed")
  else if ((rows <? 2) || (cols <? 2))%Z then Err IndexError
  else if ((ls =? 0) || (lt =? 0))%Z then Err (ValueError "slice step cannot be zero")
  else Ok tt.

Section Refine.
Context {F : Type} (N : numops F) (G : geod F).

(** mkgrid.py:150-161, regrid.py:305-314: fill, then compute the grid matrices.
    [p], [q] are the cell counts of the result. *)
Definition finish (cg : mat (F * F)) (p q ls lt : nat) : res (grid F) :=
  g <- fill N G cg 1 (1 + 2 * p) 1 (1 + 2 * q) ls lt ;;
  tomitgrid N G g 0 1 (1 + 2 * p) (1 + 2 * p + 1) 0 1 (1 + 2 * q) (1 + 2 * q + 1).
End Refine.
