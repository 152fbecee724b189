(** 2-d numpy arrays.  A matrix is its two extents and an entry function; only
    entries below the extents are meaningful (see [meq]). *)
From Coq Require Import String List ZArith Lia Bool PeanoNat.
Import ListNotations.
From Verif Require Import Prelude.
Local Open Scope nat_scope.

Record mat (A : Type) : Type := mkmat { mrows : nat; mcols : nat; mat_at : nat -> nat -> A }.
Arguments mkmat {A}. Arguments mrows {A}. Arguments mcols {A}. Arguments mat_at {A}.

(** [m[i,j]] for non-negative [i], [j]. *)
Definition mget {A} (m : mat A) (i j : nat) : res A :=
  if (i <? mrows m) && (j <? mcols m) then Ok (mat_at m i j) else Err IndexError.

(** [m[i,j] = v] for non-negative [i], [j]. *)
Definition mset {A} (m : mat A) (i j : nat) (v : A) : res (mat A) :=
  if (i <? mrows m) && (j <? mcols m)
  then Ok (mkmat (mrows m) (mcols m)
        (fun i' j' => if (i' =? i) && (j' =? j) then v else mat_at m i' j'))
  else Err IndexError.

(** [np.zeros((r,c))] with fill value [z]. *)
Definition mconst {A} (r c : nat) (z : A) : mat A := mkmat r c (fun _ _ => z).

Definition mmap {A B} (f : A -> B) (m : mat A) : mat B :=
  mkmat (mrows m) (mcols m) (fun i j => f (mat_at m i j)).

(** [m[:r,:c]] *)
Definition mtrim {A} (r c : nat) (m : mat A) : mat A :=
  mkmat (Nat.min r (mrows m)) (Nat.min c (mcols m)) (mat_at m).

(** [np.rot90(m)]: entry (i,j) of the result is entry (j, n-1-i) of [m], [n] columns. *)
Definition rot90 {A} (m : mat A) : mat A :=
  mkmat (mcols m) (mrows m) (fun i j => mat_at m j (mcols m - 1 - i)).

(** [m[i0:i1:di, j0:j1:dj]] for non-negative bounds and positive steps. *)
Definition slice_len (start stop step dim : nat) : nat :=
  match step with
  | 0 => 0
  | _ => (Nat.min stop dim - start + (step - 1)) / step
  end.
Definition mslice {A} (i0 i1 di j0 j1 dj : nat) (m : mat A) : mat A :=
  mkmat (slice_len i0 i1 di (mrows m)) (slice_len j0 j1 dj (mcols m))
        (fun a b => mat_at m (i0 + a * di) (j0 + b * dj)).

(** [np.concatenate((x,y),0)] and [np.concatenate((x,y),1)]. *)
Definition vcat {A} (x y : mat A) : res (mat A) :=
  if mcols x =? mcols y
  then Ok (mkmat (mrows x + mrows y) (mcols x)
        (fun i j => if i <? mrows x then mat_at x i j else mat_at y (i - mrows x) j))
  else Err (ValueError "all the input array dimensions except for the concatenation axis must match").
Definition hcat {A} (x y : mat A) : res (mat A) :=
  if mrows x =? mrows y
  then Ok (mkmat (mrows x) (mcols x + mcols y)
        (fun i j => if j <? mcols x then mat_at x i j else mat_at y i (j - mcols x)))
  else Err (ValueError "all the input array dimensions except for the concatenation axis must match").

(** Specification vocabulary: [m] is the [r] x [c] matrix with entries [f i j]. *)
Definition mat_is {A} (m : mat A) (r c : nat) (f : nat -> nat -> A) : Prop :=
  mrows m = r /\ mcols m = c /\ forall i j, i < r -> j < c -> mat_at m i j = f i j.

(** Equality of matrices as numpy users see it: same shape, same entries. *)
Definition meq {A} (m m' : mat A) : Prop :=
  mrows m = mrows m' /\ mcols m = mcols m' /\
  forall i j, i < mrows m -> j < mcols m -> mat_at m i j = mat_at m' i j.
