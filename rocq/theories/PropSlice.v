(** Property C91: which entries a slice with positive or negative bounds takes. *)
From Coq Require Import List PeanoNat ZArith Lia.
Import ListNotations.
From Verif Require Import Prelude Mat Counts CountsFacts.
Local Open Scope nat_scope.

Local Notation len l := (Z.of_nat (length l)).

Lemma py_slice_parts {A} (x y z : list A) a b :
  py_bound (length (x ++ y ++ z)) a = length x -> py_bound (length (x ++ y ++ z)) b = length x + length y ->
  py_slice (x ++ y ++ z) a b = y.
Proof.
  intros Ha Hb. unfold py_slice. rewrite Ha, Hb. replace (length x + length y - length x) with (length y) by lia.
  rewrite skipn_app, skipn_all, Nat.sub_diag. cbn [skipn app]. rewrite firstn_app, Nat.sub_diag, firstn_all. cbn. apply app_nil_r.
Qed.

(** A bound that is not negative counts from the front and stops at the end; a negative one
    counts from the end and stops at the front.  So each way of writing the two ends of [y]
    in x ++ y ++ z gives [y]. *)
Theorem C91_slices : forall A (x y z : list A) (a b : Z),
  let n := len (x ++ y ++ z) in
  (a = len x \/ (a = - (len y + len z) /\ a < 0) \/ (x = [] /\ a <= - n /\ a < 0) \/ (y = [] /\ z = [] /\ n <= a))%Z ->
  (b = len x + len y \/ (b = - len z /\ b < 0) \/ (z = [] /\ n <= b) \/ (x = [] /\ y = [] /\ b <= - n /\ b < 0))%Z ->
  py_slice (x ++ y ++ z) a b = y.
Proof.
  intros A x y z a b n Ha Hb. unfold n in *.
  apply py_slice_parts; unfold py_bound; rewrite !app_length in *.
  - destruct Ha as [->|[(-> & H)|[(-> & H1 & H2)|(-> & -> & H)]]]; cbn [length] in *; match goal with |- context [Z.ltb ?k 0] => destruct (Z.ltb_spec k 0) end; lia.
  - destruct Hb as [->|[(-> & H)|[(-> & H)|(-> & -> & H1 & H2)]]]; cbn [length] in *; match goal with |- context [Z.ltb ?k 0] => destruct (Z.ltb_spec k 0) end; lia.
Qed.

Example C91_slices_case :
  py_slice [1; 2; 3; 4] (-3) (-1) = [2; 3] /\ py_slice [1; 2; 3; 4] (-9) 2 = [1; 2] /\ py_slice [1; 2; 3; 4] 2 9 = [3; 4].
Proof. repeat split. Qed.
