(** Decimals of pi, for the constants of the code. *)
From Coq Require Import Reals Lra Lia Machin Ratan Rseries.
Local Open Scope R_scope.

Lemma tg_closed n : tg_alt PI_2_3_7_tg n =
  (if Nat.even n then 1 else -1) * (2 * (/ 3) ^ (2 * n + 1) + (/ 7) ^ (2 * n + 1)) / IZR (Z.of_nat (2 * n + 1)).
Proof.
  unfold tg_alt, PI_2_3_7_tg, Ratan_seq. rewrite INR_IZR_INZ.
  assert (H : IZR (Z.of_nat (2 * n + 1)) <> 0) by (apply not_0_IZR; lia).
  assert (E : (-1) ^ n = if Nat.even n then 1 else -1).
  { destruct (Nat.even n) eqn:E; [apply Nat.even_spec in E|]; [|assert (O : Nat.odd n = true) by (unfold Nat.odd; now rewrite E); apply Nat.odd_spec in O; clear E; rename O into E];
      destruct E as (k & ->); [apply pow_1_even|replace (2 * k + 1)%nat with (S (2 * k)) by lia; apply pow_1_odd]. }
  rewrite E. field. exact H.
Qed.

Lemma PI_decimals : 314159265358979323 / 100000000000000000 < PI < 314159265358979324 / 100000000000000000.
Proof.
  pose proof (PI_2_3_7_ineq 10) as (L & U). change (S (2 * 10)) with 21%nat in L. change (2 * 10)%nat with 20%nat in U.
  cbn [Nat.mul Nat.add sum_f_R0] in L, U. rewrite !tg_closed in L, U. rewrite (tg_closed 21) in L.
  cbn [Nat.even Nat.mul Nat.add] in L, U. cbn [Z.of_nat Pos.of_succ_nat Pos.succ] in L, U.
  rewrite !pow_inv in L, U.
  rewrite !(pow_IZR) in L, U. 
  vm_compute Z.pow in L.
  vm_compute Z.pow in U. 
  split; lra.
Qed.
