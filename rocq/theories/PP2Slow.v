(** P2 adapts to a change of the data far too slowly for low quantiles. *)

From Coq Require Import List Reals ZArith Lia Lra.
From Verif Require Import Outcome Arith Spec P2 P2SlowSpec P2Slow.
Import ListNotations.
Open Scope R_scope.

(** C97 *)
Theorem C97_low_quantile_lags : forall (q : R) (m n : nat) s0,
  0 < q <= 1 / 4 -> 1000 <= q * INR m -> (Z.of_nat (m + n) < 2 ^ 31)%Z ->
  p2_new (A := RA) q = Ret s0 ->
  exists s v, update_all p2_update s0 (shift_stream m n) = Ret s /\ p2_evaluate s = Ret (s, v) /\
    0 <= v <= 3 * (q * q) * ln (INR (m + n) / INR m) + 17 / (q * INR m) /\
    (INR m + 1 <= q * INR (m + n) ->
     forall k, Rabs (INR k - q * INR (m + n)) < 1 -> order_statistic (shift_stream m n) k 1).
Proof. exact low_quantile_lags. Qed.
Print Assumptions C97_low_quantile_lags.

(** A hundred thousand zeros among a billion ones: the 0.1-quantile is 1, the estimate below a third. *)
Example C97_billion_ones : exists (m n : nat) s0 s v,
  (9999 * (Z.of_nat m + 1) <= Z.of_nat n)%Z /\ p2_new (A := RA) (1 / 10) = Ret s0 /\
  update_all p2_update s0 (shift_stream m n) = Ret s /\ p2_evaluate s = Ret (s, v) /\ v <= 1 / 3 /\
  (forall k, Rabs (INR k - 1 / 10 * INR (m + n)) < 1 -> order_statistic (shift_stream m n) k 1).
Proof.
  pose (m := Z.to_nat 100000). pose (n := Z.to_nat 1000000000).
  assert (Em : INR m = 100000) by (unfold m; rewrite INR_IZR_INZ, Z2Nat.id by lia; reflexivity).
  assert (En : INR n = 1000000000) by (unfold n; rewrite INR_IZR_INZ, Z2Nat.id by lia; reflexivity).
  assert (Emn : INR (m + n) = 1000100000) by (rewrite plus_INR; lra).
  assert (Z1 : Z.of_nat m = 100000%Z) by (unfold m; apply Z2Nat.id; lia).
  assert (Z2 : Z.of_nat n = 1000000000%Z) by (unfold n; apply Z2Nat.id; lia). clearbody m n.
  assert (H0 : exists s0, p2_new (A := RA) (1 / 10) = Ret s0) by (apply new_tenth).
  destruct H0 as (s0 & H0).
  destruct (C97_low_quantile_lags (1 / 10) m n s0) as (s & v & E & V & B & O); auto; try lra; try lia.
  exists m, n, s0, s, v. split; [lia|]. split; [exact H0|]. split; [exact E|]. split; [exact V|]. split; [|apply O; lra].
  rewrite Em, Emn in B. replace (1000100000 / 100000) with 10001 in B by lra. pose proof ln_10001. lra.
Qed.
