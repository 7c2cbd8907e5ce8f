(** C119: increasing data whose gaps do not shrink end up in the first bin. *)

From Coq Require Import List Reals ZArith Arith.
From Flocq Require Import Core.Core IEEE754.BinarySingleNaN.
From Verif Require Import Outcome Arith IBin Histogram Spec HistSpec FloatSpec HistWitness SwallowSpec SwallowNum.
Import ListNotations.
Local Open Scope nat_scope.

(** Whatever the number of bins and of data, inside the window. *)
Theorem C119_first_takes_all :
  forall (numBins windowSize : nat) (x : nat -> R) (n : nat),
    1 <= numBins <= n -> n <= windowSize -> risingR x n ->
    exists h, update_all hist_update (hist_new (A := RA) numBins windowSize true) (map x (seq 0 n)) = Ret h /\
      h_bins h = first_takes_all (A := RA) x numBins n.
Proof. exact swallow_real. Qed.
Print Assumptions C119_first_takes_all.

Example C119_doubling_example : risingR (fun i => 2 ^ i)%R 1000.
Proof. exact doubling_rises. Qed.

Theorem C119_first_takes_all_double :
  forall (numBins windowSize : nat) (x : nat -> double) (n : nat),
    1 <= numBins <= n -> n <= windowSize -> risingB x n ->
    exists h, update_all hist_update (hist_new (A := B64) numBins windowSize true) (map x (seq 0 n)) = Ret h /\
      h_bins h = first_takes_all (A := B64) x numBins n.
Proof. exact swallow_double. Qed.
Print Assumptions C119_first_takes_all_double.

Example C119_counting_example : risingB (fun i => Bz (Z.of_nat i + 1)) 2000.
Proof. exact (counting_rises 2000 (le_n _)). Qed.

(** Counting 1, 2, .. n: one bin with n - N + 1 of them, N - 1 bins with one each. *)
Theorem C119_counting_double :
  forall (numBins windowSize n : nat),
    1 <= numBins <= n -> n <= windowSize -> n <= 2000 ->
    exists h, update_all hist_update (hist_new (A := B64) numBins windowSize true)
                (map (fun i => Bz (Z.of_nat i + 1)) (seq 0 n)) = Ret h /\
      hist_binCounts h = Ret (n - numBins + 1 :: repeat 1 (numBins - 1)).
Proof. exact counting. Qed.
Print Assumptions C119_counting_double.

Example C119_counting_double_example : 1 <= 10 <= 1000 /\ 1000 <= 1000 /\ 1000 <= 2000.
Proof. repeat split; apply Nat.leb_le; reflexivity. Qed.

(** Refuted: the same values counted down are spread over the bins. *)
Theorem C119_counting_down_refuted :
  exists h g : hist B64, hist_stream 3 100 [1; 2; 3; 4; 5; 6; 7; 8]%Z = Ret h /\
    hist_stream 3 100 [8; 7; 6; 5; 4; 3; 2; 1]%Z = Ret g /\
    hist_binCounts h = Ret [6; 1; 1] /\ hist_binCounts g = Ret [2; 2; 4].
Proof. exact counting_down. Qed.
Print Assumptions C119_counting_down_refuted.
