(** C118: data in well separated groups. *)

From Coq Require Import List Reals ZArith Arith Permutation.
From Flocq Require Import Core.Core IEEE754.BinarySingleNaN.
From Verif Require Import Outcome Arith IBin Histogram Spec HistSpec FloatSpec HistWitness GroupSpec GroupNum.
Import ListNotations.
Local Open Scope nat_scope.

(** No more groups than bins, inside the window: no bin ever straddles two groups, and
    once every group has been seen there is one bin for each, counting its members. *)
Theorem C118_groups :
  forall (numBins windowSize : nat) (width : R) (g : R -> nat) (xs : list R),
    1 <= numBins -> length xs <= windowSize -> groupedR numBins width g xs ->
    exists h, update_all hist_update (hist_new (A := RA) numBins windowSize true) xs = Ret h /\
      hist_size h <= numBins /\ bins_in_groups (A := RA) g xs (h_bins h) /\
      ((forall k, k < numBins -> 0 < members g k xs) -> one_bin_each (A := RA) numBins g xs h).
Proof. exact groups_real. Qed.
Print Assumptions C118_groups.

Example C118_groups_example :
  groupedR 2 2 small_big [1; 10; 2; 12]%R /\ forall k, k < 2 -> 0 < members small_big k [1; 10; 2; 12]%R.
Proof. exact small_big_grouped. Qed.

Theorem C118_groups_double :
  forall (numBins windowSize : nat) (width : R) (g : double -> nat) (xs : list double),
    1 <= numBins -> length xs <= windowSize -> groupedB numBins width g xs ->
    exists h, update_all hist_update (hist_new (A := B64) numBins windowSize true) xs = Ret h /\
      hist_size h <= numBins /\ bins_in_groups (A := B64) g xs (h_bins h) /\
      ((forall k, k < numBins -> 0 < members g k xs) -> one_bin_each (A := B64) numBins g xs h).
Proof. exact groups_double. Qed.
Print Assumptions C118_groups_double.

(** Hence the counts are those of the groups in whatever order the data arrive. *)
Theorem C118_any_order_double :
  forall (numBins windowSize : nat) (width : R) (g : double -> nat) (xs ys : list double),
    1 <= numBins -> length xs <= windowSize -> groupedB numBins width g xs ->
    (forall k, k < numBins -> 0 < members g k xs) -> Permutation xs ys ->
    exists h h', update_all hist_update (hist_new (A := B64) numBins windowSize true) xs = Ret h /\
      update_all hist_update (hist_new (A := B64) numBins windowSize true) ys = Ret h' /\
      hist_binCounts h = hist_binCounts h' /\
      hist_binCounts h = Ret (map (fun k => members g k xs) (seq 0 numBins)).
Proof. exact groups_any_order. Qed.
Print Assumptions C118_any_order_double.

Example C118_groups_double_example :
  groupedB 3 2 half_up (map Bz [1; 100; 2; 1000; 102; 3; 1001; 100]%Z) /\
  forall k, k < 3 -> 0 < members half_up k (map Bz [1; 100; 2; 1000; 102; 3; 1001; 100]%Z).
Proof. exact half_up_grouped. Qed.

(** A single outlier takes a bin for itself: with two bins, all data between -1 and 1,
    however many and however spread, end up in the other one. *)
Theorem C118_outlier_double :
  forall (windowSize : nat) (xs ys : list double),
    xs <> [] -> length xs < windowSize ->
    Forall (fun x => finite64 x = true /\ (Rabs (B2R x) <= 1)%R) xs -> Permutation (Bz 1000000 :: xs) ys ->
    exists h, update_all hist_update (hist_new (A := B64) 2 windowSize true) ys = Ret h /\
      hist_binCounts h = Ret [length xs; 1].
Proof. exact outlier. Qed.
Print Assumptions C118_outlier_double.

Example C118_outlier_example :
  [Bz (-1); Bz 0; Bz 1] <> [] /\ Forall (fun x => finite64 x = true /\ (Rabs (B2R x) <= 1)%R) [Bz (-1); Bz 0; Bz 1] /\
  Permutation (Bz 1000000 :: [Bz (-1); Bz 0; Bz 1]) [Bz (-1); Bz 1000000; Bz 0; Bz 1].
Proof. exact outlier_example. Qed.

(** Refuted without the margin: 1 and 5 belong together, 8 and 12 belong together, but
    the groups are wider than the space between them. *)
Theorem C118_too_close_refuted :
  exists h : hist B64, hist_stream 2 100 [1; 5; 12; 8]%Z = Ret h /\ hist_binCounts h = Ret [3; 1].
Proof. exact too_close. Qed.
Print Assumptions C118_too_close_refuted.
