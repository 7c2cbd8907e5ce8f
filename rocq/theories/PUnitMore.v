(** C126: a change of unit by a power of two, in doubles: WindowedFAME,
    WindowedP2Quantile, StreamingIQR and the quantiles of a histogram. *)

From Coq Require Import List Reals ZArith Bool Arith Lra Lia.
From Flocq Require Import Core.Core IEEE754.BinarySingleNaN.
From Verif Require Import Outcome Arith Histogram Fame P2 Spec FameSpec FloatSpec AskSpec UnitSpec UnitFameSpec UnitFame UnitWp2 UnitMoreWitness.
Import ListNotations.
Local Open Scope nat_scope.

(** WindowedFAME whose step size is given in the same unit as the data: estimate
    and step are those of the other unit, for e + n <= 700 observations n of
    magnitude 2^-e to 2^e. *)
Theorem C126_fame :
  forall (k e : Z) (stepSize epsilon : double) (s0 : fame B64) (xs : list double), (0 <= e)%Z ->
    fame_new (A := B64) stepSize epsilon = Ret s0 -> finite64 epsilon = true ->
    measured k e stepSize -> (0 < B2R stepSize)%R -> Forall (measured k e) xs -> (e + Z.of_nat (length xs) <= 700)%Z ->
    exists s0', fame_new (A := B64) (ldexp64 k stepSize) epsilon = Ret s0' /\
      fame_run s0' (map (ldexp64 k) xs) = ldexp_fame k (fame_run s0 xs).
Proof. exact fame_ldexp. Qed.
Print Assumptions C126_fame.

(** Any number of observations, as long as the run on the old data keeps estimate
    and step away from the ends of the range. *)
Theorem C126_fame_any_length :
  forall (k : Z) (xs : list double) (s : fame B64),
    finite64 (f_epsilon s) = true -> (0 <= B2R (f_epsilon s) < 1)%R -> Forall (measured k 800) xs ->
    (forall ys zs, xs = ys ++ zs -> fame_measured k (fame_run s ys)) ->
    fame_run (ldexp_fame k s) (map (ldexp64 k) xs) = ldexp_fame k (fame_run s xs).
Proof. exact fame_run_scale. Qed.
Print Assumptions C126_fame_any_length.

(** Refuted: for ever. After 1100 zeros the step has become 0 in one unit and not
    in the other, and only the latter still moves. *)
Theorem C126_fame_long_refuted :
  exists (k : Z) (xs : list double) (s0 s0' : fame B64),
    Forall (measured k 200) (Bz 1 :: xs) /\
    fame_new (A := B64) (Bz 1) (Bz 0) = Ret s0 /\ fame_new (A := B64) (ldexp64 k (Bz 1)) (Bz 0) = Ret s0' /\
    fame_evaluate (fame_run s0' (map (ldexp64 k) xs)) <> ldexp64 k (fame_evaluate (fame_run s0 xs)).
Proof. exact fame_long_refuted. Qed.
Print Assumptions C126_fame_long_refuted.

(** WindowedP2Quantile on positive data, any number of observations, window sizes
    up to 2^32: the answer in the other unit, the same exceptions and the same
    undefined behaviour. *)
Theorem C126_windowed_p2 :
  forall (k : Z) (q : double) (windowSize : nat) (xs : list double), (Z.of_nat windowSize <= 2 ^ 32)%Z ->
    Forall (measured_pos k 500) xs ->
    let answer ys := let* s0 := wp2_new (A := B64) q windowSize in let* s := update_all wp2_update s0 ys in
                     let* (_, v) := wp2_evaluate s in Ret v in
    answer (map (ldexp64 k) xs) = omap (ldexp64 k) (answer xs).
Proof. exact wp2_ldexp. Qed.
Print Assumptions C126_windowed_p2.

(** So does StreamingIQR. *)
Theorem C126_iqr :
  forall (k : Z) (low high : double) (windowSize : nat) (xs : list double), (Z.of_nat windowSize <= 2 ^ 32)%Z ->
    Forall (measured_pos k 500) xs ->
    let answer ys := let* s0 := iqr_new_range (A := B64) low high windowSize in let* s := update_all iqr_update s0 ys in
                     let* (_, v) := iqr_evaluate s in Ret v in
    answer (map (ldexp64 k) xs) = omap (ldexp64 k) (answer xs).
Proof. exact iqr_ldexp. Qed.
Print Assumptions C126_iqr.

(** Refuted: the quantiles of a histogram. Twice the median of 1, 2, 4 is not the
    median of 2, 4, 8, since a bin of width 0 counts as 1/numBins wide in every
    unit. *)
Theorem C126_histogram_quantile_refuted :
  let median ys := let* h := update_all hist_update (hist_new (A := B64) 10 100 true) ys in hist_quantile h (@lit B64 1 2) in
  exists (k : Z) (xs : list double) (v v' : double),
    Forall (measured k 800) xs /\ median xs = Ret v /\ median (map (ldexp64 k) xs) = Ret v' /\ v' <> ldexp64 k v.
Proof. exact hist_quantile_refuted. Qed.
Print Assumptions C126_histogram_quantile_refuted.

(** Such data exist. *)
Example C126_example :
  measured (-10) 300 (@lit B64 1 2) /\ Forall (measured (-10) 300) [Bz 1536; Bz 0; Bz 12345678] /\
  Forall (measured_pos (-10) 500) [Bz 1536; Bz 700; Bz 12345678; Bz 3; Bz 5; Bz 9] /\
  (exists s0, fame_new (A := B64) (@lit B64 1 2) (@lit B64 1 4) = Ret s0).
Proof. exact unit_more_example. Qed.
