(** C102, C103: updates that fail with std::bad_alloc. *)

From Coq Require Import List Reals ZArith Lra Arith.
From Flocq Require Import IEEE754.BinarySingleNaN.
From Verif Require Import Outcome Arith IBin Histogram Mean Spec MeanSpec HistSpec FloatSpec P2Witness
  AllocFail AllocFailSpec AllocFailFacts.
Import ListNotations.
Local Open Scope nat_scope.

(** C102: updates of a windowed StreamingMean, any of which may fail. The object
    stays usable and its window holds what [win_run] says. *)
Theorem C102_failing_window :
  forall (A : arith) (W : nat) (es : list (mean_event A)), 1 <= W ->
    exists s, update_all mean_react (mean_new W) es = Ret s /\
      mn_window s = Some (win_run W es) /\ length (win_run W es) <= W.
Proof. exact @mean_failing_window. Qed.
Print Assumptions C102_failing_window.

(** In exact arithmetic evaluate() is the average of that window, unless the
    window is empty. *)
Theorem C102_failing_mean_exact :
  forall (W : nat) (es : list (mean_event RA)), 1 <= W ->
    exists s, update_all mean_react (mean_new W) es = Ret s /\
      (win_run W es <> [] -> mean_evaluate s = avg (win_run W es)).
Proof. exact mean_failing_exact. Qed.
Print Assumptions C102_failing_mean_exact.

(** As many successful updates as the window is long undo every failure. *)
Theorem C102_mean_recovers :
  forall (W : nat) (es : list (mean_event RA)) (xs : list R), 1 <= W -> W <= length xs ->
    exists s, update_all mean_react (mean_new W) (es ++ map MeanOk xs) = Ret s /\
      mn_window s = Some (lastn W xs) /\ mean_evaluate s = avg (lastn W xs).
Proof. exact mean_recovers. Qed.
Print Assumptions C102_mean_recovers.

Theorem C102_variance_recovers :
  forall (W : nat) (es : list (var_event RA)) (xs : list R), 1 <= W -> W <= length xs ->
    exists s, update_all var_react (variance_new W) (es ++ map VarOk xs) = Ret s /\
      variance_evaluate s = pvar (lastn W xs).
Proof. exact variance_recovers. Qed.
Print Assumptions C102_variance_recovers.

(** Until then the two halves of a variance look at different observations: the
    exact variance can be negative. *)
Theorem C102_variance_nonnegative_refuted :
  exists (es : list (var_event RA)) s,
    update_all var_react (variance_new 2) es = Ret s /\ (variance_evaluate s < 0)%R.
Proof. exact variance_negative. Qed.
Print Assumptions C102_variance_nonnegative_refuted.

(** In doubles a mean with a window of one observation is NaN after a failure. *)
Theorem C102_failed_mean_nan :
  forall x y : double, finite64 x = true ->
    exists s, update_all mean_react (mean_new (A := B64) 1) [MeanOk x; MeanFail y] = Ret s /\
      mn_window s = Some [] /\ nan (mean_evaluate s) = true.
Proof. exact mean_failed_nan. Qed.
Print Assumptions C102_failed_mean_nan.

(** C103: a histogram in any arithmetic. Each failure to record an index can
    raise the total and the number of bins by one above their limits. *)
Theorem C103_failing_bounds :
  forall (A : arith) (numBins windowSize : nat) (es : list (hist_event A)) (h : hist A),
    update_all hist_react (hist_new numBins windowSize true) es = Ret h ->
    lost_indices es <= hist_totalCount h <= windowSize + lost_indices es /\
    hist_size h <= numBins + lost_indices es /\ hist_totalCount h <= counts_sum h.
Proof. exact @hist_bounds. Qed.
Print Assumptions C103_failing_bounds.

(** The failing call counts its item, and no later call, failing or not, lowers
    the total again. *)
Theorem C103_never_recovers :
  forall (A : arith) (numBins windowSize : nat) (es1 es2 : list (hist_event A)) (x : A)
         (h1 h2 h3 : hist A),
    update_all hist_react (hist_new numBins windowSize true) es1 = Ret h1 ->
    hist_react h1 (HistFailWindow x) = Ret h2 ->
    update_all hist_react h2 es2 = Ret h3 ->
    hist_totalCount h2 = hist_totalCount h1 + 1 /\ hist_totalCount h2 <= hist_totalCount h3.
Proof. exact @hist_never_recovers. Qed.
Print Assumptions C103_never_recovers.

(** Three observations, a failure, then two more. *)
Example C102_example :
  win_run (A := RA) 3 ([MeanOk 1; MeanOk 2; MeanOk 3; MeanFail 4] ++ map MeanOk [5; 6])%R
    = [3; 5; 6]%R /\
  win_run (A := RA) 3 [MeanOk 1; MeanOk 2; MeanOk 3; MeanFail 4]%R = [2; 3]%R.
Proof. split; reflexivity. Qed.

(** Two bins, a window of two: a failure leaves three bins and a total of three;
    the total stays. *)
Example C103_example :
  let after es := update_all hist_react (hist_new (A := B64) 2 2 true) es in
  let start := [HistOk (Bz 1); HistOk (Bz 2); HistFailWindow (Bz 5)] in
  ok (after start) (fun h => Nat.eqb (hist_totalCount h) 3 && Nat.eqb (hist_size h) 3)%bool = true /\
  ok (after (start ++ [HistOk (Bz 9); HistOk (Bz 14)])) (fun h => Nat.eqb (hist_totalCount h) 3) = true.
Proof. split; vm_compute; reflexivity. Qed.
