(** Property C72: quantiles outside the data. *)

From Coq Require Import List Arith Bool Lia ZArith Reals Lra.
From Flocq Require Import Core.Core IEEE754.BinarySingleNaN.
From Verif Require Import Outcome Arith Utils IBin Histogram Spec HistSpec HistMax.
Import ListNotations.
Local Open Scope nat_scope.

(** C72: one [a] followed by [n] times [b]; the answer depends on [a], on [n]
    and on the number of bins, not on [b]. *)
Theorem C72_quantile_of_skewed_data :
  forall (a b q : R) (numBins windowSize n : nat),
    definitelyLessThan (A := RA) a b default_eps = true -> 2 <= numBins -> 1 <= n -> S n <= windowSize ->
    (1.001 / INR (S n) <= q < 1)%R ->
    exists h, update_all hist_update (hist_new (A := RA) numBins windowSize true) (a :: repeat b n) = Ret h /\
      hist_quantile h q = Ret (a + INR n / INR numBins)%R.
Proof. exact quantile_skewed. Qed.
Print Assumptions C72_quantile_of_skewed_data.

(** Hence no bound computed from the smallest and the largest observation holds. *)
Theorem C72_quantile_unbounded_refuted :
  forall (a b q M : R) (numBins : nat),
    definitelyLessThan (A := RA) a b default_eps = true -> 2 <= numBins -> (0 < q < 1)%R ->
    exists n windowSize h v, S n <= windowSize /\
      update_all hist_update (hist_new (A := RA) numBins windowSize true) (a :: repeat b n) = Ret h /\
      hist_quantile h q = Ret v /\ (M < v)%R.
Proof. exact quantile_unbounded. Qed.
Print Assumptions C72_quantile_unbounded_refuted.

Example C72_example : definitelyLessThan (A := B64) (Bz 1) (Bz 2) default_eps = true /\
  match update_all hist_update (hist_new (A := B64) 2 20 true) (Bz 1 :: repeat (Bz 2) 10) with
  | Ret h => match hist_quantile h (lit (A := B64) 1 2) with Ret v => Beqb v (Bz 6) | _ => false end
  | _ => false
  end = true.
Proof. split; vm_compute; reflexivity. Qed.
