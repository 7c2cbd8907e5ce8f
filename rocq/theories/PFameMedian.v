(** Properties C87 and C88: in what sense WindowedFAME estimates the median. *)

From Coq Require Import List Reals ZArith Lra Lia Bool Arith.
From Verif Require Import Outcome Arith Fame FameSpec FameMedian.
Import ListNotations.
Open Scope R_scope.

(** C87: while the step keeps its value, the estimate counts the observations on
    its two sides... *)
Theorem C87_fame_balance :
  forall (step : R) s (xs ys : list R),
    fame_new (A := RA) step 0 = Ret s -> 0 < step -> xs <> [] ->
    let a := fame_run s xs in
    let b := fame_run s (xs ++ ys) in
    f_step b = f_step a ->
    fame_evaluate b = fame_evaluate a + f_step a * (INR (larger a ys) - INR (smaller a ys)).
Proof. exact fame_balance. Qed.
Print Assumptions C87_fame_balance.

(** ... and on data in [lo, hi] there are equally many on both sides, up to a
    number that does not grow with the stream. *)
Theorem C87_fame_median :
  forall (step : R) s (x1 : R) (xs ys : list R) (lo hi : R),
    fame_new (A := RA) step 0 = Ret s -> 0 < step -> Forall (fun x => lo <= x <= hi) (x1 :: xs ++ ys) ->
    let a := fame_run s (x1 :: xs) in
    let b := fame_run s (x1 :: xs ++ ys) in
    f_step b = f_step a ->
    Rabs (INR (larger a ys) - INR (smaller a ys)) <= (hi - lo + 2 * Rmax step (Rabs x1 / 2)) / f_step a.
Proof. exact fame_median. Qed.
Print Assumptions C87_fame_median.

Example C87_example : exists s, fame_new (A := RA) (1 / 10) 0 = Ret s /\
  f_step (fame_run s ([0] ++ [10; -10; 10])) = f_step (fame_run s [0]) /\ larger (fame_run s [0]) [10; -10; 10] = 2%nat.
Proof. exact fame_balance_case. Qed.

(** C88: with the default step the estimate can be 1/2 although all but k + 1 of
    more than 5 * 2^k observations have the same value c. *)
Theorem C88_fame_median_refuted :
  forall (k : nat) (c : R) s,
    fame_new (A := RA) (1 / 10) 0 = Ret s -> 1 <= c ->
    exists xs,
      length xs = (k + 1 + count_occ Req_EM_T xs c)%nat /\ count_occ Req_EM_T xs c = (5 * 2 ^ k)%nat /\
      fame_evaluate (fame_run s xs) = 1 / 2.
Proof. exact fame_misses_median. Qed.
Print Assumptions C88_fame_median_refuted.

Example C88_example : exists s, fame_new (A := RA) (1 / 10) 0 = Ret s.
Proof. destruct fame_balance_case as (s & H & _). now exists s. Qed.
