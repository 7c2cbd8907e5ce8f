(** C111: NaN observations. *)

From Coq Require Import List ZArith Bool Arith.
From Verif Require Import Outcome Arith IBin Histogram Mean P2 Fame Spec FloatSpec FameSpec P2Witness NanSpec NanFacts.
Import ListNotations.
Local Open Scope nat_scope.

(** Histogram: inside the window every NaN gets a bin of its own, which is never merged
    with another. *)
Theorem C111_histogram_keeps_every_nan :
  forall N W (xs : list double) (h : hist B64), length xs <= W ->
    update_all hist_update (hist_new (A := B64) N W true) xs = Ret h ->
    length (filter (fun b => nan (b_left b)) (h_bins h)) = nans xs /\
    nans xs + Nat.min 1 (length (numbers xs)) <= N.
Proof. exact hist_nan_bound. Qed.
Print Assumptions C111_histogram_keeps_every_nan.

(** As many NaN as bins and one further observation, in any order: merge finds no pair
    of bins and the index is out of bounds. *)
Theorem C111_histogram_undefined :
  forall N W (xs : list double), length xs <= W -> N <= nans xs -> N < length xs ->
    update_all hist_update (hist_new (A := B64) N W true) xs = Undef OutOfBounds.
Proof. exact hist_nan_undefined. Qed.
Print Assumptions C111_histogram_undefined.

(** Fewer can suffice: a NaN between two numbers keeps these from being merged. *)
Theorem C111_histogram_one_nan_refuted :
  update_all hist_update (hist_new (A := B64) 2 3 true) [Bz 5; Bnan; Bz 3] = Undef OutOfBounds.
Proof. exact hist_one_nan. Qed.
Print Assumptions C111_histogram_one_nan_refuted.

(** P2: a NaN among the first five observations breaks the precondition of std::sort. *)
Theorem C111_p2_early_nan :
  forall (q : double) s0 (xs : list double), p2_new (A := B64) q = Ret s0 -> length xs = 5 -> 1 <= nans xs ->
    update_all p2_update s0 xs = Undef BadPrecondition.
Proof. exact p2_early_nan. Qed.
Print Assumptions C111_p2_early_nan.

(** Later it becomes the largest marker. *)
Theorem C111_p2_nan_is_the_maximum :
  forall (s s' : p2 B64) (x : double), length (p_heights s) = 5 -> 5 <= p_history s -> nan x = true ->
    p2_update s x = Ret s' -> exists v, nth_error (p_heights s') 4 = Some v /\ nan v = true.
Proof. exact p2_nan_maximum. Qed.
Print Assumptions C111_p2_nan_is_the_maximum.

(** Once the estimate is NaN, it is NaN for every continuation. *)
Theorem C111_p2_nan_forever :
  forall (s s' : p2 B64) (xs : list double), 5 < p_history s -> update_all p2_update s xs = Ret s' ->
    (exists v, p2_evaluate s = Ret (s, v) /\ nan v = true) ->
    exists v, p2_evaluate s' = Ret (s', v) /\ nan v = true.
Proof. exact p2_nan_forever. Qed.
Print Assumptions C111_p2_nan_forever.

(** One NaN can do that: 1, 2, 3, 4, 5, 6, NaN, 7 and the median estimate is NaN from
    then on. *)
Theorem C111_p2_forgets_a_nan_refuted :
  exists s0 s, p2_new (A := B64) (Bquot (Bz 1) (Bz 2)) = Ret s0 /\
    update_all p2_update s0 (map Bz [1; 2; 3; 4; 5; 6]%Z ++ [Bnan; Bz 7]) = Ret s /\
    forall ys s', update_all p2_update s ys = Ret s' -> exists v, p2_evaluate s' = Ret (s', v) /\ nan v = true.
Proof. exact p2_one_nan. Qed.
Print Assumptions C111_p2_forgets_a_nan_refuted.

(** The windowed estimator restarts and so gets rid of it, but until five new
    observations have arrived evaluate() sorts the old markers. *)
Theorem C111_windowed_p2_evaluate_refuted :
  exists s0 s, wp2_new (A := B64) (Bquot (Bz 1) (Bz 2)) 8 = Ret s0 /\
    update_all wp2_update s0 ((map Bz [1; 2; 3; 4; 5; 6]%Z ++ [Bnan; Bz 7]) ++ [Bz 8]) = Ret s /\
    wp2_evaluate s = Undef BadPrecondition.
Proof. exact wp2_one_nan. Qed.
Print Assumptions C111_windowed_p2_evaluate_refuted.

(** FAME with the default epsilon of 0 ignores every NaN but the first observation:
    estimate and step are bit for bit those of the stream without them. *)
Theorem C111_fame_ignores_nan :
  forall (step : double) s0 (x : double) (xs : list double), fame_new (A := B64) step (Bz 0) = Ret s0 ->
    fame_evaluate (fame_run s0 (x :: xs)) = fame_evaluate (fame_run s0 (x :: numbers xs)) /\
    f_step (fame_run s0 (x :: xs)) = f_step (fame_run s0 (x :: numbers xs)).
Proof. exact fame_skips_nan. Qed.
Print Assumptions C111_fame_ignores_nan.

(** If the first observation is NaN, so are all estimates. *)
Theorem C111_fame_first_nan :
  forall (step eps : double) s0 (x : double) (xs : list double), fame_new (A := B64) step eps = Ret s0 ->
    nan x = true -> nan (fame_evaluate (fame_run s0 (x :: xs))) = true.
Proof. exact fame_first_nan. Qed.
Print Assumptions C111_fame_first_nan.

(** The same for StreamingMAD, where an infinite first observation is as bad. *)
Theorem C111_mad_ignores_nan :
  forall s0 (x : double) (xs : list double), mad_new (A := B64) = Ret s0 ->
    mad_evaluate (mad_run s0 (x :: xs)) = mad_evaluate (mad_run s0 (x :: numbers xs)).
Proof. exact mad_skips_nan. Qed.
Print Assumptions C111_mad_ignores_nan.

Theorem C111_mad_first_not_finite :
  forall s0 (x : double) (xs : list double), mad_new (A := B64) = Ret s0 -> finite64 x = false ->
    nan (mad_evaluate (mad_run s0 (x :: xs))) = true.
Proof. exact mad_first. Qed.
Print Assumptions C111_mad_first_not_finite.

(** Two NaN and three numbers in a histogram of four bins are served; two NaN and one
    number in one of two are not. FAME goes on after NaN. *)
Example C111_example :
  ok (update_all hist_update (hist_new (A := B64) 4 9 true) [Bz 1; Bnan; Bz 2; Bnan; Bz 8])
     (fun h => Nat.eqb (length (filter (fun b => nan (b_left b)) (h_bins h))) 2) = true /\
  nans [Bnan; Bz 1; Bnan] = 2 /\
  ok (fame_new (A := B64) (Bz 1) (Bz 0))
     (fun s => eqb (a := B64) (fame_evaluate (fame_run s [Bz 4; Bnan; Bz 8; Bnan])) (Bz 6)) = true.
Proof. vm_compute. repeat split; reflexivity. Qed.
