(** Property C106: counters of 64 bits. *)

From Coq Require Import List Arith NArith ZArith Bool Lia Reals.
From Verif Require Import Outcome Arith Spec Mean MeanSpec P2 Fame FameFacts CounterSpec Wrap64 Wrap64Facts P2Witness.
Import ListNotations.
Local Open Scope R_scope.

(** Below 2^64 observations nothing changes. *)
Theorem C106_mean_and_variance_unchanged :
  forall (A : arith) (W : nat) (xs : list A), (N.of_nat (length xs) < 2 ^ 64)%N ->
    update_all mean_update64 (mean_new W) xs = update_all mean_update (mean_new W) xs /\
    update_all variance_update64 (variance_new W) xs = update_all variance_update (variance_new W) xs.
Proof. exact (fun A W xs H => conj (mean64_same W xs H) (variance64_same W xs H)). Qed.
Print Assumptions C106_mean_and_variance_unchanged.

Theorem C106_fame_and_mad_unchanged :
  forall (A : arith) (step eps : A) (xs : list A) m0, (N.of_nat (length xs) < 2 ^ 64)%N ->
    fold_left fame_update64 xs (Fame (of_Z 0) step eps 0) = fold_left fame_update xs (Fame (of_Z 0) step eps 0) /\
    (mad_new = Ret m0 -> fold_left mad_update64 xs m0 = fold_left mad_update xs m0).
Proof.
  exact (fun A step eps xs m0 H =>
    conj (proj1 (fame_same xs (Fame (of_Z 0) step eps 0) H)) (fun E => mad_same_new xs m0 H E)).
Qed.
Print Assumptions C106_fame_and_mad_unchanged.

(** The windowed quantile needs the window size to be below 2^64 - 1 as well. *)
Theorem C106_windowed_p2_unchanged :
  forall (A : arith) (q : A) (W : nat) (os : list (stat_op A)) s0, wp2_new q W = Ret s0 ->
    (N.of_nat W + 1 < 2 ^ 64)%N -> (N.of_nat (observed os) < 2 ^ 64)%N ->
    stat_run wp2_update64 wp2_evaluate s0 os = stat_run wp2_update wp2_evaluate s0 os.
Proof. exact @wp2_same. Qed.
Print Assumptions C106_windowed_p2_unchanged.

(** With windowSize = 2^64 - 1 the very first update divides by zero. *)
Theorem C106_largest_window_divides_by_zero_refuted :
  forall (A : arith) (q : A) (W : nat) s0 (x : A), wp2_new q W = Ret s0 ->
    (N.of_nat W + 1 = 2 ^ 64)%N -> wp2_update64 s0 x = Undef DivByZero.
Proof. exact @wp2_max. Qed.
Print Assumptions C106_largest_window_divides_by_zero_refuted.

(** The mean of any number of observations, in exact arithmetic: the divisor of
    the unwindowed mean is the wrapped count, and the report is 0 whenever the
    count is a multiple of 2^64. *)
Theorem C106_mean_reported :
  forall (W : nat) (xs : list R),
    exists t, update_all (mean_update64 (A := RA)) (mean_new W) xs = Ret t /\
      mean_evaluate (A := RA) t =
        (if N.eqb (N.of_nat (length xs) mod 2 ^ 64) 0 then 0
         else match W with
              | O => rsum xs / INR (N.to_nat (N.of_nat (length xs) mod 2 ^ 64))
              | S _ => avg (window_of W xs)
              end).
Proof. exact mean64_reported. Qed.
Print Assumptions C106_mean_reported.

(** The mean of 2^64 + 1 ones is reported as 2^64 + 1. *)
Theorem C106_mean_of_ones_refuted :
  forall n, (N.of_nat n = 2 ^ 64 + 1)%N ->
    exists t, update_all (mean_update64 (A := RA)) (mean_new 0) (repeat 1 n) = Ret t /\
      mean_evaluate (A := RA) t = INR n.
Proof. exact mean64_wrong. Qed.
Print Assumptions C106_mean_of_ones_refuted.

(** The observation after 2^64 others is taken by FAME as its first: the median
    is that observation, and the MAD is |x - x|. *)
Theorem C106_fame_restarts :
  forall (A : arith), (forall x : A, ltb x x = false) ->
    forall (step eps : A) s0 (xs : list A) (x : A),
      fame_new step eps = Ret s0 -> (N.of_nat (length xs) mod 2 ^ 64 = 0)%N ->
      fame_evaluate (fold_left fame_update64 (xs ++ [x]) s0) = x.
Proof. exact @fame64_restart. Qed.
Print Assumptions C106_fame_restarts.

Theorem C106_mad_restarts :
  forall (A : arith), (forall x : A, ltb x x = false) ->
    forall s0 (xs : list A) (x : A),
      mad_new = Ret s0 -> (N.of_nat (length xs) mod 2 ^ 64 = 0)%N ->
      mad_evaluate (fold_left mad_update64 (xs ++ [x]) s0) = fabs (x -. x).
Proof. exact @mad64_restart. Qed.
Print Assumptions C106_mad_restarts.

(** Reals and doubles are such arithmetics. *)
Example C106_example_arithmetics :
  (forall x : RA, @ltb RA x x = false) /\ (forall x : B64, @ltb B64 x x = false).
Proof. exact (conj Rltb_irrefl Bltb_irrefl). Qed.

(** The sizes exist, and the constructors accept them. *)
Example C106_example_sizes :
  (exists xs : list R, xs <> [] /\ (N.of_nat (length xs) mod 2 ^ 64 = 0)%N) /\
  (exists n, (N.of_nat n = 2 ^ 64 + 1)%N) /\
  (exists W s0, (N.of_nat W + 1 = 2 ^ 64)%N /\ wp2_new (A := B64) (lit 1 2) W = Ret s0).
Proof.
  split; [|split].
  - exists (repeat 1 (N.to_nat (2 ^ 64))). rewrite repeat_length, N2Nat.id. split; [|reflexivity].
    intros H. apply (f_equal (fun l => N.of_nat (length l))) in H. rewrite repeat_length, N2Nat.id in H. discriminate H.
  - exists (N.to_nat (2 ^ 64 + 1)). apply N2Nat.id.
  - exists (N.to_nat (2 ^ 64 - 1)). eexists. split; [rewrite N2Nat.id; reflexivity|].
    unfold wp2_new, p2_new. replace (_ || _)%bool with false by (vm_compute; reflexivity). reflexivity.
Qed.

(** A small run of each wrapped update. *)
Example C106_example_small :
  ok (update_all (mean_update64 (A := B64)) (mean_new 2) (map Bz [1; 2; 4]%Z))
     (fun s => @eqb B64 (mean_evaluate s) (Bz 3)) &&
  ok (wp2_new (A := B64) (lit 1 2) 3) (fun s0 =>
    ok (update_all (wp2_update64 (A := B64)) s0 (map Bz [3; 1; 2; 9]%Z)) (fun s => Nat.eqb (p_history (w_p2 s)) 0))
  = true.
Proof. vm_compute. reflexivity. Qed.
