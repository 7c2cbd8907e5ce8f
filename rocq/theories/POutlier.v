(** C120: one outlier and the P2 estimate of the median. *)

From Coq Require Import List Reals ZArith.
From Flocq Require Import Core.Core IEEE754.BinarySingleNaN.
From Verif Require Import Outcome Arith Spec AskSpec P2 P2Witness P2Outlier.
Import ListNotations.
Local Open Scope nat_scope.

(** In exact arithmetic, an estimate that has left a bound of the data never
    comes back to it, whatever arrives. *)
Theorem C120_never_back :
  forall (q c v : R) (xs ys : list R),
    6 <= length xs -> (Z.of_nat (length (xs ++ ys)) <= 2 ^ 31)%Z ->
    Forall (Rle c) (xs ++ ys) ->
    ask (p2_new (A := RA) q) p2_update p2_evaluate xs = Ret v -> (c < v)%R ->
    exists v', ask (p2_new (A := RA) q) p2_update p2_evaluate (xs ++ ys) = Ret v' /\ (c < v')%R.
Proof. exact never_back. Qed.
Print Assumptions C120_never_back.

Example C120_never_back_example : exists xs v,
  6 <= length xs /\ Forall (Rle 0) xs /\
  ask (p2_new (A := RA) (1 / 2)%R) p2_update p2_evaluate xs = Ret v /\ (0 < v)%R.
Proof. exact never_back_data. Qed.

Theorem C120_never_back_below :
  forall (q c v : R) (xs ys : list R),
    6 <= length xs -> (Z.of_nat (length (xs ++ ys)) <= 2 ^ 31)%Z ->
    Forall (fun x => (x <= c)%R) (xs ++ ys) ->
    ask (p2_new (A := RA) q) p2_update p2_evaluate xs = Ret v -> (v < c)%R ->
    exists v', ask (p2_new (A := RA) q) p2_update p2_evaluate (xs ++ ys) = Ret v' /\ (v' < c)%R.
Proof. exact never_back_below. Qed.
Print Assumptions C120_never_back_below.

Example C120_never_back_below_example : exists xs v,
  6 <= length xs /\ Forall (fun x => (x <= 0)%R) xs /\
  ask (p2_new (A := RA) (1 / 2)%R) p2_update p2_evaluate xs = Ret v /\ (v < 0)%R.
Proof. exact never_back_below_data. Qed.

(** All observations but one equal c. The estimate is above c by a fixed
    positive fraction of the distance of the outlier, however many follow. *)
Theorem C120_outlier_moves_median :
  forall b : nat, 3 <= b -> (Z.of_nat b <= 2 ^ 31 - 5)%Z ->
  exists r : R, (0 < r)%R /\ forall c M : R, (c < M)%R ->
    ask (p2_new (A := RA) (1 / 2)%R) p2_update p2_evaluate ([c; c; c; c; M] ++ repeat c b) = Ret (c + r * (M - c))%R.
Proof. exact outlier_moves. Qed.
Print Assumptions C120_outlier_moves_median.

(** With three observations after the outlier the fraction is 1/36. *)
Example C120_fraction_example :
  ask (p2_new (A := RA) (1 / 2)%R) p2_update p2_evaluate ([0; 0; 0; 0; 1] ++ repeat 0 3)%R = Ret (1 / 36)%R.
Proof. exact eight_ask. Qed.

(** So robustness against a single outlier fails at every length. *)
Theorem C120_outlier_unbounded :
  forall (b : nat) (c K : R), 3 <= b -> (Z.of_nat b <= 2 ^ 31 - 5)%Z ->
  exists M v : R,
    ask (p2_new (A := RA) (1 / 2)%R) p2_update p2_evaluate ([c; c; c; c; M] ++ repeat c b) = Ret v /\ (K < v)%R.
Proof. exact outlier_far. Qed.
Print Assumptions C120_outlier_unbounded.

Example C120_outlier_unbounded_example : 3 <= 1000 /\ (Z.of_nat 1000 <= 2 ^ 31 - 5)%Z.
Proof. split; [apply Nat.leb_le|apply Z.leb_le]; reflexivity. Qed.

(** Refuted in doubles: 104 of 105 observations are 0, the estimate of the
    median is above 300. *)
Theorem C120_outlier_double_refuted :
  exists s s' v, p2_stream Bhalf ([0; 0; 0; 0; 1000000] ++ repeat 0 100)%Z = Ret s /\
    p2_evaluate s = Ret (s', v) /\ ltb (a := B64) (Bz 300) v = true.
Proof. exact outlier_double. Qed.
Print Assumptions C120_outlier_double_refuted.
