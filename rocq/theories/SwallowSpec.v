(** Vocabulary: increasing data whose gaps do not shrink. *)

From Coq Require Import List Reals Arith.
From Flocq Require Import Core.Core IEEE754.BinarySingleNaN.
From Verif Require Import Outcome Arith IBin Histogram FloatSpec.
Import ListNotations.
Local Open Scope nat_scope.

(** The first [n] terms increase, each difference at least as large as the one before;
    any two terms differ by more than one part in ten thousand. *)
Definition risingR (x : nat -> R) (n : nat) : Prop :=
  (forall i, i < n -> (Rabs (x i) <= bpow radix2 1022)%R) /\
  (forall i j, i < j < n -> (Rmax (Rabs (x i)) (Rabs (x j)) * (1 / 10000) < x j - x i)%R) /\
  (forall i, S (S i) < n -> (x (S i) - x i <= x (S (S i)) - x (S i))%R).

(** The same for doubles, with a margin of one part in two thousand for rounding. *)
Definition risingB (x : nat -> double) (n : nat) : Prop :=
  (forall i, i < n -> finite64 (x i) = true /\ (Rabs (B2R (x i)) <= bpow radix2 1022)%R) /\
  (forall i j, i < j < n -> (Rmax (Rabs (B2R (x i))) (Rabs (B2R (x j))) * (1 / 2000) <= B2R (x j) - B2R (x i))%R /\
     (bpow radix2 (-1000) <= B2R (x j) - B2R (x i))%R) /\
  (forall i, S (S i) < n -> (B2R (x (S i)) - B2R (x i) <= B2R (x (S (S i))) - B2R (x (S i)))%R).

(** One bin from the first observation to the [N]-th last, then the last N-1
    observations in bins of their own. *)
Definition first_takes_all {A : arith} (x : nat -> A) (N n : nat) : list (bin A) :=
  Bin (x 0) (x (n - N)) (n - N + 1) :: map (fun i => Bin (x i) (x i) 1) (seq (n - N + 1) (N - 1)).
