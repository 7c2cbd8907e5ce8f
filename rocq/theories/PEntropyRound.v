(** Property C95: rounding errors of the streaming entropy inside the window.
    [shannon] and [log2R] are exact. *)

From Coq Require Import List Arith Bool ZArith Reals.
From Flocq Require Import Core.Core IEEE754.BinarySingleNaN.
From Verif Require Import Outcome Arith Utils IBin Histogram Mean Entropy Spec HistSpec FloatSpec FloatFacts
  EntropySpec EntropyRound.
Import ListNotations.
Local Open Scope R_scope.

(** C95: [eta] is the accuracy of std::log2 between 2^-40 and 1. The error grows
    at most linearly in the number of observations. *)
Theorem C95_entropy_error_bound :
  forall (log2 : double -> double) (eta : R) (windowSize numBins B : nat) (xs : list double),
    0 <= eta ->
    (forall x : double, finite64 x = true -> bpow radix2 (-40) <= B2R x <= 1 ->
       finite64 (log2 x) = true /\ Rabs (B2R (log2 x) - log2R (B2R x)) <= eta) ->
    (1 <= numBins /\ B = numBins \/ numBins = 0 /\ 1 <= windowSize /\ B = Nat.log2_up windowSize + 1)%nat ->
    (length xs <= windowSize)%nat -> (Z.of_nat (length xs) <= 2 ^ 40)%Z -> INR (length xs) * eta <= 1 ->
    Forall (fun x => finite64 x = true) xs -> separated (A := B64) xs -> few (A := B64) B xs ->
    exists e0 e, entropy_new (A := B64) windowSize numBins = Ret e0 /\
      update_all (entropy_update (A := B64) log2) e0 xs = Ret e /\ finite64 (entropy_evaluate e) = true /\
      forall vs, NoDup vs -> (forall v, In v vs <-> In v (map B2R xs)) ->
        Rabs (B2R (entropy_evaluate e) - shannon (map B2R xs) vs)
          <= INR (length xs + 1) / 2 * (3 * eta + bpow radix2 (-42)).
Proof. exact entropy_error. Qed.
Print Assumptions C95_entropy_error_bound.

(** With a correctly rounded logarithm. *)
Theorem C95_rounded_log2 :
  forall (log2 : double -> double) (windowSize numBins B : nat) (xs : list double),
    (forall x : double, finite64 x = true -> 0 < B2R x <= 1 ->
       finite64 (log2 x) = true /\ B2R (log2 x) = rnd (log2R (B2R x))) ->
    (1 <= numBins /\ B = numBins \/ numBins = 0 /\ 1 <= windowSize /\ B = Nat.log2_up windowSize + 1)%nat ->
    (1 <= length xs <= windowSize)%nat -> (Z.of_nat (length xs) <= 2 ^ 40)%Z ->
    Forall (fun x => finite64 x = true) xs -> separated (A := B64) xs -> few (A := B64) B xs ->
    exists e0 e, entropy_new (A := B64) windowSize numBins = Ret e0 /\
      update_all (entropy_update (A := B64) log2) e0 xs = Ret e /\ finite64 (entropy_evaluate e) = true /\
      forall vs, NoDup vs -> (forall v, In v vs <-> In v (map B2R xs)) ->
        Rabs (B2R (entropy_evaluate e) - shannon (map B2R xs) vs) <= INR (length xs) * bpow radix2 (-41).
Proof. exact entropy_error_rounded. Qed.
Print Assumptions C95_rounded_log2.

(** On constant data the rounding errors cancel: the entropy is exactly 0 for
    any logarithm that is finite on (0,1] and 0 at 1. *)
Theorem C95_constant_data_exact :
  forall (log2 : double -> double) (windowSize numBins : nat) (x : double) (n : nat),
    (forall y : double, finite64 y = true -> 0 < B2R y <= 1 -> finite64 (log2 y) = true) ->
    (forall y : double, finite64 y = true -> B2R y = 1 -> B2R (log2 y) = 0) ->
    finite64 x = true -> (1 <= numBins \/ 1 <= windowSize)%nat -> (n <= windowSize)%nat -> (Z.of_nat n <= 2 ^ 40)%Z ->
    exists e0 e, entropy_new (A := B64) windowSize numBins = Ret e0 /\
      update_all (entropy_update (A := B64) log2) e0 (repeat x n) = Ret e /\
      finite64 (entropy_evaluate e) = true /\ B2R (entropy_evaluate e : double) = 0.
Proof. exact entropy_constant. Qed.
Print Assumptions C95_constant_data_exact.

Example C95_example : Forall (fun x => finite64 x = true) (map Bz [2; 1; 2]%Z) /\
  separated (A := B64) (map Bz [2; 1; 2]%Z) /\ few (A := B64) 2 (map Bz [2; 1; 2]%Z).
Proof. exact error_case. Qed.

(** A correctly rounded logarithm exists. *)
Example C95_log2_example : exists log2 : double -> double, forall x : double, finite64 x = true -> 0 < B2R x <= 1 ->
  finite64 (log2 x) = true /\ B2R (log2 x) = rnd (log2R (B2R x)).
Proof. exact rounded_log2_exists. Qed.
