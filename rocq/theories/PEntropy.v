(** Properties C57-C60: the streaming entropy. [log2R] is the exact binary
    logarithm; in the statements about doubles std::log2 is arbitrary. *)

From Coq Require Import List Sorting.Sorted Arith Bool Lia ZArith Reals Lra.
From Flocq Require Import Core.Core IEEE754.BinarySingleNaN.
From Verif Require Import Outcome Arith Utils IBin Histogram Mean Entropy Spec HistSpec FloatSpec FloatFacts
  EntropySpec HistWitness EntropyFacts EntropyDrift EntropyFull EntropyBins P2Witness.
Import ListNotations.
Local Open Scope nat_scope.

(** C57: [B] is the number of bins in use, see C60. *)
Theorem C57_shannon_entropy :
  forall (windowSize numBins B : nat) (xs : list R),
    1 <= numBins /\ B = numBins \/ numBins = 0 /\ 1 <= windowSize /\ B = Nat.log2_up windowSize + 1 ->
    length xs <= windowSize -> separated (A := RA) xs -> few (A := RA) B xs ->
    exists e0 e, entropy_new (A := RA) windowSize numBins = Ret e0 /\
      update_all (entropy_update log2R) e0 xs = Ret e /\
      forall vs, NoDup vs -> (forall v, In v vs <-> In v xs) ->
        entropy_evaluate e = shannon xs vs /\ (0 <= entropy_evaluate e)%R /\
        (1 <= length xs -> (entropy_evaluate e <= log2R (INR (length vs)))%R).
Proof. exact entropy_exact. Qed.
Print Assumptions C57_shannon_entropy.

Example C57_example : separated (A := RA) [2; 1; 2]%R /\ few (A := RA) 2 [2; 1; 2]%R.
Proof. exact separated_example. Qed.

(** C58: when the histogram is full and the item is past all its bins, in any
    reachable state. Over an arbitrary arithmetic the update does not return. *)
Theorem C58_full_histogram :
  forall (A : arith) (log2 : A -> A) (windowSize numBins : nat) (e0 e e' : entropy A) (xs : list A) (x : A),
    entropy_new windowSize numBins = Ret e0 -> update_all (entropy_update log2) e0 xs = Ret e ->
    1 <= windowSize -> hist_size (e_hist e) = h_numBins (e_hist e) ->
    hist_binSearch (e_hist e) x = Ret (hist_size (e_hist e)) ->
    entropy_update log2 e x <> Ret e'.
Proof. exact @full_stuck. Qed.
Print Assumptions C58_full_histogram.

(** In exact arithmetic and in doubles it reads past the bins. *)
Theorem C58_full_histogram_exact :
  forall (windowSize numBins : nat) (e0 e : entropy RA) (xs : list R) (x : R),
    entropy_new windowSize numBins = Ret e0 -> update_all (entropy_update log2R) e0 xs = Ret e ->
    1 <= windowSize -> hist_size (e_hist e) = h_numBins (e_hist e) ->
    hist_binSearch (e_hist e) x = Ret (hist_size (e_hist e)) ->
    entropy_update log2R e x = Undef OutOfBounds.
Proof. exact full_undef_RA. Qed.
Print Assumptions C58_full_histogram_exact.

Theorem C58_full_histogram_double :
  forall (log2 : double -> double) (windowSize numBins : nat) (e0 e : entropy B64) (xs : list double) (x : double),
    (Z.of_nat (length xs) < 2 ^ 64)%Z ->
    entropy_new windowSize numBins = Ret e0 -> update_all (entropy_update (A := B64) log2) e0 xs = Ret e ->
    1 <= windowSize -> hist_size (e_hist e) = h_numBins (e_hist e) ->
    hist_binSearch (e_hist e) x = Ret (hist_size (e_hist e)) ->
    entropy_update (A := B64) log2 e x = Undef OutOfBounds.
Proof. exact full_undef_B64. Qed.
Print Assumptions C58_full_histogram_double.

Theorem C58_increasing_values :
  forall (windowSize : nat) (xs : list R) (x : R), 1 <= length xs <= windowSize ->
    StronglySorted (fun a b => definitelyLessThan (A := RA) a b default_eps = true) (xs ++ [x]) ->
    exists e0 e, entropy_new (A := RA) windowSize (length xs) = Ret e0 /\
      update_all (entropy_update log2R) e0 xs = Ret e /\ entropy_update log2R e x = Undef OutOfBounds.
Proof. exact run_out_RA. Qed.
Print Assumptions C58_increasing_values.

Theorem C58_increasing_values_double :
  forall (log2 : double -> double) (windowSize : nat) (xs : list double) (x : double),
    1 <= length xs <= windowSize -> (Z.of_nat (length xs) < 2 ^ 64)%Z ->
    Forall (fun y => finite64 y = true) (xs ++ [x]) ->
    StronglySorted (fun a b => definitelyLessThan (A := B64) a b default_eps = true) (xs ++ [x]) ->
    exists e0 e, entropy_new (A := B64) windowSize (length xs) = Ret e0 /\
      update_all (entropy_update (A := B64) log2) e0 xs = Ret e /\
      entropy_update (A := B64) log2 e x = Undef OutOfBounds.
Proof. exact run_out_B64. Qed.
Print Assumptions C58_increasing_values_double.

Example C58_example :
  forallb (fun x => finite64 x) (map Bz [1; 2; 3]%Z) = true /\
  StronglySorted (fun a b : double => definitelyLessThan (A := B64) a b default_eps = true) (map Bz [1; 2; 3]%Z).
Proof. split; [vm_compute; reflexivity|]. repeat (constructor; [|repeat constructor; vm_compute; reflexivity]). constructor. Qed.

(** C59: a null window. *)
Theorem C59_zero_window :
  forall (A : arith) (log2 : A -> A) (numBins : nat) (x : A), 1 <= numBins ->
    exists e0, entropy_new (A := A) 0 numBins = Ret e0 /\ entropy_update log2 e0 x = Undef NullDeref.
Proof. exact @zero_window. Qed.
Print Assumptions C59_zero_window.

(** For every window and every pair of definitely different values the entropy
    becomes negative. *)
Theorem C59_negative_entropy :
  forall (a b : R) (numBins windowSize : nat),
    definitelyLessThan (A := RA) a b default_eps = true -> 2 <= numBins -> 1 <= windowSize ->
    exists e0 e, entropy_new (A := RA) windowSize numBins = Ret e0 /\
      update_all (entropy_update log2R) e0 (a :: repeat b (windowSize + 1)) = Ret e /\
      (entropy_evaluate e < 0)%R.
Proof. exact entropy_negative. Qed.
Print Assumptions C59_negative_entropy.

Example C59_example : definitelyLessThan (A := B64) (Bz 1) (Bz 2) default_eps = true.
Proof. vm_compute. reflexivity. Qed.

(** C60 *)
Theorem C60_given_bins :
  forall windowSize numBins : nat, 1 <= numBins -> entropy_bins windowSize numBins = Ret numBins.
Proof. exact given_bins. Qed.
Print Assumptions C60_given_bins.

(** The default is k + 1 with k the least exponent such that windowSize <= 2^k. *)
Theorem C60_sturges_default :
  forall windowSize : nat, 1 <= windowSize ->
    exists k, entropy_bins windowSize 0 = Ret (k + 1) /\ windowSize <= 2 ^ k /\
      (forall j, windowSize <= 2 ^ j -> k <= j).
Proof. exact sturges_bins. Qed.
Print Assumptions C60_sturges_default.

(** The ceiling of a correctly rounded log2 is that k up to 2^47, but not just above 2^50. *)
Theorem C60_rounded_log2 :
  forall windowSize : nat, 1 <= windowSize -> Nat.log2_up windowSize <= 47 ->
    Zceil (rnd (log2R (INR windowSize))) = Z.of_nat (Nat.log2_up windowSize).
Proof. exact sturges_rounded. Qed.
Print Assumptions C60_rounded_log2.

Theorem C60_rounded_log2_off :
  Zceil (rnd (log2R (INR (2 ^ 50 + 1)))) = 50%Z /\ ~ 2 ^ 50 + 1 <= 2 ^ 50.
Proof. exact sturges_off_ceiling. Qed.
Print Assumptions C60_rounded_log2_off.

Theorem C60_zero_window : entropy_bins 0 0 = Undef BadCast.
Proof. exact eq_refl. Qed.
Print Assumptions C60_zero_window.

Example C60_example : entropy_bins 10 0 = Ret 5 /\ entropy_bins 16 0 = Ret 5 /\ entropy_bins 17 0 = Ret 6.
Proof. repeat split. Qed.
