(** Property C98, and the densities of C27: the distribution function in doubles. *)

From Coq Require Import List Sorting.Sorted Arith Bool Lia ZArith Reals Lra.
From Flocq Require Import Core.Core IEEE754.BinarySingleNaN.
From Verif Require Import Outcome Arith Utils IBin Histogram Spec HistSpec HistExactSpec FloatSpec
  HistWitness P2Witness HistCdf.
Import ListNotations.
Local Open Scope nat_scope.

(** C98: the k-th entry of cdf(true) is, up to (k+1) 2^-52 of itself, the cumulated
    count divided by the number of observations. *)
Theorem C98_cdf_error :
  forall (numBins windowSize : nat) (xs : list double) (h : hist B64) (k : nat),
    update_all hist_update (hist_new (A := B64) numBins windowSize true) xs = Ret h -> length xs <= windowSize ->
    (Z.of_nat numBins <= 2 ^ 32)%Z -> (Z.of_nat (length xs) <= 2 ^ 53)%Z -> k < hist_size h ->
    let F := (INR (list_sum (firstn (S k) (map b_count (h_bins h)))) / INR (length xs))%R in
    exists s : double, nth_error (hist_cdf h true) k = Some s /\ finite64 s = true /\
      (Rabs (B2R s - F) <= INR (S k) * bpow radix2 (-52) * F)%R.
Proof. exact cdf_error. Qed.
Print Assumptions C98_cdf_error.

(** For separated data that is the empirical distribution at the right edge of the bin. *)
Theorem C98_cdf_near_empirical :
  forall (numBins windowSize : nat) (xs : list double) (h : hist B64) (k : nat) (b : bin B64),
    update_all hist_update (hist_new (A := B64) numBins windowSize true) xs = Ret h -> length xs <= windowSize ->
    Forall (fun x => finite64 x = true /\ (Rabs (B2R x) <= bpow radix2 1022)%R) xs -> separated (A := B64) xs ->
    (Z.of_nat numBins <= 2 ^ 32)%Z -> (Z.of_nat (length xs) <= 2 ^ 53)%Z -> nth_error (h_bins h) k = Some b ->
    let F := (INR (upto (B2R (b_right b : double)) (map B2R xs)) / INR (length xs))%R in
    exists s : double, nth_error (hist_cdf h true) k = Some s /\ finite64 s = true /\
      (Rabs (B2R s - F) <= INR (S k) * bpow radix2 (-52) * F)%R.
Proof. exact cdf_of_data. Qed.
Print Assumptions C98_cdf_near_empirical.

(** Up to 2^50 observations the quantile at an entry of cdf is the left edge of that
    bin, unless rounding carried the entry beyond 1 ... *)
Theorem C98_quantile_inverts_cdf_double :
  forall (numBins windowSize : nat) (xs : list double) (h : hist B64) (k : nat) (b : bin B64) (s : double),
    update_all hist_update (hist_new (A := B64) numBins windowSize true) xs = Ret h -> length xs <= windowSize ->
    (Z.of_nat numBins <= 2 ^ 32)%Z -> (Z.of_nat (length xs) <= 2 ^ 50)%Z ->
    nth_error (h_bins h) k = Some b -> nth_error (hist_cdf h true) k = Some s -> (B2R s <= 1)%R ->
    hist_quantile h s = Ret (b_left b).
Proof. exact quantile_inverts_B64. Qed.
Print Assumptions C98_quantile_inverts_cdf_double.

(** Five equal masses among five bins: nothing exceeds 1. *)
Example C98_example :
  ok (hist_stream 5 5 [1; 2; 3; 4; 5]%Z) (fun h =>
    match nth_error (hist_cdf h true) 2 with
    | Some s => Bleb s (Bz 1) && ok (hist_quantile h s) (fun v => Beqb v (Bz 3))
    | None => false
    end) = true.
Proof. vm_compute. reflexivity. Qed.

(** ... which happens: nine equal masses add up to more than 1, and the quantile at
    the histogram's own last cdf entry throws. *)
Theorem C98_cdf_exceeds_one_refuted :
  exists (h : hist B64) (s : double),
    update_all hist_update (hist_new (A := B64) 9 9 true) (map Bz [1; 2; 3; 4; 5; 6; 7; 8; 9]%Z) = Ret h /\
    nth_error (hist_cdf h true) (hist_size h - 1) = Some s /\ Bltb (Bz 1) s = true /\
    hist_quantile h s = Throw RuntimeError.
Proof. exact cdf_above_one. Qed.
Print Assumptions C98_cdf_exceeds_one_refuted.

(** C27: densities are never negative and never NaN, normalised or not ... *)
Theorem C27_density_nonnegative_double :
  forall (h : hist B64) (normalize : bool), 1 <= h_total h -> (Z.of_nat (h_total h) < 2 ^ 64)%Z ->
    Forall (fun b : bin B64 => (Z.of_nat (b_count b) < 2 ^ 64)%Z /\ finite64 (b_left b) = true /\ finite64 (b_right b) = true)
      (h_bins h) ->
    Forall nonneg (hist_pdf h normalize true).
Proof. exact density_B64. Qed.
Print Assumptions C27_density_nonnegative_double.

Example C27_density_example :
  ok (hist_stream 2 5 [3; 1; 2; 5; 2]%Z) (fun h =>
    Nat.leb 1 (h_total h) &&
    forallb (fun b : bin B64 => finite64 (b_left b) && finite64 (b_right b)) (h_bins h)) = true.
Proof. vm_compute. reflexivity. Qed.

(** ... but a bin can be so narrow that its density overflows. *)
Theorem C27_density_infinite_refuted :
  exists (h : hist B64) (d : double),
    update_all hist_update (hist_new (A := B64) 1 10 true) [B754_zero false; tiny] = Ret h /\
    hist_pdf h true true = [d] /\ d = B754_infinity false.
Proof. exact density_overflow. Qed.
Print Assumptions C27_density_infinite_refuted.
