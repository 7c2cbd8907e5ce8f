(** Properties C69, C70, C71: what merged bins say about the data. *)

From Coq Require Import List Sorting.Sorted Arith Bool Lia ZArith Reals Lra.
From Flocq Require Import Core.Core IEEE754.BinarySingleNaN.
From Verif Require Import Outcome Arith Utils IBin Histogram Spec HistSpec HistExactSpec FloatSpec
  HistWitness P2Witness HistExact HistEmp.
Import ListNotations.
Local Open Scope nat_scope.

(** C69: inside the window the bins of separated data are disjoint, cover all of
    it, and each count is the number of observations between the bin's edges -
    however often bins were merged. *)
Theorem C69_merged_counts_exact :
  forall (numBins windowSize : nat) (xs : list R) (h : hist RA),
    update_all hist_update (hist_new (A := RA) numBins windowSize true) xs = Ret h ->
    length xs <= windowSize -> separated (A := RA) xs ->
    hist_size h <= numBins /\
    StronglySorted (fun b c : bin RA => (b_right b < b_left c)%R) (h_bins h) /\
    Forall (fun b : bin RA => In (b_left b) xs /\ In (b_right b) xs /\ (b_left b <= b_right b)%R /\
      b_count b = inside (b_left b) (b_right b) xs) (h_bins h) /\
    (forall x, In x xs -> exists b : bin RA, In b (h_bins h) /\ (b_left b <= x <= b_right b)%R) /\
    (hist_size h < numBins -> Forall (fun b : bin RA => b_left b = b_right b :> R) (h_bins h)).
Proof. exact exact_RA. Qed.
Print Assumptions C69_merged_counts_exact.

Theorem C69_merged_counts_exact_double :
  forall (numBins windowSize : nat) (xs : list double),
    1 <= numBins -> length xs <= windowSize ->
    Forall (fun x => finite64 x = true /\ (Rabs (B2R x) <= bpow radix2 1022)%R) xs -> separated (A := B64) xs ->
    exists h, update_all hist_update (hist_new (A := B64) numBins windowSize true) xs = Ret h /\
      hist_size h <= numBins /\
      StronglySorted (fun b c : bin B64 => (B2R (b_right b) < B2R (b_left c))%R) (h_bins h) /\
      Forall (fun b : bin B64 => In (b_left b) xs /\ In (b_right b) xs /\ (B2R (b_left b) <= B2R (b_right b))%R /\
        b_count b = inside (B2R (b_left b)) (B2R (b_right b)) (map B2R xs)) (h_bins h) /\
      (forall x, In x xs -> exists b : bin B64, In b (h_bins h) /\ (B2R (b_left b) <= B2R x <= B2R (b_right b))%R) /\
      (hist_size h < numBins -> Forall (fun b : bin B64 => B2R (b_left b) = B2R (b_right b)) (h_bins h)).
Proof. exact exact_B64. Qed.
Print Assumptions C69_merged_counts_exact_double.

(** More distinct values than bins. *)
Example C69_example :
  separated (A := RA) [3; 1; 2; 5; 2]%R /\
  exists h, update_all hist_update (hist_new (A := RA) 2 5 true) [3; 1; 2; 5; 2]%R = Ret h /\ hist_size h = 2.
Proof. exact (conj five_separated five_run). Qed.

Example C69_example_double :
  ok (hist_stream 2 5 [3; 1; 2; 5; 2]%Z) (fun h =>
    match h_bins h with
    | [b; c] => Beqb (b_left b : double) (Bz 1) && Beqb (b_right b : double) (Bz 3) && Nat.eqb (b_count b) 4 &&
                Beqb (b_left c : double) (Bz 5) && Nat.eqb (b_count c) 1
    | _ => false
    end) = true.
Proof. vm_compute. reflexivity. Qed.

(** C70: the cumulated counts are the empirical distribution at the right edges. *)
Theorem C70_cdf_is_empirical_distribution :
  forall (numBins windowSize : nat) (xs : list R) (h : hist RA) (k : nat) (b : bin RA),
    update_all hist_update (hist_new (A := RA) numBins windowSize true) xs = Ret h ->
    length xs <= windowSize -> separated (A := RA) xs -> nth_error (h_bins h) k = Some b ->
    nth_error (hist_cdf h true) k = Some (INR (upto (b_right b) xs) / INR (length xs))%R.
Proof. exact cdf_empirical. Qed.
Print Assumptions C70_cdf_is_empirical_distribution.

Theorem C70_cumulated_counts_double :
  forall (numBins windowSize : nat) (xs : list double) (h : hist B64) (k : nat) (b : bin B64),
    update_all hist_update (hist_new (A := B64) numBins windowSize true) xs = Ret h ->
    length xs <= windowSize ->
    Forall (fun x => finite64 x = true /\ (Rabs (B2R x) <= bpow radix2 1022)%R) xs -> separated (A := B64) xs ->
    nth_error (h_bins h) k = Some b ->
    below (map b_count (h_bins h)) (S k) = upto (B2R (b_right b)) (map B2R xs).
Proof. exact upto_B64. Qed.
Print Assumptions C70_cumulated_counts_double.

Example C70_example : upto 3 [3; 1; 2; 5; 2]%R = 4.
Proof. exact five_upto. Qed.

(** C71: quantile inverts cdf, up to the bin: it returns the left edge. *)
Theorem C71_quantile_inverts_cdf :
  forall (numBins windowSize : nat) (xs : list R) (h : hist RA) (k : nat) (b : bin RA) (q : R),
    update_all hist_update (hist_new (A := RA) numBins windowSize true) xs = Ret h ->
    length xs <= windowSize -> 2 <= hist_size h ->
    nth_error (h_bins h) k = Some b -> nth_error (hist_cdf h true) k = Some q ->
    hist_quantile h q = Ret (b_left b).
Proof. exact quantile_inverts. Qed.
Print Assumptions C71_quantile_inverts_cdf.

(** Past the first bin the answer is computed from the bin before the one that
    contains the requested rank. *)
Theorem C71_quantile_bracket :
  forall (numBins windowSize : nat) (xs : list R) (h : hist RA) (q : R) (b0 : bin RA),
    update_all hist_update (hist_new (A := RA) numBins windowSize true) xs = Ret h ->
    length xs <= windowSize -> separated (A := RA) xs -> 2 <= hist_size h ->
    nth_error (h_bins h) 0 = Some b0 ->
    (INR (upto (b_right b0) xs) < q * INR (length xs) < INR (length xs))%R ->
    exists k b b', nth_error (h_bins h) k = Some b /\ nth_error (h_bins h) (S k) = Some b' /\
      (INR (upto (b_right b) xs) <= q * INR (length xs) < INR (upto (b_right b') xs))%R /\
      (hist_quantile h q = Ret (b_left b) \/
       hist_quantile h q = Ret (b_left b +
         (if Req_EM_T (b_right b) (b_left b) then / INR numBins else b_right b - b_left b) *
         (INR (inside (b_left b') (b_right b') xs) / INR (inside (b_left b) (b_right b) xs)))%R).
Proof. exact quantile_bracket. Qed.
Print Assumptions C71_quantile_bracket.

Example C71_example :
  exists h b0 q, update_all hist_update (hist_new (A := RA) 2 5 true) [3; 1; 2; 5; 2]%R = Ret h /\
    nth_error (h_bins h) 0 = Some b0 /\ 2 <= hist_size h /\
    (INR (upto (b_right b0) [3; 1; 2; 5; 2]%R) < q * INR 5 < INR 5)%R.
Proof. exact five_first. Qed.
