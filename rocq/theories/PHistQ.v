(** Properties C27, C30, C31: pdf, cdf and quantile of the histogram. *)

From Coq Require Import List Sorting.Sorted Arith Bool Lia ZArith Reals Lra.
From Flocq Require Import Core.Core IEEE754.BinarySingleNaN.
From Verif Require Import Outcome Arith Utils IBin Histogram Spec HistSpec FloatSpec
  HistFacts HistStreams HistQuant HistWitness P2Witness.
Import ListNotations.
Local Open Scope nat_scope.

(** C27: the entries in exact arithmetic. *)
Theorem C27_pdf_entries :
  forall (h : hist RA) (nz : bool),
    hist_pdf h true false = map (fun b => INR (b_count b) / INR (h_total h))%R (h_bins h) /\
    hist_pdf h false false = map (fun b => INR (b_count b)) (h_bins h) /\
    hist_pdf h nz true = map (fun b => INR (b_count b) / (INR (h_total h) * widthR b))%R (h_bins h).
Proof. exact pdf_entries. Qed.
Print Assumptions C27_pdf_entries.

Theorem C27_pdf_nonnegative :
  forall (h : hist RA) (nz d : bool), Forall (fun p : R => (0 <= p)%R) (hist_pdf h nz d).
Proof. exact pdf_nonneg_RA. Qed.
Print Assumptions C27_pdf_nonnegative.

(** cdf entry k is the share of the first k+1 bins. *)
Theorem C27_cdf_running_sums :
  forall (h : hist RA) (nz : bool) (k : nat), k < hist_size h ->
    nth_error (hist_cdf h nz) k =
    Some (Rsum (firstn (S k) (hist_pdf h nz false))).
Proof. exact cdf_running. Qed.
Print Assumptions C27_cdf_running_sums.

(** Inside the window the masses add up to one, and so does the density. *)
Theorem C27_masses_sum_to_one :
  forall (numBins windowSize : nat) (xs : list R) (h : hist RA) (nz : bool),
    update_all hist_update (hist_new numBins windowSize true) xs = Ret h -> 1 <= length xs <= windowSize ->
    Rsum (hist_pdf h true false) = 1%R /\
    nth_error (hist_cdf h true) (hist_size h - 1) = Some 1%R /\
    Rsum (map (fun p => (fst p * snd p)%R) (combine (hist_pdf h nz true) (map widthR (h_bins h)))) = 1%R.
Proof. exact masses_sum. Qed.
Print Assumptions C27_masses_sum_to_one.

(** In doubles: entries are finite and non-negative, cdf never decreases. *)
Theorem C27_cdf_monotone_double :
  forall (h : hist B64) (nz : bool),
    1 <= h_total h -> (Z.of_nat (h_total h) < 2 ^ 64)%Z ->
    Forall (fun b => (Z.of_nat (b_count b) < 2 ^ 64)%Z) (h_bins h) ->
    Forall (fun y : double => finite64 y = true /\ (0 <= B2R y)%R) (hist_pdf h nz false) /\
    Forall nonneg (hist_cdf h nz) /\ StronglySorted (fun x y => X x <= X y)%R (hist_cdf h nz).
Proof. exact (fun h nz H1 H2 H3 => conj (pdf_B64 h nz H1 H2 H3) (cdf_B64 h nz H1 H2 H3)). Qed.
Print Assumptions C27_cdf_monotone_double.

(** The last cdf entry in doubles is one up to 2^-21. *)
Theorem C27_cdf_last_double :
  forall h : hist B64, h_total h = counts_sum h -> Forall (fun b => 1 <= b_count b) (h_bins h) ->
    1 <= hist_size h -> (Z.of_nat (hist_size h) <= 2 ^ 32)%Z -> (Z.of_nat (h_total h) <= 2 ^ 53)%Z ->
    exists s : double, nth_error (hist_cdf h true) (hist_size h - 1) = Some s /\ nonneg s /\
      (1 - bpow radix2 (-21) <= X s)%R.
Proof. exact cdf_last_B64. Qed.
Print Assumptions C27_cdf_last_double.

Example C27_example :
  ok (hist_stream 3 10 [1; 2; 2; 5; 9; 9]%Z) (fun h =>
    Nat.eqb (h_total h) 6 && Nat.eqb (counts_sum h) 6 && Nat.eqb (hist_size h) 3 &&
    forallb (fun b => Nat.leb 1 (b_count b)) (h_bins h) &&
    match hist_cdf h true with [a; b; c] => Bltb (a : double) b && Bltb (b : double) c | _ => false end) = true.
Proof. vm_compute. reflexivity. Qed.

(** C30: quantile throws exactly for q outside [0,1]. *)
Theorem C30_throws_outside :
  forall (A : arith) (h : hist A) (q : A),
    (exists e, hist_quantile h q = Throw e) <-> ltb q zero = true \/ ltb (of_Z 1%Z) q = true.
Proof. exact quantile_throws_iff. Qed.
Print Assumptions C30_throws_outside.

(** Its value, for histograms inside the window with at least two bins. *)
Theorem C30_quantile_value :
  forall (numBins windowSize : nat) (xs : list R) (h : hist RA) (q : R),
    update_all hist_update (hist_new numBins windowSize true) xs = Ret h ->
    length xs <= windowSize -> 2 <= hist_size h -> (0 <= q <= 1)%R ->
    let cs := map b_count (h_bins h) in
    exists k b, selected cs q k /\ nth_error (h_bins h) k = Some b /\
      (essentiallyEqual (A := RA) q (Fcum cs k) default_eps = true /\ hist_quantile h q = Ret (b_left b) \/
       essentiallyEqual (A := RA) q (Fcum cs k) default_eps = false /\
       exists b', nth_error (h_bins h) (k + 1) = Some b' /\
         hist_quantile h q = Ret (b_left b +
           (if Req_EM_T (b_right b) (b_left b) then / INR numBins else b_right b - b_left b) *
           (INR (b_count b') / INR (b_count b)))%R).
Proof. exact run_quantile_RA. Qed.
Print Assumptions C30_quantile_value.

(** In doubles every q the check lets through, even NaN, is served. *)
Theorem C30_quantile_safe_double :
  forall (numBins windowSize : nat) (xs : list double) (h : hist B64) (q : double),
    update_all hist_update (hist_new numBins windowSize true) xs = Ret h ->
    length xs <= windowSize -> 2 <= hist_size h ->
    (Z.of_nat numBins <= 2 ^ 32)%Z -> (Z.of_nat (length xs) <= 2 ^ 53)%Z ->
    Bltb q (Bz 0) = false -> Bltb (Bz 1) q = false ->
    exists v, hist_quantile h q = Ret v.
Proof. exact run_quantile_B64. Qed.
Print Assumptions C30_quantile_safe_double.

Example C30_example :
  ok (hist_stream 5 10 [1; 2; 3; 4; 5; 6; 7; 8; 9; 10]%Z) (fun h =>
    Nat.eqb (hist_size h) 5 &&
    ok (hist_quantile h (lit (A := B64) 92 100)) (fun v => Bltb (Bz 9) (v : double) && Bltb (v : double) (Bz 10))) = true.
Proof. vm_compute. reflexivity. Qed.

(** C31 *)
Theorem C31_empty_undefined :
  forall (A : arith) (numBins windowSize : nat) (q : A), (ltb q zero || ltb (of_Z 1%Z) q = false)%bool ->
    hist_quantile (hist_new (A := A) numBins windowSize true) q = Undef OutOfBounds.
Proof. exact (fun A N W q => empty_quantile N W q). Qed.
Print Assumptions C31_empty_undefined.

Theorem C31_single_value_stream :
  forall (x q : R) (numBins windowSize n : nat), 1 <= numBins -> 1 <= windowSize -> 1 <= n ->
    exists h, update_all hist_update (hist_new (A := RA) numBins windowSize true) (repeat x n) = Ret h /\
      hist_quantile h q =
      (if Rltb q 0 || Rltb 1 q then Throw RuntimeError
       else if essentiallyEqual (A := RA) q 1%R default_eps then Ret x else Undef OutOfBounds).
Proof. exact constant_quantile_RA. Qed.
Print Assumptions C31_single_value_stream.

Theorem C31_single_value_stream_double :
  forall (x q : double) (numBins windowSize n : nat), finite64 x = true ->
    1 <= numBins -> 1 <= windowSize -> 1 <= n -> (Z.of_nat windowSize < 2 ^ 64)%Z ->
    exists h, update_all hist_update (hist_new (A := B64) numBins windowSize true) (repeat x n) = Ret h /\
      hist_quantile h q =
      (if Bltb q (Bz 0) || Bltb (Bz 1) q then Throw RuntimeError
       else if essentiallyEqual (A := B64) q (Bz 1) default_eps then Ret x else Undef OutOfBounds).
Proof. exact constant_quantile_B64. Qed.
Print Assumptions C31_single_value_stream_double.

Theorem C31_not_monotone_refuted :
  exists h (u v : double),
    update_all hist_update (hist_new (A := B64) 3 10 true) (map Bz [1; 2]%Z) = Ret h /\
    hist_quantile h (lit (A := B64) 45 100) = Ret u /\ hist_quantile h (lit (A := B64) 50 100) = Ret v /\
    Bltb v u = true.
Proof. exact quantile_not_monotone. Qed.
Print Assumptions C31_not_monotone_refuted.

Example C31_example :
  essentiallyEqual (A := B64) (lit 1 2) (Bz 1) default_eps = false /\
  essentiallyEqual (A := B64) (Bz 1) (Bz 1) default_eps = true.
Proof. split; vm_compute; reflexivity. Qed.
