(** C116: a change of unit by a power of two, in doubles. *)

From Coq Require Import List Reals ZArith Bool Arith Lra Lia.
From Flocq Require Import Core.Core IEEE754.BinarySingleNaN.
From Verif Require Import Outcome Arith Utils IBin Histogram Entropy Mean P2 Spec FloatSpec AskSpec P2Witness UnitSpec UnitHist UnitMean UnitP2 UnitWitness.
Import ListNotations.
Local Open Scope nat_scope.

(** The histogram of the same data in the other unit has the same bins in the other
    unit, with the same counts, shares and search results; and the same exceptions. *)
Theorem C116_histogram :
  forall (k : Z) (numBins windowSize : nat) (decay : bool) (xs : list double), Forall (measured k 800) xs ->
    update_all hist_update (hist_new (A := B64) numBins windowSize decay) (map (ldexp64 k) xs) =
      omap (ldexp_hist k) (update_all hist_update (hist_new (A := B64) numBins windowSize decay) xs) /\
    forall h, update_all hist_update (hist_new (A := B64) numBins windowSize decay) xs = Ret h ->
      (forall n, hist_pdf (ldexp_hist k h) n false = hist_pdf h n false) /\
      (forall n, hist_cdf (ldexp_hist k h) n = hist_cdf h n) /\
      hist_binCounts (ldexp_hist k h) = hist_binCounts h /\
      (forall i, hist_getBin (ldexp_hist k h) i = omap (ldexp_bin k) (hist_getBin h i)) /\
      (forall x, measured k 800 x -> hist_binSearch (ldexp_hist k h) (ldexp64 k x) = hist_binSearch h x) /\
      hist_report (ldexp_hist k h) =
        map (fun e => (ldexp64 k (fst (fst e)), ldexp64 k (snd (fst e)), snd e)) (hist_report h).
Proof. exact hist_unit. Qed.
Print Assumptions C116_histogram.

(** The entropy does not change by a single bit, whatever log2 returns. *)
Theorem C116_entropy :
  forall (k : Z) (log2 : double -> double) (windowSize numBins : nat) (xs : list double), Forall (measured k 800) xs ->
    let answer ys := let* s0 := entropy_new (A := B64) windowSize numBins in
                     omap entropy_evaluate (update_all (entropy_update log2) s0 ys) in
    answer (map (ldexp64 k) xs) = answer xs.
Proof. exact entropy_ldexp_answer. Qed.
Print Assumptions C116_entropy.

(** The mean of the same data in the other unit is the mean in the other unit. *)
Theorem C116_mean :
  forall (k e : Z) (windowSize : nat) (xs : list double), (0 <= e <= 800)%Z -> (Z.abs k <= 2 * e)%Z ->
    (Z.of_nat (length xs) < 2 ^ 64)%Z -> Forall (measured k e) xs ->
    exists s s', update_all mean_update (mean_new (A := B64) windowSize) xs = Ret s /\
      update_all mean_update (mean_new (A := B64) windowSize) (map (ldexp64 k) xs) = Ret s' /\
      mean_evaluate s' = ldexp64 k (mean_evaluate s) /\ measured k (e + 118) (mean_evaluate s).
Proof. exact mean_ldexp. Qed.
Print Assumptions C116_mean.

(** The variance scales with the square. *)
Theorem C116_variance :
  forall (k : Z) (windowSize : nat) (xs : list double), (Z.abs k <= 600)%Z ->
    (Z.of_nat (length xs) < 2 ^ 64)%Z -> Forall (measured k 300) xs ->
    exists s s', update_all variance_update (variance_new (A := B64) windowSize) xs = Ret s /\
      update_all variance_update (variance_new (A := B64) windowSize) (map (ldexp64 k) xs) = Ret s' /\
      variance_evaluate s' = ldexp64 (2 * k) (variance_evaluate s).
Proof. exact variance_ldexp. Qed.
Print Assumptions C116_variance.

(** So does P2 for positive data: same answer in the other unit, and the same
    exceptions and undefined behaviour. *)
Theorem C116_p2 :
  forall (k : Z) (q : double) (xs : list double), Forall (measured_pos k 500) xs ->
    let answer ys := let* s0 := p2_new (A := B64) q in let* s := update_all p2_update s0 ys in
                     let* (_, v) := p2_evaluate s in Ret v in
    answer (map (ldexp64 k) xs) = omap (ldexp64 k) (answer xs).
Proof. exact p2_ldexp. Qed.
Print Assumptions C116_p2.

(** Bytes to kibibytes: such data exist, and the new numbers are the old ones / 1024. *)
Example C116_example :
  Forall (measured_pos (-10) 300) [Bz 1536; Bz 700; Bz 12345678] /\
  Forall (measured (-10) 800) [Bz 1536; Bz 700; Bz 12345678] /\
  ldexp64 (-10) (Bz 1536) = @lit B64 3 2 /\ ldexp64 (-10) (Bz 12345678) = Bquot (Bz 12345678) (Bz 1024).
Proof. exact unit_example. Qed.

(** Refuted: any change of unit. 0.9999 and 1 metre are one bin, 999.9 and 1000
    millimetres are two; and the mean of 0.1 and
    0.2 times ten is not the mean of 1 and 2. *)
Theorem C116_any_unit_refuted :
  exists (c : double) (xs : list double) (h h' : hist B64), c = Bz 1000 /\ xs = [@lit B64 9999 10000; Bz 1] /\
    update_all hist_update (hist_new (A := B64) 10 100 true) xs = Ret h /\
    update_all hist_update (hist_new (A := B64) 10 100 true) (map (Bmul c) xs) = Ret h' /\
    hist_size h = 1 /\ hist_size h' = 2.
Proof. exact any_unit_hist. Qed.
Print Assumptions C116_any_unit_refuted.

Theorem C116_any_unit_mean_refuted :
  exists (c : double) (xs : list double) (s s' : mean B64), c = Bz 10 /\ xs = [@lit B64 1 10; @lit B64 2 10] /\
    update_all mean_update (mean_new (A := B64) 100) xs = Ret s /\
    update_all mean_update (mean_new (A := B64) 100) (map (Bmul c) xs) = Ret s' /\
    mean_evaluate s' <> Bmul c (mean_evaluate s).
Proof. exact any_unit_mean. Qed.
Print Assumptions C116_any_unit_mean_refuted.
