(** C117: which results depend on the order of the observations. *)

From Coq Require Import List Reals ZArith Bool Arith Permutation Lra Lia.
From Flocq Require Import Core.Core IEEE754.BinarySingleNaN.
From Verif Require Import Outcome Arith Utils IBin Histogram Entropy Mean Fame P2 Spec HistSpec EntropySpec MeanSpec FloatSpec P2Witness HistWitness OrderFacts.
From Verif Require PHist.
Import ListNotations.
Local Open Scope nat_scope.

(** Exact arithmetic: mean and variance depend on the window's contents only. *)
Theorem C117_mean :
  forall (windowSize : nat) (xs ys : list R), Permutation (window_of windowSize xs) (window_of windowSize ys) ->
    exists s t, update_all (mean_update (A := RA)) (mean_new windowSize) xs = Ret s /\
      update_all (mean_update (A := RA)) (mean_new windowSize) ys = Ret t /\
      mean_evaluate (A := RA) s = mean_evaluate (A := RA) t.
Proof. exact mean_order. Qed.
Print Assumptions C117_mean.

Theorem C117_variance :
  forall (windowSize : nat) (xs ys : list R), Permutation (window_of windowSize xs) (window_of windowSize ys) ->
    exists s t, update_all (variance_update (A := RA)) (variance_new windowSize) xs = Ret s /\
      update_all (variance_update (A := RA)) (variance_new windowSize) ys = Ret t /\
      variance_evaluate (A := RA) s = variance_evaluate (A := RA) t.
Proof. exact variance_order. Qed.
Print Assumptions C117_variance.

Example C117_window_example : Permutation (window_of 2 [7; 1; 2]%R) (window_of 2 [2; 1]%R).
Proof. exact (perm_swap 2%R 1%R []). Qed.

(** In doubles this is so for integers whose window sums stay below 2^53. *)
Theorem C117_mean_integers_double :
  forall (windowSize : nat) (B : Z) (zs ws : list Z), (1 <= B)%Z -> zs <> [] -> length ws = length zs ->
    Forall (fun z => Z.abs z <= B)%Z (zs ++ ws) ->
    (B * Z.of_nat (match windowSize with O => length zs | _ => windowSize end) <= 2 ^ 53)%Z ->
    Permutation (window_of windowSize zs) (window_of windowSize ws) ->
    exists s t, update_all (mean_update (A := B64)) (mean_new windowSize) (map Bz zs) = Ret s /\
      update_all (mean_update (A := B64)) (mean_new windowSize) (map Bz ws) = Ret t /\
      finite64 (mean_evaluate (A := B64) s) = true /\ finite64 (mean_evaluate (A := B64) t) = true /\
      B2R (mean_evaluate (A := B64) s) = B2R (mean_evaluate (A := B64) t).
Proof. exact mean_order_int. Qed.
Print Assumptions C117_mean_integers_double.

Example C117_mean_integers_example :
  Forall (fun z => Z.abs z <= 9)%Z ([7; 1; -2] ++ [9; -2; 1])%Z /\ (9 * Z.of_nat 2 <= 2 ^ 53)%Z /\
  Permutation (window_of 2 [7; 1; -2]%Z) (window_of 2 [9; -2; 1]%Z).
Proof. split; [repeat constructor; cbn; lia|]. split; [cbn; lia|]. exact (perm_swap (-2)%Z 1%Z []). Qed.

(** Separated values, enough bins, inside the window: the histogram's report and
    counts do not depend on the order. *)
Theorem C117_histogram :
  forall (numBins windowSize : nat) (xs ys : list R), Permutation xs ys ->
    length xs <= windowSize -> separated (A := RA) xs -> few (A := RA) numBins xs ->
    exists h g, update_all hist_update (hist_new (A := RA) numBins windowSize true) xs = Ret h /\
      update_all hist_update (hist_new (A := RA) numBins windowSize true) ys = Ret g /\
      hist_report h = hist_report g /\ hist_binCounts h = hist_binCounts g.
Proof. exact hist_order. Qed.
Print Assumptions C117_histogram.

Theorem C117_histogram_double :
  forall (numBins windowSize : nat) (xs ys : list double), Permutation xs ys ->
    length xs <= windowSize -> Forall (fun x => finite64 x = true) xs -> separated (A := B64) xs -> few (A := B64) numBins xs ->
    exists h g, update_all hist_update (hist_new (A := B64) numBins windowSize true) xs = Ret h /\
      update_all hist_update (hist_new (A := B64) numBins windowSize true) ys = Ret g /\
      map (fun e => (B2R (fst (fst e) : double), B2R (snd (fst e) : double), snd e)) (hist_report h) =
      map (fun e => (B2R (fst (fst e) : double), B2R (snd (fst e) : double), snd e)) (hist_report g) /\
      hist_binCounts h = hist_binCounts g.
Proof. exact hist_order_B64. Qed.
Print Assumptions C117_histogram_double.

(** Nor does the entropy. *)
Theorem C117_entropy :
  forall (windowSize numBins B : nat) (xs ys : list R), Permutation xs ys ->
    1 <= numBins /\ B = numBins \/ numBins = 0 /\ 1 <= windowSize /\ B = Nat.log2_up windowSize + 1 ->
    length xs <= windowSize -> separated (A := RA) xs -> few (A := RA) B xs ->
    exists e0 s t, entropy_new (A := RA) windowSize numBins = Ret e0 /\ update_all (entropy_update log2R) e0 xs = Ret s /\
      update_all (entropy_update log2R) e0 ys = Ret t /\ entropy_evaluate s = entropy_evaluate t.
Proof. exact entropy_order. Qed.
Print Assumptions C117_entropy.

Example C117_separated_example :
  Permutation [2; 1; 2]%R [1; 2; 2]%R /\ separated (A := RA) [2; 1; 2]%R /\ few (A := RA) 2 [2; 1; 2]%R.
Proof. split; [exact (perm_swap 1%R 2%R [2%R])|exact PHist.C26_example]. Qed.

(** P2: the first five observations may come in any order; whatever follows, the
    state is the same. *)
Theorem C117_p2_first_five :
  forall (q : R) (s0 : p2 RA) (xs ys zs : list R), p2_new (A := RA) q = Ret s0 -> length xs = 5 -> Permutation xs ys ->
    update_all p2_update s0 (xs ++ zs) = update_all p2_update s0 (ys ++ zs).
Proof. exact p2_order_five. Qed.
Print Assumptions C117_p2_first_five.

Theorem C117_p2_first_five_double :
  forall (q : double) (s0 : p2 B64) (xs ys zs : list double), p2_new (A := B64) q = Ret s0 ->
    length xs = 5 -> Permutation xs ys -> Forall (fun x => x <> B754_zero true) xs ->
    update_all p2_update s0 (xs ++ zs) = update_all p2_update s0 (ys ++ zs).
Proof. exact p2_order_five_B64. Qed.
Print Assumptions C117_p2_first_five_double.

Theorem C117_windowed_p2_first_five_double :
  forall (q : double) (windowSize : nat) (s0 : wp2 B64) (xs ys zs : list double), wp2_new (A := B64) q windowSize = Ret s0 ->
    5 <= windowSize -> length xs = 5 -> Permutation xs ys -> Forall (fun x => x <> B754_zero true) xs ->
    update_all wp2_update s0 (xs ++ zs) = update_all wp2_update s0 (ys ++ zs).
Proof. exact wp2_order_five_B64. Qed.
Print Assumptions C117_windowed_p2_first_five_double.

Example C117_p2_example :
  Permutation (map Bz [3; 1; 2; 0; 7]%Z) (map Bz [7; 0; 2; 1; 3]%Z) /\
  Forall (fun x => x <> B754_zero true) (map Bz [3; 1; 2; 0; 7]%Z).
Proof.
  split; [exact (Permutation_rev (map Bz [3; 1; 2; 0; 7]%Z))|].
  repeat (constructor; [intros E; apply (f_equal B2SF) in E; vm_compute in E; discriminate E|]). constructor.
Qed.

(** Refuted: the mean of doubles in general; the histogram when values are closer
    than the tolerance or bins run out; P2 from the sixth observation; FAME. *)
Theorem C117_mean_refuted :
  exists (xs ys : list double) (s t : mean B64), Permutation xs ys /\ xs = [@lit B64 1 10; @lit B64 2 10; @lit B64 3 10] /\
    update_all mean_update (mean_new (A := B64) 100) xs = Ret s /\ update_all mean_update (mean_new (A := B64) 100) ys = Ret t /\
    Beqb (mean_evaluate s) (mean_evaluate t) = false.
Proof. exact mean_order_matters. Qed.
Print Assumptions C117_mean_refuted.

Theorem C117_histogram_refuted :
  (exists h g : hist B64, hist_stream 10 100 [10000; 10001; 10002]%Z = Ret h /\ hist_stream 10 100 [10002; 10001; 10000]%Z = Ret g /\
    hist_size h = 2 /\ hist_size g = 3) /\
  (exists h g : hist B64, hist_stream 2 100 [1; 5; 8; 12]%Z = Ret h /\ hist_stream 2 100 [1; 5; 12; 8]%Z = Ret g /\
    hist_binCounts h = Ret [1; 3] /\ hist_binCounts g = Ret [3; 1]).
Proof. exact hist_order_matters. Qed.
Print Assumptions C117_histogram_refuted.

Theorem C117_p2_sixth_refuted :
  exists (s t s' t' : p2 B64) (u v : double), p2_stream Bhalf [1; 2; 3; 4; 5; 100]%Z = Ret s /\
    p2_stream Bhalf [100; 5; 4; 3; 2; 1]%Z = Ret t /\
    p2_evaluate s = Ret (s', u) /\ p2_evaluate t = Ret (t', v) /\ Beqb u v = false.
Proof. exact p2_order_matters. Qed.
Print Assumptions C117_p2_sixth_refuted.

Theorem C117_fame_refuted :
  exists (s0 : fame B64), fame_new (A := B64) (Bz 1) (Bz 0) = Ret s0 /\
    let run zs := fame_evaluate (fold_left fame_update (map Bz zs) s0) in
    Beqb (run [1; 9]%Z) (Bz 2) = true /\ Beqb (run [9; 1]%Z) (lit (A := B64) 9 2) = true.
Proof. exact fame_order_matters. Qed.
Print Assumptions C117_fame_refuted.
