(** Properties C79-C80: histogram and entropy in another unit of measurement. *)

From Coq Require Import List Reals Lra Lia Bool Arith.
From Verif Require Import Outcome Arith Utils IBin Histogram Entropy Spec AskSpec ScaleSpec EntropySpec HistScale.
Import ListNotations.
Open Scope R_scope.

(** C79: in exact arithmetic, multiplying all observations by [a > 0] multiplies
    the bin edges by [a] and changes nothing else. *)
Theorem C79_hist_scale :
  forall (a : R) (numBins windowSize : nat) (decay : bool) (xs : list R),
    0 < a -> Forall (fun x => modest x /\ modest (a * x)) xs ->
    update_all hist_update (hist_new (A := RA) numBins windowSize decay) (map (Rmult a) xs) =
    omap (scale_hist a) (update_all hist_update (hist_new (A := RA) numBins windowSize decay) xs).
Proof. exact (fun a N W d xs Ha F => proj1 (hist_scale a Ha N W d xs F)). Qed.
Print Assumptions C79_hist_scale.

Theorem C79_hist_scale_counts :
  forall (a : R) (numBins windowSize : nat) (decay : bool) (xs : list R) (normalize : bool),
    0 < a -> Forall (fun x => modest x /\ modest (a * x)) xs ->
    let run ys := update_all hist_update (hist_new (A := RA) numBins windowSize decay) ys in
    bind (run (map (Rmult a) xs)) hist_binCounts = bind (run xs) hist_binCounts /\
    omap (fun h => hist_cdf h normalize) (run (map (Rmult a) xs)) = omap (fun h => hist_cdf h normalize) (run xs).
Proof. exact (fun a N W d xs n Ha => hist_scale_counts a Ha N W d xs n). Qed.
Print Assumptions C79_hist_scale_counts.

(** Quantiles follow if every bin has a width. *)
Theorem C79_quantile_scale :
  forall (a : R) (h : hist RA) (q : R), 0 < a ->
    Forall (fun b => b_left b <> b_right b) (h_bins h) ->
    hist_quantile (scale_hist a h) q = omap (Rmult a) (hist_quantile h q).
Proof. exact (fun a h q Ha => quantile_sb a Ha h q). Qed.
Print Assumptions C79_quantile_scale.

(** They do not if a bin holds a single value: its width is then taken to be
    1 / numBins, in whatever unit. *)
Theorem C79_quantile_scale_refuted :
  forall (a x y q : R) (numBins windowSize n : nat), 0 < a -> a <> 1 ->
    definitelyLessThan (A := RA) x y (@default_eps RA) = true -> (2 <= numBins)%nat -> (1 <= n)%nat -> (S n <= windowSize)%nat ->
    1.001 / INR (S n) <= q < 1 ->
    exists h h' v v',
      update_all hist_update (hist_new (A := RA) numBins windowSize true) (x :: repeat y n) = Ret h /\
      update_all hist_update (hist_new (A := RA) numBins windowSize true) (map (Rmult a) (x :: repeat y n)) = Ret h' /\
      hist_quantile h q = Ret v /\ hist_quantile h' q = Ret v' /\ v' <> a * v.
Proof. exact quantile_not_scaled. Qed.
Print Assumptions C79_quantile_scale_refuted.

(** A shift is not harmless: it changes the number of bins. *)
Theorem C79_hist_shift_refuted :
  exists (b : R) (numBins windowSize : nat) (xs : list R),
    omap hist_size (update_all hist_update (hist_new (A := RA) numBins windowSize true) xs) = Ret 2%nat /\
    omap hist_size (update_all hist_update (hist_new (A := RA) numBins windowSize true) (map (Rplus b) xs)) = Ret 1%nat.
Proof. exact (ex_intro _ 100000 (ex_intro _ 2%nat (ex_intro _ 2%nat (ex_intro _ [1; 2] shift_merges)))). Qed.
Print Assumptions C79_hist_shift_refuted.

Example C79_example :
  Forall (fun x => modest x /\ modest (1000 * x)) [1; 2; 10; 11] /\
  (exists h, update_all hist_update (hist_new (A := RA) 2 9 true) [1; 2; 10; 11] = Ret h /\
    h_bins h = [Bin (A := RA) 1 2 2; Bin (A := RA) 10 11 2]) /\
  definitelyLessThan (A := RA) 1 2 (@default_eps RA) = true /\ 1.001 / INR 10 <= 1 / 2 < 1.
Proof.
  split; [|split; [exact wide_example|split; [apply eps_less; lra|cbn; lra]]].
  repeat (apply Forall_cons; [split; apply modest_small; rewrite Rabs_pos_eq; lra|]). apply Forall_nil.
Qed.

(** C80: the entropy does not depend on the unit, whatever std::log2 computes. *)
Theorem C80_entropy_scale :
  forall (a : R) (log2 : R -> R) (windowSize numBins : nat) (xs : list R),
    0 < a -> Forall (fun x => modest x /\ modest (a * x)) xs ->
    let answer ys := let* s0 := entropy_new (A := RA) windowSize numBins in
                     omap entropy_evaluate (update_all (entropy_update (A := RA) log2) s0 ys) in
    answer (map (Rmult a) xs) = answer xs.
Proof. exact (fun a lg W N xs Ha => entropy_scale_answer a Ha lg W N xs). Qed.
Print Assumptions C80_entropy_scale.

(** Runs that return a value exist (see C57). *)
Example C80_example : exists v,
  (let* s0 := entropy_new (A := RA) 4 2 in
   omap entropy_evaluate (update_all (entropy_update (A := RA) log2R) s0 [2; 1; 2])) = Ret v.
Proof. exact entropy_case. Qed.
