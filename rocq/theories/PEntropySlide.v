(** The entropy of a sliding window when new values only appear above the old ones. *)

From Coq Require Import List Sorting.Sorted Arith Bool Lia Reals Lra.
From Verif Require Import Outcome Arith Utils IBin Histogram Entropy Spec HistSpec HistSlideSpec EntropySpec EntropySlideSpec
  UtilsFacts EntropySlide.
Import ListNotations.
Local Open Scope nat_scope.

(** C96 *)
Theorem C96_sliding_safe : forall (W N : nat) (xs : list R),
  1 <= N -> 1 <= W -> separated (A := RA) xs -> few (A := RA) N xs -> rising_news (A := RA) xs ->
  exists e0 e, entropy_new (A := RA) W N = Ret e0 /\ update_all (entropy_update log2R) e0 xs = Ret e.
Proof. exact slide_safe. Qed.
Print Assumptions C96_sliding_safe.

Theorem C96_sliding_formula : forall (W N : nat) (xs : list R) (x y z : R) e0 e e',
  1 <= N -> 2 <= W ->
  separated (A := RA) (xs ++ [x]) -> few (A := RA) N (xs ++ [x]) -> rising_news (A := RA) (xs ++ [x]) ->
  entropy_new (A := RA) W N = Ret e0 -> update_all (entropy_update log2R) e0 xs = Ret e ->
  entropy_update log2R e x = Ret e' ->
  W <= length xs -> nth_error xs (length xs - W) = Some y -> In z xs -> (z < y)%R -> (z < x)%R ->
  entropy_evaluate e' = (entropy_evaluate e + gain W (occurrences (A := RA) y (lastn (2 * W) xs))
                          - gain W (occurrences (A := RA) x (lastn (2 * W) (xs ++ [x]))))%R.
Proof. exact slide_formula. Qed.
Print Assumptions C96_sliding_formula.

Theorem C96_entropy_unbounded : forall (a b c : R) (N W : nat),
  definitelyLessThan (A := RA) a b default_eps = true -> definitelyLessThan (A := RA) b c default_eps = true ->
  3 <= N -> 2 <= W ->
  forall M : R, exists n e0 e, entropy_new (A := RA) W N = Ret e0 /\
    update_all (entropy_update log2R) e0 (bursts W n a b c) = Ret e /\ (M < entropy_evaluate e)%R /\
    shannon (lastn W (bursts W n a b c)) [c] = 0%R.
Proof. exact bursts_unbounded. Qed.
Print Assumptions C96_entropy_unbounded.

Lemma less12 : definitelyLessThan (A := RA) 1%R 2%R default_eps = true.
Proof. apply RA_less. unfold default_eps, lit. cbn. unfold Rmax, Rabs. repeat destruct Rcase_abs; destruct Rle_dec; lra. Qed.
Lemma less23 : definitelyLessThan (A := RA) 2%R 3%R default_eps = true.
Proof. apply RA_less. unfold default_eps, lit. cbn. unfold Rmax, Rabs. repeat destruct Rcase_abs; destruct Rle_dec; lra. Qed.

(** A window of two that has seen only 3 for four observations reports more than a thousand bits. *)
Example C96_thousand_bits : exists n e0 e, entropy_new (A := RA) 2 3 = Ret e0 /\
    update_all (entropy_update log2R) e0 (bursts 2 n 1 2 3) = Ret e /\ (1000 < entropy_evaluate e)%R /\
    shannon (lastn 2 (bursts 2 n 1 2 3)) [3%R] = 0%R.
Proof. apply (C96_entropy_unbounded 1 2 3 3 2 less12 less23); lia. Qed.

(** The hypotheses of the first two theorems hold for the bursts. *)
Example C96_bursts_qualify : forall n, separated (A := RA) (bursts 2 n 1 2 3) /\ few (A := RA) 3 (bursts 2 n 1 2 3) /\
  rising_news (A := RA) (bursts 2 n 1 2 3).
Proof.
  intros n. pose proof (bursts_good 1 2 3 2 n) as G.  split; [|split].
  - apply (good_separated 1 2 3 less12 less23); auto.
  - apply (good_few 1 2 3 3); auto.
  - apply (good_rising 1 2 3 less12 less23); auto.
Qed.
