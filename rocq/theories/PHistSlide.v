(** Property: how long the histogram remembers (C92). *)

From Coq Require Import List Reals Arith.
From Flocq Require Import IEEE754.BinarySingleNaN.
From Verif Require Import Outcome Arith IBin Histogram Spec HistSpec HistSlideSpec FloatSpec P2Witness HistSlide.
Import ListNotations.
Local Open Scope nat_scope.

(** C92. The deque of indices starts with W zeros in it, so it always holds W more
    indices than there are observations in the window, for every arithmetic. *)
Theorem C92_indices_kept :
  forall (A : arith) (numBins W : nat) (xs : list A) h,
    update_all hist_update (hist_new numBins W true) xs = Ret h ->
    exists w, h_window h = Some w /\ length w = W + Nat.min (length xs) W.
Proof. exact @queue_length. Qed.
Print Assumptions C92_indices_kept.

(** Hence an observation leaves after 2 W updates instead of W: whenever the
    stored indices are not invalidated by insertions, the counts are those of the
    last 2 W observations, except that the smallest value is charged for the
    zeros. *)
Theorem C92_twice_the_window :
  forall (numBins W : nat) (xs : list double),
    1 <= W -> Forall (fun x => finite64 x = true) xs ->
    separated (A := B64) xs -> few (A := B64) numBins xs -> rising_news (A := B64) xs ->
    exists h, update_all hist_update (hist_new (A := B64) numBins W true) xs = Ret h /\
      counts_last (A := B64) (2 * W) xs h.
Proof. exact slide_B64. Qed.
Print Assumptions C92_twice_the_window.

Theorem C92_twice_the_window_exact :
  forall (numBins W : nat) (xs : list R),
    1 <= W -> separated (A := RA) xs -> few (A := RA) numBins xs -> rising_news (A := RA) xs ->
    exists h, update_all hist_update (hist_new (A := RA) numBins W true) xs = Ret h /\
      counts_last (A := RA) (2 * W) xs h.
Proof. exact slide_RA. Qed.
Print Assumptions C92_twice_the_window_exact.

(** And the counts no longer add up to the total, which binCounts reports as an
    exception, unless the smallest value makes up for it. *)
Theorem C92_bincounts_throws :
  forall (numBins W : nat) (x0 : double) (xs : list double) h,
    1 <= W -> Forall (fun x => finite64 x = true) (x0 :: xs) ->
    separated (A := B64) (x0 :: xs) -> few (A := B64) numBins (x0 :: xs) -> rising_news (A := B64) (x0 :: xs) ->
    update_all hist_update (hist_new (A := B64) numBins W true) (x0 :: xs) = Ret h ->
    Nat.min (length (x0 :: xs)) W + occurrences (A := B64) x0 (lastn (2 * W) (x0 :: xs))
      < Nat.min (length (x0 :: xs)) (2 * W) ->
    hist_binCounts h = Throw RuntimeError.
Proof. exact slide_throw_B64. Qed.
Print Assumptions C92_bincounts_throws.

(** 1, 2, 2, 2, 2, 2, 2, 2 with a window of 3: the total is 3, the counts add up
    to 6. *)
Example C92_example :
  Forall (fun x => finite64 x = true) slide_stream /\ separated (A := B64) slide_stream /\
  few (A := B64) 2 slide_stream /\ rising_news (A := B64) slide_stream /\
  ok (update_all hist_update (hist_new (A := B64) 2 3 true) slide_stream)
     (fun h => Nat.eqb (hist_totalCount h) 3 && Nat.eqb (list_sum (map (@snd _ nat) (hist_report h))) 6)%bool = true.
Proof. exact slide_case. Qed.
