(** Vocabulary: the same histogram in another unit. *)

From Coq Require Import List Reals.
From Verif Require Import Outcome Arith IBin Histogram.

(** The edges of every bin multiplied by [a], everything else unchanged. *)
Definition scale_bin (a : R) (b : bin RA) : bin RA :=
  Bin (A := RA) (a * b_left b)%R (a * b_right b)%R (b_count b).
Definition scale_hist (a : R) (h : hist RA) : hist RA :=
  Hist (h_numBins h) (h_windowSize h) (h_decay h) (map (scale_bin a) (h_bins h)) (h_window h)
       (h_total h) (h_history h) (h_news h) (h_deletes h).

(** Numbers whose differences stay well below the largest double. *)
Definition modest (x : R) : Prop := (Rabs x <= dbl_max (a := RA) / 4)%R.
