(** Vocabulary for the entropy of a sliding window. *)

From Coq Require Import List Reals.
From Verif Require Import EntropySpec.
Import ListNotations.

(** What the [k]-th occurrence of a value adds to the sum of p log2 p in a window of [W]. *)
Definition gain (W k : nat) : R :=
  (INR k / INR W * log2R (INR k / INR W) - INR (k - 1) / INR W * log2R (INR (k - 1) / INR W))%R.

(** Two values [b] and then 2 W values [c], again and again. *)
Definition burst (W : nat) (b c : R) : list R := b :: b :: repeat c (2 * W).
Definition bursts (W n : nat) (a b c : R) : list R :=
  (a :: burst W b c) ++ concat (repeat (burst W b c) n).
