(** Counting values, for the statements about merged histograms. *)

From Coq Require Import List Reals.
Import ListNotations.

(** Number of values between two bounds, inclusive. *)
Definition inside (lo hi : R) (xs : list R) : nat :=
  length (filter (fun x => if Rle_dec lo x then (if Rle_dec x hi then true else false) else false) xs).

(** Number of values up to a bound. *)
Definition upto (hi : R) (xs : list R) : nat :=
  length (filter (fun x => if Rle_dec x hi then true else false) xs).
