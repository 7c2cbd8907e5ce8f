(** Vocabulary for the statements about the entropy. *)

From Coq Require Import List Reals.
From Verif Require Import HistSpec.
Import ListNotations.

(** The exact binary logarithm. *)
Definition log2R (x : R) : R := (ln x / ln 2)%R.

(** Relative frequency of [v] in [xs]. *)
Definition share (xs : list R) (v : R) : R :=
  (INR (count_occ Req_EM_T xs v) / INR (length xs))%R.

(** Shannon entropy of the empirical distribution, [vs] being the distinct values. *)
Definition shannon (xs vs : list R) : R :=
  (- Rsum (map (fun v => share xs v * log2R (share xs v)) vs))%R.
