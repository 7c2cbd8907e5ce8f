(** Vocabulary for streams with NaN. *)

From Coq Require Import List.
From Verif Require Import Arith FloatSpec.

(** How many elements are NaN, and the others. *)
Definition nans (xs : list double) : nat := length (filter nan xs).
Definition numbers (xs : list double) : list double := filter (fun x => negb (nan x)) xs.
