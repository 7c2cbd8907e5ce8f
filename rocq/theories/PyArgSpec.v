(** Equality of dict keys by value, for C100. *)

From Coq Require Import List Reals.
From Flocq Require Import IEEE754.BinarySingleNaN.
From Verif Require Import Arith FloatSpec FloatFacts.

Definition equal_keys (k1 k2 : double * double) : Prop := X (fst k1) = X (fst k2) /\ X (snd k1) = X (snd k2).
Definition number_key (k : double * double) : Prop := nan (fst k) = false /\ nan (snd k) = false.
