(** When one double is the negative of another. *)

From Flocq Require Import IEEE754.BinarySingleNaN.
From Verif Require Import Arith FloatSpec.

(** [y == -x] in C++, or both are NaN. So 0 and -0 are not told apart. *)
Definition opposite (x y : double) : Prop :=
  (nan x = true /\ nan y = true) \/ Beqb y (Bopp x) = true.
