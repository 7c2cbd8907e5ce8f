(** Streams that grow an arithmetic progression at either end. *)

From Coq Require Import List Reals Permutation.
Import ListNotations.
Open Scope R_scope.

(** [ramp b lo xs]: the first five items are lo', lo' + b, ..., lo' + 4 b in some
    order, and every further item continues the progression at its upper or its
    lower end; [lo] is the smallest item. *)
Inductive ramp (b : R) : R -> list R -> Prop :=
| ramp_five lo xs : Permutation xs [lo; lo + b; lo + 2 * b; lo + 3 * b; lo + 4 * b] -> ramp b lo xs
| ramp_up lo xs : ramp b lo xs -> ramp b lo (xs ++ [lo + b * INR (length xs)])
| ramp_down lo xs : ramp b lo xs -> ramp b (lo - b) (xs ++ [lo - b]).
