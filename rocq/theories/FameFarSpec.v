(** Vocabulary for the statement about far observations. *)

From Coq Require Import List Reals.
From Verif Require Import FloatSpec.
Import ListNotations.
Open Scope R_scope.

(** Two streams that agree on the observations in [lo, hi]; the [k] others are,
    in both streams, on the same side and more than [up] above, or [down] below. *)
Inductive same_but_far {X} (val : X -> R) (inside : X -> Prop) (down up : R) : nat -> list X -> list X -> Prop :=
| far_nil : same_but_far val inside down up 0 [] []
| far_in k x xs ys : inside x -> same_but_far val inside down up k xs ys ->
    same_but_far val inside down up k (x :: xs) (x :: ys)
| far_up k x y xs ys : up < val x -> up < val y -> same_but_far val inside down up k xs ys ->
    same_but_far val inside down up (S k) (x :: xs) (y :: ys)
| far_down k x y xs ys : val x < down -> val y < down -> same_but_far val inside down up k xs ys ->
    same_but_far val inside down up (S k) (x :: xs) (y :: ys).

(** [k + 1] rounded additions of [s] to [b]. *)
Definition climb (s b : R) (k : nat) : R := Nat.iter (k + 1) (fun v => rnd (v + s)) b.
