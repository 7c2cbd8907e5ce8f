(** Specification vocabulary of the windowed moments. *)

From Coq Require Import List Reals ZArith.
From Verif Require Import Spec.
Import ListNotations.
Open Scope R_scope.

Fixpoint rsum (l : list R) : R := match l with [] => 0 | x :: l' => x + rsum l' end.
Definition avg (l : list R) : R := match l with [] => 0 | _ => rsum l / INR (length l) end.
(** Population variance: the mean squared distance to the mean. *)
Definition pvar (l : list R) : R := avg (map (fun x => (x - avg l) ^ 2) l).

(** The observations a statistic with the given window size looks at; 0 means all. *)
Definition window_of {X : Type} (W : nat) (xs : list X) : list X :=
  match W with O => xs | S _ => lastn W xs end.

Definition zsum (l : list Z) : Z := fold_right Z.add 0%Z l.
