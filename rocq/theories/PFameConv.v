(** Properties C76-C77: WindowedFAME on streams that become constant, and with a
    step that is not positive. *)

From Coq Require Import List Reals ZArith Lra Lia Bool Arith.
From Flocq Require Import Core.Core IEEE754.BinarySingleNaN.
From Verif Require Import Outcome Arith Fame FameSpec FloatSpec FameConv FameDead.
Import ListNotations.
Open Scope R_scope.

(** C76: the rate. [n] observations bring the estimate within two steps, each
    further one halves the distance (up to the growth by epsilon). *)
Theorem C76_fame_rate :
  forall (step eps : R) s (xs : list R) (c : R) (n k : nat),
    fame_new (A := RA) step eps = Ret s -> 0 < step -> xs <> [] ->
    let a := fame_run s xs in
    Rabs (c - fame_evaluate a) < (INR n + 2) * f_step a ->
    Rabs (c - fame_evaluate (fame_run s (xs ++ repeat c (n + k)))) < 2 * f_step a * ((1 + eps) ^ (n + k) / 2 ^ k).
Proof. exact fame_rate. Qed.
Print Assumptions C76_fame_rate.

Theorem C76_fame_converges :
  forall (step eps : R) s (xs : list R) (c e : R),
    fame_new (A := RA) step eps = Ret s -> 0 < step -> xs <> [] -> 0 < e ->
    exists N, forall j, (N <= j)%nat -> Rabs (c - fame_evaluate (fame_run s (xs ++ repeat c j))) < e.
Proof. exact fame_converges. Qed.
Print Assumptions C76_fame_converges.

Example C76_example : exists s, fame_new (A := RA) (1 / 10) 0 = Ret s /\
  fame_evaluate (fame_run s [4]) = 4 /\ f_step (fame_run s [4]) = 2 /\
  Rabs (9 - fame_evaluate (fame_run s [4])) < (INR 1 + 2) * f_step (fame_run s [4]).
Proof. exact fame_rate_case. Qed.

(** C77: the step size is not checked; with one that is not positive (NaN
    included) a first observation of zero is the answer for ever. *)
Theorem C77_fame_dead_refuted :
  forall (step eps : double) s (z : double) (xs : list double),
    fame_new (A := B64) step eps = Ret s -> nan eps = false -> Bltb (Bz 0) step = false ->
    match z with B754_zero _ => true | _ => false end = true ->
    match fame_evaluate (fame_run s (z :: xs)) with B754_zero _ => true | _ => false end = true.
Proof. exact fame_dead. Qed.
Print Assumptions C77_fame_dead_refuted.

Example C77_example :
  match fame_new (A := B64) (Bz (-1)) (Bz 0) with
  | Ret s => Beqb (fame_evaluate (fame_run s [Bz 0; Bz 7; Bz 8; Bz 9])) (Bz 0) | _ => false end = true /\
  Bltb (Bz 0) (Bz (-1)) = false /\ nan (Bz 0) = false.
Proof. repeat split; vm_compute; reflexivity. Qed.
