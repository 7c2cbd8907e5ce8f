(** What failing allocations may do, in terms of the observations. *)

From Coq Require Import List.
From Verif Require Import Arith Spec AllocFail.
Import ListNotations.

Section Spec.
  Context {A : arith}.

  (** The window after an event: a successful update appends its observation and
      drops the oldest of more than [W]; a failing one makes room and appends
      nothing. *)
  Definition win_react (W : nat) (q : list A) (e : mean_event A) : list A :=
    match e with
    | MeanOk x => lastn W (q ++ [x])
    | MeanFail _ => lastn (W - 1) q
    end.
  Definition win_run (W : nat) (es : list (mean_event A)) : list A :=
    fold_left (win_react W) es [].

  (** Failures to record an index in the window of a histogram. *)
  Definition lost_index (e : hist_event A) : nat :=
    match e with HistFailWindow _ => 1 | _ => 0 end.
  Definition lost_indices (es : list (hist_event A)) : nat := list_sum (map lost_index es).
End Spec.
