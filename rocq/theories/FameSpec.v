(** Vocabulary for the statements about WindowedFAME and StreamingMAD. *)

From Coq Require Import List Reals.
From Verif Require Import Arith Fame.

(** Feeding a stream. *)
Definition fame_run {A : arith} (s : fame A) (xs : list A) : fame A := fold_left fame_update xs s.
Definition mad_run {A : arith} (s : mad A) (xs : list A) : mad A := fold_left mad_update xs s.

Definition sgn (r : R) : R := if Rlt_dec r 0 then -1 else if Rlt_dec 0 r then 1 else 0.

(** The deviation of observation number [i] from the median estimate that
    already includes it. *)
Definition deviation {A : arith} (median : fame A) (xs : list A) (i : nat) : A :=
  fabs (nth i xs (of_Z 0) -. fame_evaluate (fame_run median (firstn (S i) xs)))%num.
Definition deviations {A : arith} (median : fame A) (xs : list A) : list A :=
  map (deviation median xs) (seq 0 (length xs)).

(** How many of the observations [ys], fed to [s], were larger (smaller) than the
    estimate they met. *)
Fixpoint larger (s : fame RA) (ys : list R) : nat :=
  match ys with
  | nil => 0
  | y :: ys' => (if Rlt_dec (fame_evaluate s) y then 1 else 0) + larger (fame_update s y) ys'
  end.
Fixpoint smaller (s : fame RA) (ys : list R) : nat :=
  match ys with
  | nil => 0
  | y :: ys' => (if Rlt_dec y (fame_evaluate s) then 1 else 0) + smaller (fame_update s y) ys'
  end.
