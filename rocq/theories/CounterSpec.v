(** Vocabulary for the statement about the history counters. *)

From Coq Require Import List.
From Verif Require Import Outcome.
Import ListNotations.

(** A client observes values and asks for the estimate in any order. *)
Inductive stat_op (X : Type) : Type :=
| Observe (x : X)
| Ask.
Arguments Observe {X} x.
Arguments Ask {X}.

Fixpoint stat_run {S X V : Type} (update : S -> X -> outcome S) (evaluate : S -> outcome (S * V))
         (s : S) (os : list (stat_op X)) : outcome S :=
  match os with
  | [] => Ret s
  | Observe x :: os' => let* s' := update s x in stat_run update evaluate s' os'
  | Ask :: os' => let* (s', _) := evaluate s in stat_run update evaluate s' os'
  end.

(** The number of observations. *)
Fixpoint observed {X : Type} (os : list (stat_op X)) : nat :=
  match os with
  | [] => 0
  | Observe _ :: os' => S (observed os')
  | Ask :: os' => observed os'
  end.
