(** Vocabulary: objects that are asked between observations. *)

From Coq Require Import List Arith.
From Verif Require Import Outcome.
Import ListNotations.

(** An observation, or a call of evaluate() whose answer is thrown away. *)
Inductive w_op (X : Type) : Type := WUpdate (x : X) | WAsk.
Arguments WUpdate {X} x.
Arguments WAsk {X}.

Definition w_call {X S} (upd : S -> X -> outcome S) (ev : S -> outcome (S * X)) (s : S) (o : w_op X) : outcome S :=
  match o with
  | WUpdate x => upd s x
  | WAsk => let* (s', _) := ev s in Ret s'
  end.

Fixpoint w_calls {X S} (upd : S -> X -> outcome S) (ev : S -> outcome (S * X)) (s : S) (os : list (w_op X)) : outcome S :=
  match os with
  | [] => Ret s
  | o :: os' => let* s' := w_call upd ev s o in w_calls upd ev s' os'
  end.

Fixpoint observations {X} (os : list (w_op X)) : list X :=
  match os with
  | [] => []
  | WUpdate x :: os' => x :: observations os'
  | WAsk :: os' => observations os'
  end.

(** The estimator starts a new block after every [W + 1] observations; this many
    observations of the current block have arrived after [n]. *)
Definition in_block (W n : nat) : nat := Nat.modulo n (W + 1).

(** evaluate() is called only before the first or after the fifth observation of
    a block. *)
Definition asked_well {X} (W : nat) (os : list (w_op X)) : Prop :=
  forall os1 os2, os = os1 ++ WAsk :: os2 ->
    in_block W (length (observations os1)) = 0 \/ 5 <= in_block W (length (observations os1)).
