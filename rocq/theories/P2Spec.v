(** Vocabulary for the statements about the P2 quantile estimators. *)

From Coq Require Import List Reals ZArith Sorting.Sorted.
From Flocq Require Import Core.Core IEEE754.BinarySingleNaN.
From Verif Require Import Outcome Arith P2.
Import ListNotations.

(** Arbitrary sequences of calls on a StreamingP2Quantile. *)
Inductive p2_op (A : arith) : Type :=
| PUpdate (x : A)
| PEvaluate
| PClear.
Arguments PUpdate {A} x.
Arguments PEvaluate {A}.
Arguments PClear {A}.

Definition p2_call {A : arith} (s : p2 A) (o : p2_op A) : outcome (p2 A) :=
  match o with
  | PUpdate x => p2_update s x
  | PEvaluate => let* (s', _) := p2_evaluate s in Ret s'
  | PClear => Ret (p2_clear s)
  end.

Fixpoint p2_calls {A : arith} (s : p2 A) (os : list (p2_op A)) : outcome (p2 A) :=
  match os with
  | [] => Ret s
  | o :: os' => let* s' := p2_call s o in p2_calls s' os'
  end.

Definition is_evaluate {A} (o : p2_op A) : bool := match o with PEvaluate => true | _ => false end.
Definition is_clear {A} (o : p2_op A) : bool := match o with PClear => true | _ => false end.

(** The number of observations among the calls. *)
Fixpoint n_updates {A} (os : list (p2_op A)) : nat :=
  match os with
  | [] => 0
  | PUpdate _ :: os' => S (n_updates os')
  | _ :: os' => n_updates os'
  end.

Definition strictly_increasing (n : list Z) : Prop := StronglySorted Z.lt n.

(** Ascending order of doubles. *)
Definition ascending (l : list double) : Prop := StronglySorted (fun a b => Bleb a b = true) l.

(** std::round, half away from zero. *)
Definition round_away (r : R) : Z := Znearest (Z.leb 0) r.

(** How many of the first [n] observations are not among the first five of their
    block of [W + 1]. *)
Definition late (W n : nat) : nat := length (filter (fun j => Nat.leb 5 (Nat.modulo j (W + 1))) (seq 0 n)).
