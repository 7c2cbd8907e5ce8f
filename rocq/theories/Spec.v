(** Specification vocabulary, independent of the models. *)

From Coq Require Import List NArith Arith Bool.
From Verif Require Import Outcome Calls.
Import ListNotations.

(** Calling [update] on the elements of a stream one after the other; stops at
    the first call that does not return. *)
Fixpoint update_all {S X : Type} (update : S -> X -> outcome S)
         (s : S) (xs : list X) : outcome S :=
  match xs with
  | [] => Ret s
  | x :: xs' => let* s' := update s x in update_all update s' xs'
  end.

(** The last [n] elements of a list (all of them if there are fewer). *)
Definition lastn {X : Type} (n : nat) (l : list X) : list X :=
  skipn (length l - n) l.

(** A queue that keeps at most the [W] most recent items, oldest first. The
    calls and results are those of the containers' public interface. *)
Definition q_call {T : Type} (W : nat) (dflt : T) (q : list T) (c : rcall T)
  : list T * rout T :=
  match c with
  | CUpdate x => (lastn W (q ++ [x]), OUnit)
  | CPop => match q with
            | [] => ([], OVal dflt)
            | x :: q' => (q', OVal x)
            end
  | CReset => ([], OUnit)
  | CSize => (q, ONum (N.of_nat (length q)))
  | CEmpty => (q, OBool (Nat.eqb (length q) 0))
  | CFull => (q, OBool (Nat.eqb (length q) W))
  end.

Fixpoint q_run {T : Type} (W : nat) (dflt : T) (q : list T) (cs : list (rcall T))
  : list T * list (rout T) :=
  match cs with
  | [] => (q, [])
  | c :: cs' =>
      let '(q1, o) := q_call W dflt q c in
      let '(q2, os) := q_run W dflt q1 cs' in
      (q2, o :: os)
  end.

(** A queue that evicts its oldest item when it already holds exactly [W] items;
    for [W = 0] nothing is ever evicted. Its full() means "not empty". *)
Definition q0_call {T : Type} (W : nat) (dflt : T) (q : list T) (c : rcall T)
  : list T * rout T :=
  match c with
  | CUpdate x => (match W with O => q ++ [x] | S _ => lastn W (q ++ [x]) end, OUnit)
  | CFull => (q, OBool (negb (Nat.eqb (length q) 0)))
  | _ => q_call W dflt q c
  end.

Fixpoint q0_run {T : Type} (W : nat) (dflt : T) (q : list T) (cs : list (rcall T))
  : list T * list (rout T) :=
  match cs with
  | [] => (q, [])
  | c :: cs' =>
      let '(q1, o) := q0_call W dflt q c in
      let '(q2, os) := q0_run W dflt q1 cs' in
      (q2, o :: os)
  end.

(** No reset is called while the queue is empty. *)
Fixpoint resets_ok {T : Type} (W : nat) (dflt : T) (q : list T) (cs : list (rcall T)) : Prop :=
  match cs with
  | [] => True
  | c :: cs' =>
      (match c with CReset => q <> [] | _ => True end) /\
      resets_ok W dflt (fst (q0_call W dflt q c)) cs'
  end.

(** The items that were retained at some reset of the history. *)
Fixpoint reset_items {T : Type} (W : nat) (dflt : T) (q : list T) (cs : list (rcall T)) : list T :=
  match cs with
  | [] => []
  | c :: cs' =>
      (match c with CReset => q | _ => [] end) ++
      reset_items W dflt (fst (q0_call W dflt q c)) cs'
  end.

(** The number of update calls in a history. *)
Definition updates {T : Type} (cs : list (rcall T)) : nat :=
  length (filter (fun c => match c with CUpdate _ => true | _ => false end) cs).

(** Histories without update calls. *)
Definition no_update {T : Type} (cs : list (rcall T)) : bool :=
  forallb (fun c => match c with CUpdate _ => false | _ => true end) cs.

(** Histories without full() calls. *)
Definition no_full {T : Type} (cs : list (rcall T)) : bool :=
  forallb (fun c => match c with CFull => false | _ => true end) cs.
