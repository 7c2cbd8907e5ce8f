(** Vocabulary for the number of steps of concurrent RingBuffer calls. *)

From Coq Require Import List NArith Bool Arith.
From Verif Require Import Outcome Calls RingBuffer RingBufferConc.
Import ListNotations.

Section Spec.
  Context {T : Type} (dflt : T).

  (** How many of the scheduled turns are used: turns of a thread that has
      nothing to do or waits for the mutex are not. *)
  Fixpoint moves (c : config T) (sched : list nat) : nat :=
    match sched with
    | [] => 0
    | i :: sched' =>
        match step dflt c i with
        | None => moves c sched'
        | Some (Ret c') => S (moves c' sched')
        | Some _ => 1
        end
    end.

  (** The accesses to data members on the longest path of each method, plus one
      step to enter (and lock) and one to return (and unlock). *)
  Definition call_steps (c : rcall T) : nat :=
    match c with
    | CUpdate _ => 14
    | CPop => 10
    | CReset => 5
    | CSize => 7
    | CEmpty => 5
    | CFull => 3
    end.

  Definition steps_of (calls : list (rcall T)) : nat := list_sum (map call_steps calls).

  (** The longest path of all the programs together. *)
  Definition total_steps (programs : list (list (rcall T))) : nat :=
    list_sum (map steps_of programs).

  (** A round gives a turn to each of the [n] threads that is not stopped and to
      none that is. *)
  Definition round_of (n : nat) (stopped : nat -> Prop) (r : list nat) : Prop :=
    (forall i, i < n -> ~ stopped i -> In i r) /\ (forall i, In i r -> ~ stopped i).
End Spec.
