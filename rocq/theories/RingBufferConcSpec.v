(** Vocabulary for stating what concurrent executions of a RingBuffer do. *)

From Coq Require Import List Arith NArith Bool.
From Verif Require Import Calls RingBufferConc.
Import ListNotations.

(** The calls that run under the mutex a thread has completed, with their results. *)
Definition locked_done {T} (th : thread T) : list (rcall T * rout T) :=
  filter (fun co => locked (fst co)) (t_done th).

(** The part of a global history belonging to thread [i]. *)
Definition of_thread {X} (i : nat) (h : list (nat * X)) : list X :=
  map snd (filter (fun p => Nat.eqb (fst p) i) h).

(** All calls of a thread: completed, in progress, still to come. *)
Definition thread_calls {T} (th : thread T) : list (rcall T) :=
  map fst (t_done th) ++ match t_cur th with Some (c, _) => [c] | None => [] end ++ t_todo th.

(** The thread has completed all its calls. *)
Definition finished {T} (th : thread T) : Prop := t_cur th = None /\ t_todo th = [].

(** ** Data races *)

(** The shared places of a RingBuffer other than m_windowSize (never written) and
    the mutex. *)
Inductive place : Type := AtHead | AtTail | AtFull | AtCell (i : N) | AtHistory.

(** What a call in progress does next: the place, and whether it writes there. *)
Definition next_access {T} (p : prog T) : option (place * bool) :=
  match p with
  | Done _ | Fail _ => None
  | ReadHead _ => Some (AtHead, false)
  | ReadTail _ => Some (AtTail, false)
  | ReadFull _ => Some (AtFull, false)
  | ReadCell i _ => Some (AtCell i, false)
  | ReadHist _ => Some (AtHistory, false)
  | WriteHead _ _ => Some (AtHead, true)
  | WriteTail _ _ => Some (AtTail, true)
  | WriteFull _ _ => Some (AtFull, true)
  | WriteCell i _ _ => Some (AtCell i, true)
  | WriteHist _ _ => Some (AtHistory, true)
  end.

(** Two threads, in the middle of the calls [a] and [b], are both about to access
    the same place, one of them writing: a data race. *)
Definition race {T} (c : config T) (a b : rcall T) : Prop :=
  exists i j ti tj p q l w w',
    i <> j /\ nth_error (c_threads c) i = Some ti /\ nth_error (c_threads c) j = Some tj /\
    t_cur ti = Some (a, p) /\ t_cur tj = Some (b, q) /\
    next_access p = Some (l, w) /\ next_access q = Some (l, w') /\ (w = true \/ w' = true).
