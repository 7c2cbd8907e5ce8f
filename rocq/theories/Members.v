(** Assignments to public data members: m_windowSize of the containers
    (IDataStructure.h:67, public and not const), m_window of the statistics
    (IStreaming.h:84 and getWindow(), IStreaming.h:79) and their m_historyCount
    (IStreaming.h:94). *)

From Coq Require Import List NArith.
From Verif Require Import Outcome Arith Calls RingBuffer LinkedList Histogram Mean.
Import ListNotations.

(** A client's action: a call, or [obj.m_windowSize = w]. *)
Inductive mcall (T : Type) : Type :=
  | MCall (c : rcall T)
  | MWindow (w : N).
Arguments MCall {T} c.
Arguments MWindow {T} w.

(** IDataStructure.h:67. The buffer is not reallocated. *)
Definition rb_set_window {T} (s : ring T) (w : N) : ring T :=
  Ring w (rb_buf s) (rb_head s) (rb_tail s) (rb_full s) (rb_history s).

Definition rb_act {T} (dflt : T) (s : ring T) (c : mcall T) : outcome (ring T * rout T) :=
  match c with
  | MCall c => rb_call dflt s c
  | MWindow w => Ret (rb_set_window s w, OUnit)
  end.
Fixpoint rb_acts {T} (dflt : T) (s : ring T) (cs : list (mcall T)) : outcome (ring T * list (rout T)) :=
  match cs with
  | [] => Ret (s, [])
  | c :: cs' =>
      let* (s1, o) := rb_act dflt s c in
      let* (s2, os) := rb_acts dflt s1 cs' in
      Ret (s2, o :: os)
  end.

Definition ll_set_window {T} (s : llist T) (w : nat) : llist T :=
  LList w (ll_head s) (ll_tail s) (ll_size s) (ll_history s) (ll_heap s) (ll_fresh s).

Definition ll_act {T} (dflt : T) (s : llist T) (c : mcall T) : outcome (llist T * rout T) :=
  match c with
  | MCall c => ll_call dflt s c
  | MWindow w => Ret (ll_set_window s (N.to_nat w), OUnit)
  end.
Fixpoint ll_acts {T} (dflt : T) (s : llist T) (cs : list (mcall T)) : outcome (llist T * list (rout T)) :=
  match cs with
  | [] => Ret (s, [])
  | c :: cs' =>
      let* (s1, o) := ll_act dflt s c in
      let* (s2, os) := ll_acts dflt s1 cs' in
      Ret (s2, o :: os)
  end.

Definition hist_set_window {A : arith} (h : hist A) (w : nat) : hist A :=
  Hist (h_numBins h) w (h_decay h) (h_bins h) (h_window h) (h_total h) (h_history h) (h_news h) (h_deletes h).

(** IStreaming.h:84: edit the deque ([Some]), or assign a null pointer ([None]). *)
Definition mean_set_window {A : arith} (s : mean A) (w : option (list A)) : mean A :=
  Mean w (mn_wsize s) (mn_history s) (mn_sum s).

(** IStreaming.h:94. *)
Definition mean_set_history {A : arith} (s : mean A) (n : nat) : mean A :=
  Mean (mn_window s) (mn_wsize s) n (mn_sum s).
