(** C125: RingBuffer<T> and LinkedList<T> for element types whose copies throw. *)

From Coq Require Import List NArith Arith.
From Verif Require Import Outcome Calls RingBuffer LinkedList Spec ThrowCopy ThrowSpec ThrowFacts.
Import ListNotations.

(** RingBuffer: any history of calls, each possibly ending with an exception,
    answers like the queue that loses nothing by a failed copy, loses the oldest
    item when handing it out fails, and whose oldest item is overwritten when a
    failed assignment leaves something else in its cell while the queue is full.
    Only updates that return are counted. *)
Theorem C125_ring :
  forall (T : Type) (dflt : T) (W : nat) (es : list (ring_event T)),
    1 <= W -> (N.of_nat W < 2 ^ 64)%N ->
    exists s, rb_reacts dflt (rb_new (N.of_nat W)) es = Ret (s, snd (rq_events W dflt [] es)) /\
      rb_history s = updates (ring_calls es).
Proof. exact @ring_throws. Qed.
Print Assumptions C125_ring.

(** If assignments that throw leave their target unchanged and handing out a
    result does not throw, a call that throws is as if it had not been made. *)
Theorem C125_ring_strong :
  forall (T : Type) (dflt : T) (W : nat) (es : list (ring_event T)),
    1 <= W -> (N.of_nat W < 2 ^ 64)%N -> strong_events es ->
    exists s os t, rb_reacts dflt (rb_new (N.of_nat W)) es = Ret (s, os) /\
      rb_run dflt (rb_new (N.of_nat W)) (ring_calls es) = Ret (t, handed os).
Proof. exact @ring_strong. Qed.
Print Assumptions C125_ring_strong.

(** Otherwise not: after a failed update of a full buffer, pop returns a value
    that was never given to it. *)
Theorem C125_ring_refuted :
  exists (es : list (ring_event nat)) s,
    ring_calls es = [CUpdate 1; CUpdate 2; CPop] /\
    rb_reacts 0 (rb_new 2) es = Ret (s, [Some OUnit; Some OUnit; None; Some (OVal 99)]).
Proof.
  exact (ex_intro _ [RCall (CUpdate 1); RCall (CUpdate 2); RAssignThrows 3 (Some 99); RCall CPop]
    (ex_intro _ _ (conj eq_refl eq_refl))).
Qed.
Print Assumptions C125_ring_refuted.

(** LinkedList: an eviction that throws inside update leaves the new item linked
    (or the size one short) and widens the window by one for good. After k of them
    since the last reset the list is a queue of capacity W + k, and size() reports
    its length minus k modulo 2^64. *)
Theorem C125_list :
  forall (T : Type) (dflt : T) (W : nat) (es : list (list_event T)),
    1 <= W -> (N.of_nat (W + length es) < 2 ^ 64)%N -> lq_resets_ok W dflt [] 0 es ->
    let '(q, k, os) := lq_events W dflt [] 0 es in
    exists s, xl_reacts dflt (xl_new W) es = Ret (s, os) /\ ll_display (xl_list s) = Ret q /\
      ll_history (xl_list s) = list_done es os.
Proof. exact @list_throws. Qed.
Print Assumptions C125_list.

(** Exceptions anywhere else leave the list as if the call had not been made. *)
Theorem C125_list_strong :
  forall (T : Type) (dflt : T) (W : nat) (es : list (list_event T)),
    1 <= W -> (N.of_nat (W + length es) < 2 ^ 64)%N -> lq_resets_ok W dflt [] 0 es -> list_strong es ->
    exists s os t, xl_reacts dflt (xl_new W) es = Ret (s, os) /\
      ll_run dflt (ll_new W) (list_calls es) = Ret (t, handed os).
Proof. exact @list_strong_calls. Qed.
Print Assumptions C125_list_strong.

(** Window 2: the failed update has stored its item; the list then keeps three
    items while size() says 2, and once they are popped size() is 2^64 - 1 for an
    empty list. *)
Theorem C125_list_refuted :
  exists (es : list (list_event nat)) s,
    list_calls es = [CUpdate 1; CUpdate 2; CUpdate 4; CSize; CPop; CPop; CPop; CEmpty; CSize] /\
    xl_reacts 0 (xl_new 2) es =
      Ret (s, [Some OUnit; Some OUnit; None; Some OUnit; Some (ONum 2%N); Some (OVal 2); Some (OVal 3); Some (OVal 4);
               Some (OBool true); Some (ONum (2 ^ 64 - 1)%N)]).
Proof. exact list_window_grows. Qed.
Print Assumptions C125_list_refuted.

Example C125_example :
  strong_events [RCall (CUpdate 1); RAssignThrows 2 None; RCopyThrows; RCall (CUpdate 3); RCall CPop] /\
  handed (snd (rq_events 2 0 [] [RCall (CUpdate 1); RAssignThrows 2 None; RCopyThrows; RCall (CUpdate 3); RCall CPop])) =
    [OUnit; OUnit; OVal 1] /\
  lq_resets_ok 2 0 [] 0 [LCall (CUpdate 1); LNodeThrows 5; LCopyThrows; LCall CReset; LCall (CUpdate 6)] /\
  list_strong [LCall (CUpdate 1); LNodeThrows 5; LCopyThrows; LCall CReset; LCall (CUpdate 6)].
Proof. repeat split; repeat constructor; discriminate. Qed.

(** A reset restores the window. *)
Example C125_reset_example :
  lq_events 1 0 [] 0 [LCall (CUpdate 1); LEvictThrows EvictReturnThrows 2; LCall (CUpdate 3); LCall CSize; LCall CReset;
                      LCall (CUpdate 4); LCall (CUpdate 5); LCall CSize] =
  ([5], 0, [Some OUnit; None; Some OUnit; Some (ONum 1%N); Some OUnit; Some OUnit; Some OUnit; Some (ONum 1%N)]).
Proof. vm_compute. reflexivity. Qed.
