(** Element types whose copies can throw: RingBuffer<T> and LinkedList<T> when an
    assignment, a copy or the transfer of a result of type T ends with an
    exception (RingBuffer.tcc:19-37, 77-95; LinkedList.tcc:31-54, 103-117,
    Node.tcc:11-15). Nothing in these functions catches it; the lock_guard
    releases the mutex. What the call has done up to that point stays done. *)

From Coq Require Import List NArith Bool.
From stdpp Require Import gmap.
From Verif Require Import Outcome Calls RingBuffer LinkedList.
Import ListNotations.

(** ** RingBuffer *)

Section Ring.
  Context {T : Type} (dflt : T).

  Inductive ring_event : Type :=
  | RCall (c : rcall T)                      (* nothing throws *)
  | RAssignThrows (x : T) (junk : option T)  (* update(x): line 25 throws; the cell keeps its value or is left as given *)
  | RCopyThrows                              (* pop(): line 86 throws, or T() in line 83 *)
  | RReturnThrows.                           (* pop(): handing out l_item in line 94 throws *)

  (** RingBuffer.tcc:25, nothing after it is reached. *)
  Definition rb_assign_throws (s : ring T) (junk : option T) : outcome (ring T) :=
    let* old := at_ (rb_buf s) (N.to_nat (rb_head s)) in
    let* buf := store (rb_buf s) (N.to_nat (rb_head s)) (match junk with None => old | Some j => Some j end) in
    Ret (Ring (rb_window s) buf (rb_head s) (rb_tail s) (rb_full s) (rb_history s)).

  (** The state after the event and what the client gets; [None] is the
      exception. *)
  Definition rb_react (s : ring T) (e : ring_event) : outcome (ring T * option (rout T)) :=
    match e with
    | RCall c => let* (s', o) := rb_call dflt s c in Ret (s', Some o)
    | RAssignThrows _ junk => let* s' := rb_assign_throws s junk in Ret (s', None)
    | RCopyThrows => Ret (s, None)
    | RReturnThrows => let* (s', _) := rb_pop dflt s in Ret (s', None)
    end.

  Fixpoint rb_reacts (s : ring T) (es : list ring_event) : outcome (ring T * list (option (rout T))) :=
    match es with
    | [] => Ret (s, [])
    | e :: es' =>
        let* (s1, o) := rb_react s e in
        let* (s2, os) := rb_reacts s1 es' in
        Ret (s2, o :: os)
    end.
End Ring.
Arguments ring_event : clear implicits.

(** ** LinkedList *)

Section List_.
  Context {T : Type} (dflt : T).

  (** Here m_size can leave the length of the list behind, so it is kept modulo
      2^64 beside the model of LinkedList.v, whose own size field is not used. *)
  Record xlist : Type := XList {
    xl_list : llist T;
    xl_size : N           (* m_size *)
  }.

  Definition xl_new (windowSize : nat) : xlist := XList (ll_new windowSize) 0.

  (** LinkedList.tcc:34-46: the new node is linked in. *)
  Definition ll_link (s : llist T) (item : T) : outcome (llist T) :=
    let l := ll_fresh s in
    let heap0 := <[ l := Node item None None ]> (ll_heap s) in
    if ll_empty s
    then Ret (LList (ll_window s) (Some l) (Some l) (ll_size s) (ll_history s) heap0 (S l))
    else
      let* (t, tn) := deref heap0 (ll_tail s) in
      let heap1 := <[ t := Node (n_value tn) (Some l) (n_prev tn) ]> heap0 in
      let heap2 := <[ l := Node item None (Some t) ]> heap1 in
      Ret (LList (ll_window s) (ll_head s) (Some l) (ll_size s) (ll_history s) heap2 (S l)).

  Definition ll_count (s : llist T) : llist T :=      (* line 53 *)
    LList (ll_window s) (ll_head s) (ll_tail s) (ll_size s) (S (ll_history s)) (ll_heap s) (ll_fresh s).

  Definition inc64 (n : N) : N := wrap64 (n + 1).
  Definition dec64 (n : N) : N := wrap64 (n + (two64 - 1)).

  (** LinkedList.tcc:103-117. *)
  Definition xl_pop (s : xlist) : outcome (xlist * T) :=
    let* (l, v) := ll_pop dflt (xl_list s) in
    Ret (XList l (if ll_empty (xl_list s) then xl_size s else dec64 (xl_size s)), v).

  (** How the copy of the evicted value in pop, called from update, ends. *)
  Inductive evict : Type := EvictOk | EvictCopyThrows | EvictReturnThrows.

  (** LinkedList.tcc:31-54; [false]: left by the exception. *)
  Definition xl_update (ev : evict) (s : xlist) (item : T) : outcome (xlist * bool) :=
    let* l1 := ll_link (xl_list s) item in
    let s1 := XList l1 (xl_size s) in
    if negb (ll_empty (xl_list s)) && (xl_size s =? N.of_nat (ll_window (xl_list s)))%N then
      match ev with
      | EvictOk => let* (s2, _) := xl_pop s1 in Ret (XList (ll_count (xl_list s2)) (inc64 (xl_size s2)), true)
      | EvictCopyThrows => Ret (s1, false)            (* line 111 *)
      | EvictReturnThrows => let* (s2, _) := xl_pop s1 in Ret (s2, false)   (* line 116 *)
      end
    else Ret (XList (ll_count l1) (inc64 (xl_size s)), true).

  Inductive list_event : Type :=
  | LCall (c : rcall T)                 (* nothing throws *)
  | LNodeThrows (x : T)                 (* update(x): allocating or copying into the node, line 34 *)
  | LEvictThrows (ev : evict) (x : T)   (* update(x): if it evicts, the pop inside ends as given *)
  | LCopyThrows                         (* pop(): line 111 throws, or T() in line 107 *)
  | LReturnThrows.                      (* pop(): handing out l_value in line 116 throws *)

  Definition xl_react (s : xlist) (e : list_event) : outcome (xlist * option (rout T)) :=
    match e with
    | LCall (CUpdate x) => let* (s', _) := xl_update EvictOk s x in Ret (s', Some OUnit)
    | LCall CPop => let* (s', v) := xl_pop s in Ret (s', Some (OVal v))
    | LCall CReset => let* l := ll_reset (xl_list s) in Ret (XList l 0, Some OUnit)
    | LCall CSize => Ret (s, Some (ONum (xl_size s)))
    | LCall CEmpty => Ret (s, Some (OBool (ll_empty (xl_list s))))
    | LCall CFull => Ret (s, Some (OBool (ll_full (xl_list s))))
    | LNodeThrows _ => Ret (s, None)
    | LEvictThrows ev x => let* (s', b) := xl_update ev s x in Ret (s', if b then Some OUnit else None)
    | LCopyThrows => Ret (s, None)
    | LReturnThrows => let* (s', _) := xl_pop s in Ret (s', None)
    end.

  Fixpoint xl_reacts (s : xlist) (es : list list_event) : outcome (xlist * list (option (rout T))) :=
    match es with
    | [] => Ret (s, [])
    | e :: es' =>
        let* (s1, o) := xl_react s e in
        let* (s2, os) := xl_reacts s1 es' in
        Ret (s2, o :: os)
    end.
End List_.
Arguments xlist : clear implicits.
Arguments list_event : clear implicits.
Arguments xl_new {T}.
