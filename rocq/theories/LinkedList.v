(** Model of KML::DataStructures::LinkedList<T> and Node<T>
    (tools/cpp/KML/include/data_structures/LinkedList.{h,tcc}, Node.{h,tcc}).

    Nodes live in an explicit heap. A location that was never allocated or has
    been deleted is absent from the heap, so touching it is [Undef BadPointer];
    addresses are never reused, which makes every stale pointer visible. *)

From Coq Require Import List.
From stdpp Require Import gmap.
From Verif Require Import Outcome Calls RingBuffer.
Import ListNotations.

Definition loc := nat.
(** A pointer: [None] is nullptr. *)
Definition ptr := option loc.

Section LinkedList.
  Context {T : Type}.
  Context (dflt : T).      (* [T()], LinkedList.tcc:107 *)

  (** Node.h:30-40. *)
  Record node : Type := Node {
    n_value : T;
    n_next : ptr;
    n_prev : ptr
  }.

  (** LinkedList.h:100-115 and IDataStructure.h:67-72, together with the part of
      the heap holding nodes. [ll_fresh] is the next unused address. *)
  Record llist : Type := LList {
    ll_window : nat;         (* m_windowSize *)
    ll_head : ptr;           (* m_head *)
    ll_tail : ptr;           (* m_tail *)
    ll_size : nat;           (* m_size *)
    ll_history : nat;        (* m_historyCount *)
    ll_heap : gmap loc node;
    ll_fresh : loc
  }.

  (** LinkedList.tcc:11-16. *)
  Definition ll_new (windowSize : nat) : llist :=
    LList windowSize None None 0 0 ∅ 0.

  (** [p->member]: load the node a pointer designates. *)
  Definition deref (h : gmap loc node) (p : ptr) : outcome (loc * node) :=
    match p with
    | None => Undef NullDeref
    | Some l => match h !! l with
                | Some n => Ret (l, n)
                | None => Undef BadPointer
                end
    end.

  (** LinkedList.tcc:73-77. *)
  Definition ll_empty (s : llist) : bool :=
    match ll_head s with None => true | Some _ => false end.

  (** LinkedList.tcc:79-83. *)
  Definition ll_full (s : llist) : bool :=
    match ll_head s with None => false | Some _ => true end.

  (** LinkedList.tcc:85-89. *)
  Definition ll_getsize (s : llist) : nat := ll_size s.

  (** LinkedList.tcc:103-117. [m_size--] on an unsigned 0 would wrap; the
      invariant shows it never happens, here it is [Nat.pred]. *)
  Definition ll_pop (s : llist) : outcome (llist * T) :=
    if ll_empty s then Ret (s, dflt)
    else
      let* (l, n) := deref (ll_heap s) (ll_head s) in
      Ret (LList (ll_window s) (n_next n) (ll_tail s) (Nat.pred (ll_size s))
                 (ll_history s) (delete l (ll_heap s)) (ll_fresh s),
           n_value n).

  (** LinkedList.tcc:31-54; [new Node<T>(item)] is Node.tcc:11-15. *)
  Definition ll_update (s : llist) (item : T) : outcome llist :=
    let l := ll_fresh s in
    let heap0 := <[ l := Node item None None ]> (ll_heap s) in
    let* s1 :=
      (if ll_empty s
       then Ret (LList (ll_window s) (Some l) (Some l) (ll_size s)
                       (ll_history s) heap0 (S l))
       else
         let* (t, tn) := deref heap0 (ll_tail s) in
         let heap1 := <[ t := Node (n_value tn) (Some l) (n_prev tn) ]> heap0 in
         let heap2 := <[ l := Node item None (Some t) ]> heap1 in
         let s' := LList (ll_window s) (ll_head s) (Some l) (ll_size s)
                         (ll_history s) heap2 (S l) in
         if Nat.eqb (ll_size s) (ll_window s)
         then let* (s'', _) := ll_pop s' in Ret s''
         else Ret s') in
    Ret (LList (ll_window s1) (ll_head s1) (ll_tail s1) (S (ll_size s1))
               (S (ll_history s1)) (ll_heap s1) (ll_fresh s1)).

  (** The loop shared by reset and the destructor (LinkedList.tcc:22-28 and
      60-66): follow m_next; [delete] is applied only to a null m_previous, so
      nothing is ever freed. [fuel] bounds the traversal; it is instantiated
      with the number of live nodes + 1 and never runs out on a well-formed list. *)
  Fixpoint ll_walk (fuel : nat) (h : gmap loc node) (p : ptr) : outcome (gmap loc node) :=
    match p with
    | None => Ret h
    | Some _ =>
        match fuel with
        | O => Undef BadPointer
        | S f =>
            let* (_, n) := deref h p in
            let h' := match n_prev n with
                      | None => h           (* delete nullptr: no effect *)
                      | Some _ => h         (* guarded by !m_previous *)
                      end in
            ll_walk f h' (n_next n)
        end
    end.

  Definition ll_free_loop (s : llist) : outcome (gmap loc node) :=
    let* (_, hn) := deref (ll_heap s) (ll_head s) in     (* m_head->m_next *)
    ll_walk (S (size (ll_heap s))) (ll_heap s) (n_next hn).

  (** LinkedList.tcc:56-71. *)
  Definition ll_reset (s : llist) : outcome llist :=
    let* h := ll_free_loop s in
    Ret (LList (ll_window s) None None 0 (ll_history s) h (ll_fresh s)).

  (** LinkedList.tcc:18-29: the heap left behind by the destructor. *)
  Definition ll_destroy (s : llist) : outcome (gmap loc node) := ll_free_loop s.

  (** LinkedList.tcc:91-101: the sequence of values printed. *)
  Fixpoint ll_values (fuel : nat) (h : gmap loc node) (p : ptr) : outcome (list T) :=
    match p with
    | None => Ret []
    | Some _ =>
        match fuel with
        | O => Undef BadPointer
        | S f =>
            let* (_, n) := deref h p in
            let* vs := ll_values f h (n_next n) in
            Ret (n_value n :: vs)
        end
    end.

  Definition ll_display (s : llist) : outcome (list T) :=
    ll_values (S (size (ll_heap s))) (ll_heap s) (ll_head s).
End LinkedList.
Arguments node : clear implicits.
Arguments llist : clear implicits.
Arguments ll_new {T}.

(** Same call alphabet as RingBuffer. *)
Definition ll_call {T} (dflt : T) (s : llist T) (c : rcall T) : outcome (llist T * rout T) :=
  match c with
  | CUpdate x => let* s' := ll_update dflt s x in Ret (s', OUnit)
  | CPop => let* (s', v) := ll_pop dflt s in Ret (s', OVal v)
  | CReset => let* s' := ll_reset s in Ret (s', OUnit)
  | CSize => Ret (s, ONum (N.of_nat (ll_getsize s)))
  | CEmpty => Ret (s, OBool (ll_empty s))
  | CFull => Ret (s, OBool (ll_full s))
  end.

Fixpoint ll_run {T} (dflt : T) (s : llist T) (cs : list (rcall T))
  : outcome (llist T * list (rout T)) :=
  match cs with
  | [] => Ret (s, [])
  | c :: cs' =>
      let* (s1, o) := ll_call dflt s c in
      let* (s2, os) := ll_run dflt s1 cs' in
      Ret (s2, o :: os)
  end.
