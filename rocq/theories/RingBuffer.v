(** Model of KML::DataStructures::RingBuffer<T>
    (tools/cpp/KML/include/data_structures/RingBuffer.h and RingBuffer.tcc). *)

From Coq Require Import List NArith Bool.
From Verif Require Import Outcome Calls.
Import ListNotations.

(** size_t is 64 bits wide; its arithmetic wraps. *)
Definition two64 : N := (2 ^ 64)%N.
Definition wrap64 (n : N) : N := (n mod two64)%N.

(** [a % b] on size_t; division by zero is UB. *)
Definition umod (a b : N) : outcome N :=
  if (b =? 0)%N then Undef DivByZero else Ret (a mod b)%N.

Section RingBuffer.
  Context {T : Type}.
  (** [T()], the value-initialised element returned by pop on empty
      (RingBuffer.tcc:83). *)
  Context (dflt : T).

  (** Data members: RingBuffer.h:75-97, IDataStructure.h:67-72. A cell is [None]
      while it is indeterminate ([new T[windowSize]] does not initialise). The
      mutex is not part of the sequential model, see RingBufferConc.v. *)
  Record ring : Type := Ring {
    rb_window : N;              (* m_windowSize *)
    rb_buf : list (option T);   (* m_buffer *)
    rb_head : N;                (* m_head *)
    rb_tail : N;                (* m_tail *)
    rb_full : bool;             (* m_full *)
    rb_history : nat            (* m_historyCount *)
  }.

  (** RingBuffer.tcc:11-17 (allocation failure is not modelled). *)
  Definition rb_new (windowSize : N) : ring :=
    Ring windowSize (repeat None (N.to_nat windowSize)) 0 0 false 0.

  (** RingBuffer.tcc:19-37. *)
  Definition rb_update (s : ring) (item : T) : outcome ring :=
    let* buf := store (rb_buf s) (N.to_nat (rb_head s)) (Some item) in
    let* tail := (if rb_full s
                  then umod (wrap64 (rb_tail s + 1)) (rb_window s)
                  else Ret (rb_tail s)) in
    let* head := umod (wrap64 (rb_head s + 1)) (rb_window s) in
    Ret (Ring (rb_window s) buf head tail (head =? tail)%N (S (rb_history s))).

  (** RingBuffer.tcc:39-45. *)
  Definition rb_reset (s : ring) : ring :=
    Ring (rb_window s) (rb_buf s) (rb_tail s) (rb_tail s) false (rb_history s).

  (** RingBuffer.tcc:47-51. *)
  Definition rb_empty (s : ring) : bool :=
    negb (rb_full s) && (rb_head s =? rb_tail s)%N.

  (** RingBuffer.tcc:53-57. *)
  Definition rb_isfull (s : ring) : bool := rb_full s.

  (** RingBuffer.tcc:59-75. Additions and subtractions wrap modulo 2^64. *)
  Definition rb_size (s : ring) : N :=
    if rb_full s then rb_window s
    else if (rb_tail s <=? rb_head s)%N
         then wrap64 (rb_head s + two64 - rb_tail s)
         else wrap64 (wrap64 (rb_window s + rb_head s) + two64 - rb_tail s).

  (** RingBuffer.tcc:77-95. *)
  Definition rb_pop (s : ring) : outcome (ring * T) :=
    if rb_empty s then Ret (s, dflt)
    else
      let* cell := at_ (rb_buf s) (N.to_nat (rb_tail s)) in
      match cell with
      | None => Undef UninitRead
      | Some item =>
          let* tail := umod (wrap64 (rb_tail s + 1)) (rb_window s) in
          Ret (Ring (rb_window s) (rb_buf s) (rb_head s) tail false (rb_history s), item)
      end.
End RingBuffer.
Arguments ring : clear implicits.
Arguments rb_new {T}.

(** One call of the public interface. *)
Definition rb_call {T} (dflt : T) (s : ring T) (c : rcall T) : outcome (ring T * rout T) :=
  match c with
  | CUpdate x => let* s' := rb_update s x in Ret (s', OUnit)
  | CPop => let* (s', v) := rb_pop dflt s in Ret (s', OVal v)
  | CReset => Ret (rb_reset s, OUnit)
  | CSize => Ret (s, ONum (rb_size s))
  | CEmpty => Ret (s, OBool (rb_empty s))
  | CFull => Ret (s, OBool (rb_isfull s))
  end.

(** A whole history of calls; the result lists what each call returned. *)
Fixpoint rb_run {T} (dflt : T) (s : ring T) (cs : list (rcall T))
  : outcome (ring T * list (rout T)) :=
  match cs with
  | [] => Ret (s, [])
  | c :: cs' =>
      let* (s1, o) := rb_call dflt s c in
      let* (s2, os) := rb_run dflt s1 cs' in
      Ret (s2, o :: os)
  end.
