(** Concurrent model of RingBuffer: threads interleave at the granularity of one
    access to one data member (RingBuffer.tcc). Sequentially consistent memory;
    [m_windowSize] is never written and is a parameter. *)

From Coq Require Import List NArith Bool.
From Verif Require Import Outcome Calls RingBuffer.
Import ListNotations.

Section Conc.
  Context {T : Type} (dflt : T).

  (** The accesses of one member function body, in program order. Every
      occurrence of a data member in the source is one access. *)
  Inductive prog : Type :=
  | Done (o : rout T)
  | Fail (u : ub)
  | ReadHead (k : N -> prog)
  | ReadTail (k : N -> prog)
  | ReadFull (k : bool -> prog)
  | ReadCell (i : N) (k : T -> prog)
  | ReadHist (k : nat -> prog)
  | WriteHead (v : N) (k : prog)
  | WriteTail (v : N) (k : prog)
  | WriteFull (v : bool) (k : prog)
  | WriteCell (i : N) (v : T) (k : prog)
  | WriteHist (v : nat) (k : prog).

  (** [a % b] inside a program. *)
  Definition pmod (a b : N) (k : N -> prog) : prog :=
    match umod a b with Ret r => k r | Throw _ => Fail DivByZero | Undef u => Fail u end.

  Section Bodies.
    Context (W : N).

    (** RingBuffer.tcc:30-36. *)
    Definition p_update_rest : prog :=
      ReadHead (fun h => pmod (wrap64 (h + 1)) W (fun h' => WriteHead h'
        (ReadHead (fun h2 => ReadTail (fun t2 => WriteFull (h2 =? t2)%N
          (ReadHist (fun n => WriteHist (S n) (Done OUnit)))))))).

    (** RingBuffer.tcc:24-36 (inside the lock). *)
    Definition p_update (x : T) : prog :=
      ReadHead (fun h => WriteCell h x
        (ReadFull (fun f =>
           if f then ReadTail (fun t => pmod (wrap64 (t + 1)) W
                                          (fun t' => WriteTail t' p_update_rest))
           else p_update_rest))).

    (** RingBuffer.tcc:43-44 (inside the lock). *)
    Definition p_reset : prog :=
      ReadTail (fun t => WriteHead t (WriteFull false (Done OUnit))).

    (** RingBuffer.tcc:85-94 (inside the lock). *)
    Definition p_pop_nonempty : prog :=
      ReadTail (fun t => ReadCell t (fun x => WriteFull false
        (ReadTail (fun t2 => pmod (wrap64 (t2 + 1)) W
                               (fun t' => WriteTail t' (Done (OVal x))))))).

    (** RingBuffer.tcc:82-94 (inside the lock). *)
    Definition p_pop : prog :=
      ReadFull (fun f =>
        if f then p_pop_nonempty
        else ReadHead (fun h => ReadTail (fun t =>
               if (h =? t)%N then Done (OVal dflt) else p_pop_nonempty))).

    (** RingBuffer.tcc:59-75 (no lock). *)
    Definition p_size : prog :=
      ReadFull (fun f =>
        if f then Done (ONum W)
        else ReadHead (fun h => ReadTail (fun t =>
          if (t <=? h)%N
          then ReadHead (fun h2 => ReadTail (fun t2 =>
                 Done (ONum (wrap64 (h2 + two64 - t2)))))
          else ReadHead (fun h2 => ReadTail (fun t2 =>
                 Done (ONum (wrap64 (wrap64 (W + h2) + two64 - t2)))))))).

    (** RingBuffer.tcc:47-51 (no lock). *)
    Definition p_empty : prog :=
      ReadFull (fun f =>
        if f then Done (OBool false)
        else ReadHead (fun h => ReadTail (fun t => Done (OBool (h =? t)%N)))).

    (** RingBuffer.tcc:53-57 (no lock). *)
    Definition p_full : prog := ReadFull (fun f => Done (OBool f)).

    Definition body (c : rcall T) : prog :=
      match c with
      | CUpdate x => p_update x
      | CPop => p_pop
      | CReset => p_reset
      | CSize => p_size
      | CEmpty => p_empty
      | CFull => p_full
      end.
  End Bodies.

  (** Calls whose body runs under the mutex. *)
  Definition locked (c : rcall T) : bool :=
    match c with CUpdate _ | CPop | CReset => true | _ => false end.

  (** One access. *)
  Definition access (m : ring T) (p : prog) : outcome (ring T * prog) :=
    match p with
    | Done o => Ret (m, Done o)
    | Fail u => Undef u
    | ReadHead k => Ret (m, k (rb_head m))
    | ReadTail k => Ret (m, k (rb_tail m))
    | ReadFull k => Ret (m, k (rb_full m))
    | ReadCell i k =>
        let* c := at_ (rb_buf m) (N.to_nat i) in
        match c with Some x => Ret (m, k x) | None => Undef UninitRead end
    | ReadHist k => Ret (m, k (rb_history m))
    | WriteHead v k =>
        Ret (Ring (rb_window m) (rb_buf m) v (rb_tail m) (rb_full m) (rb_history m), k)
    | WriteTail v k =>
        Ret (Ring (rb_window m) (rb_buf m) (rb_head m) v (rb_full m) (rb_history m), k)
    | WriteFull v k =>
        Ret (Ring (rb_window m) (rb_buf m) (rb_head m) (rb_tail m) v (rb_history m), k)
    | WriteCell i v k =>
        let* b := store (rb_buf m) (N.to_nat i) (Some v) in
        Ret (Ring (rb_window m) b (rb_head m) (rb_tail m) (rb_full m) (rb_history m), k)
    | WriteHist v k =>
        Ret (Ring (rb_window m) (rb_buf m) (rb_head m) (rb_tail m) (rb_full m) v, k)
    end.

  (** A thread: the call in progress, the calls still to make, and the calls
      completed so far with their results. *)
  Record thread : Type := Thread {
    t_cur : option (rcall T * prog);
    t_todo : list (rcall T);
    t_done : list (rcall T * rout T)
  }.

  (** [c_log] is a ghost: the locked calls in the order in which they acquired
      the mutex. *)
  Record config : Type := Config {
    c_mem : ring T;
    c_lock : option nat;
    c_threads : list thread;
    c_log : list (nat * rcall T)
  }.

  (** One step of thread [i]; [None] if it has nothing to do or is blocked on
      the mutex. *)
  Definition step (c : config) (i : nat) : option (outcome config) :=
    match nth_error (c_threads c) i with
    | None => None
    | Some th =>
        match t_cur th with
        | None =>
            match t_todo th with
            | [] => None
            | call :: rest =>
                let th' := Thread (Some (call, body (rb_window (c_mem c)) call)) rest (t_done th) in
                if locked call then
                  match c_lock c with
                  | Some _ => None
                  | None => Some (Ret (Config (c_mem c) (Some i)
                                              (set_nth (c_threads c) i th')
                                              (c_log c ++ [(i, call)])))
                  end
                else Some (Ret (Config (c_mem c) (c_lock c)
                                       (set_nth (c_threads c) i th') (c_log c)))
            end
        | Some (call, Done o) =>
            Some (Ret (Config (c_mem c) (if locked call then None else c_lock c)
                              (set_nth (c_threads c) i
                                 (Thread None (t_todo th) (t_done th ++ [(call, o)])))
                              (c_log c)))
        | Some (call, p) =>
            Some (let* (m', p') := access (c_mem c) p in
                  Ret (Config m' (c_lock c)
                              (set_nth (c_threads c) i
                                 (Thread (Some (call, p')) (t_todo th) (t_done th)))
                              (c_log c)))
        end
    end.

  (** A schedule names the thread to run at each point; scheduling a thread that
      cannot move has no effect. *)
  Fixpoint exec (c : config) (sched : list nat) : outcome config :=
    match sched with
    | [] => Ret c
    | i :: sched' =>
        match step c i with
        | None => exec c sched'
        | Some oc => let* c' := oc in exec c' sched'
        end
    end.

  Definition start (W : N) (programs : list (list (rcall T))) : config :=
    Config (rb_new W) None (map (fun p => Thread None p []) programs) [].
End Conc.
Arguments prog : clear implicits.
Arguments thread : clear implicits.
Arguments config : clear implicits.
