(** Model of the Python [update] methods when the argument is an arbitrary Python
    iterable: the code of the iterator runs between the elements, may raise, may
    never end, may itself call methods of the same object, and other threads may
    run meanwhile. Line numbers are those of the .pyx files.

    Nothing in tools/cython/kml releases the interpreter lock (no [nogil]), so a
    C++ call is never interleaved with other Python code; everything between two
    C++ calls can be. *)

From Coq Require Import List.
From Verif Require Import Outcome Cython.
Import ListNotations.

Section Program.
  (** [E] is the C++ element type, [C] and [O] the C++ calls and their results,
      [feed x] the call [update(x)]. *)
  Context {S E C O : Type} (call : S -> C -> outcome (S * O)) (feed : E -> C)
          (convert : pyval -> result E).

  (** Python code by what it does next; the same type serves for the body of a
      thread and for the code behind an iterator. *)
  CoInductive code : Type :=
  | Finish                                             (* returns; for an iterator: StopIteration *)
  | Fails (e : pyexn)                                  (* raises *)
  | Give (v : pyval) (next : code)                     (* yields [v] *)
  | Update (v : pyval) (next : option pyexn -> code)   (* obj.update(v), v not iterable *)
  | UpdateFrom (it : code) (next : option pyexn -> code) (* obj.update(it), it iterable *)
  | Method (c : C) (next : O -> code)                  (* any other method of the object *)
  | Ask (next : nat -> code).                          (* looks at the rest of the world *)

  (** A thread: the code running now and, innermost first, the [update] loops
      that wait for it, by what follows them. *)
  Record thread : Type := Thread { now : code; waiting : list (option pyexn -> code) }.

  (** [history] is kept for the statements only: the C++ calls made so far with
      the thread that made them and what they returned. *)
  Record machine : Type := Machine {
    object : S;
    threads : list thread;
    history : list (nat * C * O)
  }.

  (** One step of thread [i]: the object, the thread and the C++ call made, if
      any. [answer] is what the rest of the world shows to [Ask]. *)
  Definition thread_step (answer : nat) (s : S) (t : thread)
    : outcome (S * thread * list (C * O)) :=
    match now t with
    | Finish =>
        match waiting t with
        | [] => Ret (s, t, [])                          (* the thread is over *)
        | k :: ks => Ret (s, Thread (k None) ks, [])    (* the loop is over, update returns None *)
        end
    | Fails e =>
        match waiting t with
        | [] => Ret (s, t, [])
        | k :: ks => Ret (s, Thread (k (Some e)) ks, []) (* passes through update *)
        end
    (* [for i in item: self.c_X.update(i)]: RingBuffer.pyx:55-57, LinkedList.pyx:55-57,
       StreamingHistogram.pyx:63-65, StreamingMAD.pyx:47-49, StreamingEntropy.pyx:58-60,
       StreamingIQR.pyx:61-63, StreamingMean.pyx:52-54, StreamingP2Quantile.pyx:50-52,
       StreamingVariance.pyx:52-54, WindowedFAME.pyx:57-59, WindowedP2Quantile.pyx:49-51. *)
    | Give v next =>
        match waiting t with
        | [] => Ret (s, t, [])                          (* nobody asked *)
        | k :: ks =>
            match convert v with
            | inl x => let* (s', o) := call s (feed x) in
                       Ret (s', Thread next (k :: ks), [(feed x, o)])
            | inr e => Ret (s, Thread (k (Some e)) ks, [])
            end
        end
    (* [else: self.c_X.update(item)], the two lines that follow. *)
    | Update v next =>
        match convert v with
        | inl x => let* (s', o) := call s (feed x) in
                   Ret (s', Thread (next None) (waiting t), [(feed x, o)])
        | inr e => Ret (s, Thread (next (Some e)) (waiting t), [])
        end
    | UpdateFrom it next => Ret (s, Thread it (next :: waiting t), [])
    | Method c next =>
        let* (s', o) := call s c in Ret (s', Thread (next o) (waiting t), [(c, o)])
    | Ask next => Ret (s, Thread (next answer) (waiting t), [])
    end.

  Fixpoint set_thread (ts : list thread) (i : nat) (t : thread) : list thread :=
    match ts, i with
    | [], _ => []
    | _ :: ts', 0 => t :: ts'
    | u :: ts', Datatypes.S i' => u :: set_thread ts' i' t
    end.

  Definition machine_step (m : machine) (turn : nat * nat) : outcome machine :=
    match nth_error (threads m) (fst turn) with
    | None => Ret m
    | Some t =>
        let* (s', t', h) := thread_step (snd turn) (object m) t in
        Ret (Machine s' (set_thread (threads m) (fst turn) t')
                     (history m ++ map (fun p => (fst turn, fst p, snd p)) h))
    end.

  (** A run: whose turn it is and what the world answers, step by step. *)
  Fixpoint machine_run (m : machine) (turns : list (nat * nat)) : outcome machine :=
    match turns with
    | [] => Ret m
    | t :: turns' => let* m' := machine_step m t in machine_run m' turns'
    end.

  (** [threads] about to start on an object. *)
  Definition launch (s : S) (bodies : list code) : machine :=
    Machine s (map (fun c => Thread c []) bodies) [].
End Program.

Arguments code : clear implicits.
Arguments thread : clear implicits.
Arguments machine : clear implicits.
