(** Properties C01-C05: RingBuffer. *)

From Coq Require Import List NArith Arith Lia.
From Verif Require Import Outcome Calls RingBuffer RingBufferConc RingBufferConcSpec Spec
     RingBufferFacts RingBufferConcFacts.
Import ListNotations.

(** C01: any history of calls on a fresh RingBuffer with window W >= 1 returns,
    call by call, what the drop-oldest queue of capacity W returns. *)
Theorem C01_ring_is_bounded_fifo :
  forall (T : Type) (dflt : T) (W : nat) (cs : list (rcall T)),
    1 <= W -> (N.of_nat W < 2 ^ 64)%N ->
    exists s, rb_run dflt (rb_new (N.of_nat W)) cs = Ret (s, snd (q_run W dflt [] cs)).
Proof.
  exact (fun T dflt W cs H1 H2 =>
    match rb_history_facts dflt W cs H1 H2 with
    | ex_intro _ s (conj E _) => ex_intro _ s E
    end).
Qed.
Print Assumptions C01_ring_is_bounded_fifo.

Example C01_example :
  snd (q_run 2 0 [] [CPop; CUpdate 1; CUpdate 2; CUpdate 3; CFull; CSize; CPop; CReset; CUpdate 4; CPop; CEmpty])
  = [OVal 0; OUnit; OUnit; OUnit; OBool true; ONum 2%N; OVal 2; OUnit; OUnit; OVal 4; OBool true]
  /\ exists s, rb_run 0 (rb_new 2)
      [CPop; CUpdate 1; CUpdate 2; CUpdate 3; CFull; CSize; CPop; CReset; CUpdate 4; CPop; CEmpty]
      = Ret (s, snd (q_run 2 0 []
      [CPop; CUpdate 1; CUpdate 2; CUpdate 3; CFull; CSize; CPop; CReset; CUpdate 4; CPop; CEmpty])).
Proof. split; [|eexists]; vm_compute; reflexivity. Qed.

(** C02: with W >= 1 no history has undefined behaviour (every cell access in
    bounds, no uninitialised cell returned, no modulo by zero) ... *)
Theorem C02_ring_memory_safe :
  forall (T : Type) (dflt : T) (W : nat) (cs : list (rcall T)),
    1 <= W -> (N.of_nat W < 2 ^ 64)%N ->
    forall u e, rb_run dflt (rb_new (N.of_nat W)) cs <> Undef u /\
                rb_run dflt (rb_new (N.of_nat W)) cs <> Throw e.
Proof. exact @rb_safe. Qed.
Print Assumptions C02_ring_memory_safe.

(** ... and with W = 0 the first update, whenever it comes, writes out of bounds,
    while histories without update are harmless. *)
Theorem C02_ring_window_zero_undefined :
  forall (T : Type) (dflt : T) (cs : list (rcall T)),
    no_update cs = true ->
    (exists s os, rb_run dflt (rb_new 0) cs = Ret (s, os)) /\
    forall x ds, rb_run dflt (rb_new 0) (cs ++ CUpdate x :: ds) = Undef OutOfBounds.
Proof.
  exact (fun T dflt cs H =>
    conj (ex_intro _ (rb_new 0) (rb_zero_run dflt cs (rb_new 0) eq_refl eq_refl eq_refl eq_refl eq_refl H))
         (fun x ds => rb_zero_undef dflt cs x ds H)).
Qed.
Print Assumptions C02_ring_window_zero_undefined.

Example C02_example :
  no_update [CPop; CReset; @CSize nat] = true /\
  rb_run 0 (rb_new 0) [CPop; CReset; CSize; CUpdate 7; CPop] = Undef OutOfBounds.
Proof. split; vm_compute; reflexivity. Qed.

(** C03: size(), full() and empty() in every reachable state, for every 64-bit W. *)
Theorem C03_ring_size_full_empty :
  forall (T : Type) (dflt : T) (W : nat) (cs : list (rcall T)) s os,
    1 <= W -> (N.of_nat W < 2 ^ 64)%N ->
    rb_run dflt (rb_new (N.of_nat W)) cs = Ret (s, os) ->
    rb_size s = N.of_nat (length (fst (q_run W dflt [] cs))) /\
    (rb_size s <= N.of_nat W)%N /\
    (rb_isfull s = true <-> rb_size s = N.of_nat W) /\
    (rb_empty s = true <-> rb_size s = 0%N).
Proof. exact @rb_sizes. Qed.
Print Assumptions C03_ring_size_full_empty.

(** The intermediate sum of size() does wrap for large windows (head 5, tail
    2^64-10 in a window of 2^64-1): the result is still right. *)
Example C03_example_wrap :
  (2 ^ 64 <= (2 ^ 64 - 1) + 5)%N /\
  rb_size (Ring (T:=nat) (2 ^ 64 - 1) [] 5 (2 ^ 64 - 10) false 0) = 14%N.
Proof. split; vm_compute; congruence. Qed.

Example C03_example :
  exists s os, rb_run 0 (rb_new 3) [CUpdate 1; CUpdate 2; CUpdate 3; CUpdate 4; CPop] = Ret (s, os)
    /\ rb_size s = 2%N.
Proof. eexists _, _. split; vm_compute; reflexivity. Qed.

(** C04: for any number of threads, programs and schedule of individual memory
    accesses, no access is undefined, and there is one history [h] of the
    completed update/pop/reset calls with the results they returned, listed in
    the order in which they acquired the mutex, that the sequential queue explains;
    it contains exactly each thread's completed calls in that thread's order; when the mutex
    is free, the buffer's contents are the queue's. *)
Theorem C04_ring_linearizable :
  forall (T : Type) (dflt : T) (W : nat) (programs : list (list (rcall T))) (sched : list nat),
    1 <= W -> (N.of_nat W < 2 ^ 64)%N ->
    exists c (h : list (nat * (rcall T * rout T))) q,
      exec dflt (start (N.of_nat W) programs) sched = Ret c /\
      q_run W dflt [] (map (fun p => fst (snd p)) h) = (q, map (fun p => snd (snd p)) h) /\
      (exists pending, c_log c = map (fun p => (fst p, fst (snd p))) h ++ pending /\
                       length pending <= 1) /\
      (forall i th, nth_error (c_threads c) i = Some th -> locked_done th = of_thread i h) /\
      map thread_calls (c_threads c) = programs /\
      (c_lock c = None ->
         c_log c = map (fun p => (fst p, fst (snd p))) h /\
         forall cs, exists m', rb_run dflt (c_mem c) cs = Ret (m', snd (q_run W dflt q cs))).
Proof. exact @linearizable. Qed.
Print Assumptions C04_ring_linearizable.

(** The order is real-time: running longer only appends to it, so a call that
    returned before another one started precedes it. *)
Theorem C04_lock_order_is_real_time :
  forall (T : Type) (dflt : T) (W : N) (programs : list (list (rcall T))) s1 s2 c1 c2,
    exec dflt (start W programs) s1 = Ret c1 ->
    exec dflt (start W programs) (s1 ++ s2) = Ret c2 ->
    exists l, c_log c2 = c_log c1 ++ l.
Proof. exact @lock_order_grows. Qed.
Print Assumptions C04_lock_order_is_real_time.

(** No deadlock: while a thread is unfinished, some thread can take a step. *)
Theorem C04_deadlock_free :
  forall (T : Type) (dflt : T) (W : nat) (programs : list (list (rcall T))) sched c,
    1 <= W -> (N.of_nat W < 2 ^ 64)%N ->
    exec dflt (start (N.of_nat W) programs) sched = Ret c ->
    forall i th, nth_error (c_threads c) i = Some th -> ~ finished th ->
    exists j c', step dflt c j = Some (Ret c').
Proof. exact @deadlock_free. Qed.
Print Assumptions C04_deadlock_free.

(** Two threads, interleaved: thread 1 is blocked while thread 0 holds the mutex. *)
Example C04_example :
  exists c, exec 0 (start 2 [[CUpdate 5; CPop]; [CUpdate 6]])
              (concat (repeat [0; 1] 40)) = Ret c /\
    map t_done (c_threads c) = [[(CUpdate 5, OUnit); (CPop, OVal 5)]; [(CUpdate 6, OUnit)]] /\
    c_log c = [(0, CUpdate 5); (1, CUpdate 6); (0, CPop)] /\ c_lock c = None.
Proof. eexists. split; [vm_compute; reflexivity|]. vm_compute. auto. Qed.

(** C05: size() and empty() are not atomic. For every W >= 2 there is an execution
    in which the buffer holds W-1 items, then the only other running call is one
    update (after which it holds W items), and meanwhile size() returns 0 and
    empty() returns true. *)
Theorem C05_ring_size_not_atomic_refuted :
  forall (T : Type) (dflt : T) (W : nat) (x : T), 2 <= W -> (N.of_nat W < 2 ^ 64)%N ->
    exists s1 c1 s2 c2,
      exec dflt (start (N.of_nat W) [repeat (CUpdate x) W; [CSize; CEmpty]]) s1 = Ret c1 /\
      c_threads c1 = [ Thread None [CUpdate x] (repeat (CUpdate x, OUnit) (W - 1));
                       Thread None [CSize; CEmpty] [] ] /\
      c_lock c1 = None /\ rb_size (c_mem c1) = N.of_nat (W - 1) /\
      exec dflt c1 s2 = Ret c2 /\
      c_threads c2 = [ Thread None [] (repeat (CUpdate x, OUnit) W);
                       Thread None [] [(CSize, ONum 0%N); (CEmpty, OBool true)] ] /\
      c_lock c2 = None /\ rb_size (c_mem c2) = N.of_nat W.
Proof. exact @torn_read. Qed.
Print Assumptions C05_ring_size_not_atomic_refuted.

(** size() can even return 2^64 - 1, because it reads head and tail again after
    comparing them. *)
Theorem C05_ring_size_exceeds_window_refuted :
  forall (T : Type) (dflt : T) (W : nat) (x : T), 2 <= W -> (N.of_nat W < 2 ^ 64)%N ->
    exists s c,
      exec dflt (start (N.of_nat W)
                  [repeat (CUpdate x) (W - 1) ++ [CPop; CUpdate x]; [CSize]]) s = Ret c /\
      c_threads c = [ Thread None [] (repeat (CUpdate x, OUnit) (W - 1)
                                      ++ [(CPop, OVal x); (CUpdate x, OUnit)]);
                      Thread None [] [(CSize, ONum (2 ^ 64 - 1)%N)] ] /\
      c_lock c = None.
Proof. exact @torn_read_huge. Qed.
Print Assumptions C05_ring_size_exceeds_window_refuted.

Example C05_example : 2 <= 3 /\ (N.of_nat 3 < 2 ^ 64)%N.
Proof. split; [lia|reflexivity]. Qed.
