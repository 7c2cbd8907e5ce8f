(** C109: RingBuffer under the C++ memory model. *)

From Coq Require Import List NArith Arith.
From Verif Require Import Outcome Calls RingBuffer RingBufferConc RingBufferConcSpec Spec WeakMem WeakMemSpec
  WeakMemFacts.
Import ListNotations.

(** Reading the newest write every time is the sequentially consistent machine: each
    of its executions is also one on weak memory. *)
Theorem C109_sequential_consistency_is_included :
  forall (T : Type) (dflt : T) (W : N) (programs : list (list (rcall T))) sched c,
    exec dflt (start W programs) sched = Ret c ->
    exists wc, wexec dflt (wstart W programs) (map (fun i => (i, 0)) sched) = Ret wc /\
      w_threads wc = c_threads c /\ w_log wc = c_log c /\ w_lock wc = c_lock c /\
      holds W (w_mem wc) (c_mem c).
Proof. exact @sc_is_weak. Qed.
Print Assumptions C109_sequential_consistency_is_included.

(** update(), pop() and reset() are linearizable on weak memory too, in the order in
    which they acquired the mutex, whatever stale values size(), empty() and full()
    calls of other threads read meanwhile; no execution is undefined (other than by
    the races themselves); when the mutex is free, the newest writes are a buffer that
    holds the queue's items. *)
Theorem C109_linearizable_on_weak_memory :
  forall (T : Type) (dflt : T) (W : nat) (programs : list (list (rcall T))) (sched : list (nat * nat)),
    1 <= W -> (N.of_nat W < 2 ^ 64)%N ->
    exists wc (h : list (nat * (rcall T * rout T))) q,
      wexec dflt (wstart (N.of_nat W) programs) sched = Ret wc /\
      q_run W dflt [] (map (fun p => fst (snd p)) h) = (q, map (fun p => snd (snd p)) h) /\
      (exists pending, w_log wc = map (fun p => (fst p, fst (snd p))) h ++ pending /\
                       length pending <= 1) /\
      (forall i th, nth_error (w_threads wc) i = Some th -> locked_done th = of_thread i h) /\
      map thread_calls (w_threads wc) = programs /\
      (w_lock wc = None ->
         w_log wc = map (fun p => (fst p, fst (snd p))) h /\
         exists m, holds (N.of_nat W) (w_mem wc) m /\
           forall cs, exists m', rb_run dflt m cs = Ret (m', snd (q_run W dflt q cs))).
Proof. exact @weak_linearizable. Qed.
Print Assumptions C109_linearizable_on_weak_memory.

(** Programs that only make calls under the mutex, or only observe, have no data
    race and no behaviour that sequentially consistent memory does not have. *)
Theorem C109_well_synchronised_programs_are_sequentially_consistent :
  forall (T : Type) (dflt : T) (v : bool) (W : nat) (programs : list (list (rcall T)))
         (sched : list (nat * nat)),
    1 <= W -> (N.of_nat W < 2 ^ 64)%N ->
    (forall p call, In p programs -> In call p -> locked call = v) ->
    exists wc s c,
      wexec dflt (wstart (N.of_nat W) programs) sched = Ret wc /\ w_race wc = false /\
      exec dflt (start (N.of_nat W) programs) s = Ret c /\
      w_threads wc = c_threads c /\ w_log wc = c_log c /\ w_lock wc = c_lock c /\
      holds (N.of_nat W) (w_mem wc) (c_mem c).
Proof. exact @homogeneous_sc. Qed.
Print Assumptions C109_well_synchronised_programs_are_sequentially_consistent.

(** One thread updates, and after that call has returned another asks for the size:
    on weak memory the answer may be 0, for every window size. With the same
    interleaving sequentially consistent memory answers 1. *)
Theorem C109_stale_size_refuted :
  forall (T : Type) (dflt x : T) (W : N), (1 <= W)%N ->
    exists sched wc c,
      wexec dflt (wstart W [[CUpdate x]; [CSize]]) sched = Ret wc /\
      w_threads wc = [Thread None [] [(CUpdate x, OUnit)]; Thread None [] [(CSize, ONum 0%N)]] /\
      w_race wc = true /\
      exec dflt (start W [[CUpdate x]; [CSize]]) (map fst sched) = Ret c /\
      c_threads c = [Thread None [] [(CUpdate x, OUnit)]; Thread None [] [(CSize, ONum 1%N)]].
Proof. exact @stale_size. Qed.
Print Assumptions C109_stale_size_refuted.

(** Two threads push and pop; reads that ask for an older write find none, because
    the mutex has told the thread of the newer one. *)
Example C109_example :
  exists wc, wexec 0 (wstart 2 [[CUpdate 5; CPop]; [CUpdate 6]])
               (concat (repeat [(0, 1); (0, 0); (1, 2); (1, 0)] 40)) = Ret wc /\
    map t_done (w_threads wc) = [[(CUpdate 5, OUnit); (CPop, OVal 5)]; [(CUpdate 6, OUnit)]] /\
    w_lock wc = None /\ w_race wc = false.
Proof.
  assert (H : match wexec 0 (wstart 2 [[CUpdate 5; CPop]; [CUpdate 6]])
                      (concat (repeat [(0, 1); (0, 0); (1, 2); (1, 0)] 40)) with
              | Ret wc => (map t_done (w_threads wc), w_lock wc, w_race wc) =
                  ([[(CUpdate 5, OUnit); (CPop, OVal 5)]; [(CUpdate 6, OUnit)]], None, false)
              | _ => False
              end) by (vm_compute; reflexivity).
  destruct (wexec 0 _ _) as [wc|?|?]; try tauto. injection H as A B C. eauto.
Qed.
