(** C101: concurrent RingBuffer calls come to an end. *)

From Coq Require Import List NArith Bool Arith Lia.
From Verif Require Import Outcome Calls RingBuffer RingBufferConc RingBufferConcSpec
  RingStepsSpec RingSteps.
Import ListNotations.

(** However the threads are scheduled, for any window size: all their calls
    together use at most [total_steps] turns. *)
Theorem C101_steps_bounded :
  forall (T : Type) (dflt : T) (W : N) (programs : list (list (rcall T))) (sched : list nat),
    moves dflt (start W programs) sched <= total_steps programs.
Proof. exact @moves_bounded. Qed.
Print Assumptions C101_steps_bounded.

(** From any point of any execution: if some threads stop for good, none of them
    inside a locked call, and the others keep getting turns, then after
    [total_steps] rounds the others have completed all their calls and the mutex
    is free. *)
Theorem C101_running_threads_finish :
  forall (T : Type) (dflt : T) (W : nat) (programs : list (list (rcall T))) (s1 : list nat)
         (c : config T) (stopped : nat -> bool) (rounds : list (list nat)),
    1 <= W -> (N.of_nat W < 2 ^ 64)%N ->
    exec dflt (start (N.of_nat W) programs) s1 = Ret c ->
    (forall t, c_lock c = Some t -> stopped t = false) ->
    Forall (round_of (length programs) (fun i => stopped i = true)) rounds ->
    total_steps programs <= length rounds ->
    exists c', exec dflt c (concat rounds) = Ret c' /\ c_lock c' = None /\
      (forall i th calls, stopped i = false -> nth_error (c_threads c') i = Some th ->
         nth_error programs i = Some calls ->
         t_cur th = None /\ t_todo th = [] /\ map fst (t_done th) = calls).
Proof. exact @fair_runs_finish. Qed.
Print Assumptions C101_running_threads_finish.

(** size(), empty() and full() never wait: a thread that makes only such calls
    completes them within its own turns, whatever the others do, even with the
    mutex held by a thread that never runs again. *)
Theorem C101_readers_never_wait :
  forall (T : Type) (dflt : T) (W : nat) (programs : list (list (rcall T))) (i : nat)
         (calls : list (rcall T)) (sched : list nat),
    1 <= W -> (N.of_nat W < 2 ^ 64)%N ->
    nth_error programs i = Some calls -> Forall (fun call => locked call = false) calls ->
    steps_of calls <= count_occ Nat.eq_dec sched i ->
    exists c th, exec dflt (start (N.of_nat W) programs) sched = Ret c /\
      nth_error (c_threads c) i = Some th /\ t_cur th = None /\ t_todo th = [] /\
      map fst (t_done th) = calls.
Proof. exact @readers_finish. Qed.
Print Assumptions C101_readers_never_wait.

(** The condition on the stopped threads is needed: if the thread inside a locked
    call gets no more turns, no other locked call ever begins. *)
Theorem C101_stopped_inside_the_lock :
  forall (T : Type) (dflt : T) (W : nat) (programs : list (list (rcall T))) (s1 s2 : list nat)
         (c : config T) (t : nat),
    1 <= W -> (N.of_nat W < 2 ^ 64)%N ->
    exec dflt (start (N.of_nat W) programs) s1 = Ret c -> c_lock c = Some t -> ~ In t s2 ->
    exists c', exec dflt c s2 = Ret c' /\ c_lock c' = Some t /\ c_log c' = c_log c.
Proof. exact @holder_blocks. Qed.
Print Assumptions C101_stopped_inside_the_lock.

(** The bound is reached: an update of a full buffer takes fourteen steps, a pop
    of a buffer that is neither full nor empty ten. Two updates into a buffer of
    one cell take twelve and fourteen. *)
Example C101_bound_example :
  moves 0 (start 1 [[CUpdate 5; CUpdate 6]]) (repeat 0 30) = 12 + call_steps (CUpdate 6) /\
  moves 0 (start 2 [[CUpdate 5; CPop]]) (repeat 0 30) = 12 + call_steps (T := nat) CPop.
Proof. split; vm_compute; reflexivity. Qed.

(** Thread 2 stops after its update; the two others finish. *)
Example C101_finish_example :
  exists c c', exec 0 (start 2 [[CUpdate 5; CPop]; [CUpdate 6]; [CUpdate 7; CPop]])
               (repeat 2 12) = Ret c /\ c_lock c = None /\
    exec 0 c (concat (repeat [0; 1] 62)) = Ret c' /\
    total_steps [[CUpdate 5; CPop]; [CUpdate 6]; [CUpdate 7; CPop]] = 62 /\
    Forall (round_of 3 (fun i => Nat.eqb i 2 = true)) (repeat [0; 1] 62) /\
    map t_done (c_threads c') =
      [[(CUpdate 5, OUnit); (CPop, OVal 5)]; [(CUpdate 6, OUnit)]; [(CUpdate 7, OUnit)]].
Proof.
  eexists; eexists. split; [vm_compute; reflexivity|]. split; [reflexivity|].
  split; [vm_compute; reflexivity|]. split; [reflexivity|]. split; [|reflexivity].
  apply List.Forall_forall. intros r H. apply repeat_spec in H. subst r. split.
  - intros [|[|[|i]]] Hi Hs; simpl; auto; lia.
  - intros i [<-|[<-|[]]]; simpl; discriminate.
Qed.

(** Thread 0 stops inside its update; thread 1 still learns the size. *)
Example C101_readers_example :
  exists c, exec 0 (start 2 [[CUpdate 5]; [CSize; CFull]])
              (repeat 0 3 ++ repeat 1 10) = Ret c /\
    c_lock c = Some 0 /\ steps_of (T := nat) [CSize; CFull] = 10 /\
    nth_error (map t_done (c_threads c)) 1 = Some [(CSize, ONum 0); (CFull, OBool false)].
Proof. eexists. split; [vm_compute; reflexivity|]. repeat split. Qed.
