(** Properties C104-C105: Python programs that feed an object through arbitrary
    iterators, from several threads. *)

From Coq Require Import List ZArith NArith Arith Bool Lia.
From Flocq Require Import IEEE754.BinarySingleNaN.
From Verif Require Import Outcome Calls Spec Arith RingBuffer LinkedList Mean PyFloat Cython
  PyIterate PyIterateSpec PyIterateFacts P2Witness.
Import ListNotations.
Local Open Scope nat_scope.

(** C104: whatever the iterators and threads do, the object goes through one
    sequence of complete C++ calls, each returning what it returns in that
    sequence. *)
Theorem C104_one_sequence_of_calls :
  forall (S E C O : Type) (call : S -> C -> outcome (S * O)) (feed : E -> C)
         (convert : pyval -> result E) (s : S) (bodies : list (code C O)) turns m,
    machine_run call feed convert (launch s bodies) turns = Ret m ->
    call_all call s (calls_of (history m)) = Ret (object m, answers_of (history m)).
Proof. exact @launch_history. Qed.
Print Assumptions C104_one_sequence_of_calls.

(** A program goes wrong only in a C++ call that goes wrong after the calls made
    before it. *)
Theorem C104_faults_are_those_of_the_calls :
  forall (S E C O : Type) (call : S -> C -> outcome (S * O)) (feed : E -> C)
         (convert : pyval -> result E) (s : S) (bodies : list (code C O)) turns,
    (forall u, machine_run call feed convert (launch s bodies) turns = Undef u ->
      exists done turn rest m c, turns = done ++ turn :: rest /\
        machine_run call feed convert (launch s bodies) done = Ret m /\
        machine_step call feed convert m turn = Undef u /\ call (object m) c = Undef u /\
        call_all call s (calls_of (history m) ++ [c]) = Undef u) /\
    (forall e, machine_run call feed convert (launch s bodies) turns = Throw e ->
      exists done turn rest m c, turns = done ++ turn :: rest /\
        machine_run call feed convert (launch s bodies) done = Ret m /\
        machine_step call feed convert m turn = Throw e /\ call (object m) c = Throw e /\
        call_all call s (calls_of (history m) ++ [c]) = Throw e).
Proof. exact @launch_faults. Qed.
Print Assumptions C104_faults_are_those_of_the_calls.

(** So an object that survives every sequence of calls survives every program. *)
Theorem C104_safe_under_every_program :
  forall (S E C O : Type) (call : S -> C -> outcome (S * O)) (feed : E -> C)
         (convert : pyval -> result E) (s : S) (bodies : list (code C O)) turns,
    (forall cs, exists s' os, call_all call s cs = Ret (s', os)) ->
    exists m, machine_run call feed convert (launch s bodies) turns = Ret m /\
      call_all call s (calls_of (history m)) = Ret (object m, answers_of (history m)).
Proof. exact @launch_safe. Qed.
Print Assumptions C104_safe_under_every_program.

(** A value read from a statistic at any moment, even in the middle of an update
    by an iterator, is that of the observations that arrived before. *)
Theorem C104_readings :
  forall (S E O : Type) (update : S -> E -> outcome S) (evaluate : S -> O)
         (convert : pyval -> result E) (s : S) bodies turns m h1 i o h2,
    machine_run (stat_object update evaluate) Observe convert (launch s bodies) turns = Ret m ->
    history m = h1 ++ (i, Evaluate, o) :: h2 ->
    exists s', update_all update s (observed (calls_of h1)) = Ret s' /\ o = Some (evaluate s').
Proof. exact @stat_reads. Qed.
Print Assumptions C104_readings.

(** The RingBuffer under every Python program: no undefined behaviour, and every
    answer is the drop-oldest queue's. *)
Theorem C104_ring_programs :
  forall (T : Type) (dflt : T) (convert : pyval -> result T) (W : nat) bodies turns,
    1 <= W -> (N.of_nat W < 2 ^ 64)%N ->
    exists m, machine_run (rb_call dflt) CUpdate convert (launch (rb_new (N.of_nat W)) bodies) turns = Ret m /\
      answers_of (history m) = snd (q_run W dflt [] (calls_of (history m))).
Proof. exact @ring_program. Qed.
Print Assumptions C104_ring_programs.

(** The LinkedList: only a reset of the empty list can go wrong. *)
Theorem C104_list_programs :
  forall (T : Type) (dflt : T) (convert : pyval -> result T) (W : nat) bodies turns u,
    machine_run (ll_call dflt) CUpdate convert (launch (ll_new W) bodies) turns = Undef u ->
    exists done turn rest m, turns = done ++ turn :: rest /\
      machine_run (ll_call dflt) CUpdate convert (launch (ll_new W) bodies) done = Ret m /\
      ~ resets_ok W dflt [] (calls_of (history m) ++ [CReset]).
Proof. exact @list_program. Qed.
Print Assumptions C104_list_programs.

(** The StreamingMean in doubles, window size 0 included: its window holds the
    last observations of all threads. *)
Theorem C104_mean_programs :
  forall (W : nat) (bodies : list (code (stat_call double) (option double))) turns,
    exists m, machine_run (E := double) (stat_object (mean_update (A := B64)) (mean_evaluate (A := B64)))
        Observe as_double (launch (mean_new W) bodies) turns = Ret m /\
      mn_window (object m) =
        (if Nat.ltb 0 W then Some (lastn W (observed (calls_of (history m)))) else None).
Proof. exact mean_program. Qed.
Print Assumptions C104_mean_programs.

(** Thread 0 feeds [1; 2; 3] through a generator that pops the same RingBuffer
    after its second element; thread 1 resets and asks for the size. *)
Definition popping : code (rcall double) (rout double) :=
  UpdateFrom (Give (PyInt 1) (Give (PyInt 2) (Method CPop (fun _ => Give (PyInt 3) Finish)))) (fun _ => Finish).
Definition resetting : code (rcall double) (rout double) :=
  Method CReset (fun _ => Method CSize (fun _ => Finish)).
Example C104_example :
  let run turns := machine_run (rb_call (Bz 0)) CUpdate as_double (launch (rb_new 2) [popping; resetting]) turns in
  ok (run [(0, 0); (0, 0); (0, 0); (0, 0); (0, 0); (1, 0); (1, 0); (0, 0)])
     (fun m => match answers_of (history m) with
               | [OUnit; OUnit; OVal x; OUnit; OUnit; ONum n] => @eqb B64 x (Bz 1) && N.eqb n 0
               | _ => false
               end) = true /\
  ok (run [(0, 0); (0, 0); (1, 0); (0, 0); (1, 0); (0, 0); (0, 0); (0, 0)])
     (fun m => match answers_of (history m) with
               | [OUnit; OUnit; OUnit; ONum n; OVal x; OUnit] => @eqb B64 x (Bz 2) && N.eqb n 1
               | _ => false
               end) = true.
Proof. split; vm_compute; reflexivity. Qed.

(** The hypothesis of the general statement, for the StreamingMean. *)
Example C104_example_mean :
  ok (machine_run (E := double) (stat_object (mean_update (A := B64)) (mean_evaluate (A := B64))) Observe as_double
        (launch (mean_new 2) [UpdateFrom (giving [PyInt 1; PyInt 2; PyInt 4] (Method Evaluate (fun _ => Give (PyInt 6) Finish)))
                                (fun _ => Method Evaluate (fun _ => Finish))])
        (repeat (0, 0) 9))
     (fun m => match answers_of (history m) with
               | [None; None; None; Some x; None; Some y] => @eqb B64 x (Bz 3) && @eqb B64 y (Bz 5)
               | _ => false
               end) = true.
Proof. vm_compute. reflexivity. Qed.

(** C105: a thread that runs [obj.update(values)], whatever all other threads do
    to the object meanwhile, contributes its values in order, none twice, up to
    the first that is not a number; once it is over it has contributed them all. *)
Theorem C105_threads_feed_in_order :
  forall (S E C O : Type) (call : S -> C -> outcome (S * O)) (feed : E -> C)
         (convert : pyval -> result E) (s : S) (bodies : list (code C O)) turns m i vs,
    nth_error bodies i = Some (feeds vs) ->
    machine_run call feed convert (launch s bodies) turns = Ret m ->
    initial_part (calls_by i (history m)) (map feed (usable convert vs)) /\
    (forall t, nth_error (threads m) i = Some t -> over t ->
       calls_by i (history m) = map feed (usable convert vs)).
Proof. exact @feeds_threads. Qed.
Print Assumptions C105_threads_feed_in_order.

(** Undisturbed, it does what the one-shot description of [update] says, with the
    same exception. *)
Theorem C105_refines_the_update_of_a_list :
  forall (S E C O : Type) (call : S -> C -> outcome (S * O)) (feed : E -> C)
         (convert : pyval -> result E) vs (s s' : S) e (k : option pyexn -> code C O),
    py_update convert (fed call feed) s (PyIter vs) = Ret (s', e) ->
    exists n, forall turns, alone n turns ->
      exists h, machine_run call feed convert (launch s [UpdateFrom (giving vs Finish) k]) turns =
        Ret (Machine s' [Thread (k e) []] h).
Proof. exact @refines. Qed.
Print Assumptions C105_refines_the_update_of_a_list.

(** An iterator that ends in an exception: the exception comes out of [update],
    and what was given before it stays in the object. *)
Theorem C105_raising_keeps_what_was_given :
  forall (S E C O : Type) (call : S -> C -> outcome (S * O)) (feed : E -> C)
         (convert : pyval -> result E) vs xs (s s' : S) e (k : option pyexn -> code C O) turns,
    map convert vs = map inl xs -> update_all (fed call feed) s xs = Ret s' ->
    alone (length vs + 2) turns ->
    exists h, machine_run call feed convert (launch s [UpdateFrom (giving vs (Fails e)) k]) turns =
        Ret (Machine s' [Thread (k (Some e)) []] h) /\ calls_of h = map feed xs.
Proof. exact @raises. Qed.
Print Assumptions C105_raising_keeps_what_was_given.

(** Likewise for a value that is not a number; the iterator is not run further. *)
Theorem C105_rejected_value_ends_the_update :
  forall (S E C O : Type) (call : S -> C -> outcome (S * O)) (feed : E -> C)
         (convert : pyval -> result E) vs xs v e after (s s' : S) (k : option pyexn -> code C O) turns,
    map convert vs = map inl xs -> update_all (fed call feed) s xs = Ret s' -> convert v = inr e ->
    alone (length vs + 2) turns ->
    exists h, machine_run call feed convert (launch s [UpdateFrom (giving vs (Give v after)) k]) turns =
        Ret (Machine s' [Thread (k (Some e)) []] h) /\ calls_of h = map feed xs.
Proof. exact @rejected. Qed.
Print Assumptions C105_rejected_value_ends_the_update.

(** An iterator without end: [update] never returns, and every turn is an
    update. *)
Theorem C105_endless_iterator :
  forall (S E C O : Type) (call : S -> C -> outcome (S * O)) (feed : E -> C)
         (convert : pyval -> result E) v x (k : option pyexn -> code C O) n (s s' : S) turns,
    convert v = inl x -> update_all (fed call feed) s (repeat x n) = Ret s' ->
    alone (1 + n) turns ->
    exists h, machine_run call feed convert (launch s [UpdateFrom (endless v) k]) turns =
      Ret (Machine s' [Thread (endless v) [k]] h) /\ calls_of h = map feed (repeat x n).
Proof. exact @endless_launch. Qed.
Print Assumptions C105_endless_iterator.

(** An iterator that itself calls [update] of the object it feeds: the inner
    values arrive between the outer ones, and nothing is lost. *)
Theorem C105_reentrant_update :
  forall (S E C O : Type) (call : S -> C -> outcome (S * O)) (feed : E -> C)
         (convert : pyval -> result E) vs ws us xs ys zs (s s1 s2 s3 : S)
         (k g : option pyexn -> code C O) turns,
    map convert vs = map inl xs -> map convert ws = map inl ys -> map convert us = map inl zs ->
    update_all (fed call feed) s xs = Ret s1 -> update_all (fed call feed) s1 ys = Ret s2 ->
    update_all (fed call feed) s2 zs = Ret s3 ->
    g None = giving us Finish ->
    alone (length vs + length ws + length us + 4) turns ->
    exists h, machine_run call feed convert
        (launch s [UpdateFrom (giving vs (UpdateFrom (giving ws Finish) g)) k]) turns =
      Ret (Machine s3 [Thread (k None) []] h) /\ calls_of h = map feed (xs ++ ys ++ zs).
Proof. exact @reentrant. Qed.
Print Assumptions C105_reentrant_update.

(** Two threads with a list each, the second with a bad third value, on a list
    without bound. *)
Example C105_example :
  let bodies := [feeds [PyInt 1; PyInt 2]; feeds [PyInt 3; PyInt 4; PyNone; PyInt 5]] in
  ok (machine_run (ll_call (Bz 0)) CUpdate as_double (launch (ll_new 0) bodies)
        [(0, 0); (1, 0); (1, 0); (0, 0); (0, 0); (1, 0); (0, 0); (1, 0); (1, 0); (0, 0); (1, 0)])
     (fun m => Nat.eqb (length (calls_by 0 (history m))) 2 && Nat.eqb (length (calls_by 1 (history m))) 2 &&
        match calls_of (history m) with
        | [CUpdate a; CUpdate b; CUpdate c; CUpdate d] =>
            @eqb B64 a (Bz 3) && @eqb B64 b (Bz 1) && @eqb B64 c (Bz 2) && @eqb B64 d (Bz 4)
        | _ => false
        end) = true.
Proof. vm_compute. reflexivity. Qed.

(** The hypotheses of the single-thread statements. *)
Example C105_example_hypotheses :
  (exists xs, map as_double [PyInt 1; PyFloat (Bz 2)] = map inl xs /\ length xs = 2) /\
  as_double PyNone = inr TypeError /\ alone 4 (repeat (0, 7) 4) /\
  ok (update_all (fed (rb_call (Bz 0)) CUpdate) (rb_new 1) [Bz 1; Bz 2]) (fun s => N.eqb (rb_size s) 1) = true.
Proof.
  repeat split; try (vm_compute; reflexivity).
  - exists [Bz 1; Bz 2]. split; reflexivity.
  - repeat constructor.
Qed.
