(** Properties C89 and C90: data races of the two containers. *)

From Coq Require Import List NArith Arith Lia.
From stdpp Require Import gmap.
From Verif Require Import Outcome Calls RingBuffer RingBufferConc RingBufferConcSpec LinkedList LinkedListConc LinkedListConcSpec
     LinkedListConcFacts RaceFacts LinkedListRace.
Import ListNotations.

(** C89: any number of threads making any mixture of update, pop and reset calls
    never have a data race, nor do threads that only call size, empty and full. *)
Theorem C89_ring_race_free :
  forall (T : Type) (dflt : T) (W : nat) (programs : list (list (rcall T))) (sched : list nat) c a b v,
    1 <= W -> (N.of_nat W < 2 ^ 64)%N ->
    Forall (Forall (fun call => locked call = v)) programs ->
    exec dflt (start (N.of_nat W) programs) sched = Ret c -> ~ race c a b.
Proof. exact @race_free. Qed.
Print Assumptions C89_ring_race_free.

(** In any program a race is between one of size, empty, full and one of update,
    pop, reset ... *)
Theorem C89_ring_race_shape :
  forall (T : Type) (dflt : T) (W : nat) (programs : list (list (rcall T))) (sched : list nat) c a b,
    1 <= W -> (N.of_nat W < 2 ^ 64)%N ->
    exec dflt (start (N.of_nat W) programs) sched = Ret c -> race c a b -> locked a = negb (locked b).
Proof. exact @race_shape. Qed.
Print Assumptions C89_ring_race_shape.

(** ... and every such pair can race. *)
Theorem C89_ring_observers_race_refuted :
  forall (T : Type) (dflt : T) (W : nat) (x : T) a b,
    1 <= W -> (N.of_nat W < 2 ^ 64)%N -> locked a = true -> locked b = false ->
    exists s c, exec dflt (start (N.of_nat W) [[CUpdate x; a]; [b]]) s = Ret c /\ race c a b.
Proof. exact @race_found. Qed.
Print Assumptions C89_ring_observers_race_refuted.

Example C89_example :
  Forall (Forall (fun call => locked call = true)) [[CUpdate 1; CPop]; [CReset]; []] /\
  Forall (Forall (fun call => locked call = false)) [[@CSize nat; CEmpty]; [CFull]] /\
  exists c, exec 0 (start 2 [[CUpdate 1; CPop]; [CReset]; []]) [0; 0; 1; 0] = Ret c.
Proof. split; [repeat constructor|]. split; [repeat constructor|]. eexists. vm_compute. reflexivity. Qed.

(** C90: on a LinkedList an update races with every call, another update and
    reset (which holds the mutex) included. *)
Theorem C90_list_update_races_refuted :
  forall (T : Type) (dflt : T) (W : nat) (x : T) (b : rcall T),
    exists s c, lexec dflt (lstart W [[CUpdate x]; [b]]) s = Ret c /\ lrace c (CUpdate x) b.
Proof. exact @list_races. Qed.
Print Assumptions C90_list_update_races_refuted.

(** The mutex of reset protects neither update nor pop: both can dereference a
    null pointer. *)
Theorem C90_list_reset_not_exclusive_refuted :
  forall (T : Type) (dflt : T) (W : nat) (x y : T),
    (exists s, lexec dflt (lstart W [[CUpdate x; CUpdate y]; [CReset]]) s = Undef NullDeref) /\
    (exists s, lexec dflt (lstart W [[CUpdate x; CPop]; [CReset]]) s = Undef NullDeref).
Proof. exact (fun T dflt W x y => conj (reset_breaks_update dflt W x y) (reset_breaks_pop dflt W x)). Qed.
Print Assumptions C90_list_reset_not_exclusive_refuted.

(** Of any number of resets by any number of threads, from any state and under
    any schedule, at most one ever returns. *)
Theorem C90_list_one_reset :
  forall (T : Type) (dflt : T) (m : llist T) (programs : list (list (rcall T))) (sched : list nat) c,
    Forall (Forall (eq CReset)) programs ->
    lexec dflt (LConfig m None (map (fun p => LThread None p []) programs)) sched = Ret c ->
    completed c <= 1.
Proof. exact @one_reset. Qed.
Print Assumptions C90_list_one_reset.

(** The small steps are the sequential functions when a call is not interrupted;
    reset included. *)
Theorem C90_list_uninterrupted :
  forall (T : Type) (dflt : T) (m m' : llist T) o c,
    (forall l, ll_fresh m <= l -> ll_heap m !! l = None) ->
    (forall t, ll_tail m = Some t -> t < ll_fresh m) ->
    ll_call dflt m c = Ret (m', o) ->
    exists fuel, lfinish fuel m (lbody dflt (ll_window m) c) = Ret (m', o).
Proof. exact @lfinish_call. Qed.
Print Assumptions C90_list_uninterrupted.

(** One reset of two does return. *)
Example C90_example :
  exists m os c, ll_run 0 (ll_new 3) [CUpdate 1; CUpdate 2] = Ret (m, os) /\
    lexec 0 (LConfig m None (map (fun p => LThread None p []) [[CReset]; [CReset]])) (repeat 0 12) = Ret c /\
    completed c = 1.
Proof. do 3 eexists. split; [vm_compute; reflexivity|]. split; vm_compute; reflexivity. Qed.
