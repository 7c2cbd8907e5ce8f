(** Properties C07-C13: LinkedList. *)

From Coq Require Import List Arith.
From stdpp Require Import gmap.
From Verif Require Import Outcome Calls RingBuffer LinkedList LinkedListConc LinkedListSpec Spec
     RingBufferFacts LinkedListFacts LinkedListConcFacts.
Import ListNotations.

(** C07: with W >= 1, any history in which reset is only called on a non-empty
    list returns what the drop-oldest queue returns; display() lists its items;
    no call is undefined. *)
Theorem C07_list_is_bounded_fifo :
  forall (T : Type) (dflt : T) (W : nat) (cs : list (rcall T)),
    1 <= W -> resets_ok W dflt [] cs ->
    exists s, ll_run dflt (ll_new W) cs = Ret (s, snd (q0_run W dflt [] cs)) /\
      ll_display s = Ret (fst (q0_run W dflt [] cs)) /\
      ll_getsize s = length (fst (q0_run W dflt [] cs)) /\
      ll_getsize s <= W.
Proof.
  exact (fun T dflt W cs HW H =>
    match ll_fifo dflt W cs H with
    | ex_intro _ s (conj a (conj b (conj c d))) => ex_intro _ s (conj a (conj b (conj c (d HW))))
    end).
Qed.
Print Assumptions C07_list_is_bounded_fifo.

Example C07_example :
  resets_ok 2 0 [] [CUpdate 1; CUpdate 2; CUpdate 3; CPop; CReset; CPop; CUpdate 4; CPop; CSize] /\
  snd (q0_run 2 0 [] [CUpdate 1; CUpdate 2; CUpdate 3; CPop; CReset; CPop; CUpdate 4; CPop; CSize])
  = [OUnit; OUnit; OUnit; OVal 2; OUnit; OVal 0; OUnit; OVal 4; ONum 0%N].
Proof. vm_compute. repeat split; discriminate. Qed.

(** C08: with W = 0 the list is an unbounded queue. *)
Theorem C08_list_window_zero_unbounded :
  forall (T : Type) (dflt : T) (cs : list (rcall T)),
    resets_ok 0 dflt [] cs ->
    exists s, ll_run dflt (ll_new 0) cs = Ret (s, snd (q0_run 0 dflt [] cs)) /\
      ll_display s = Ret (fst (q0_run 0 dflt [] cs)) /\
      ll_getsize s = length (fst (q0_run 0 dflt [] cs)).
Proof.
  exact (fun T dflt cs H =>
    match ll_fifo dflt 0 cs H with
    | ex_intro _ s (conj a (conj b (conj c _))) => ex_intro _ s (conj a (conj b c))
    end).
Qed.
Print Assumptions C08_list_window_zero_unbounded.

Example C08_example :
  fst (q0_run 0 0 [] (map CUpdate [1;2;3;4;5] ++ [CPop])) = [2;3;4;5] /\
  resets_ok 0 0 [] (map CUpdate [1;2;3;4;5] ++ [CPop]).
Proof. vm_compute. repeat split; auto. Qed.

(** C09: LinkedList and RingBuffer return the same answers (full() excepted). *)
Theorem C09_list_and_ring_agree :
  forall (T : Type) (dflt : T) (W : nat) (cs : list (rcall T)),
    1 <= W -> (N.of_nat W < 2 ^ 64)%N -> no_full cs = true -> resets_ok W dflt [] cs ->
    exists s1 s2 outs,
      ll_run dflt (ll_new W) cs = Ret (s1, outs) /\
      rb_run dflt (rb_new (N.of_nat W)) cs = Ret (s2, outs).
Proof.
  exact (fun T dflt W cs H1 H2 H3 H4 =>
    match ll_fifo dflt W cs H4, rb_history_facts dflt W cs H1 H2 with
    | ex_intro _ s1 (conj a _), ex_intro _ s2 (conj b _) =>
        ex_intro _ s1 (ex_intro _ s2 (ex_intro _ (snd (q_run W dflt [] cs))
          (conj (eq_trans a (f_equal (fun r => Ret (s1, snd r)) (q0_q_run dflt W [] cs H1 H3))) b)))
    end).
Qed.
Print Assumptions C09_list_and_ring_agree.

Example C09_example :
  no_full [CUpdate 1; CUpdate 2; CUpdate 3; CReset; CUpdate 4; CSize; CPop] = true /\
  resets_ok 2 0 [] [CUpdate 1; CUpdate 2; CUpdate 3; CReset; CUpdate 4; CSize; CPop].
Proof. vm_compute. repeat split; discriminate. Qed.

(** C10: on an empty list, however it became empty, reset() and destruction
    dereference null; the rest of the history is lost. *)
Theorem C10_list_empty_reset_undefined_refuted :
  forall (T : Type) (dflt : T) (W : nat) (cs : list (rcall T)) s os,
    resets_ok W dflt [] cs ->
    ll_run dflt (ll_new W) cs = Ret (s, os) ->
    fst (q0_run W dflt [] cs) = [] ->
    ll_reset s = Undef NullDeref /\ ll_destroy s = Undef NullDeref /\
    forall ds, ll_run dflt (ll_new W) (cs ++ CReset :: ds) = Undef NullDeref.
Proof. exact @ll_reset_undef. Qed.
Print Assumptions C10_list_empty_reset_undefined_refuted.

(** reset() on a non-empty list gives an empty list that answers every later
    history exactly like a new one. *)
Theorem C10_list_reset_behaves_like_new :
  forall (T : Type) (dflt : T) (W : nat) (cs : list (rcall T)) s os,
    resets_ok W dflt [] cs ->
    ll_run dflt (ll_new W) cs = Ret (s, os) ->
    fst (q0_run W dflt [] cs) <> [] ->
    exists s', ll_reset s = Ret s' /\ ll_display s' = Ret [] /\
      forall ds, resets_ok W dflt [] ds ->
        exists t1 t2 outs, ll_run dflt s' ds = Ret (t1, outs) /\
                           ll_run dflt (ll_new W) ds = Ret (t2, outs).
Proof. exact @ll_reset_fresh. Qed.
Print Assumptions C10_list_reset_behaves_like_new.

Example C10_example :
  (resets_ok 2 0 [] [CUpdate 1; CPop] /\ fst (q0_run 2 0 [] [CUpdate 1; CPop]) = []) /\
  (resets_ok 2 0 [] [CUpdate 1; CUpdate 2] /\ fst (q0_run 2 0 [] [CUpdate 1; CUpdate 2]) <> []).
Proof. vm_compute. repeat split; discriminate. Qed.

(** C11: the live nodes are exactly the retained items plus everything that was
    retained at some reset; one node was allocated per update; neither the
    destructor nor reset changes the node heap. *)
Theorem C11_list_leak_accounting :
  forall (T : Type) (dflt : T) (W : nat) (cs : list (rcall T)) s os,
    resets_ok W dflt [] cs ->
    ll_run dflt (ll_new W) cs = Ret (s, os) ->
    heap_values (ll_heap s) ≡ₚ fst (q0_run W dflt [] cs) ++ reset_items W dflt [] cs /\
    ll_fresh s = updates cs /\
    (fst (q0_run W dflt [] cs) <> [] ->
     ll_destroy s = Ret (ll_heap s) /\
     exists s', ll_reset s = Ret s' /\ ll_heap s' = ll_heap s).
Proof. exact @ll_accounting. Qed.
Print Assumptions C11_list_leak_accounting.

Example C11_example :
  resets_ok 2 0 [] [CUpdate 1; CUpdate 2; CUpdate 3; CReset; CUpdate 4] /\
  reset_items 2 0 [] [CUpdate 1; CUpdate 2; CUpdate 3; CReset; CUpdate 4] = [2; 3].
Proof. vm_compute. repeat split; discriminate. Qed.

(** C12: full() is "not empty". *)
Theorem C12_list_full_means_nonempty :
  forall (T : Type) (dflt : T) (W : nat) (cs : list (rcall T)) s os,
    resets_ok W dflt [] cs ->
    ll_run dflt (ll_new W) cs = Ret (s, os) ->
    (ll_full s = true <-> fst (q0_run W dflt [] cs) <> []) /\
    (ll_empty s = true <-> fst (q0_run W dflt [] cs) = []).
Proof. exact @ll_full_meaning. Qed.
Print Assumptions C12_list_full_means_nonempty.

(** In particular one item in a window of any size already makes it full. *)
Theorem C12_list_single_item_is_full_refuted :
  forall (T : Type) (dflt : T) (W : nat) (x : T), exists s,
    ll_run dflt (ll_new W) [CUpdate x; CSize; CFull] = Ret (s, [OUnit; ONum 1%N; OBool true]).
Proof. exact @ll_full_single. Qed.
Print Assumptions C12_list_single_item_is_full_refuted.

Example C12_example : resets_ok 5 0 [] [CUpdate 1].
Proof. vm_compute. repeat split; auto. Qed.

(** C13: two concurrent updates can lose an item while size() counts both. *)
Theorem C13_list_concurrent_updates_lose_item_refuted :
  forall (T : Type) (dflt : T) (W : nat) (x y : T),
    exists s c m',
      lexec dflt (lstart W [[CUpdate x]; [CUpdate y]]) s = Ret c /\
      lc_threads c = [LThread None [] [(CUpdate x, OUnit)]; LThread None [] [(CUpdate y, OUnit)]] /\
      ll_run dflt (lc_mem c) [CSize; CPop; CEmpty; CPop; CSize] =
        Ret (m', [ONum 2%N; OVal y; OBool true; OVal dflt; ONum 1%N]).
Proof. exact @race_lost_item. Qed.
Print Assumptions C13_list_concurrent_updates_lose_item_refuted.

(** Two concurrent pops of one item can dereference null or delete a node twice. *)
Theorem C13_list_concurrent_pops_undefined_refuted :
  forall (T : Type) (dflt : T) (W : nat) (x : T),
    (exists s, lexec dflt (lstart W [[CUpdate x; CPop]; [CPop]]) s = Undef NullDeref) /\
    (exists s, lexec dflt (lstart W [[CUpdate x; CPop]; [CPop]]) s = Undef BadPointer).
Proof. exact (fun T dflt W x => conj (race_pop_undef dflt W x) (race_double_free dflt W x)). Qed.
Print Assumptions C13_list_concurrent_pops_undefined_refuted.

(** The interleaving model is the sequential one when a call is not interrupted. *)
Theorem C13_uninterrupted_call_is_sequential :
  forall (T : Type) (dflt : T) (m : llist T) (c : rcall T),
    c <> CReset ->
    (forall l, ll_fresh m <= l -> ll_heap m !! l = None) ->
    (forall t, ll_tail m = Some t -> t < ll_fresh m) ->
    lfinish 30 m (lbody dflt (ll_window m) c) = ll_call dflt m c.
Proof. exact @lfinish_body. Qed.
Print Assumptions C13_uninterrupted_call_is_sequential.

Example C13_example : exists s os,
  ll_run 0 (ll_new 2) [CUpdate 1; CUpdate 2] = Ret (s, os) /\
  ll_tail s = Some 1 /\ ll_fresh s = 2.
Proof. eexists _, _. split; [vm_compute; reflexivity|]. vm_compute. auto. Qed.
