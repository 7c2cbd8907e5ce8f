(** C112: public members the caller can assign to. *)

From Coq Require Import List NArith Arith Bool Reals Lra.
From Verif Require Import Outcome Arith Calls RingBuffer LinkedList Histogram Mean Spec MeanSpec P2Witness
  Members MembersSpec MembersRing MembersFacts MembersStat.
Import ListNotations.
Local Open Scope nat_scope.

(** RingBuffer, m_windowSize enlarged to [w]: W + 1 updates end in a write outside the
    buffer, whatever was done before. *)
Theorem C112_ring_enlarged :
  forall (T : Type) (dflt : T) (W w : nat) cs s os (xs : list T), 1 <= W -> W < w -> (N.of_nat w < two64)%N ->
    rb_run dflt (rb_new (N.of_nat W)) cs = Ret (s, os) -> W < length xs ->
    update_all rb_update (rb_set_window s (N.of_nat w)) xs = Undef OutOfBounds.
Proof. exact @ring_grow. Qed.
Print Assumptions C112_ring_enlarged.

(** Popping alone does it too if the buffer was full. *)
Theorem C112_ring_enlarged_pops :
  forall (T : Type) (dflt : T) (W w : nat) cs s os, 1 <= W -> W < w -> (N.of_nat w < two64)%N ->
    rb_run dflt (rb_new (N.of_nat W)) cs = Ret (s, os) -> rb_isfull s = true ->
    rb_run dflt (rb_set_window s (N.of_nat w)) (repeat CPop (W + 1)) = Undef OutOfBounds.
Proof. exact @ring_grow_pops. Qed.
Print Assumptions C112_ring_enlarged_pops.

(** Reduced any number of times between any calls, but not to 0: no call is undefined. *)
Theorem C112_ring_reduced_is_safe :
  forall (T : Type) (dflt : T) (W : nat) cs, 1 <= W -> (N.of_nat W < two64)%N -> shrinking (N.of_nat W) cs ->
    exists s os, rb_acts dflt (rb_new (N.of_nat W)) cs = Ret (s, os).
Proof. exact @ring_shrink_safe. Qed.
Print Assumptions C112_ring_reduced_is_safe.

(** Reduced to [w] while fewer than [w] updates have been made: from then on a queue of [w]. *)
Theorem C112_ring_reduced_early :
  forall (T : Type) (dflt : T) (W w : nat) cs ds s os, w <= W -> (N.of_nat W < two64)%N ->
    rb_run dflt (rb_new (N.of_nat W)) cs = Ret (s, os) -> updates cs < w ->
    exists s', rb_run dflt (rb_set_window s (N.of_nat w)) ds =
               Ret (s', snd (q_run w dflt (fst (q_run W dflt [] cs)) ds)).
Proof. exact @ring_shrink_early. Qed.
Print Assumptions C112_ring_reduced_early.

(** Set to 0: the next update divides by zero, and so does pop unless empty. *)
Theorem C112_ring_zero :
  forall (T : Type) (dflt : T) (W : nat) cs s os, 1 <= W -> (N.of_nat W < two64)%N ->
    rb_run dflt (rb_new (N.of_nat W)) cs = Ret (s, os) ->
    (forall x, rb_update (rb_set_window s 0) x = Undef DivByZero) /\
    (rb_empty s = false -> rb_pop dflt (rb_set_window s 0) = Undef DivByZero).
Proof. exact @ring_zero. Qed.
Print Assumptions C112_ring_zero.

(** Reduced later, the sizes and the contents are wrong: size() returns 2^64 - 2; of a full
    buffer the oldest and not the newest items stay. *)
Theorem C112_ring_reduced_is_a_queue_refuted :
  (exists cs, shrinking 8 cs /\ exists s os,
     rb_acts 0 (rb_new 8) (cs ++ [MCall CSize]) = Ret (s, os ++ [ONum (two64 - 2)%N])) /\
  (exists s os, rb_acts 0 (rb_new 4)
     (map MCall (map CUpdate [1; 2; 3; 4]) ++ [MWindow 2; MCall CPop; MCall CPop; MCall CEmpty]) =
     Ret (s, os ++ [OVal 1; OVal 2; OBool true])).
Proof. exact ring_reduced_wrong. Qed.
Print Assumptions C112_ring_reduced_is_a_queue_refuted.

(** And enlarged again, even within the allocated buffer, indeterminate cells are read. *)
Theorem C112_ring_within_buffer_refuted :
  rb_acts 0 (rb_new 8)
    (map MCall (map CUpdate [1; 2; 3; 4] ++ [CPop; CPop; CPop]) ++ [MWindow 1; MCall (CUpdate 5); MWindow 8] ++
     map MCall [CPop; CPop; CPop]) = Undef UninitRead.
Proof. exact ring_uninit. Qed.
Print Assumptions C112_ring_within_buffer_refuted.

(** LinkedList: for all interleavings of calls and assignments it is a queue that evicts
    exactly when it holds m_windowSize items. *)
Theorem C112_list_any_window :
  forall (T : Type) (dflt : T) (W : nat) cs, v_resets_ok dflt (W, []) cs ->
    exists s, ll_acts dflt (ll_new W) cs = Ret (s, snd (v_acts dflt (W, []) cs)) /\
      ll_display s = Ret (snd (fst (v_acts dflt (W, []) cs))) /\
      ll_getsize s = length (snd (fst (v_acts dflt (W, []) cs))).
Proof. exact @list_changes. Qed.
Print Assumptions C112_list_any_window.

(** So with m_windowSize below the current size updates never evict again. *)
Theorem C112_list_reduced_grows :
  forall (T : Type) (dflt : T) (W w : nat) cs xs s os, resets_ok W dflt [] cs ->
    ll_run dflt (ll_new W) cs = Ret (s, os) -> w < ll_getsize s ->
    exists s', update_all (ll_update dflt) (ll_set_window s w) xs = Ret s' /\
      ll_getsize s' = ll_getsize s + length xs.
Proof. exact @list_shrunk. Qed.
Print Assumptions C112_list_reduced_grows.

(** Histogram: a larger window fills up, a smaller one is never reached. Any state. *)
Theorem C112_histogram_total :
  forall (A : arith) (h : hist A) (w : nat) xs h', h_decay h = true ->
    update_all hist_update (hist_set_window h w) xs = Ret h' ->
    hist_totalCount h' = Nat.max (hist_totalCount h) (Nat.min (hist_totalCount h + length xs) w).
Proof. exact @hist_total_after. Qed.
Print Assumptions C112_histogram_total.

(** StreamingMean whose window was edited through getWindow() to hold [w]: the window
    afterwards has k elements, and the difference of the sums stays in the mean for ever. *)
Theorem C112_mean_edited_window :
  forall (W : nat) (xs ys w : list R) s, 1 <= W -> ys <> [] ->
    update_all (mean_update (A := RA)) (mean_new W) xs = Ret s ->
    exists s', update_all (mean_update (A := RA)) (mean_set_window s (Some w)) ys = Ret s' /\
      let k := Nat.max (length w) (Nat.min (length w + length ys) W) in
      mean_evaluate s' = (avg (lastn k (w ++ ys)) + (rsum (lastn W xs) - rsum w) / INR k)%R.
Proof. exact mean_edited. Qed.
Print Assumptions C112_mean_edited_window.

(** m_window set to null: the sum of the window and the new observations is divided by
    the number of all observations. *)
Theorem C112_mean_null_window :
  forall (W : nat) (xs ys : list R) s, 1 <= W -> xs <> [] ->
    update_all (mean_update (A := RA)) (mean_new W) xs = Ret s ->
    exists s', update_all (mean_update (A := RA)) (mean_set_window s None) ys = Ret s' /\
      mean_evaluate s' = ((rsum (lastn W xs) + rsum ys) / INR (length xs + length ys))%R.
Proof. exact mean_nulled. Qed.
Print Assumptions C112_mean_null_window.

(** A mean over everything that is given an empty window: the next update is undefined. *)
Theorem C112_mean_given_window :
  forall (A : arith) (xs : list A) s x, update_all mean_update (mean_new 0) xs = Ret s ->
    mean_update (mean_set_window s (Some [])) x = Undef OutOfBounds.
Proof. exact @mean_given_window. Qed.
Print Assumptions C112_mean_given_window.

(** m_historyCount of a windowed mean: no other value than 0 makes a difference. *)
Theorem C112_mean_history :
  forall (A : arith) (W : nat) (xs ys : list A) s s' n, 1 <= W -> n <> 0 ->
    update_all mean_update (mean_new W) xs = Ret s -> update_all mean_update s ys = Ret s' -> xs ++ ys <> [] ->
    exists s2, update_all mean_update (mean_set_history s n) ys = Ret s2 /\ mean_evaluate s2 = mean_evaluate s'.
Proof. exact @mean_counter. Qed.
Print Assumptions C112_mean_history.

(** The hypotheses are met: a list reduced from 3 to 1 and then popped back to size; a
    mean whose window was cleared after 6 and 8 is off by 14 / 2. *)
Example C112_example :
  snd (fst (v_acts 0 (3, []) (map MCall (map CUpdate [1; 2; 3]) ++ [MWindow 1] ++ map MCall (map CUpdate [4; 5])))) = [1; 2; 3; 4; 5] /\
  snd (fst (v_acts 0 (3, []) (map MCall (map CUpdate [1; 2]) ++ [MWindow 1; MCall CPop] ++ map MCall (map CUpdate [4; 5])))) = [5] /\
  ok (update_all hist_update (hist_new (A := B64) 2 3 true) (map Bz [1; 2; 3]%Z))
     (fun h => ok (update_all hist_update (hist_set_window h 1) (map Bz [4; 5]%Z)) (fun h' => Nat.eqb (hist_totalCount h') 3)) = true /\
  (avg (lastn 2 [2; 4]) + (rsum (lastn 2 [6; 8]) - rsum []) / INR 2 = 10)%R.
Proof.
  repeat split; try (vm_compute; reflexivity).
  unfold lastn, avg. cbn [length Nat.sub skipn rsum INR]. lra.
Qed.
