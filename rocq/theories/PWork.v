(** C110: how much work one update does. *)

From Coq Require Import List ZArith Arith.
From Verif Require Import Outcome Arith IBin Histogram Mean P2 Spec HistSpec P2Witness Work WorkSpec WorkFacts.
Import ListNotations.
Local Open Scope nat_scope.

(** Without their counts the counted calls are the calls of the model. *)
Theorem C110_counted_calls_are_the_calls :
  forall (A : arith) (sort_work : nat -> nat) (x : A),
    (forall h, answer (whist_update h x) = hist_update h x) /\
    (forall s, answer (wmean_update s x) = mean_update s x) /\
    (forall s, answer (wvariance_update s x) = variance_update s x) /\
    (forall s, answer (w_p2_update sort_work s x) = p2_update s x).
Proof. exact counted_calls. Qed.
Print Assumptions C110_counted_calls_are_the_calls.

(** Mean, variance and P2 do a constant amount of work per update, in every state:
    O(1) as documented. std::sort of the five heights may cost anything. *)
Theorem C110_constant_work :
  forall (A : arith) (sort_work : nat -> nat) (x : A),
    (forall s, at_most 3 (wmean_update s x)) /\
    (forall s, at_most 6 (wvariance_update s x)) /\
    (forall s, length (p_heights s) = 5 -> at_most (Nat.max 88 (6 + sort_work 5)) (w_p2_update sort_work s x)).
Proof. exact constant_work. Qed.
Print Assumptions C110_constant_work.

(** The search for a bin always ends and looks at a logarithmic number of bins. *)
Theorem C110_search_is_logarithmic :
  forall (A : arith) (h : hist A) (b : bin A), exists i c,
    whist_binSearch_bin h b = Ret (i, c) /\
    Nat.log2 (hist_size h + 1) <= c <= (if Nat.eqb (hist_size h) 0 then 0 else Nat.log2 (hist_size h) + 1).
Proof. exact @search_logarithmic. Qed.
Print Assumptions C110_search_is_logarithmic.

(** A histogram's update is linear in the number of bins and the window size. *)
Theorem C110_update_is_linear :
  forall (A : arith) N W os (h : hist A) x, hist_calls (hist_new N W true) os = Ret h ->
    at_most (Nat.log2 N + 5 * N + 4 * W + 15) (whist_update h x).
Proof. exact @update_most. Qed.
Print Assumptions C110_update_is_linear.

(** While no merge is needed, the window size does not matter. *)
Theorem C110_update_without_merge :
  forall (A : arith) N W os (h h1 : hist A) x, hist_calls (hist_new N W true) os = Ret h ->
    hist_add h x = Ret h1 -> hist_size h1 <= N ->
    at_most (Nat.log2 N + 2 * N + 9) (whist_update h x).
Proof. exact @update_most_fits. Qed.
Print Assumptions C110_update_without_merge.

(** The merge itself is O(m_numBins), as the comment at StreamingHistogram.tcc:64 says:
    exactly 3n - i accesses for n bins if bin i is merged with the next. *)
Theorem C110_merge_is_linear :
  forall (A : arith) (bins : list (bin A)),
    answer (whist_merge bins) = hist_merge bins /\
    forall bins' i c, whist_merge bins = Ret ((bins', i), c) ->
      c + i = 3 * length bins /\ i + 1 < length bins.
Proof. exact merge_linear. Qed.
Print Assumptions C110_merge_is_linear.

(** With a merge every bin and every index of the window is visited; the window holds
    the zeros of the constructor too. *)
Theorem C110_update_with_merge :
  forall (A : arith) N W xs (h h1 : hist A) x, update_all hist_update (hist_new N W true) xs = Ret h ->
    hist_add h x = Ret h1 -> N < hist_size h1 ->
    at_least (Nat.log2 (hist_size h + 1) + 2 * N + W + Nat.min (length xs + 1) W) (whist_update h x).
Proof. exact @update_least. Qed.
Print Assumptions C110_update_with_merge.

(** So an update's work is not bounded by the number of bins: with one bin, some window
    size makes the second update do more work than any given bound. *)
Theorem C110_work_bounded_by_bins_refuted :
  forall K, exists W (h h' : hist B64) c,
    update_all hist_update (hist_new (A := B64) 1 W true) [Bz 1] = Ret h /\
    whist_update h (Bz 2) = Ret (h', c) /\ K < c.
Proof. exact window_matters. Qed.
Print Assumptions C110_work_bounded_by_bins_refuted.

Definition spent {X} (m : work X) : nat := match m with Ret (_, c) => c | _ => 0 end.

(** Two bins and a window of three: the third update merges. One access looks
    for the bin, one appends it, one appends its index; 4 look for the smallest gap, 5
    merge, 6 visit the indices and one of these is changed. *)
Example C110_example :
  ok (update_all hist_update (hist_new (A := B64) 2 3 true) (map Bz [1; 2]%Z))
     (fun h => andb (Nat.eqb (spent (whist_update h (Bz 4))) 19)
                    (ok (hist_update h (Bz 4)) (fun h => Nat.eqb (spent (whist_update h (Bz 8))) 22))) = true /\
  ok (update_all hist_update (hist_new (A := B64) 2 300 true) (map Bz [1; 2]%Z))
     (fun h => Nat.eqb (spent (whist_update h (Bz 4))) 316) = true /\
  ok (p2_stream (Bquot (Bz 1) (Bz 2)) [1; 2; 3; 4; 5; 6; 7]%Z)
     (fun s => Nat.eqb (spent (w_p2_update (fun n => n * n) s (Bz 8))) 57) = true.
Proof. vm_compute. repeat split; reflexivity. Qed.
