(** Property C61: the history counters. The counters are unbounded here; in the
    code they wrap after 2^64 calls. *)

From Coq Require Import List NArith ZArith Bool.
From Verif Require Import Outcome Calls Arith RingBuffer LinkedList Histogram Mean P2 Fame Entropy Spec
  HistSpec CounterSpec CounterFacts P2Witness.
Import ListNotations.

(** reset() does not change the containers' counters. *)
Theorem C61_ring_counter :
  forall (T : Type) (dflt : T) (W : nat) (cs : list (rcall T)) s os,
    1 <= W -> (N.of_nat W < 2 ^ 64)%N ->
    rb_run dflt (rb_new (N.of_nat W)) cs = Ret (s, os) -> rb_history s = updates cs.
Proof. exact ring_counter. Qed.
Print Assumptions C61_ring_counter.

Theorem C61_list_counter :
  forall (T : Type) (dflt : T) (W : nat) (cs : list (rcall T)) s os,
    resets_ok W dflt [] cs -> ll_run dflt (ll_new W) cs = Ret (s, os) -> ll_history s = updates cs.
Proof. exact list_counter. Qed.
Print Assumptions C61_list_counter.

(** reset() zeroes the histogram's counter. *)
Theorem C61_histogram_counter :
  forall (A : arith) (N W : nat) (os : list (hist_op A)) (h : hist A),
    hist_calls (hist_new N W true) os = Ret h -> h_history h = length (since_reset [] os).
Proof. exact hist_counter. Qed.
Print Assumptions C61_histogram_counter.

Theorem C61_mean_counter :
  forall (A : arith) (W : nat) (os : list (stat_op A)) (s : mean A),
    stat_run mean_update (fun s => Ret (s, mean_evaluate s)) (mean_new W) os = Ret s ->
    mn_history s = observed os.
Proof. exact mean_counter. Qed.
Print Assumptions C61_mean_counter.

Theorem C61_fame_counter :
  forall (A : arith) (step eps : A) (os : list (stat_op A)) s0 (s : fame A),
    fame_new step eps = Ret s0 ->
    stat_run (fun s x => Ret (fame_update s x)) (fun s => Ret (s, fame_evaluate s)) s0 os = Ret s ->
    f_history s = observed os.
Proof. exact fame_counter. Qed.
Print Assumptions C61_fame_counter.

Theorem C61_mad_counter :
  forall (A : arith) (os : list (stat_op A)) s0 (s : mad A),
    mad_new = Ret s0 ->
    stat_run (fun s x => Ret (mad_update s x)) (fun s => Ret (s, mad_evaluate s)) s0 os = Ret s ->
    a_history s = observed os.
Proof. exact mad_counter. Qed.
Print Assumptions C61_mad_counter.

(** evaluate() of the quantile estimators may change the object, not the counter. *)
Theorem C61_p2_counter :
  forall (A : arith) (q : A) (os : list (stat_op A)) s0 s,
    p2_new q = Ret s0 -> stat_run p2_update p2_evaluate s0 os = Ret s -> p_history s = observed os.
Proof. exact p2_counter. Qed.
Print Assumptions C61_p2_counter.

Theorem C61_windowed_p2_counter :
  forall (A : arith) (q : A) (W : nat) (os : list (stat_op A)) s0 s,
    wp2_new q W = Ret s0 -> stat_run wp2_update wp2_evaluate s0 os = Ret s -> w_history s = observed os.
Proof. exact wp2_counter. Qed.
Print Assumptions C61_windowed_p2_counter.

Theorem C61_iqr_counter :
  forall (A : arith) (low high : A) (W : nat) (os : list (stat_op A)) s0 s,
    iqr_new_range low high W = Ret s0 -> stat_run iqr_update iqr_evaluate s0 os = Ret s ->
    i_history s = observed os /\ w_history (i_low s) = observed os /\ w_history (i_high s) = observed os.
Proof. exact iqr_counter. Qed.
Print Assumptions C61_iqr_counter.

Theorem C61_entropy_counter :
  forall (A : arith) (log2 : A -> A) (W N : nat) (os : list (stat_op A)) e0 (e : entropy A),
    entropy_new W N = Ret e0 ->
    stat_run (entropy_update log2) (fun s => Ret (s, entropy_evaluate s)) e0 os = Ret e ->
    e_history e = observed os.
Proof. exact entropy_counter. Qed.
Print Assumptions C61_entropy_counter.

(** The runs exist: an interquartile range asked twice while observing six values. *)
Example C61_example :
  ok (iqr_new (A := B64) 4) (fun s0 =>
    ok (stat_run iqr_update iqr_evaluate s0
          (map Observe (map Bz [1; 2; 3]%Z) ++ [Ask] ++ map Observe (map Bz [9; 4; 7]%Z) ++ [Ask]))
       (fun s => Nat.eqb (i_history s) 6)) = true.
Proof. vm_compute. reflexivity. Qed.

Example C61_example_entropy :
  ok (entropy_new (A := B64) 2 3) (fun e0 =>
    ok (stat_run (entropy_update (A := B64) (fun x => x)) (fun s => Ret (s, entropy_evaluate s)) e0
          (map Observe (map Bz [1; 2; 1; 2]%Z) ++ [Ask]))
       (fun e => Nat.eqb (e_history e) 4)) = true.
Proof. vm_compute. reflexivity. Qed.
