(** Proofs about the history counters. *)

From Coq Require Import List Arith Lia NArith.
From Verif Require Import Outcome Calls Arith RingBuffer LinkedList Utils IBin Histogram Mean P2 Fame Entropy Spec
  ListFacts RingBufferFacts LinkedListFacts MeanFacts P2Facts HistSpec HistFacts EntropyDrift CounterSpec.
Import ListNotations.
Local Open Scope nat_scope.

Section Generic.
  Context {S X V : Type} (update : S -> X -> outcome S) (evaluate : S -> outcome (S * V)) (count : S -> nat).
  Hypothesis up : forall s x s', update s x = Ret s' -> count s' = Datatypes.S (count s).
  Hypothesis ask : forall s s' v, evaluate s = Ret (s', v) -> count s' = count s.

  Lemma run_count os : forall s s', stat_run update evaluate s os = Ret s' -> count s' = count s + observed os.
  Proof using up ask.
    induction os as [|[x|] os IH]; intros s s' E; simpl in E.
    - injection E as <-. simpl. lia.
    - apply bind_Ret in E as (t & Et & E). rewrite (IH _ _ E), (up _ _ _ Et). simpl. lia.
    - apply bind_Ret in E as ([t v] & Et & E). rewrite (IH _ _ E), (ask _ _ _ Et). simpl. lia.
  Qed.
End Generic.

Lemma mean_up {A : arith} (s : mean A) x s' : mean_update s x = Ret s' -> mn_history s' = S (mn_history s).
Proof.
  unfold mean_update. intros E. apply bind_Ret in E as ([w m] & _ & E). injection E as <-. simpl. lia.
Qed.

Lemma p2_up {A : arith} (s : p2 A) x s' : p2_update s x = Ret s' -> p_history s' = S (p_history s).
Proof.
  unfold p2_update. destruct (Nat.ltb _ _).
  - intros E. apply bind_Ret in E as (h & _ & E). destruct (Nat.eqb _ _).
    + apply bind_Ret in E as (h' & _ & E). now injection E as <-.
    + now injection E as <-.
  - intros E. apply bind_Ret in E as ([h k] & _ & E). apply bind_Ret in E as (n & _ & E).
    apply bind_Ret in E as (d & _ & E). apply bind_Ret in E as ([h' n'] & _ & E). now injection E as <-.
Qed.

Lemma p2_ask {A : arith} (s : p2 A) s' v : p2_evaluate s = Ret (s', v) -> p_history s' = p_history s.
Proof. intros E. apply eval_fields in E. tauto. Qed.

Lemma wp2_up {A : arith} (s : wp2 A) x s' : wp2_update s x = Ret s' -> w_history s' = S (w_history s).
Proof.
  unfold wp2_update. intros E. apply bind_Ret in E as (p & _ & E). destruct (_ && _)%bool.
  - apply bind_Ret in E as ([p' v] & _ & E). now injection E as <-.
  - now injection E as <-.
Qed.

Lemma wp2_ask {A : arith} (s : wp2 A) s' v : wp2_evaluate s = Ret (s', v) -> w_history s' = w_history s.
Proof.
  unfold wp2_evaluate. destruct (Nat.ltb _ _).
  - intros E. apply bind_Ret in E as ([p w] & _ & E). now injection E as <- _.
  - destruct (Nat.eqb _ _); [discriminate|]. intros E. apply bind_Ret in E as ([p w] & _ & E). now injection E as <- _.
Qed.

Lemma iqr_up {A : arith} (s : iqr A) x s' : iqr_update s x = Ret s' ->
  i_history s' = S (i_history s) /\ w_history (i_low s') = S (w_history (i_low s)) /\
  w_history (i_high s') = S (w_history (i_high s)).
Proof.
  unfold iqr_update. intros E. apply bind_Ret in E as (l & El & E). apply bind_Ret in E as (h & Eh & E).
  injection E as <-. simpl. apply wp2_up in El, Eh. auto.
Qed.

Lemma iqr_ask {A : arith} (s : iqr A) s' v : iqr_evaluate s = Ret (s', v) ->
  i_history s' = i_history s /\ w_history (i_low s') = w_history (i_low s) /\
  w_history (i_high s') = w_history (i_high s).
Proof.
  unfold iqr_evaluate. intros E. apply bind_Ret in E as ([h vh] & Eh & E). apply bind_Ret in E as ([l vl] & El & E).
  injection E as <- _. simpl. apply wp2_ask in El, Eh. auto.
Qed.

Lemma entropy_up {A : arith} (log2 : A -> A) (s : entropy A) x s' : entropy_update log2 s x = Ret s' ->
  e_history s' = S (e_history s).
Proof.
  unfold entropy_update. intros E. apply bind_Ret in E as (i & _ & E). destruct (e_window s); [|discriminate].
  apply bind_Ret in E as ([w2 ent] & _ & E). apply bind_Ret in E as (h & _ & E).
  apply bind_Ret in E as (e2 & _ & E). now injection E as <-.
Qed.

Lemma ring_counter (T : Type) (dflt : T) (W : nat) cs s os : 1 <= W -> (N.of_nat W < 2 ^ 64)%N ->
  rb_run dflt (rb_new (N.of_nat W)) cs = Ret (s, os) -> rb_history s = updates cs.
Proof.
  intros H1 H2 E. destruct (rb_history_facts dflt W cs H1 H2) as (s' & E' & _ & H).
  rewrite E in E'. injection E' as <- _. exact H.
Qed.

Lemma list_counter (T : Type) (dflt : T) (W : nat) cs s os : resets_ok W dflt [] cs ->
  ll_run dflt (ll_new W) cs = Ret (s, os) -> ll_history s = updates cs.
Proof.
  intros H E. destruct (ll_history_facts dflt W cs H) as (s' & E' & _ & H' & _).
  rewrite E in E'. injection E' as <- _. exact H'.
Qed.

Lemma hist_counter (A : arith) (N W : nat) os (h : hist A) : hist_calls (hist_new N W true) os = Ret h ->
  h_history h = length (since_reset [] os).
Proof. intros E. apply run_basic in E. tauto. Qed.

Lemma mean_counter (A : arith) (W : nat) os (s : mean A) :
  stat_run mean_update (fun s => Ret (s, mean_evaluate s)) (mean_new W) os = Ret s -> mn_history s = observed os.
Proof.
  intros E. apply (run_count _ _ mn_history) in E; [exact E|apply mean_up|].
  intros ? ? ? H. now injection H as <- _.
Qed.

Lemma fame_counter (A : arith) (step eps : A) os s0 (s : fame A) : fame_new step eps = Ret s0 ->
  stat_run (fun s x => Ret (fame_update s x)) (fun s => Ret (s, fame_evaluate s)) s0 os = Ret s ->
  f_history s = observed os.
Proof.
  unfold fame_new. destruct (_ || _)%bool; [discriminate|]. intros E0 E. injection E0 as <-.
  apply (run_count _ _ f_history) in E; [exact E| |].
  - intros t x t' H. injection H as <-. simpl. lia.
  - intros ? ? ? H. now injection H as <- _.
Qed.

Lemma mad_counter (A : arith) os s0 (s : mad A) : mad_new = Ret s0 ->
  stat_run (fun s x => Ret (mad_update s x)) (fun s => Ret (s, mad_evaluate s)) s0 os = Ret s ->
  a_history s = observed os.
Proof.
  unfold mad_new. intros E0 E. apply bind_Ret in E0 as (f & _ & E0). apply bind_Ret in E0 as (g & _ & E0).
  injection E0 as <-. apply (run_count _ _ a_history) in E; [exact E| |].
  - intros t x t' H. injection H as <-. simpl. lia.
  - intros ? ? ? H. now injection H as <- _.
Qed.

Lemma p2_counter (A : arith) (q : A) os s0 s : p2_new q = Ret s0 ->
  stat_run p2_update p2_evaluate s0 os = Ret s -> p_history s = observed os.
Proof.
  unfold p2_new. destruct (_ || _)%bool; [discriminate|]. intros E0 E. injection E0 as <-.
  apply (run_count _ _ p_history) in E; [exact E|apply p2_up|apply p2_ask].
Qed.

Lemma wp2_zero {A : arith} (q : A) W s0 : wp2_new q W = Ret s0 -> w_history s0 = 0.
Proof. unfold wp2_new. intros E. apply bind_Ret in E as (p & _ & E). now injection E as <-. Qed.

Lemma wp2_counter (A : arith) (q : A) (W : nat) os s0 s : wp2_new q W = Ret s0 ->
  stat_run wp2_update wp2_evaluate s0 os = Ret s -> w_history s = observed os.
Proof.
  intros E0 E. apply wp2_zero in E0.
  apply (run_count _ _ w_history) in E; [now rewrite E0 in E|apply wp2_up|apply wp2_ask].
Qed.

Lemma iqr_counter (A : arith) (low high : A) (W : nat) os s0 s : iqr_new_range low high W = Ret s0 ->
  stat_run iqr_update iqr_evaluate s0 os = Ret s ->
  i_history s = observed os /\ w_history (i_low s) = observed os /\ w_history (i_high s) = observed os.
Proof.
  unfold iqr_new_range. intros E0 E. apply bind_Ret in E0 as (l & El & E0). apply bind_Ret in E0 as (h & Eh & E0).
  injection E0 as <-. apply wp2_zero in El, Eh. repeat split.
  - apply (run_count _ _ i_history) in E; [exact E| |]; intros ? ? ? H; [apply iqr_up in H|apply iqr_ask in H]; tauto.
  - apply (run_count _ _ (fun s => w_history (i_low s))) in E; [simpl in E; lia| |]; intros ? ? ? H;
      [apply iqr_up in H|apply iqr_ask in H]; tauto.
  - apply (run_count _ _ (fun s => w_history (i_high s))) in E; [simpl in E; lia| |]; intros ? ? ? H;
      [apply iqr_up in H|apply iqr_ask in H]; tauto.
Qed.

Lemma entropy_counter (A : arith) (log2 : A -> A) (W N : nat) os e0 (e : entropy A) : entropy_new W N = Ret e0 ->
  stat_run (entropy_update log2) (fun s => Ret (s, entropy_evaluate s)) e0 os = Ret e -> e_history e = observed os.
Proof.
  unfold entropy_new. intros E0 E. apply bind_Ret in E0 as (b & _ & E0). injection E0 as <-.
  apply (run_count _ _ e_history) in E; [exact E|apply entropy_up|].
  intros ? ? ? H. now injection H as <- _.
Qed.
