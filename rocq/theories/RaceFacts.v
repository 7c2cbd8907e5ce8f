(** Data races of the RingBuffer. *)

From Coq Require Import List NArith Arith Lia Bool.
From Verif Require Import Outcome Calls RingBuffer RingBufferConc RingBufferConcSpec Spec ListFacts RingBufferFacts RingBufferConcFacts.
Import ListNotations.

Section Race.
  Context {T : Type} (dflt : T).

  Lemma readonly_next (p : prog T) l w : readonly p -> next_access p = Some (l, w) -> w = false.
  Proof. intros H; inversion H; subst; cbn; congruence. Qed.

  Lemma race_shape W ps sched c a b : 1 <= W -> (N.of_nat W < two64)%N ->
    exec dflt (start (N.of_nat W) ps) sched = Ret c -> race c a b -> locked a = negb (locked b).
  Proof.
    intros H1 H2 E (i & j & ti & tj & p & q & l & w & w' & Hij & Hi & Hj & Ci & Cj & Ai & Aj & Hw).
    destruct (exec_inv dflt W _ sched (start_inv dflt W ps H1 H2)) as (c' & E' & Hinv).
    rewrite E in E'. injection E' as <-. destruct Hinv as [_ _ Ho].
    destruct (Ho _ _ _ _ Hi Ci) as [[La Ra]|[La Ka]], (Ho _ _ _ _ Hj Cj) as [[Lb Rb]|[Lb Kb]]; rewrite La, Lb; auto.
    - pose proof (readonly_next _ _ _ Ra Ai). pose proof (readonly_next _ _ _ Rb Aj). destruct Hw; congruence.
    - rewrite Ka in Kb. injection Kb as ->. congruence.
  Qed.

  Lemma cur_in (ps : list (list (rcall T))) c i th call p : map thread_calls (c_threads c) = ps ->
    nth_error (c_threads c) i = Some th -> t_cur th = Some (call, p) -> exists pr, In pr ps /\ In call pr.
  Proof.
    intros Hm Hi Hc. exists (thread_calls th). split.
    - rewrite <- Hm. apply in_map. eapply nth_error_In; eauto.
    - unfold thread_calls. rewrite Hc. rewrite !in_app_iff. cbn. auto.
  Qed.

  Lemma race_free W ps sched c a b v : 1 <= W -> (N.of_nat W < two64)%N ->
    Forall (Forall (fun k => locked k = v)) ps ->
    exec dflt (start (N.of_nat W) ps) sched = Ret c -> ~ race c a b.
  Proof.
    intros H1 H2 HF E R. pose proof (race_shape _ _ _ _ _ _ H1 H2 E R) as S1.
    destruct (linearizable dflt W ps sched H1 H2) as (c' & h & q & E' & _ & _ & _ & Hm & _).
    rewrite E in E'. injection E' as <-.
    destruct R as (i & j & ti & tj & p & r & l & w & w' & Hij & Hi & Hj & Ci & Cj & _).
    destruct (cur_in _ _ _ _ _ _ Hm Hi Ci) as (pa & Ia & Ja). destruct (cur_in _ _ _ _ _ _ Hm Hj Cj) as (pb & Ib & Jb).
    rewrite Forall_forall in HF. pose proof (HF _ Ia) as Fa. pose proof (HF _ Ib) as Fb.
    rewrite Forall_forall in Fa, Fb. rewrite (Fa _ Ja), (Fb _ Jb) in S1. destruct v; discriminate.
  Qed.

  (** Uninterrupted accesses. *)
  Inductive path : ring T -> prog T -> ring T -> prog T -> Prop :=
  | path_refl m p : path m p m p
  | path_step m p m1 p1 m2 p2 : (forall o, p <> Done o) -> access m p = Ret (m1, p1) -> path m1 p1 m2 p2 -> path m p m2 p2.

  Lemma path_exec i m p m' p' : path m p m' p' -> forall (c : config T) th call,
    c_mem c = m -> nth_error (c_threads c) i = Some th -> t_cur th = Some (call, p) ->
    exists s, exec dflt c s = Ret (Config m' (c_lock c)
      (set_nth (c_threads c) i (Thread (Some (call, p')) (t_todo th) (t_done th))) (c_log c)).
  Proof.
    induction 1 as [m p|m p m1 p1 m2 p2 Hp A P IH]; intros c th call Em Hi Hc.
    - exists []. cbn. assert (E : Thread (Some (call, p)) (t_todo th) (t_done th) = th) by (destruct th; cbn in *; congruence).
      assert (Hid : forall l j (th : thread T), nth_error l j = Some th -> set_nth l j th = l).
      { induction l; intros [|j] t H; simpl in *; try discriminate; f_equal; auto. congruence. }
      rewrite E, Hid by auto. destruct c; cbn in *; congruence.
    - set (c1 := Config m1 (c_lock c) (set_nth (c_threads c) i (Thread (Some (call, p1)) (t_todo th) (t_done th))) (c_log c)).
      destruct (IH c1 (Thread (Some (call, p1)) (t_todo th) (t_done th)) call eq_refl) as (s & Es).
      { cbn. eapply nth_set_same; eauto. } { reflexivity. }
      exists (i :: s). rewrite (exec_step dflt c i s c1).
      + rewrite Es. cbn. rewrite set_nth_set. reflexivity.
      + unfold step. rewrite Hi, Hc. subst m. destruct p; try (rewrite A; reflexivity). now destruct (Hp o).
  Qed.

  Lemma locked_writes_full m m1 o c : rb_call dflt m c = Ret (m1, o) -> locked c = true ->
    (c = CPop -> rb_empty m = false) ->
    exists m' v k, path m (body dflt (rb_window m) c) m' (WriteFull v k).
  Proof.
    intros Hc Hl He. destruct m as [W b h t f n]. destruct c; try discriminate; cbn [body rb_window].
    - cbn in Hc. unfold rb_update in Hc. cbn in Hc. destruct (store b (N.to_nat h) (Some x)) as [b'| |] eqn:Es; cbn in Hc; try discriminate.
      assert (HW : exists r, umod (wrap64 (h + 1)) W = Ret r).
      { destruct (umod (wrap64 (h + 1)) W) eqn:E; eauto; destruct f; unfold umod in *; destruct (W =? 0)%N; cbn in Hc; discriminate. }
      destruct HW as (r & HW). unfold p_update.
      assert (R : forall t', exists m' v k, path (Ring W b' h t' f n) (p_update_rest (T:=T) W) m' (WriteFull v k)).
      { intros t'. unfold p_update_rest. do 3 eexists.
        eapply path_step; [discriminate|reflexivity|]. unfold pmod. cbn [rb_head]. rewrite HW.
        do 3 (eapply path_step; [discriminate|reflexivity|]). apply path_refl. }
      destruct f.
      + assert (HT : exists r, umod (wrap64 (t + 1)) W = Ret r).
        { unfold umod in *. destruct (W =? 0)%N; eauto; discriminate. }
        destruct HT as (r' & HT). destruct (R r') as (m' & v & k & P). exists m', v, k.
        eapply path_step; [discriminate|reflexivity|]. eapply path_step; [discriminate| |].
        { cbn [access rb_buf rb_head]. rewrite Es. reflexivity. }
        cbn [rb_window rb_head rb_tail rb_full rb_history]. eapply path_step; [discriminate|reflexivity|].
        cbn [rb_full]. eapply path_step; [discriminate|reflexivity|]. cbn [rb_tail]. unfold pmod. rewrite HT.
        eapply path_step; [discriminate|reflexivity|]. exact P.
      + destruct (R t) as (m' & v & k & P). exists m', v, k.
        eapply path_step; [discriminate|reflexivity|]. eapply path_step; [discriminate| |].
        { cbn [access rb_buf rb_head]. rewrite Es. reflexivity. }
        cbn [rb_window rb_head rb_tail rb_full rb_history]. eapply path_step; [discriminate|reflexivity|].
        exact P.
    - specialize (He eq_refl). cbn in Hc. unfold rb_pop in Hc. rewrite He in Hc. cbn in Hc.
      destruct (at_ b (N.to_nat t)) as [[x|]| |] eqn:Ea; cbn in Hc; try discriminate.
      assert (R : exists m' v k, path (Ring W b h t f n) (p_pop_nonempty (T:=T) W) m' (WriteFull v k)).
      { unfold p_pop_nonempty. do 3 eexists. eapply path_step; [discriminate|reflexivity|]. cbn [rb_tail].
        eapply path_step; [discriminate| |apply path_refl]. cbn [access rb_buf]. rewrite Ea. reflexivity. }
      destruct R as (m' & v & k & P). exists m', v, k. unfold p_pop. unfold rb_empty in He. cbn in He.
      eapply path_step; [discriminate|reflexivity|]. cbn [rb_full]. destruct f; [exact P|]. cbn in He.
      do 2 (eapply path_step; [discriminate|reflexivity|]). cbn [rb_head rb_tail]. rewrite He. exact P.
    - unfold p_reset. do 3 eexists. do 2 (eapply path_step; [discriminate|reflexivity|]). apply path_refl.
  Qed.

  Lemma unlocked_reads_full W c : locked c = false -> exists k, body (T:=T) dflt W c = ReadFull k.
  Proof. destruct c; try discriminate; intros _; eexists; reflexivity. Qed.

  Lemma race_found W (x : T) a b : 1 <= W -> (N.of_nat W < two64)%N -> locked a = true -> locked b = false ->
    exists s c, exec dflt (start (N.of_nat W) [[CUpdate x; a]; [b]]) s = Ret c /\ race c a b.
  Proof.
    intros H1 H2 La Lb.
    pose proof (rb_new_rep (T:=T) W H1 H2) as R0.
    destruct (rb_call_rep dflt W _ _ (CUpdate x) R0) as (m1 & E1 & R1 & _).
    destruct (rb_call_rep dflt W _ _ a R1) as (m2 & E2 & _ & _).
    set (c0 := start (N.of_nat W) [[CUpdate x; a]; [b]]).
    destruct (solo_call dflt 0 c0 (CUpdate x) [a] [] _ _ eq_refl eq_refl E1) as (n & log & En).
    assert (Ne : rb_empty m1 = false).
    { apply (rb_empty_rep W) in R1. rewrite R1. cbn. unfold lastn. cbn. destruct W; [lia|]. now destruct W. }
    assert (Wm : rb_window m1 = N.of_nat W) by apply R1.
    destruct (locked_writes_full m1 m2 _ a E2 La (fun _ => Ne)) as (m' & v & k & P).
    set (c1 := Config m1 None (set_nth (c_threads c0) 0 (Thread None [a] ([] ++ [(CUpdate x, snd (q_call W dflt [] (CUpdate x)))]))) log) in En.
    assert (S1 : step dflt c1 0 = Some (Ret (Config m1 (Some 0)
      (set_nth (c_threads c1) 0 (Thread (Some (a, body dflt (rb_window m1) a)) [] ([] ++ [(CUpdate x, snd (q_call W dflt [] (CUpdate x)))]))) (log ++ [(0, a)])))).
    { unfold step. cbn [c1 c_threads c0 start map set_nth nth_error t_cur t_todo c_mem c_lock c_log]. rewrite La. reflexivity. }
    set (c2 := Config m1 (Some 0) _ _) in S1.
    destruct (path_exec 0 _ _ _ _ P c2 (Thread (Some (a, body dflt (rb_window m1) a)) [] ([] ++ [(CUpdate x, snd (q_call W dflt [] (CUpdate x)))])) a eq_refl eq_refl eq_refl) as (s & Es).
    set (c3 := Config m' _ _ _) in Es.
    destruct (unlocked_reads_full (rb_window m') b Lb) as (kb & Eb).
    assert (S3 : step dflt c3 1 = Some (Ret (Config m' (Some 0) (set_nth (c_threads c3) 1 (Thread (Some (b, ReadFull kb)) [] [])) (c_log c3)))).
    { unfold step. cbn [c3 c2 c1 c_threads c0 start map set_nth nth_error t_cur t_todo c_mem c_lock c_log]. rewrite Lb, Eb. reflexivity. }
    exists (repeat 0 n ++ 0 :: s ++ [1]). eexists. split.
    - rewrite exec_app, En. cbn [bind]. rewrite (exec_step dflt _ _ _ _ S1), exec_app, Es. cbn [bind].
      rewrite (exec_step dflt _ _ _ _ S3). reflexivity.
    - exists 0, 1. do 7 eexists. split; [discriminate|]. split; [reflexivity|]. split; [reflexivity|].
      split; [reflexivity|]. split; [reflexivity|]. split; [reflexivity|]. split; [reflexivity|]. now left.
  Qed.
End Race.
