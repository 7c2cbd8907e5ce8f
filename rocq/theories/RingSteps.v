(** How many steps concurrent RingBuffer calls take. *)

From Coq Require Import List NArith Bool Arith Lia.
From Verif Require Import Outcome Calls Spec ListFacts RingBuffer RingBufferConc
  RingBufferConcSpec RingBufferConcFacts RingStepsSpec.
Import ListNotations.

Section Steps.
  Context {T : Type} (dflt : T).
  Notation step := (step dflt).
  Notation exec := (exec dflt).
  Notation moves := (moves dflt).

  (** The program returns after at most [n] steps. *)
  Inductive left : nat -> prog T -> Prop :=
  | left_done n o : left (S n) (Done o)
  | left_fail n u : left (S n) (Fail u)
  | left_rhead n k : (forall v, left n (k v)) -> left (S n) (ReadHead k)
  | left_rtail n k : (forall v, left n (k v)) -> left (S n) (ReadTail k)
  | left_rfull n k : (forall v, left n (k v)) -> left (S n) (ReadFull k)
  | left_rcell n i k : (forall v, left n (k v)) -> left (S n) (ReadCell i k)
  | left_rhist n k : (forall v, left n (k v)) -> left (S n) (ReadHist k)
  | left_whead n v k : left n k -> left (S n) (WriteHead v k)
  | left_wtail n v k : left n k -> left (S n) (WriteTail v k)
  | left_wfull n v k : left n k -> left (S n) (WriteFull v k)
  | left_wcell n i v k : left n k -> left (S n) (WriteCell i v k)
  | left_whist n v k : left n k -> left (S n) (WriteHist v k).

  Lemma left_pmod n a b k : (forall r, left (S n) (k r)) -> left (S n) (pmod a b k).
  Proof. intros H. unfold pmod. destruct (umod a b); auto using left. Qed.

  Lemma left_body W call : left (pred (call_steps call)) (body dflt W call).
  Proof.
    destruct call; simpl;
      unfold p_update, p_update_rest, p_pop, p_pop_nonempty, p_reset, p_size, p_empty, p_full;
      repeat first
        [ apply left_pmod | constructor | intro
        | match goal with |- left _ (if ?b then _ else _) => destruct b end ].
  Qed.

  (** The thread has at most [n] steps left. *)
  Definition tw (th : thread T) (n : nat) : Prop :=
    match t_cur th with
    | None => steps_of (t_todo th) <= n
    | Some (_, p) => exists k, left k p /\ k + steps_of (t_todo th) <= n
    end.

  Lemma call_steps_pos call : call_steps (T := T) call = S (pred (call_steps call)).
  Proof. destruct call; auto. Qed.

  Lemma step_thread c i th a oc : nth_error (c_threads c) i = Some th -> tw th a ->
    step c i = Some oc ->
    exists m, a = S m /\
      forall c', oc = Ret c' ->
        exists th', c_threads c' = set_nth (c_threads c) i th' /\ tw th' m.
  Proof.
    intros Hi Ha. unfold RingBufferConc.step. rewrite Hi. unfold tw in Ha.
    destruct (t_cur th) as [[call p]|] eqn:Hc.
    - destruct Ha as (k & Hk & Hle).
      assert (Hs : exists m, a = S m /\ pred k + steps_of (t_todo th) <= m).
      { assert (1 <= k) by (inversion Hk; lia).
        destruct a; [lia|]. exists a. split; auto. lia. }
      destruct Hs as (m & -> & Hm). clear Hle.
      destruct Hk; simpl in Hm; simpl; intros E; injection E as <-;
        exists m; (split; [reflexivity|]); intros c' E; simpl in E;
        try (injection E as <-; simpl; eexists; split; [reflexivity|]; unfold tw; simpl; eauto; fail).
      + injection E as <-. simpl. eexists; split; [reflexivity|]. unfold tw. simpl. lia.
      + discriminate E.
      + destruct (at_ (rb_buf (c_mem c)) (N.to_nat i0)) as [[x|]| |]; simpl in E; try discriminate E.
        injection E as <-. simpl. eexists; split; [reflexivity|]. unfold tw; simpl; eauto.
      + destruct (store (rb_buf (c_mem c)) (N.to_nat i0) (Some v)); simpl in E; try discriminate E.
        injection E as <-. simpl. eexists; split; [reflexivity|]. unfold tw; simpl; eauto.
    - destruct (t_todo th) as [|call rest] eqn:Ht; [discriminate|].
      intros E. unfold steps_of in Ha. simpl in Ha. rewrite (call_steps_pos call) in Ha.
      destruct a as [|m]; [simpl in Ha; lia|]. exists m. split; [reflexivity|].
      assert (Hb : exists k, left k (body dflt (rb_window (c_mem c)) call) /\ k + steps_of rest <= m).
      { exists (pred (call_steps call)). split; [apply left_body|]. unfold steps_of. simpl in Ha. lia. }
      intros c' ->. destruct (locked call).
      + destruct (c_lock c); [discriminate E|]. injection E as <-. simpl.
        eexists; split; [reflexivity|]. unfold tw; simpl. exact Hb.
      + injection E as <-. simpl.
        eexists; split; [reflexivity|]. unfold tw; simpl. exact Hb.
  Qed.

  Lemma step_lookup c i oc : step c i = Some oc -> exists th, nth_error (c_threads c) i = Some th.
  Proof. unfold RingBufferConc.step. destruct (nth_error (c_threads c) i); [eauto|discriminate]. Qed.

  (** All threads together have at most [n] steps left. *)
  Definition work (c : config T) (n : nat) : Prop :=
    exists ns, Forall2 tw (c_threads c) ns /\ list_sum ns <= n.

  Lemma forall2_set (l : list (thread T)) ns i th : Forall2 tw l ns -> nth_error l i = Some th ->
    exists a, tw th a /\ a <= list_sum ns /\
      forall th' b, tw th' b -> exists ns', Forall2 tw (set_nth l i th') ns' /\
        list_sum ns' = list_sum ns - a + b.
  Proof.
    intros H; revert i; induction H as [|x a l ns Hx H IH]; intros [|i] Hi; simpl in Hi; try discriminate.
    - injection Hi as ->. exists a. split; [auto|]. split; [simpl; lia|]. intros th' b Hb.
      exists (b :: ns). simpl. split; [constructor; auto|lia].
    - destruct (IH i Hi) as (a' & H1 & H2 & H3). exists a'. split; [auto|]. split; [simpl; lia|].
      intros th' b Hb. destruct (H3 th' b Hb) as (ns' & H4 & H5).
      exists (a :: ns'). simpl. split; [constructor; auto|]. rewrite H5. lia.
  Qed.

  Lemma step_work c i n oc : work c n -> step c i = Some oc ->
    exists m, n = S m /\ forall c', oc = Ret c' -> work c' m.
  Proof.
    intros (ns & H & Hn) E. destruct (step_lookup _ _ _ E) as (th & Hi).
    destruct (forall2_set _ _ _ _ H Hi) as (a & Ha & Hle & Hset).
    destruct (step_thread _ _ _ _ _ Hi Ha E) as (b & -> & Hb).
    destruct n as [|m]; [lia|]. exists m. split; [reflexivity|]. intros c' ->.
    destruct (Hb c' eq_refl) as (th' & E' & Hth').
    destruct (Hset th' b Hth') as (ns' & H1 & H2). exists ns'. rewrite E'. split; [auto|lia].
  Qed.

  Lemma moves_work c n sched : work c n -> moves c sched <= n.
  Proof.
    revert c n; induction sched as [|i sched IH]; intros c n H; simpl; [lia|].
    destruct (step c i) as [oc|] eqn:E; [|auto].
    destruct (step_work _ _ _ _ H E) as (m & -> & H').
    destruct oc as [c'| |]; [|lia|lia]. specialize (IH c' m (H' c' eq_refl)). lia.
  Qed.

  Lemma start_work W ps : work (start W ps) (total_steps ps).
  Proof.
    exists (map steps_of ps). split; [|unfold total_steps; lia]. simpl.
    induction ps; simpl; constructor; auto. unfold tw. simpl. lia.
  Qed.

  Lemma moves_bounded W ps sched : moves (start W ps) sched <= total_steps ps.
  Proof. apply moves_work, start_work. Qed.

  (** ** A round makes progress *)
  Lemma exec_moves_nil c sched : moves c sched = 0 -> exec c sched = Ret c /\
    forall i, In i sched -> step c i = None.
  Proof.
    induction sched as [|i sched IH]; simpl; [intros _; split; [auto|tauto]|].
    destruct (step c i) as [[c'| |]|] eqn:E; try discriminate.
    intros H. destruct (IH H) as [H1 H2]. split; [auto|]. intros j [<-|Hj]; auto.
  Qed.

  Lemma exec_work c n sched c' : work c n -> exec c sched = Ret c' -> work c' (n - moves c sched).
  Proof.
    revert c n; induction sched as [|i sched IH]; intros c n H; simpl.
    - intros E; injection E as <-. rewrite Nat.sub_0_r. auto.
    - destruct (step c i) as [oc|] eqn:E; [|auto].
      destruct (step_work _ _ _ _ H E) as (m & -> & H').
      destruct oc as [c1| |]; simpl; try discriminate. intros E1. apply (IH c1 m); auto.
  Qed.

  (** Stopped threads do not move, and do not get the lock. *)
  Lemma step_lock c i c' t : step c i = Some (Ret c') -> c_lock c' = Some t ->
    t = i \/ c_lock c = Some t.
  Proof.
    unfold RingBufferConc.step. destruct (nth_error (c_threads c) i) as [th|]; [|discriminate].
    destruct (t_cur th) as [[call p]|].
    - destruct p;
      match goal with
      | |- Some (Ret ?a) = Some (Ret ?b) -> _ => intros H; injection H as <-; simpl
      | |- Some (bind ?a _) = _ -> _ => destruct a as [[m' p']| |]; simpl; intros H; try discriminate;
            injection H as <-; simpl
      end; auto. destruct (locked call); [discriminate|auto].
    - destruct (t_todo th) as [|call rest]; [discriminate|]. destruct (locked call).
      + destruct (c_lock c); [discriminate|]. intros H; injection H as <-. simpl.
        intros H; injection H as <-. auto.
      + intros H; injection H as <-. simpl. auto.
  Qed.

  Lemma exec_lock (stopped : nat -> bool) c sched c' :
    (forall t, c_lock c = Some t -> stopped t = false) ->
    (forall i, In i sched -> stopped i = false) ->
    exec c sched = Ret c' -> forall t, c_lock c' = Some t -> stopped t = false.
  Proof.
    revert c; induction sched as [|i sched IH]; intros c H Hs; simpl.
    - intros E; injection E as <-. auto.
    - destruct (step c i) as [[c1| |]|] eqn:E; simpl; try discriminate.
      + apply IH; [|intros; apply Hs; simpl; auto].
        intros t Ht. destruct (step_lock _ _ _ _ E Ht) as [->|H1]; [apply Hs; simpl; auto|auto].
      + apply IH; [auto|]. intros; apply Hs; simpl; auto.
  Qed.

  Lemma step_length c i c' : step c i = Some (Ret c') -> length (c_threads c') = length (c_threads c).
  Proof.
    intros E. apply step_calls in E. rewrite <- (map_length thread_calls (c_threads c')), E.
    apply map_length.
  Qed.

  Lemma exec_length c sched c' : exec c sched = Ret c' -> length (c_threads c') = length (c_threads c).
  Proof.
    intros E. apply exec_calls in E. rewrite <- (map_length thread_calls (c_threads c')), E.
    apply map_length.
  Qed.

  Definition finishedb (th : thread T) : bool :=
    match t_cur th, t_todo th with None, [] => true | _, _ => false end.

  Lemma finishedb_spec th : finishedb th = true <-> finished th.
  Proof.
    unfold finishedb, finished. destruct (t_cur th), (t_todo th); split; intros H; auto;
      try discriminate; destruct H; discriminate.
  Qed.

  (** Either all running threads have finished or one of them can move. *)
  Lemma running_moves W (stopped : nat -> bool) c : inv dflt W c ->
    (forall t, c_lock c = Some t -> stopped t = false) ->
    (forall i th, stopped i = false -> nth_error (c_threads c) i = Some th -> finished th) \/
    (exists j oc, stopped j = false /\ j < length (c_threads c) /\ step c j = Some oc).
  Proof.
    intros H Hlk.
    assert (Hdec : forall n,
      (forall i th, i < n -> stopped i = false -> nth_error (c_threads c) i = Some th -> finished th) \/
      (exists i th, stopped i = false /\ nth_error (c_threads c) i = Some th /\ ~ finished th)).
    { induction n as [|n [IH|IH]]; [left; intros; lia| |right; exact IH].
      destruct (stopped n) eqn:Es; [left|destruct (nth_error (c_threads c) n) as [th|] eqn:En].
      - intros i th Hi Hs. apply IH; [|auto]. assert (i <> n) by congruence. lia.
      - destruct (finishedb th) eqn:Ef.
        + left. intros i th' Hi Hs E. destruct (Nat.eq_dec i n) as [->|].
          * rewrite En in E. injection E as <-. apply finishedb_spec; auto.
          * apply (IH i); auto; lia.
        + right. exists n, th. split; [auto|]. split; [auto|]. rewrite <- finishedb_spec. congruence.
      - left. intros i th' Hi Hs E. destruct (Nat.eq_dec i n) as [->|]; [congruence|].
        apply (IH i); auto; lia. }
    destruct (Hdec (length (c_threads c))) as [Hall|(i & th & Hs & Hi & Hf)].
    - left. intros i th Hs Hi. apply (Hall i); auto. apply nth_error_Some. congruence.
    - right. destruct (t_cur th) as [[call p]|] eqn:Hc.
      + destruct (step_cur_some dflt _ _ _ _ _ Hi Hc) as [oc E]. exists i, oc.
        split; [auto|]. split; [apply nth_error_Some; congruence|auto].
      + destruct (t_todo th) as [|call rest] eqn:Ht; [destruct Hf; split; auto|].
        destruct (c_lock c) as [t|] eqn:Hlock.
        * destruct H as [(h & q & _ & _ & Hl) _ _]. rewrite Hlock in Hl.
          destruct Hl as (call' & p & m0 & th' & _ & _ & Hi' & Hc' & _).
          destruct (step_cur_some dflt _ _ _ _ _ Hi' Hc') as [oc E]. exists t, oc.
          split; [auto|]. split; [apply nth_error_Some; congruence|auto].
        * assert (E : exists oc, step c i = Some oc).
          { unfold RingBufferConc.step. rewrite Hi, Hc, Ht, Hlock. destruct (locked call); eauto. }
          destruct E as [oc E]. exists i, oc. split; [auto|].
          split; [apply nth_error_Some; congruence|auto].
  Qed.

  Lemma finished_stays (stopped : nat -> bool) c sched :
    (forall i th, stopped i = false -> nth_error (c_threads c) i = Some th -> finished th) ->
    (forall i, In i sched -> stopped i = false) -> exec c sched = Ret c.
  Proof.
    intros Hall. induction sched as [|i sched IH]; intros Hs; simpl; auto.
    assert (E : step c i = None).
    { unfold RingBufferConc.step. destruct (nth_error (c_threads c) i) as [th|] eqn:Hi; auto.
      destruct (Hall i th (Hs i (or_introl eq_refl)) Hi) as [-> ->]. auto. }
    rewrite E. apply IH. intros j Hj; apply Hs; simpl; auto.
  Qed.

  Lemma rounds_finish W (stopped : nat -> bool) n rounds c k : inv dflt W c ->
    (forall t, c_lock c = Some t -> stopped t = false) ->
    length (c_threads c) = n -> work c k -> k <= length rounds ->
    Forall (round_of n (fun i => stopped i = true)) rounds ->
    exists c', exec c (concat rounds) = Ret c' /\ inv dflt W c' /\
      (forall t, c_lock c' = Some t -> stopped t = false) /\
      (forall i th, stopped i = false -> nth_error (c_threads c') i = Some th -> finished th).
  Proof.
    revert c k; induction rounds as [|r rounds IH]; intros c k Hinv Hlk Hn Hw Hk Hr.
    - simpl. exists c. split; [auto|]. split; [auto|]. split; [auto|].
      destruct (running_moves W stopped c Hinv Hlk) as [H|(j & oc & _ & _ & E)]; [exact H|].
      destruct (step_work _ _ _ _ Hw E) as (m & -> & _). simpl in Hk. lia.
    - inversion Hr as [|? ? Hr1 Hr2]; subst.
      assert (Hns : forall i, In i r -> stopped i = false).
      { intros i Hi. destruct (stopped i) eqn:Es; auto. destruct (proj2 Hr1 i Hi Es). }
      destruct (running_moves W stopped c Hinv Hlk) as [H|(j & oc & Hj & Hjn & E)].
      + exists c. split; [|auto]. apply (finished_stays stopped); auto.
        intros i Hi. apply in_concat in Hi as (r' & Hin & Hi). destruct Hin as [<-|Hin]; auto.
        rewrite List.Forall_forall in Hr2. destruct (stopped i) eqn:Es; auto.
        destruct (proj2 (Hr2 r' Hin) i Hi Es).
      + destruct (exec_inv dflt W c r Hinv) as (c1 & E1 & Hinv1).
        simpl concat. rewrite exec_app, E1. simpl bind.
        assert (Hm : 1 <= moves c r).
        { destruct (moves c r) eqn:Em; [|lia]. destruct (exec_moves_nil _ _ Em) as [_ Hnone].
          rewrite (Hnone j) in E; [discriminate|]. apply (proj1 Hr1); [lia|congruence]. }
        apply (IH c1 (k - moves c r)); auto.
        * apply (exec_lock stopped c r); auto.
        * rewrite (exec_length _ _ _ E1). auto.
        * apply (exec_work c k r); auto.
        * simpl in Hk. lia.
  Qed.

  Lemma work_mono c n m : work c n -> n <= m -> work c m.
  Proof. intros (ns & H1 & H2) H. exists ns. split; [auto|lia]. Qed.

  Lemma fair_runs_finish W ps s1 c (stopped : nat -> bool) rounds :
    1 <= W -> (N.of_nat W < two64)%N ->
    exec (start (N.of_nat W) ps) s1 = Ret c ->
    (forall t, c_lock c = Some t -> stopped t = false) ->
    Forall (round_of (length ps) (fun i => stopped i = true)) rounds ->
    total_steps ps <= length rounds ->
    exists c', exec c (concat rounds) = Ret c' /\ c_lock c' = None /\
      (forall i th calls, stopped i = false -> nth_error (c_threads c') i = Some th ->
         nth_error ps i = Some calls ->
         t_cur th = None /\ t_todo th = [] /\ map fst (t_done th) = calls).
  Proof.
    intros H1 H2 E Hlk Hr Hk.
    destruct (exec_inv dflt W _ s1 (start_inv dflt W ps H1 H2)) as (c0 & E0 & Hinv).
    rewrite E in E0. injection E0 as <-.
    assert (Hw : work c (total_steps ps)).
    { eapply work_mono; [apply (exec_work _ _ _ _ (start_work _ ps) E)|lia]. }
    assert (Hlen : length (c_threads c) = length ps).
    { rewrite (exec_length _ _ _ E). simpl. apply map_length. }
    destruct (rounds_finish W stopped (length ps) rounds c _ Hinv Hlk Hlen Hw Hk Hr)
      as (c' & E' & Hinv' & Hlk' & Hfin).
    exists c'. split; [exact E'|]. split.
    - destruct (c_lock c') as [t|] eqn:Hl; auto.
      destruct Hinv' as [(h & q & _ & _ & Hl') _ _]. rewrite Hl in Hl'.
      destruct Hl' as (call & p & m0 & th & _ & _ & Hi & Hc & _).
      destruct (Hfin t th (Hlk' t eq_refl) Hi) as [Hcur _]. congruence.
    - intros i th calls Hs Hi Hp. destruct (Hfin i th Hs Hi) as [Hc Ht].
      split; [auto|]. split; [auto|].
      assert (Hcalls : map thread_calls (c_threads c') = ps).
      { rewrite (exec_calls dflt _ _ _ E'), (exec_calls dflt _ _ _ E). simpl.
        rewrite map_map. rewrite <- (map_id ps) at 2. apply map_ext. auto. }
      rewrite <- Hcalls in Hp. rewrite nth_error_map, Hi in Hp. simpl in Hp.
      injection Hp as <-. unfold thread_calls. rewrite Hc, Ht. simpl. rewrite app_nil_r. auto.
  Qed.

  (** ** The readers *)
  Lemma readers_wait_free c i th a sched c' : nth_error (c_threads c) i = Some th ->
    tw th a -> Forall (fun call => locked call = false) (t_todo th) ->
    exec c sched = Ret c' -> a <= count_occ Nat.eq_dec sched i ->
    exists th', nth_error (c_threads c') i = Some th' /\ finished th'.
  Proof.
    revert c th a; induction sched as [|j sched IH]; intros c th a Hi Ha Hf; simpl.
    - intros E; injection E as <-. intros Hz. exists th. split; [auto|].
      unfold tw in Ha. unfold finished. destruct (t_cur th) as [[call p]|].
      + destruct Ha as (k & Hk & Hle). inversion Hk; lia.
      + split; auto. destruct (t_todo th) as [|call rest]; auto.
        unfold steps_of in Ha. simpl in Ha. rewrite (call_steps_pos call) in Ha. lia.
    - destruct (Nat.eq_dec j i) as [->|Hji].
      + destruct (step c i) as [oc|] eqn:E.
        * destruct (step_thread _ _ _ _ _ Hi Ha E) as (m & -> & Hm).
          destruct oc as [c1| |]; simpl; try discriminate.
          destruct (Hm c1 eq_refl) as (th1 & Et & Hth1).
          intros E1 Hc. apply (IH c1 th1 m); auto; try lia.
          -- rewrite Et. eapply nth_set_same; eauto.
          -- (* the calls left stay unlocked *)
             assert (Hn : nth_error (c_threads c1) i = Some th1).
             { rewrite Et. eapply nth_set_same; eauto. }
             revert E Hn. unfold RingBufferConc.step. rewrite Hi.
             destruct (t_cur th) as [[call p]|].
             ++ destruct p;
                match goal with
                | |- Some (Ret ?a) = Some (Ret ?b) -> _ => intros H; injection H as <-; simpl
                | |- Some (bind ?a _) = _ -> _ =>
                    destruct a as [[m' p']| |]; simpl; intros H; try discriminate;
                    injection H as <-; simpl
                end; erewrite nth_set_same by eauto; intros H'; injection H' as <-; simpl; auto.
             ++ destruct (t_todo th) as [|call rest]; [discriminate|].
                inversion Hf; subst.
                rewrite H1. intros H; injection H as <-. simpl.
                erewrite nth_set_same by eauto; intros H'; injection H' as <-; simpl; auto.
        * (* cannot be: the thread is not blocked unless finished *)
          intros E1 Hc. revert E. unfold RingBufferConc.step. rewrite Hi.
          destruct (t_cur th) as [[call p]|] eqn:Hcur; [destruct p; discriminate|].
          destruct (t_todo th) as [|call rest] eqn:Ht.
          -- intros _. apply (IH c th 0); auto; try lia.
             ++ unfold tw. rewrite Hcur, Ht. auto.
             ++ rewrite Ht; constructor.
          -- inversion Hf; subst. rewrite H1. discriminate.
      + destruct (step c j) as [[c1| |]|] eqn:E; simpl; try discriminate; [|apply (IH c th a); auto].
        intros E1 Hc. apply (IH c1 th a); auto.
        destruct (step_lookup _ _ _ E) as (thj & Hj).
        revert E. unfold RingBufferConc.step. rewrite Hj.
        destruct (t_cur thj) as [[call p]|].
        * destruct p;
          match goal with
          | |- Some (Ret ?a) = Some (Ret ?b) -> _ => intros H; injection H as <-; simpl
          | |- Some (bind ?a _) = _ -> _ =>
              destruct a as [[m' p']| |]; simpl; intros H; try discriminate;
              injection H as <-; simpl
          end; rewrite nth_set_other; auto.
        * destruct (t_todo thj) as [|call rest]; [discriminate|]. destruct (locked call).
          -- destruct (c_lock c); [discriminate|]. intros H; injection H as <-; simpl.
             rewrite nth_set_other; auto.
          -- intros H; injection H as <-; simpl. rewrite nth_set_other; auto.
  Qed.

  Lemma readers_finish W ps i calls sched : 1 <= W -> (N.of_nat W < two64)%N ->
    nth_error ps i = Some calls -> Forall (fun call => locked call = false) calls ->
    steps_of calls <= count_occ Nat.eq_dec sched i ->
    exists c th, exec (start (N.of_nat W) ps) sched = Ret c /\
      nth_error (c_threads c) i = Some th /\ t_cur th = None /\ t_todo th = [] /\
      map fst (t_done th) = calls.
  Proof.
    intros H1 H2 Hp Hf Hc.
    destruct (exec_inv dflt W _ sched (start_inv dflt W ps H1 H2)) as (c & E & _).
    assert (Hi : nth_error (c_threads (start (N.of_nat W) ps)) i = Some (Thread None calls [])).
    { simpl. rewrite nth_error_map, Hp. auto. }
    destruct (readers_wait_free _ _ _ (steps_of calls) _ _ Hi ltac:(unfold tw; simpl; lia) Hf E Hc)
      as (th & Ht & Hcur & Htodo).
    exists c, th. split; [auto|]. split; [auto|]. split; [auto|]. split; [auto|].
    assert (Hcalls : map thread_calls (c_threads c) = ps).
    { rewrite (exec_calls dflt _ _ _ E). simpl.
      rewrite map_map. rewrite <- (map_id ps) at 2. apply map_ext. auto. }
    rewrite <- Hcalls in Hp. rewrite nth_error_map, Ht in Hp. simpl in Hp.
    injection Hp as <-. unfold thread_calls. rewrite Hcur, Htodo. simpl. rewrite app_nil_r. auto.
  Qed.

  (** A thread stopped inside a locked call keeps everyone else out. *)
  Lemma holder_blocks_inv W c t sched c' : inv dflt W c -> c_lock c = Some t -> ~ In t sched ->
    exec c sched = Ret c' -> c_lock c' = Some t /\ c_log c' = c_log c.
  Proof.
    revert c; induction sched as [|j sched IH]; intros c Hinv Hl Hn; simpl.
    - intros E; injection E as <-. auto.
    - destruct (step c j) as [[c1| |]|] eqn:E; simpl; try discriminate.
      + assert (H1 : c_lock c1 = Some t /\ c_log c1 = c_log c).
        { pose proof E as E0. revert E0. unfold RingBufferConc.step.
          destruct (nth_error (c_threads c) j) as [th|] eqn:Hj; [|discriminate].
          destruct (t_cur th) as [[call p]|] eqn:Hc.
          - destruct p;
            match goal with
            | |- Some (Ret ?a) = Some (Ret ?b) -> _ => intros H; injection H as <-; simpl
            | |- Some (bind ?a _) = _ -> _ =>
                destruct a as [[m' p']| |]; simpl; intros H; try discriminate;
                injection H as <-; simpl
            end; auto.
            destruct (iv_others _ _ _ Hinv _ _ _ _ Hj Hc) as [[-> _]|[_ Hlj]]; [auto|].
            rewrite Hl in Hlj. injection Hlj as ->. destruct Hn; simpl; auto.
          - destruct (t_todo th) as [|call rest]; [discriminate|]. rewrite Hl.
            destruct (locked call); [discriminate|]. intros H; injection H as <-. simpl. auto. }
        destruct H1 as [H1 H2]. intros E1.
        destruct (step_inv dflt W _ _ _ Hinv E) as (c1' & Er & Hinv1). injection Er as <-.
        rewrite <- H2. apply IH; auto. intros H; apply Hn; simpl; auto.
      + intros E1. apply IH; auto. intros H; apply Hn; simpl; auto.
  Qed.

  Lemma holder_blocks W ps s1 s2 c t : 1 <= W -> (N.of_nat W < two64)%N ->
    exec (start (N.of_nat W) ps) s1 = Ret c -> c_lock c = Some t -> ~ In t s2 ->
    exists c', exec c s2 = Ret c' /\ c_lock c' = Some t /\ c_log c' = c_log c.
  Proof.
    intros H1 H2 E Hl Hn.
    destruct (exec_inv dflt W _ s1 (start_inv dflt W ps H1 H2)) as (c0 & E0 & Hinv).
    rewrite E in E0. injection E0 as <-.
    destruct (exec_inv dflt W c s2 Hinv) as (c' & E' & _).
    exists c'. split; [auto|]. eapply holder_blocks_inv; eauto.
  Qed.
End Steps.
