(** Proofs about the concurrent RingBuffer. *)

From Coq Require Import List NArith Arith Lia Bool.
From Verif Require Import Outcome Calls RingBuffer RingBufferConc RingBufferConcSpec Spec ListFacts RingBufferFacts.
Import ListNotations.

Section Facts.
  Context {T : Type} (dflt : T).
  Notation prog := (prog T).
  Notation config := (config T).

  (** Run a body to completion without interruption. *)
  Fixpoint finish (p : prog) (m : ring T) : outcome (ring T * rout T) :=
    match p with
    | Done o => Ret (m, o)
    | Fail u => Undef u
    | ReadHead k => finish (k (rb_head m)) m
    | ReadTail k => finish (k (rb_tail m)) m
    | ReadFull k => finish (k (rb_full m)) m
    | ReadCell i k =>
        let* c := at_ (rb_buf m) (N.to_nat i) in
        match c with Some x => finish (k x) m | None => Undef UninitRead end
    | ReadHist k => finish (k (rb_history m)) m
    | WriteHead v k =>
        finish k (Ring (rb_window m) (rb_buf m) v (rb_tail m) (rb_full m) (rb_history m))
    | WriteTail v k =>
        finish k (Ring (rb_window m) (rb_buf m) (rb_head m) v (rb_full m) (rb_history m))
    | WriteFull v k =>
        finish k (Ring (rb_window m) (rb_buf m) (rb_head m) (rb_tail m) v (rb_history m))
    | WriteCell i v k =>
        let* b := store (rb_buf m) (N.to_nat i) (Some v) in
        finish k (Ring (rb_window m) b (rb_head m) (rb_tail m) (rb_full m) (rb_history m))
    | WriteHist v k =>
        finish k (Ring (rb_window m) (rb_buf m) (rb_head m) (rb_tail m) (rb_full m) v)
    end.

  Lemma access_finish (m : ring T) p :
    finish p m = bind (access m p) (fun '(m', p') => finish p' m').
  Proof.
    destruct p; simpl; auto.
    - destruct (at_ (rb_buf m) (N.to_nat i)) as [[]| |]; auto.
    - destruct (store (rb_buf m) (N.to_nat i) (Some v)); auto.
  Qed.

  Lemma access_window (m : ring T) p m' p' : access m p = Ret (m', p') -> rb_window m' = rb_window m.
  Proof.
    destruct p; simpl; intros H; try (injection H as <- <-; auto); try discriminate.
    - destruct (at_ (rb_buf m) (N.to_nat i)) as [[]| |]; simpl in H; try discriminate.
      injection H as <- <-; auto.
    - destruct (store (rb_buf m) (N.to_nat i) (Some v)); simpl in H; try discriminate.
      injection H as <- <-; auto.
  Qed.

  (** The bodies, run without interruption, are the sequential functions. *)
  Lemma finish_body m c : finish (body dflt (rb_window m) c) m = rb_call dflt m c.
  Proof.
    destruct m as [W b h t f n]. destruct c; simpl.
    - unfold rb_update; simpl. destruct (store b (N.to_nat h) (Some x)); simpl; auto.
      unfold p_update_rest, pmod, umod. destruct f; simpl; destruct (W =? 0)%N; reflexivity.
    - unfold rb_pop, rb_empty, p_pop_nonempty, pmod, umod; simpl.
      destruct f; simpl.
      + destruct (at_ b (N.to_nat t)) as [[]| |]; simpl; auto.
        destruct (W =? 0)%N; reflexivity.
      + destruct (h =? t)%N; simpl; auto.
        destruct (at_ b (N.to_nat t)) as [[]| |]; simpl; auto.
        destruct (W =? 0)%N; reflexivity.
    - reflexivity.
    - unfold rb_size; simpl. destruct f; simpl; auto. destruct (t <=? h)%N; auto.
    - unfold rb_empty; simpl. destruct f; auto.
    - reflexivity.
  Qed.

  (** Bodies of the unlocked calls only read. *)
  Inductive readonly : prog -> Prop :=
  | ro_done o : readonly (Done o)
  | ro_head k : (forall v, readonly (k v)) -> readonly (ReadHead k)
  | ro_tail k : (forall v, readonly (k v)) -> readonly (ReadTail k)
  | ro_full k : (forall v, readonly (k v)) -> readonly (ReadFull k).

  Lemma body_readonly W c : locked c = false -> readonly (body dflt W c).
  Proof.
    destruct c; simpl; try discriminate; intros _; unfold p_size, p_empty, p_full.
    - constructor; intros []; constructor; intros h. constructor; intros t.
      destruct (t <=? h)%N; repeat (constructor; intros).
    - constructor; intros []; repeat (constructor; intros).
    - constructor; intros; constructor.
  Qed.

  Lemma readonly_access (m : ring T) p : readonly p -> exists p', access m p = Ret (m, p') /\ readonly p'.
  Proof. intros H; inversion H; subst; simpl; eauto using readonly. Qed.

  Lemma of_thread_snoc {X} i j (h : list (nat * X)) x :
    of_thread i (h ++ [(j, x)]) = of_thread i h ++ (if Nat.eqb j i then [x] else []).
  Proof.
    unfold of_thread. rewrite filter_app, map_app. simpl. destruct (Nat.eqb j i); auto.
  Qed.

  (** [h] lists the completed locked calls with thread and result in the order
      of lock acquisition. *)
  Record inv (W : nat) (c : config) : Prop := {
    iv_ex : exists (h : list (nat * (rcall T * rout T))) q,
      q_run W dflt [] (map (fun p => fst (snd p)) h) = (q, map (fun p => snd (snd p)) h) /\
      (forall i th, nth_error (c_threads c) i = Some th -> locked_done th = of_thread i h) /\
      match c_lock c with
      | None => c_log c = map (fun p => (fst p, fst (snd p))) h /\ rb_rep W (c_mem c) q
      | Some t => exists call p m0 th,
          c_log c = map (fun p => (fst p, fst (snd p))) h ++ [(t, call)] /\
          locked call = true /\
          nth_error (c_threads c) t = Some th /\ t_cur th = Some (call, p) /\
          rb_rep W m0 q /\ finish p (c_mem c) = rb_call dflt m0 call
      end;
    iv_win : rb_window (c_mem c) = N.of_nat W;
    iv_others : forall i th call p,
      nth_error (c_threads c) i = Some th -> t_cur th = Some (call, p) ->
      (locked call = false /\ readonly p) \/ (locked call = true /\ c_lock c = Some i)
  }.

  Lemma q_run_app W q cs ds :
    q_run W dflt q (cs ++ ds) =
    let '(q1, o1) := q_run W dflt q cs in
    let '(q2, o2) := q_run W dflt q1 ds in (q2, o1 ++ o2).
  Proof.
    revert q; induction cs as [|c cs IH]; intros q; simpl.
    - destruct (q_run W dflt q ds); auto.
    - destruct (q_call W dflt q c) as [q1 o]. rewrite IH.
      destruct (q_run W dflt q1 cs) as [q2 os]. destruct (q_run W dflt q2 ds) as [q3 os']. auto.
  Qed.

  Lemma nth_set_cases {X} (l : list X) i j a b :
    nth_error (set_nth l i a) j = Some b ->
    (i = j /\ a = b) \/ (i <> j /\ nth_error l j = Some b).
  Proof.
    rewrite nth_error_set_nth. destruct (Nat.eqb_spec i j); auto.
    destruct (i <? length l); [|discriminate]. intros H; injection H; auto.
  Qed.

  Lemma nth_set_same {X} (l : list X) i a b :
    nth_error l i = Some b -> nth_error (set_nth l i a) i = Some a.
  Proof.
    intros H. rewrite nth_error_set_nth, Nat.eqb_refl.
    assert (i < length l) by (apply nth_error_Some; congruence).
    destruct (Nat.ltb_spec i (length l)); [auto|lia].
  Qed.

  Lemma nth_set_other {X} (l : list X) i j a :
    i <> j -> nth_error (set_nth l i a) j = nth_error l j.
  Proof. intros H. rewrite nth_error_set_nth. destruct (Nat.eqb_spec i j); congruence. Qed.

  Lemma start_inv W ps : 1 <= W -> (N.of_nat W < two64)%N ->
    inv W (start (N.of_nat W) ps).
  Proof.
    intros H1 H2. constructor; simpl; auto.
    - exists [], []. split; [auto|]. split.
      + intros i th H. apply nth_error_In in H. apply in_map_iff in H as (p & <- & _). auto.
      + split; auto. apply rb_new_rep; auto.
    - intros i th call p H. apply nth_error_In in H. apply in_map_iff in H as (p' & <- & _).
      discriminate.
  Qed.

  Lemma step_inv W c i oc : inv W c -> step dflt c i = Some oc ->
    exists c', oc = Ret c' /\ inv W c'.
  Proof.
    intros [(h & q & Hq & Hd & Hl) Hw Ho] Hs. unfold step in Hs.
    destruct (nth_error (c_threads c) i) as [th|] eqn:Hi; [|discriminate].
    destruct (t_cur th) as [[call p]|] eqn:Hc.
    - destruct (Ho _ _ _ _ Hi Hc) as [[Hlk Hro]|[Hlk Hlock]].
      + (* unlocked reader *)
        assert (Hnl : match c_lock c with Some t => t <> i | None => True end).
        { destruct (c_lock c) as [t|]; auto. intros ->.
          destruct Hl as (call' & p' & m0 & th' & _ & Hl' & Hi' & Hc' & _).
          rewrite Hi in Hi'. injection Hi' as <-. congruence. }
        assert (Hcases : (exists o, p = Done o) \/
                 (exists p', oc = Ret (Config (c_mem c) (c_lock c)
                    (set_nth (c_threads c) i (Thread (Some (call, p')) (t_todo th) (t_done th))) (c_log c)) /\
                   readonly p')).
        { destruct (readonly_access (c_mem c) p Hro) as (p' & E & Hro').
          destruct p; eauto; right; exists p'; rewrite E in Hs; simpl in Hs;
            injection Hs as <-; auto. }
        destruct Hcases as [[o ->]|(p' & -> & Hro')].
        * injection Hs as <-. eexists; split; [reflexivity|]. rewrite Hlk.
          constructor; simpl; auto.
          -- exists h, q. split; [auto|]. split.
             ++ intros j th' Hj. apply nth_set_cases in Hj as [[-> <-]|[Hn Hj]]; auto.
                rewrite <- (Hd _ _ Hi). unfold locked_done. simpl. rewrite filter_app. simpl.
                rewrite Hlk. apply app_nil_r.
             ++ destruct (c_lock c) as [t|]; auto.
                destruct Hl as (call' & p' & m0 & th' & A & B & C & D & E).
                exists call', p', m0, th'. rewrite nth_set_other by auto. auto.
          -- intros j th' call' p' Hj Hc'.
             apply nth_set_cases in Hj as [[-> <-]|[Hn Hj]]; [discriminate|].
             eapply Ho; eauto.
        * eexists; split; [reflexivity|]. constructor; simpl; auto.
          -- exists h, q. split; [auto|]. split.
             ++ intros j th' Hj. apply nth_set_cases in Hj as [[-> <-]|[Hn Hj]]; auto.
                rewrite <- (Hd _ _ Hi). reflexivity.
             ++ destruct (c_lock c) as [t|]; auto.
                destruct Hl as (call' & p'' & m0 & th' & A & B & C & D & E).
                exists call', p'', m0, th'. rewrite nth_set_other by auto. auto.
          -- intros j th' call' p'' Hj Hc'.
             apply nth_set_cases in Hj as [[-> <-]|[Hn Hj]].
             ++ simpl in Hc'. injection Hc' as <- <-. auto.
             ++ eapply Ho; eauto.
      + (* the thread holding the mutex *)
        rewrite Hlock in Hl. destruct Hl as (call' & p' & m0 & th' & Hlog & Hl' & Hi' & Hc' & Hrep & Hfin).
        rewrite Hi in Hi'. injection Hi' as <-. rewrite Hc in Hc'. injection Hc' as <- <-.
        destruct (rb_call_rep dflt W m0 q call Hrep) as (m1 & Ecall & Hrep1 & _).
        rewrite Ecall in Hfin.
        assert (Hcases : (exists o, p = Done o) \/
           exists m' p', access (c_mem c) p = Ret (m', p') /\
             oc = Ret (Config m' (c_lock c)
               (set_nth (c_threads c) i (Thread (Some (call, p')) (t_todo th) (t_done th))) (c_log c)) /\
             finish p' m' = Ret (m1, snd (q_call W dflt q call))).
        { rewrite access_finish in Hfin.
          destruct p; eauto; right;
            match type of Hfin with bind ?a _ = _ => destruct a as [[m' p']| |] eqn:Ea end;
            simpl in Hfin; try discriminate;
            exists m', p'; split; auto; try rewrite Ea in Hs; simpl in Hs; injection Hs as <-; auto. }
        destruct Hcases as [[o ->]|(m' & p' & Ea & -> & Hf')].
        * simpl in Hfin. injection Hfin as Hm Ho'. injection Hs as <-.
          eexists; split; [reflexivity|]. rewrite Hlk. constructor; simpl; auto.
          -- exists (h ++ [(i, (call, o))]), (fst (q_call W dflt q call)).
             split; [|split].
             ++ rewrite !map_app, q_run_app, Hq. simpl.
                destruct (q_call W dflt q call) as [q1 o1]. simpl in *. congruence.
             ++ intros j th' Hj. rewrite of_thread_snoc.
                apply nth_set_cases in Hj as [[-> <-]|[Hn Hj]].
                ** rewrite Nat.eqb_refl, <- (Hd _ _ Hi). unfold locked_done. simpl.
                   rewrite filter_app. simpl. rewrite Hlk. auto.
                ** destruct (Nat.eqb_spec i j); [congruence|]. rewrite app_nil_r. auto.
             ++ rewrite map_app. simpl. split; auto. rewrite Hm. auto.
          -- intros j th' call' p' Hj Hc'.
             apply nth_set_cases in Hj as [[-> <-]|[Hn Hj]]; [discriminate|].
             destruct (Ho _ _ _ _ Hj Hc') as [?|[? E]]; auto. congruence.
        * eexists; split; [reflexivity|]. rewrite Hlock. constructor; simpl; auto.
          -- exists h, q. split; [auto|]. split.
             ++ intros j th' Hj. apply nth_set_cases in Hj as [[-> <-]|[Hn Hj]]; auto.
                rewrite <- (Hd _ _ Hi). reflexivity.
             ++ exists call, p', m0, (Thread (Some (call, p')) (t_todo th) (t_done th)).
                split; [auto|]. split; [auto|]. split; [eapply nth_set_same; eauto|].
                split; [auto|]. split; [auto|]. rewrite Ecall. auto.
          -- rewrite (access_window _ _ _ _ Ea). auto.
          -- intros j th' call' p'' Hj Hc'.
             apply nth_set_cases in Hj as [[-> <-]|[Hn Hj]].
             ++ simpl in Hc'. injection Hc' as <- <-. auto.
             ++ rewrite <- Hlock. eapply Ho; eauto.
    - (* starting a call *)
      destruct (t_todo th) as [|call rest] eqn:Ht; [discriminate|].
      destruct (locked call) eqn:Hlk.
      + destruct (c_lock c) as [t|] eqn:Hlock; [discriminate|].
        injection Hs as <-. eexists; split; [reflexivity|].
        destruct Hl as [Hlog Hrep]. constructor; simpl; auto.
        * exists h, q. split; [auto|]. split.
          -- intros j th' Hj. apply nth_set_cases in Hj as [[-> <-]|[Hn Hj]]; auto.
             rewrite <- (Hd _ _ Hi). reflexivity.
          -- eexists call, _, (c_mem c), _. rewrite Hlog.
             split; [auto|]. split; [auto|]. split; [eapply nth_set_same; eauto|].
             split; [reflexivity|]. split; [auto|]. apply finish_body.
        * intros j th' call' p' Hj Hc'.
          apply nth_set_cases in Hj as [[-> <-]|[Hn Hj]].
          -- simpl in Hc'. injection Hc' as <- <-. auto.
          -- destruct (Ho _ _ _ _ Hj Hc') as [?|[? E]]; auto. congruence.
      + injection Hs as <-. eexists; split; [reflexivity|]. constructor; simpl; auto.
        * exists h, q. split; [auto|]. split.
          -- intros j th' Hj. apply nth_set_cases in Hj as [[-> <-]|[Hn Hj]]; auto.
             rewrite <- (Hd _ _ Hi). reflexivity.
          -- destruct (c_lock c) as [t|]; auto.
             destruct Hl as (call' & p' & m0 & th' & A & B & C & D & E).
             exists call', p', m0, th'. rewrite nth_set_other; auto.
             intros <-. rewrite Hi in C. injection C as <-. congruence.
        * intros j th' call' p' Hj Hc'.
          apply nth_set_cases in Hj as [[-> <-]|[Hn Hj]].
          -- simpl in Hc'. injection Hc' as <- <-. left; split; auto. apply body_readonly; auto.
          -- eapply Ho; eauto.
  Qed.

  Lemma exec_inv W c sched : inv W c -> exists c', exec dflt c sched = Ret c' /\ inv W c'.
  Proof.
    revert c; induction sched as [|i sched IH]; intros c H; simpl; [eauto|].
    destruct (step dflt c i) as [oc|] eqn:E; [|auto].
    destruct (step_inv _ _ _ _ H E) as (c' & -> & H'). simpl. auto.
  Qed.

  (** The log only grows. *)
  Lemma step_log c i c' : step dflt c i = Some (Ret c') -> exists l, c_log c' = c_log c ++ l.
  Proof.
    unfold step. destruct (nth_error (c_threads c) i) as [th|]; [|discriminate].
    destruct (t_cur th) as [[call p]|].
    - destruct p;
      match goal with
      | |- Some (Ret ?a) = Some (Ret ?b) -> _ => intros H; injection H as <-; simpl; exists []; symmetry; apply app_nil_r
      | |- Some (bind ?a _) = _ -> _ => destruct a as [[m' p']| |]; simpl; intros H; try discriminate;
            injection H as <-; simpl; exists []; symmetry; apply app_nil_r
      end.
    - destruct (t_todo th) as [|call rest]; [discriminate|]. destruct (locked call).
      + destruct (c_lock c); [discriminate|]. intros H; injection H as <-. simpl. eauto.
      + intros H; injection H as <-. simpl. exists []; symmetry; apply app_nil_r.
  Qed.

  Lemma exec_log c sched c' : exec dflt c sched = Ret c' -> exists l, c_log c' = c_log c ++ l.
  Proof.
    revert c; induction sched as [|i sched IH]; intros c H; simpl in H.
    - injection H as <-. exists []; symmetry; apply app_nil_r.
    - destruct (step dflt c i) as [[c1| |]|] eqn:E; simpl in H; try discriminate; auto.
      destruct (step_log _ _ _ E) as [l1 H1]. destruct (IH _ H) as [l2 H2].
      exists (l1 ++ l2). rewrite H2, H1, app_assoc. auto.
  Qed.

  Lemma exec_app c s1 s2 : exec dflt c (s1 ++ s2) = bind (exec dflt c s1) (fun c' => exec dflt c' s2).
  Proof.
    revert c; induction s1 as [|i s1 IH]; intros c; simpl; auto.
    destruct (step dflt c i) as [[]|]; simpl; auto.
  Qed.

  Lemma step_calls c i c' : step dflt c i = Some (Ret c') ->
    map thread_calls (c_threads c') = map thread_calls (c_threads c).
  Proof.
    assert (Hset : forall l j (th th' : thread T), nth_error l j = Some th ->
              thread_calls th' = thread_calls th ->
              map thread_calls (set_nth l j th') = map thread_calls l).
    { induction l; intros [|j] th th' H E; simpl in *; try discriminate.
      - injection H as <-. congruence.
      - f_equal. eauto. }
    unfold step. destruct (nth_error (c_threads c) i) as [th|] eqn:Hi; [|discriminate].
    destruct (t_cur th) as [[call p]|] eqn:Hc.
    - destruct p;
      match goal with
      | |- Some (Ret ?a) = Some (Ret ?b) -> _ => intros H; injection H as <-; simpl
      | |- Some (bind ?a _) = _ -> _ => destruct a as [[m' p']| |]; simpl; intros H; try discriminate;
            injection H as <-; simpl
      end; eapply Hset; eauto; unfold thread_calls; rewrite Hc; simpl; auto.
      rewrite map_app, <- app_assoc. auto.
    - destruct (t_todo th) as [|call rest] eqn:Ht; [discriminate|]. destruct (locked call).
      + destruct (c_lock c); [discriminate|]. intros H; injection H as <-. simpl.
        eapply Hset; eauto. unfold thread_calls; rewrite Hc, Ht; auto.
      + intros H; injection H as <-. simpl.
        eapply Hset; eauto. unfold thread_calls; rewrite Hc, Ht; auto.
  Qed.

  Lemma exec_calls c sched c' : exec dflt c sched = Ret c' ->
    map thread_calls (c_threads c') = map thread_calls (c_threads c).
  Proof.
    revert c; induction sched as [|i sched IH]; intros c H; simpl in H.
    - injection H as <-. auto.
    - destruct (step dflt c i) as [[c1| |]|] eqn:E; simpl in H; try discriminate; auto.
      rewrite (IH _ H). eapply step_calls; eauto.
  Qed.

  (** Deadlock freedom: while some thread is unfinished, some thread can move. *)
  Lemma step_cur_some c i th call p : nth_error (c_threads c) i = Some th ->
    t_cur th = Some (call, p) -> exists oc, step dflt c i = Some oc.
  Proof. intros H1 H2. unfold step. rewrite H1, H2. destruct p; eauto. Qed.

  Lemma progress W c i th : inv W c -> nth_error (c_threads c) i = Some th ->
    ~ finished th -> exists j c', step dflt c j = Some (Ret c').
  Proof.
    intros H Hi Hf.
    assert (Hex : exists j oc, step dflt c j = Some oc).
    { destruct (t_cur th) as [[call p]|] eqn:Hc.
      - destruct (step_cur_some _ _ _ _ _ Hi Hc); eauto.
      - destruct (t_todo th) as [|call rest] eqn:Ht; [destruct Hf; split; auto|].
        destruct (locked call) eqn:Hlk.
        + destruct (c_lock c) as [t|] eqn:Hlock.
          * destruct H as [(h & q & _ & _ & Hl) _ _]. rewrite Hlock in Hl.
            destruct Hl as (call' & p & m0 & th' & _ & _ & Hi' & Hc' & _).
            destruct (step_cur_some _ _ _ _ _ Hi' Hc'); eauto.
          * exists i. unfold step. rewrite Hi, Hc, Ht, Hlk, Hlock. eauto.
        + exists i. unfold step. rewrite Hi, Hc, Ht, Hlk. eauto. }
    destruct Hex as (j & oc & E). destruct (step_inv _ _ _ _ H E) as (c' & -> & _). eauto.
  Qed.

  (** ** Running one thread alone *)
  Lemma set_nth_set {X} (l : list X) i a b : set_nth (set_nth l i a) i b = set_nth l i b.
  Proof. revert i; induction l; intros [|i]; simpl; congruence. Qed.

  Lemma solo_body i p : forall (c : config) th call m' o,
    nth_error (c_threads c) i = Some th -> t_cur th = Some (call, p) ->
    finish p (c_mem c) = Ret (m', o) ->
    exists n, exec dflt c (repeat i n) =
      Ret (Config m' (c_lock c)
             (set_nth (c_threads c) i (Thread (Some (call, Done o)) (t_todo th) (t_done th)))
             (c_log c)).
  Proof.
    assert (Hid : forall l j (th : thread T), nth_error l j = Some th -> set_nth l j th = l).
    { induction l; intros [|j] th H; simpl in *; try discriminate; f_equal; auto. congruence. }
    (* one access, then the induction hypothesis *)
    assert (Hone : forall (c : config) th call p m1 p1 m' o,
      nth_error (c_threads c) i = Some th -> t_cur th = Some (call, p) ->
      step dflt c i = Some (Ret (Config m1 (c_lock c)
         (set_nth (c_threads c) i (Thread (Some (call, p1)) (t_todo th) (t_done th))) (c_log c))) ->
      (forall c' th', nth_error (c_threads c') i = Some th' -> t_cur th' = Some (call, p1) ->
         c_mem c' = m1 ->
         exists n, exec dflt c' (repeat i n) =
            Ret (Config m' (c_lock c')
             (set_nth (c_threads c') i (Thread (Some (call, Done o)) (t_todo th') (t_done th')))
             (c_log c'))) ->
      exists n, exec dflt c (repeat i n) =
      Ret (Config m' (c_lock c)
             (set_nth (c_threads c) i (Thread (Some (call, Done o)) (t_todo th) (t_done th)))
             (c_log c))).
    { intros c th call p0 m1 p1 m' o Hi Hc Hs IH.
      set (c' := Config m1 _ _ _) in Hs.
      destruct (IH c' (Thread (Some (call, p1)) (t_todo th) (t_done th))) as [n Hn]; auto.
      { eapply nth_set_same; eauto. }
      exists (S n). simpl. rewrite Hs. simpl. rewrite Hn. simpl.
      rewrite set_nth_set. auto. }
    induction p; intros c th call m' o' Hi Hc Hf.
    - exists 0. simpl. simpl in Hf. injection Hf as <- <-.
      rewrite (Hid _ _ (Thread (Some (call, Done o)) (t_todo th) (t_done th))).
      + destruct c; auto.
      + rewrite Hi. destruct th; simpl in *; congruence.
    - discriminate.
    - eapply Hone with (p1 := k (rb_head (c_mem c))); eauto.
      { unfold step; rewrite Hi, Hc; simpl; eauto. }
      intros c' th' Hi' Hc' Hm. eapply H; eauto. rewrite Hm. exact Hf.
    - eapply Hone with (p1 := k (rb_tail (c_mem c))); eauto.
      { unfold step; rewrite Hi, Hc; simpl; eauto. }
      intros c' th' Hi' Hc' Hm. eapply H; eauto. rewrite Hm. exact Hf.
    - eapply Hone with (p1 := k (rb_full (c_mem c))); eauto.
      { unfold step; rewrite Hi, Hc; simpl; eauto. }
      intros c' th' Hi' Hc' Hm. eapply H; eauto. rewrite Hm. exact Hf.
    - simpl in Hf. destruct (at_ (rb_buf (c_mem c)) (N.to_nat i0)) as [[x|]| |] eqn:Ea;
        simpl in Hf; try discriminate.
      eapply Hone with (p1 := k x); eauto.
      { unfold step; rewrite Hi, Hc; simpl. rewrite Ea. simpl. eauto. }
      intros c' th' Hi' Hc' Hm. eapply H; eauto. rewrite Hm. exact Hf.
    - eapply Hone with (p1 := k (rb_history (c_mem c))); eauto.
      { unfold step; rewrite Hi, Hc; simpl; eauto. }
      intros c' th' Hi' Hc' Hm. eapply H; eauto. rewrite Hm. exact Hf.
    - eapply Hone with (p1 := p); eauto.
      { unfold step; rewrite Hi, Hc; simpl; eauto. }
      intros c' th' Hi' Hc' Hm. eapply IHp; eauto. rewrite Hm. exact Hf.
    - eapply Hone with (p1 := p); eauto.
      { unfold step; rewrite Hi, Hc; simpl; eauto. }
      intros c' th' Hi' Hc' Hm. eapply IHp; eauto. rewrite Hm. exact Hf.
    - eapply Hone with (p1 := p); eauto.
      { unfold step; rewrite Hi, Hc; simpl; eauto. }
      intros c' th' Hi' Hc' Hm. eapply IHp; eauto. rewrite Hm. exact Hf.
    - simpl in Hf. destruct (store (rb_buf (c_mem c)) (N.to_nat i0) (Some v)) as [b| |] eqn:Es;
        simpl in Hf; try discriminate.
      eapply Hone with (p1 := p); eauto.
      { unfold step; rewrite Hi, Hc; simpl. rewrite Es. simpl. eauto. }
      intros c' th' Hi' Hc' Hm. eapply IHp; eauto. rewrite Hm. exact Hf.
    - eapply Hone with (p1 := p); eauto.
      { unfold step; rewrite Hi, Hc; simpl; eauto. }
      intros c' th' Hi' Hc' Hm. eapply IHp; eauto. rewrite Hm. exact Hf.
  Qed.

  Lemma solo_call i (c : config) call rest dn m' o :
    nth_error (c_threads c) i = Some (Thread None (call :: rest) dn) ->
    c_lock c = None -> rb_call dflt (c_mem c) call = Ret (m', o) ->
    exists n log, exec dflt c (repeat i n) =
      Ret (Config m' None (set_nth (c_threads c) i (Thread None rest (dn ++ [(call, o)]))) log).
  Proof.
    intros Hi Hl Hcall.
    set (th := Thread (Some (call, body dflt (rb_window (c_mem c)) call)) rest dn).
    assert (H1 : exists lk log, step dflt c i =
       Some (Ret (Config (c_mem c) lk (set_nth (c_threads c) i th) log)) /\
       (lk = None \/ locked call = true)).
    { unfold step. rewrite Hi. simpl. destruct (locked call) eqn:E.
      - rewrite Hl. eauto 10.
      - eauto 10. }
    destruct H1 as (lk & log & H1 & Hlk).
    set (c1 := Config (c_mem c) lk (set_nth (c_threads c) i th) log) in *.
    destruct (solo_body i (body dflt (rb_window (c_mem c)) call) c1 th call m' o) as [n Hn]; auto.
    { simpl. eapply nth_set_same; eauto. }
    { simpl. rewrite finish_body. auto. }
    exists (S (n + 1)), log. cbn [repeat exec]. rewrite H1. cbn [bind].
    rewrite repeat_app, exec_app, Hn. simpl.
    unfold step. simpl. erewrite nth_set_same by (eapply nth_set_same; eauto). simpl.
    rewrite !set_nth_set. destruct Hlk as [->| ->]; auto. destruct (locked call); auto.
  Qed.

  Lemma solo_calls i cs : forall (c : config) rest dn m' os,
    nth_error (c_threads c) i = Some (Thread None (cs ++ rest) dn) ->
    c_lock c = None -> rb_run dflt (c_mem c) cs = Ret (m', os) ->
    exists n log, exec dflt c (repeat i n) =
      Ret (Config m' None (set_nth (c_threads c) i (Thread None rest (dn ++ combine cs os))) log).
  Proof.
    induction cs as [|call cs IH]; intros c rest dn m' os Hi Hl Hr.
    - simpl in Hr. injection Hr as <- <-. exists 0, (c_log c). simpl. rewrite app_nil_r.
      assert (Hid : forall l j (th : thread T), nth_error l j = Some th -> set_nth l j th = l).
      { induction l; intros [|j] th H; simpl in *; try discriminate; f_equal; auto. congruence. }
      simpl in Hi; rewrite (Hid _ _ _ Hi). destruct c; simpl in *; congruence.
    - simpl in Hr. destruct (rb_call dflt (c_mem c) call) as [[m1 o]| |] eqn:Ec; try discriminate.
      simpl in Hr. destruct (rb_run dflt m1 cs) as [[m2 os']| |] eqn:Er; try discriminate.
      simpl in Hr. injection Hr as <- <-.
      destruct (solo_call i c call (cs ++ rest) dn m1 o Hi Hl Ec) as (n1 & log1 & E1).
      set (c1 := Config m1 None _ log1) in E1.
      destruct (IH c1 rest (dn ++ [(call, o)]) m2 os') as (n2 & log2 & E2); auto.
      { simpl. eapply nth_set_same; eauto. }
      exists (n1 + n2), log2. rewrite repeat_app, exec_app, E1. simpl bind. rewrite E2. simpl.
      rewrite set_nth_set, <- app_assoc. auto.
  Qed.

  Lemma exec_step (c : config) i s c' : step dflt c i = Some (Ret c') ->
    exec dflt c (i :: s) = exec dflt c' s.
  Proof. intros H. simpl. now rewrite H. Qed.

  Local Ltac red_step :=
    cbn [step nth_error c_threads set_nth t_cur t_todo t_done c_mem c_lock c_log access locked body
         p_update p_update_rest p_size p_empty bind app
         rb_buf rb_head rb_tail rb_full rb_window rb_history].
  Local Ltac one_step := erewrite exec_step by (red_step; reflexivity).

  (** ** The unlocked readers are not atomic *)
  Lemma q_run_updates W q (x : T) n : length q + n <= W ->
    q_run W dflt q (repeat (CUpdate x) n) = (q ++ repeat x n, repeat OUnit n).
  Proof.
    revert q; induction n; intros q H; simpl.
    - now rewrite app_nil_r.
    - rewrite lastn_snoc_short by lia. rewrite IHn by (rewrite app_length; simpl; lia).
      rewrite <- app_assoc. auto.
  Qed.

  Lemma combine_repeat {X Y} (a : X) (b : Y) n : combine (repeat a n) (repeat b n) = repeat (a, b) n.
  Proof. induction n; simpl; congruence. Qed.

  Lemma torn_read W (x : T) : 2 <= W -> (N.of_nat W < two64)%N ->
    exists s1 c1 s2 c2,
      exec dflt (start (N.of_nat W) [repeat (CUpdate x) W; [CSize; CEmpty]]) s1 = Ret c1 /\
      c_threads c1 = [ Thread None [CUpdate x] (repeat (CUpdate x, OUnit) (W - 1));
                       Thread None [CSize; CEmpty] [] ] /\
      c_lock c1 = None /\ rb_size (c_mem c1) = N.of_nat (W - 1) /\
      exec dflt c1 s2 = Ret c2 /\
      c_threads c2 = [ Thread None [] (repeat (CUpdate x, OUnit) W);
                       Thread None [] [(CSize, ONum 0%N); (CEmpty, OBool true)] ] /\
      c_lock c2 = None /\ rb_size (c_mem c2) = N.of_nat W.
  Proof.
    intros H1 H2.
    pose proof (rb_new_rep (T:=T) W ltac:(lia) H2) as Hrep0.
    destruct (rb_run_rep dflt W _ _ (repeat (CUpdate x) (W - 1)) Hrep0) as (m1 & E1 & Hrep1 & _).
    rewrite q_run_updates in E1, Hrep1 by (simpl; lia). simpl in E1, Hrep1.
    set (c0 := start (N.of_nat W) _).
    destruct (solo_calls 0 (repeat (CUpdate x) (W - 1)) c0 [CUpdate x] [] m1 (repeat OUnit (W - 1)))
      as (n & log & En); auto.
    { simpl. replace W with ((W - 1) + 1) at 1 by lia. rewrite repeat_app. auto. }
    simpl in En. rewrite combine_repeat in En.
    set (c1 := Config m1 _ _ _) in En.
    exists (repeat 0 n), c1.
    (* the interfering update, up to the write of m_head; then the readers; then the rest *)
    exists (repeat 0 6 ++ repeat 1 12 ++ repeat 0 6).
    pose proof (rb_size_rep _ _ _ Hrep1) as Hsz.
    rewrite repeat_length in Hsz.
    destruct Hrep1 as [HW _ _ Hlen _ Hf (t & Ht & HtW & Hh & Hc)].
    rewrite repeat_length in Hf, Hh.
    set (h := (t + (W - 1)) mod W) in *.
    assert (Hhlt : h < W) by (apply Nat.mod_upper_bound; lia).
    assert (Hmod : (h + 1) mod W = t).
    { unfold h. rewrite Nat.add_mod_idemp_l by lia.
      replace (t + (W - 1) + 1) with (t + 1 * W) by lia.
      rewrite Nat.mod_add by lia. apply Nat.mod_small; auto. }
    assert (Hff : rb_full m1 = false) by (rewrite Hf; apply Nat.eqb_neq; lia).
    assert (Hu : umod (wrap64 (N.of_nat h + 1)) (N.of_nat W) = Ret (N.of_nat t))
      by (rewrite umod_succ by auto; rewrite Hmod; auto).
    destruct m1 as [mW mb mh mt mf mn]. simpl in HW, Hlen, Hff, Ht, Hh, Hsz. subst mW mh mt mf.
    assert (Hst : store mb (N.to_nat (N.of_nat h)) (Some x) = Ret (set_nth mb h (Some x))).
    { rewrite Nat2N.id. apply store_Ret. lia. }
    eexists.
    split; [exact En|]. split; [reflexivity|]. split; [reflexivity|]. split; [exact Hsz|].
    split.
    { unfold c1. cbn [repeat app]. do 2 one_step.
      erewrite exec_step. 2: { red_step. rewrite Hst. red_step. reflexivity. }
      do 2 one_step.
      erewrite exec_step. 2: { unfold p_update_rest, pmod. red_step. rewrite Hu. red_step. reflexivity. }
      do 4 one_step.
      rewrite N.leb_refl.
      do 8 one_step.
      do 6 one_step.
      rewrite !N.eqb_refl. reflexivity. }
    split.
    { cbn -[two64 N.add N.of_nat N.sub wrap64].
      f_equal.
      - f_equal. replace W with ((W - 1) + 1) at 2 by lia. rewrite repeat_app. auto.
      - do 4 f_equal.
        replace (N.of_nat t + two64 - N.of_nat t)%N with two64 by lia. reflexivity. }
    split; [reflexivity|]. reflexivity.
  Qed.

  (** Exact layout while a fresh buffer is being filled. *)
  Lemma rb_fill W (x : T) n : n < W -> (N.of_nat W < two64)%N ->
    exists b, rb_run dflt (rb_new (N.of_nat W)) (repeat (CUpdate x) n) =
      Ret (Ring (N.of_nat W) b (N.of_nat n) 0 false n, repeat OUnit n) /\
      length b = W /\ (0 < n -> nth_error b 0 = Some (Some x)).
  Proof.
    intros Hn HW.
    assert (G : forall k b m, m + k < W -> length b = W ->
      (0 < m -> nth_error b 0 = Some (Some x)) ->
      exists b', rb_run dflt (Ring (N.of_nat W) b (N.of_nat m) 0 false m) (repeat (CUpdate x) k) =
        Ret (Ring (N.of_nat W) b' (N.of_nat (m + k)) 0 false (m + k), repeat OUnit k) /\
        length b' = W /\ (0 < m + k -> nth_error b' 0 = Some (Some x))).
    { induction k; intros b m Hm Hl H0.
      - exists b. simpl. rewrite Nat.add_0_r. auto.
      - cbn [repeat rb_run rb_call]. unfold rb_update.
        cbn [rb_buf rb_head rb_tail rb_full rb_window rb_history].
        rewrite Nat2N.id, store_Ret by lia. cbn [bind].
        rewrite umod_succ by (auto; lia). cbn [bind].
        rewrite Nat.mod_small by lia.
        replace (N.of_nat (m + 1) =? 0)%N with false by (symmetry; apply N.eqb_neq; lia).
        destruct (IHk (set_nth b m (Some x)) (m + 1)) as (b' & E & Hl' & H0').
        + lia.
        + rewrite set_nth_length. auto.
        + intros _. rewrite nth_error_set_nth. destruct (Nat.eqb_spec m 0).
          * destruct (Nat.ltb_spec m (length b)); [auto|lia].
          * apply H0. lia.
        + exists b'. replace (S m) with (m + 1) by lia. rewrite E. cbn [bind].
          replace (m + 1 + k) with (m + S k) in * by lia. auto. }
    destruct (G n (repeat None W) 0) as (b & E & Hl & H0); auto.
    { apply repeat_length. } { lia. }
    exists b. unfold rb_new. rewrite Nat2N.id. auto.
  Qed.

  Lemma rb_run_app s cs ds :
    rb_run dflt s (cs ++ ds) =
    bind (rb_run dflt s cs) (fun '(s1, o1) =>
      bind (rb_run dflt s1 ds) (fun '(s2, o2) => Ret (s2, o1 ++ o2))).
  Proof.
    revert s; induction cs as [|c cs IH]; intros s; simpl.
    - destruct (rb_run dflt s ds) as [[]| |]; auto.
    - destruct (rb_call dflt s c) as [[s1 o]| |]; simpl; auto.
      rewrite IH. destruct (rb_run dflt s1 cs) as [[s2 os]| |]; simpl; auto.
      destruct (rb_run dflt s2 ds) as [[s3 os']| |]; simpl; auto.
  Qed.

  (** size() can even exceed the window: it re-reads head and tail after
      comparing them. *)
  Lemma torn_read_huge W (x : T) : 2 <= W -> (N.of_nat W < two64)%N ->
    exists s c,
      exec dflt (start (N.of_nat W)
                  [repeat (CUpdate x) (W - 1) ++ [CPop; CUpdate x]; [CSize]]) s = Ret c /\
      c_threads c = [ Thread None [] (repeat (CUpdate x, OUnit) (W - 1)
                                      ++ [(CPop, OVal x); (CUpdate x, OUnit)]);
                      Thread None [] [(CSize, ONum (two64 - 1)%N)] ] /\
      c_lock c = None.
  Proof.
    intros H1 H2.
    destruct (rb_fill W x (W - 1) ltac:(lia) H2) as (b & Eb & Hlen & H0).
    specialize (H0 ltac:(lia)).
    assert (Er : rb_run dflt (rb_new (N.of_nat W)) (repeat (CUpdate x) (W - 1) ++ [CPop]) =
       Ret (Ring (N.of_nat W) b (N.of_nat (W - 1)) 1%N false (W - 1),
            repeat OUnit (W - 1) ++ [OVal x])).
    { rewrite rb_run_app, Eb. cbn [bind rb_run rb_call]. unfold rb_pop, rb_empty.
      cbn [rb_buf rb_head rb_tail rb_full rb_window rb_history negb andb].
      replace (N.of_nat (W - 1) =? 0)%N with false by (symmetry; apply N.eqb_neq; lia).
      unfold at_. change (N.to_nat 0) with 0. rewrite H0. cbn [bind].
      change 0%N with (N.of_nat 0). rewrite umod_succ by (auto; lia). cbn [bind].
      rewrite Nat.mod_small by lia. reflexivity. }
    set (c0 := start (N.of_nat W) _).
    destruct (solo_calls 0 (repeat (CUpdate x) (W - 1) ++ [CPop]) c0 [CUpdate x] []
                _ _ ltac:(simpl; rewrite <- app_assoc; reflexivity) eq_refl Er)
      as (n & log & En).
    assert (Hcomb : combine (repeat (CUpdate x) (W - 1) ++ [CPop]) (repeat OUnit (W - 1) ++ [OVal x])
              = repeat (CUpdate x, OUnit) (W - 1) ++ [(CPop, OVal x)]).
    { generalize (W - 1) as k. induction k; simpl; congruence. }
    cbn [app] in En. rewrite Hcomb in En. cbn [c_threads c0 start map set_nth] in En.
    set (dn := repeat (CUpdate x, OUnit) (W - 1) ++ [(CPop, OVal x)]) in *.
    set (c1 := Config _ _ _ log) in En.
    exists (repeat 0 n ++ repeat 1 4 ++ repeat 0 12 ++ repeat 1 3).
    rewrite exec_app, En. cbn [bind].
    assert (Hu : umod (wrap64 (N.of_nat (W - 1) + 1)) (N.of_nat W) = Ret 0%N).
    { rewrite umod_succ by (auto; lia). replace (W - 1 + 1) with W by lia.
      rewrite Nat.mod_same by lia. reflexivity. }
    assert (Hst : store b (N.to_nat (N.of_nat (W - 1))) (Some x) = Ret (set_nth b (W - 1) (Some x))).
    { rewrite Nat2N.id. apply store_Ret. lia. }
    assert (Hle : (1 <=? N.of_nat (W - 1))%N = true) by (apply N.leb_le; lia).
    eexists. split; [|split].
    { unfold c1. cbn [repeat app]. do 4 one_step. rewrite Hle.
      do 2 one_step.
      erewrite exec_step. 2: { red_step. rewrite Hst. red_step. reflexivity. }
      do 2 one_step.
      erewrite exec_step. 2: { unfold p_update_rest, pmod. red_step. rewrite Hu. red_step. reflexivity. }
      do 6 one_step.
      do 3 one_step. reflexivity. }
    { cbn [c_threads]. f_equal. unfold dn. rewrite <- app_assoc. reflexivity. }
    { reflexivity. }
  Qed.

  (** What a client of a locked history can conclude. *)
  Lemma linearizable W ps sched : 1 <= W -> (N.of_nat W < two64)%N ->
    exists c h q,
      exec dflt (start (N.of_nat W) ps) sched = Ret c /\
      q_run W dflt [] (map (fun p => fst (snd p)) h) = (q, map (fun p => snd (snd p)) h) /\
      (exists pending, c_log c = map (fun p => (fst p, fst (snd p))) h ++ pending /\
                       length pending <= 1) /\
      (forall i th, nth_error (c_threads c) i = Some th -> locked_done th = of_thread i h) /\
      map thread_calls (c_threads c) = ps /\
      (c_lock c = None ->
         c_log c = map (fun p => (fst p, fst (snd p))) h /\
         forall cs, exists m', rb_run dflt (c_mem c) cs = Ret (m', snd (q_run W dflt q cs))).
  Proof.
    intros H1 H2. destruct (exec_inv W _ sched (start_inv W ps H1 H2)) as (c & E & Hinv).
    pose proof (exec_calls _ _ _ E) as Hcalls.
    destruct Hinv as [(h & q & Hq & Hd & Hl) _ _].
    exists c, h, q. split; [exact E|]. split; [exact Hq|]. split; [|split; [exact Hd|split]].
    - destruct (c_lock c) as [t|].
      + destruct Hl as (call & p & m0 & th & Hlog & _). exists [(t, call)]. split; auto.
      + destruct Hl as [Hlog _]. exists []. rewrite app_nil_r. split; auto.
    - rewrite Hcalls. simpl. rewrite map_map. rewrite <- (map_id ps) at 2. apply map_ext. auto.
    - intros Hlk. rewrite Hlk in Hl. destruct Hl as [Hlog Hrep]. split; [exact Hlog|].
      intros cs. destruct (rb_run_rep dflt W _ _ cs Hrep) as (m' & Em & _). eauto.
  Qed.

  Lemma lock_order_grows W ps s1 s2 c1 c2 :
    exec dflt (start W ps) s1 = Ret c1 -> exec dflt (start W ps) (s1 ++ s2) = Ret c2 ->
    exists l, c_log c2 = c_log c1 ++ l.
  Proof. rewrite exec_app. intros ->. simpl. apply exec_log. Qed.

  Lemma deadlock_free W ps sched c : 1 <= W -> (N.of_nat W < two64)%N ->
    exec dflt (start (N.of_nat W) ps) sched = Ret c ->
    forall i th, nth_error (c_threads c) i = Some th -> ~ finished th ->
    exists j c', step dflt c j = Some (Ret c').
  Proof.
    intros H1 H2 E i th Hi Hf. destruct (exec_inv W _ sched (start_inv W ps H1 H2)) as (c' & E' & Hinv).
    rewrite E in E'. injection E' as <-. eapply progress; eauto.
  Qed.
End Facts.
