(** Facts about Python iterators feeding the objects. *)

From Coq Require Import List Arith NArith Bool Lia.
From Flocq Require Import IEEE754.BinarySingleNaN.
From Verif Require Import Outcome Calls Spec ListFacts Arith RingBuffer RingBufferFacts LinkedList LinkedListFacts
  Mean MeanFacts
  PyFloat Cython PyIterate PyIterateSpec.
Import ListNotations.
Local Open Scope nat_scope.

Section Facts.
  Context {S E C O : Type} (call : S -> C -> outcome (S * O)) (feed : E -> C)
          (convert : pyval -> result E).
  Notation code := (code C O).
  Notation thread := (thread C O).
  Notation machine := (machine S C O).
  Notation tstep := (thread_step call feed convert).
  Notation mstep := (machine_step call feed convert).
  Notation mrun := (machine_run call feed convert).

  Lemma call_all_app cs ds : forall s s1 os1,
    call_all call s cs = Ret (s1, os1) ->
    call_all call s (cs ++ ds) =
      match call_all call s1 ds with
      | Ret (s2, os2) => Ret (s2, os1 ++ os2)
      | Throw e => Throw e
      | Undef u => Undef u
      end.
  Proof.
    induction cs as [|c cs IH]; intros s s1 os1 H; cbn in * .
    - injection H as <- <-. cbn. destruct (call_all call s ds) as [[s2 os2]| |]; reflexivity.
    - destruct (call s c) as [[s' o]| |]; cbn in * ; try discriminate H.
      destruct (call_all call s' cs) as [[s2 os2]| |] eqn:E1; cbn in * ; try discriminate H.
      injection H as <- <-. rewrite (IH _ _ _ E1).
      destruct (call_all call s2 ds) as [[s3 os3]| |]; reflexivity.
  Qed.

  (** A step makes no call or one. *)
  Lemma tstep_call a s t s' t' h : tstep a s t = Ret (s', t', h) ->
    (s' = s /\ h = []) \/ (exists c o, call s c = Ret (s', o) /\ h = [(c, o)]).
  Proof.
    unfold thread_step. intros H.
    destruct (now t) as [|e|v k|v k|it k|c k|k].
    - destruct (waiting t); injection H as <- <- <-; left; split; reflexivity.
    - destruct (waiting t); injection H as <- <- <-; left; split; reflexivity.
    - destruct (waiting t) as [|k' ks]; [injection H as <- <- <-; left; split; reflexivity|].
      destruct (convert v) as [x|e]; [|injection H as <- <- <-; left; split; reflexivity].
      destruct (call s (feed x)) as [[s1 o]| |] eqn:E1; cbn in H; try discriminate H.
      injection H as <- <- <-. right. exists (feed x), o. split; [exact E1|reflexivity].
    - destruct (convert v) as [x|e]; [|injection H as <- <- <-; left; split; reflexivity].
      destruct (call s (feed x)) as [[s1 o]| |] eqn:E1; cbn in H; try discriminate H.
      injection H as <- <- <-. right. exists (feed x), o. split; [exact E1|reflexivity].
    - injection H as <- <- <-; left; split; reflexivity.
    - destruct (call s c) as [[s1 o]| |] eqn:E1; cbn in H; try discriminate H.
      injection H as <- <- <-. right. exists c, o. split; [exact E1|reflexivity].
    - injection H as <- <- <-; left; split; reflexivity.
  Qed.

  (** A step that goes wrong went wrong in a call. *)
  Lemma tstep_undef a s t u : tstep a s t = Undef u -> exists c, call s c = Undef u.
  Proof.
    unfold thread_step. intros H.
    destruct (now t) as [|e|v k|v k|it k|c k|k]; try discriminate H.
    - destruct (waiting t); discriminate H.
    - destruct (waiting t); discriminate H.
    - destruct (waiting t) as [|k' ks]; [discriminate H|].
      destruct (convert v) as [x|e]; [|discriminate H].
      exists (feed x). destruct (call s (feed x)) as [[s1 o]| |]; cbn in H; congruence.
    - destruct (convert v) as [x|e]; [|discriminate H].
      exists (feed x). destruct (call s (feed x)) as [[s1 o]| |]; cbn in H; congruence.
    - exists c. destruct (call s c) as [[s1 o]| |]; cbn in H; congruence.
  Qed.
  Lemma tstep_throw a s t u : tstep a s t = Throw u -> exists c, call s c = Throw u.
  Proof.
    unfold thread_step. intros H.
    destruct (now t) as [|e|v k|v k|it k|c k|k]; try discriminate H.
    - destruct (waiting t); discriminate H.
    - destruct (waiting t); discriminate H.
    - destruct (waiting t) as [|k' ks]; [discriminate H|].
      destruct (convert v) as [x|e]; [|discriminate H].
      exists (feed x). destruct (call s (feed x)) as [[s1 o]| |]; cbn in H; congruence.
    - destruct (convert v) as [x|e]; [|discriminate H].
      exists (feed x). destruct (call s (feed x)) as [[s1 o]| |]; cbn in H; congruence.
    - exists c. destruct (call s c) as [[s1 o]| |]; cbn in H; congruence.
  Qed.

  Lemma mstep_history m t m' : mstep m t = Ret m' ->
    exists h, history m' = history m ++ h /\
      call_all call (object m) (calls_of h) = Ret (object m', answers_of h).
  Proof.
    unfold machine_step. intros H.
    destruct (nth_error (threads m) (fst t)) as [th|].
    - destruct (tstep (snd t) (object m) th) as [[[s' t'] h]| |] eqn:E1; cbn in H; try discriminate H.
      injection H as <-. cbn.
      exists (map (fun p => (fst t, fst p, snd p)) h). split; [reflexivity|].
      destruct (tstep_call _ _ _ _ _ _ E1) as [[-> ->]|[c [o [E2 ->]]]]; cbn.
      + reflexivity.
      + rewrite E2. reflexivity.
    - injection H as <-. exists []. rewrite app_nil_r. split; reflexivity.
  Qed.

  Lemma mrun_history turns : forall m m', mrun m turns = Ret m' ->
    exists h, history m' = history m ++ h /\
      call_all call (object m) (calls_of h) = Ret (object m', answers_of h).
  Proof.
    induction turns as [|t turns IH]; intros m m' H; cbn in H.
    - injection H as <-. exists []. rewrite app_nil_r. split; reflexivity.
    - destruct (mstep m t) as [m1| |] eqn:E1; cbn in H; try discriminate H.
      destruct (mstep_history _ _ _ E1) as [h1 [H1 C1]].
      destruct (IH _ _ H) as [h2 [H2 C2]].
      exists (h1 ++ h2). split; [rewrite H2, H1, app_assoc; reflexivity|].
      unfold calls_of, answers_of in * . rewrite !map_app.
      rewrite (call_all_app _ _ _ _ _ C1), C2. reflexivity.
  Qed.

  Lemma launch_history s bodies turns m : mrun (launch s bodies) turns = Ret m ->
    call_all call s (calls_of (history m)) = Ret (object m, answers_of (history m)).
  Proof.
    intros H. destruct (mrun_history _ _ _ H) as [h [E1 E2]]. cbn in E1, E2.
    rewrite E1. exact E2.
  Qed.

  Lemma mrun_undef s turns : forall m u,
    call_all call s (calls_of (history m)) = Ret (object m, answers_of (history m)) ->
    mrun m turns = Undef u ->
    exists done turn rest m1 c, turns = done ++ turn :: rest /\ mrun m done = Ret m1 /\
      mstep m1 turn = Undef u /\ call (object m1) c = Undef u /\
      call_all call s (calls_of (history m1) ++ [c]) = Undef u.
  Proof.
    induction turns as [|t turns IH]; intros m u Hm H; cbn in H; [discriminate H|].
    destruct (mstep m t) as [m1|e1|u1] eqn:E1; cbn in H.
    - destruct (IH m1 u) as [done [turn [rest [m2 [c [G1 [G2 [G3 [G4 G5]]]]]]]]]; [|exact H|].
      + destruct (mstep_history _ _ _ E1) as [h [E2 E3]].
        rewrite E2. unfold calls_of, answers_of in * . rewrite !map_app.
        rewrite (call_all_app _ _ _ _ _ Hm), E3. reflexivity.
      + exists (t :: done), turn, rest, m2, c. rewrite G1. cbn. rewrite E1.
        split; [reflexivity|]. split; [exact G2|]. split; [exact G3|]. split; [exact G4|exact G5].
    - discriminate H.
    - injection H as ->.
      assert (E1' := E1). unfold machine_step in E1.
      destruct (nth_error (threads m) (fst t)) as [th|]; [|discriminate E1].
      destruct (tstep (snd t) (object m) th) as [[[s' t'] h]|e2|u2] eqn:E2; cbn in E1; try discriminate E1.
      injection E1 as ->. destruct (tstep_undef _ _ _ _ E2) as [c Ec].
      exists [], t, turns, m, c. repeat split; [exact E1'|exact Ec|].
      rewrite (call_all_app _ _ _ _ _ Hm). cbn. rewrite Ec. reflexivity.
  Qed.
  Lemma mrun_throw s turns : forall m u,
    call_all call s (calls_of (history m)) = Ret (object m, answers_of (history m)) ->
    mrun m turns = Throw u ->
    exists done turn rest m1 c, turns = done ++ turn :: rest /\ mrun m done = Ret m1 /\
      mstep m1 turn = Throw u /\ call (object m1) c = Throw u /\
      call_all call s (calls_of (history m1) ++ [c]) = Throw u.
  Proof.
    induction turns as [|t turns IH]; intros m u Hm H; cbn in H; [discriminate H|].
    destruct (mstep m t) as [m1|e1|u1] eqn:E1; cbn in H.
    - destruct (IH m1 u) as [done [turn [rest [m2 [c [G1 [G2 [G3 [G4 G5]]]]]]]]]; [|exact H|].
      + destruct (mstep_history _ _ _ E1) as [h [E2 E3]].
        rewrite E2. unfold calls_of, answers_of in * . rewrite !map_app.
        rewrite (call_all_app _ _ _ _ _ Hm), E3. reflexivity.
      + exists (t :: done), turn, rest, m2, c. rewrite G1. cbn. rewrite E1.
        split; [reflexivity|]. split; [exact G2|]. split; [exact G3|]. split; [exact G4|exact G5].
    - injection H as ->.
      assert (E1' := E1). unfold machine_step in E1.
      destruct (nth_error (threads m) (fst t)) as [th|]; [|discriminate E1].
      destruct (tstep (snd t) (object m) th) as [[[s' t'] h]|e2|u2] eqn:E2; cbn in E1; try discriminate E1.
      injection E1 as ->. destruct (tstep_throw _ _ _ _ E2) as [c Ec].
      exists [], t, turns, m, c. repeat split; [exact E1'|exact Ec|].
      rewrite (call_all_app _ _ _ _ _ Hm). cbn. rewrite Ec. reflexivity.
    - discriminate H.
  Qed.

  Lemma launch_faults s bodies turns :
    (forall u, mrun (launch s bodies) turns = Undef u ->
      exists done turn rest m1 c, turns = done ++ turn :: rest /\ mrun (launch s bodies) done = Ret m1 /\
        mstep m1 turn = Undef u /\ call (object m1) c = Undef u /\
        call_all call s (calls_of (history m1) ++ [c]) = Undef u) /\
    (forall e, mrun (launch s bodies) turns = Throw e ->
      exists done turn rest m1 c, turns = done ++ turn :: rest /\ mrun (launch s bodies) done = Ret m1 /\
        mstep m1 turn = Throw e /\ call (object m1) c = Throw e /\
        call_all call s (calls_of (history m1) ++ [c]) = Throw e).
  Proof.
    split; intros u H.
    - exact (mrun_undef s turns (launch s bodies) u eq_refl H).
    - exact (mrun_throw s turns (launch s bodies) u eq_refl H).
  Qed.

  Lemma launch_safe s bodies turns :
    (forall cs, exists s' os, call_all call s cs = Ret (s', os)) ->
    exists m, mrun (launch s bodies) turns = Ret m /\
      call_all call s (calls_of (history m)) = Ret (object m, answers_of (history m)).
  Proof.
    intros Hs. destruct (launch_faults s bodies turns) as [Hu Ht].
    destruct (mrun (launch s bodies) turns) as [m|e|u] eqn:E1.
    - exists m. split; [reflexivity|]. exact (launch_history _ _ _ _ E1).
    - destruct (Ht e eq_refl) as [dn [tu [re [m1 [c [_ [_ [_ [_ Hc]]]]]]]]].
      destruct (Hs (calls_of (history m1) ++ [c])) as [s' [os Hr]]. congruence.
    - destruct (Hu u eq_refl) as [dn [tu [re [m1 [c [_ [_ [_ [_ Hc]]]]]]]]].
      destruct (Hs (calls_of (history m1) ++ [c])) as [s' [os Hr]]. congruence.
  Qed.

  (** *** A thread that feeds a list, whatever the others do *)

  Lemma nth_set (ts : list thread) : forall i j t,
    nth_error (set_thread ts i t) j =
      if Nat.eqb i j then match nth_error ts j with Some _ => Some t | None => None end
      else nth_error ts j.
  Proof.
    induction ts as [|u ts IH]; intros i j t.
    - cbn. destruct (Nat.eqb i j); destruct j; reflexivity.
    - destruct i as [|i], j as [|j]; cbn; try reflexivity. apply IH.
  Qed.

  (** Where a thread running [feeds vs] can be, with the calls it made. *)
  Definition feeding (vs : list pyval) (t : thread) (done : list C) : Prop :=
    (t = Thread (feeds vs) [] /\ done = []) \/
    (exists rest k, t = Thread (giving rest Finish) [k] /\ k None = Finish /\ (forall e, k (Some e) = Finish) /\
       done ++ map feed (usable convert rest) = map feed (usable convert vs)) \/
    (over t /\ done = map feed (usable convert vs)).

  Lemma feeding_step vs a s t done s' t' h :
    feeding vs t done -> tstep a s t = Ret (s', t', h) -> feeding vs t' (done ++ map fst h).
  Proof.
    intros F H. destruct F as [[-> ->]|[[rest [k [-> [Hn [He Hd]]]]]|[[Ho Hw] ->]]].
    - cbn in H. injection H as <- <- <-. right; left.
      exists vs, (fun _ => Finish). repeat split; reflexivity.
    - destruct rest as [|v rest].
      + cbn in H. injection H as <- <- <-. right; right.
        split; [split; [exact Hn|reflexivity]|]. cbn in * . rewrite app_nil_r in * . exact Hd.
      + unfold thread_step in H. cbn in H. cbn in Hd.
        destruct (convert v) as [x|e].
        * destruct (call s (feed x)) as [[s1 o]| |] eqn:E1; cbn in H; try discriminate H.
          injection H as <- <- <-. right; left. exists rest, k.
          repeat split; try assumption. cbn. rewrite <- app_assoc. exact Hd.
        * injection H as <- <- <-. right; right.
          split; [split; [exact (He e)|reflexivity]|]. cbn in * . rewrite app_nil_r in * . exact Hd.
    - unfold thread_step in H. rewrite Ho, Hw in H. injection H as <- <- <-.
      right; right. split; [split; assumption|]. cbn. rewrite app_nil_r. reflexivity.
  Qed.

  Lemma calls_by_app i (h1 h2 : list (nat * C * O)) :
    calls_by i (h1 ++ h2) = calls_by i h1 ++ calls_by i h2.
  Proof. unfold calls_by, calls_of. rewrite filter_app, map_app. reflexivity. Qed.
  Lemma calls_by_own i (h : list (C * O)) :
    calls_by i (map (fun p => (i, fst p, snd p)) h) = map fst h.
  Proof.
    unfold calls_by, calls_of. induction h as [|[c o] h IH]; cbn; [reflexivity|].
    rewrite Nat.eqb_refl. cbn. rewrite IH. reflexivity.
  Qed.
  Lemma calls_by_other i j (h : list (C * O)) : j <> i ->
    calls_by i (map (fun p => (j, fst p, snd p)) h) = [].
  Proof.
    intros Hn. unfold calls_by, calls_of. induction h as [|[c o] h IH]; cbn; [reflexivity|].
    destruct (Nat.eqb_spec j i) as [->|_]; [contradiction|]. exact IH.
  Qed.

  Lemma feeding_run vs i turns : forall m m' t,
    nth_error (threads m) i = Some t -> feeding vs t (calls_by i (history m)) ->
    mrun m turns = Ret m' ->
    exists t', nth_error (threads m') i = Some t' /\ feeding vs t' (calls_by i (history m')).
  Proof.
    induction turns as [|u turns IH]; intros m m' t Ht F H; cbn in H.
    - injection H as <-. exists t. split; assumption.
    - destruct (mstep m u) as [m1| |] eqn:E1; cbn in H; try discriminate H.
      unfold machine_step in E1.
      destruct (nth_error (threads m) (fst u)) as [tu|] eqn:Eu.
      + destruct (tstep (snd u) (object m) tu) as [[[s' t'] h]| |] eqn:E2; cbn in E1; try discriminate E1.
        injection E1 as <-.
        destruct (Nat.eq_dec (fst u) i) as [Hi|Hi].
        * refine (IH _ _ t' _ _ H); cbn [threads history].
          -- rewrite nth_set, Hi, Nat.eqb_refl, Ht. reflexivity.
          -- rewrite calls_by_app, Hi, calls_by_own.
             assert (tu = t) by congruence. subst tu.
             exact (feeding_step _ _ _ _ _ _ _ _ F E2).
        * refine (IH _ _ t _ _ H); cbn [threads history].
          -- rewrite nth_set. destruct (Nat.eqb_spec (fst u) i) as [Hc|_]; [contradiction|]. exact Ht.
          -- rewrite calls_by_app, (calls_by_other _ _ _ Hi), app_nil_r. exact F.
      + injection E1 as <-. exact (IH _ _ _ Ht F H).
  Qed.

  Lemma launch_nth (s : S) (bodies : list code) i c : nth_error bodies i = Some c ->
    nth_error (threads (launch s bodies)) i = Some (Thread c []).
  Proof.
    intros H. cbn. exact (map_nth_error _ _ _ H).
  Qed.

  Lemma feeds_threads s bodies turns m i vs :
    nth_error bodies i = Some (feeds vs) ->
    mrun (launch s bodies) turns = Ret m ->
    initial_part (calls_by i (history m)) (map feed (usable convert vs)) /\
    (forall t, nth_error (threads m) i = Some t -> over t ->
       calls_by i (history m) = map feed (usable convert vs)).
  Proof.
    intros Hb H.
    destruct (feeding_run vs i turns (launch s bodies) m (Thread (feeds vs) [])
                (launch_nth s bodies i _ Hb) (or_introl (conj eq_refl eq_refl)) H) as [t [Ht F]].
    split.
    - destruct F as [[_ ->]|[[rest [k [_ [_ [_ Hd]]]]]|[_ ->]]].
      + eexists. reflexivity.
      + exists (map feed (usable convert rest)). symmetry. exact Hd.
      + exists []. rewrite app_nil_r. reflexivity.
    - intros t1 Ht1 [Ho Hw]. assert (t1 = t) by congruence. subst t1.
      destruct F as [[-> _]|[[rest [k [-> _]]]|[_ Hd]]].
      + discriminate Ho.
      + discriminate Hw.
      + exact Hd.
  Qed.

  (** *** One thread, step by step *)

  Notation fed := (fed call feed).

  Lemma alone_S n turns : alone (Datatypes.S n) turns ->
    exists a turns', turns = (0, a) :: turns' /\ alone n turns'.
  Proof.
    intros [Hl Hf]. destruct turns as [|[i a] turns]; [discriminate Hl|].
    inversion Hf as [|? ? H1 H2]; subst. cbn in H1, Hl. subst i. injection Hl as Hl.
    exists a, turns. repeat split; assumption.
  Qed.
  Lemma alone_0 turns : alone 0 turns -> turns = [].
  Proof. intros [H _]. destruct turns; [reflexivity|discriminate H]. Qed.
  Lemma alone_app n k turns : alone (n + k) turns ->
    exists t1 t2, turns = t1 ++ t2 /\ alone n t1 /\ alone k t2.
  Proof.
    intros [Hl Hf]. exists (firstn n turns), (skipn n turns).
    split; [symmetry; apply firstn_skipn|].
    assert (Hf' : forall l : list (nat * nat), incl l turns -> Forall (fun t => fst t = 0) l).
    { intros l Hi. apply List.Forall_forall. intros x Hx.
      exact (proj1 (List.Forall_forall _ _) Hf x (Hi x Hx)). }
    repeat split.
    - rewrite firstn_length. lia.
    - apply Hf'. intros x Hx. rewrite <- (firstn_skipn n turns). apply in_or_app. left; exact Hx.
    - rewrite skipn_length. lia.
    - apply Hf'. intros x Hx. rewrite <- (firstn_skipn n turns). apply in_or_app. right; exact Hx.
  Qed.
  Lemma mrun_app t1 t2 : forall m m1, mrun m t1 = Ret m1 -> mrun m (t1 ++ t2) = mrun m1 t2.
  Proof.
    induction t1 as [|t t1 IH]; intros m m1 H; cbn in * .
    - injection H as <-. reflexivity.
    - destruct (mstep m t) as [m2| |]; cbn in * ; try discriminate H. exact (IH _ _ H).
  Qed.

  (** Elements that convert go in one by one. *)
  Lemma giving_run vs : forall xs s s' after k ks hist turns,
    map convert vs = map inl xs ->
    update_all fed s xs = Ret s' ->
    alone (length vs) turns ->
    exists h, mrun (Machine s [Thread (giving vs after) (k :: ks)] hist) turns =
        Ret (Machine s' [Thread after (k :: ks)] (hist ++ h)) /\ calls_of h = map feed xs.
  Proof.
    induction vs as [|v vs IH]; intros xs s s' after k ks hist turns Hv Hu Ha.
    - destruct xs; [|discriminate Hv]. cbn in Hu. injection Hu as <-.
      cbn in Ha. rewrite (alone_0 _ Ha). exists []. rewrite app_nil_r. split; reflexivity.
    - destruct xs as [|x xs]; [discriminate Hv|]. cbn in Hv. injection Hv as Hx Hv.
      cbn in Ha. destruct (alone_S _ _ Ha) as [a [turns' [-> Ha']]].
      cbn in Hu. unfold PyIterateSpec.fed at 1 in Hu.
      destruct (call s (feed x)) as [[s1 o]| |] eqn:E1; cbn in Hu; try discriminate Hu.
      destruct (IH xs s1 s' after k ks (hist ++ [(0, feed x, o)]) turns' Hv Hu Ha') as [h [Hr Hc]].
      exists ((0, feed x, o) :: h). split.
      + cbn. unfold machine_step. cbn. unfold thread_step. cbn. rewrite Hx, E1. cbn.
        rewrite <- app_assoc in Hr. exact Hr.
      + cbn. f_equal. exact Hc.
  Qed.

  (** What an update by an iterator leaves, by the way the iterator ends. *)
  Lemma finishes vs xs s s' k turns :
    map convert vs = map inl xs -> update_all fed s xs = Ret s' ->
    alone (length vs + 2) turns ->
    exists h, mrun (launch s [UpdateFrom (giving vs Finish) k]) turns =
        Ret (Machine s' [Thread (k None) []] h) /\ calls_of h = map feed xs.
  Proof.
    intros Hv Hu Ha.
    replace (length vs + 2) with (Datatypes.S (length vs + 1)) in Ha by lia.
    destruct (alone_S _ _ Ha) as [a [turns' [-> Ha']]].
    destruct (alone_app _ _ _ Ha') as [t1 [t2 [-> [A1 A2]]]].
    destruct (alone_S _ _ A2) as [b [t3 [-> A3]]]. rewrite (alone_0 _ A3).
    destruct (giving_run vs xs s s' Finish k [] [] t1 Hv Hu A1) as [h [Hr Hc]].
    exists h. split; [|exact Hc]. cbn [machine_run].
    change (mstep (launch s [UpdateFrom (giving vs Finish) k]) (0, a))
      with (Ret (Machine s [Thread (giving vs Finish) [k]] [])).
    cbn [bind]. rewrite (mrun_app _ _ _ _ Hr). cbn.
    unfold machine_step. cbn. rewrite app_nil_r. reflexivity.
  Qed.

  Lemma raises vs xs s s' e k turns :
    map convert vs = map inl xs -> update_all fed s xs = Ret s' ->
    alone (length vs + 2) turns ->
    exists h, mrun (launch s [UpdateFrom (giving vs (Fails e)) k]) turns =
        Ret (Machine s' [Thread (k (Some e)) []] h) /\ calls_of h = map feed xs.
  Proof.
    intros Hv Hu Ha.
    replace (length vs + 2) with (Datatypes.S (length vs + 1)) in Ha by lia.
    destruct (alone_S _ _ Ha) as [a [turns' [-> Ha']]].
    destruct (alone_app _ _ _ Ha') as [t1 [t2 [-> [A1 A2]]]].
    destruct (alone_S _ _ A2) as [b [t3 [-> A3]]]. rewrite (alone_0 _ A3).
    destruct (giving_run vs xs s s' (Fails e) k [] [] t1 Hv Hu A1) as [h [Hr Hc]].
    exists h. split; [|exact Hc]. cbn [machine_run].
    change (mstep (launch s [UpdateFrom (giving vs (Fails e)) k]) (0, a))
      with (Ret (Machine s [Thread (giving vs (Fails e)) [k]] [])).
    cbn [bind]. rewrite (mrun_app _ _ _ _ Hr). cbn.
    unfold machine_step. cbn. rewrite app_nil_r. reflexivity.
  Qed.

  Lemma rejected vs xs v e after s s' k turns :
    map convert vs = map inl xs -> update_all fed s xs = Ret s' -> convert v = inr e ->
    alone (length vs + 2) turns ->
    exists h, mrun (launch s [UpdateFrom (giving vs (Give v after)) k]) turns =
        Ret (Machine s' [Thread (k (Some e)) []] h) /\ calls_of h = map feed xs.
  Proof.
    intros Hv Hu He Ha.
    replace (length vs + 2) with (Datatypes.S (length vs + 1)) in Ha by lia.
    destruct (alone_S _ _ Ha) as [a [turns' [-> Ha']]].
    destruct (alone_app _ _ _ Ha') as [t1 [t2 [-> [A1 A2]]]].
    destruct (alone_S _ _ A2) as [b [t3 [-> A3]]]. rewrite (alone_0 _ A3).
    destruct (giving_run vs xs s s' (Give v after) k [] [] t1 Hv Hu A1) as [h [Hr Hc]].
    exists h. split; [|exact Hc]. cbn [machine_run].
    change (mstep (launch s [UpdateFrom (giving vs (Give v after)) k]) (0, a))
      with (Ret (Machine s [Thread (giving vs (Give v after)) [k]] [])).
    cbn [bind]. rewrite (mrun_app _ _ _ _ Hr). cbn.
    unfold machine_step. cbn. unfold thread_step. cbn. rewrite He. cbn. rewrite app_nil_r. reflexivity.
  Qed.

  Lemma endless_unfold (v : pyval) : @endless C O v = Give v (endless v).
  Proof.
    set (f := fun c : code => match c with
      | Finish => Finish | Fails e => Fails e | Give v k => Give v k | Update v k => Update v k
      | UpdateFrom i k => UpdateFrom i k | Method c k => Method c k | Ask k => Ask k end).
    assert (Hf : forall c, f c = c) by (intros []; reflexivity).
    rewrite <- (Hf (endless v)) at 1. reflexivity.
  Qed.

  Lemma endless_run v x k n : forall s s' hist turns,
    convert v = inl x -> update_all fed s (repeat x n) = Ret s' -> alone n turns ->
    exists h, mrun (Machine s [Thread (endless v) [k]] hist) turns =
      Ret (Machine s' [Thread (endless v) [k]] (hist ++ h)) /\ calls_of h = map feed (repeat x n).
  Proof.
    induction n as [|n IH]; intros s s' hist turns Hx Hu Ha.
    - cbn in Hu. injection Hu as <-. rewrite (alone_0 _ Ha). exists []. rewrite app_nil_r. split; reflexivity.
    - destruct (alone_S _ _ Ha) as [a [turns' [-> Ha']]].
      cbn in Hu. unfold PyIterateSpec.fed at 1 in Hu.
      destruct (call s (feed x)) as [[s1 o]| |] eqn:E1; cbn in Hu; try discriminate Hu.
      destruct (IH s1 s' (hist ++ [(0, feed x, o)]) turns' Hx Hu Ha') as [h [Hr Hc]].
      exists ((0, feed x, o) :: h). split.
      + cbn. unfold machine_step. cbn. unfold thread_step. cbn. rewrite Hx, E1. cbn.
        rewrite <- app_assoc in Hr. exact Hr.
      + cbn. f_equal. exact Hc.
  Qed.

  Lemma endless_launch v x k n s s' turns :
    convert v = inl x -> update_all fed s (repeat x n) = Ret s' -> alone (Datatypes.S n) turns ->
    exists h, mrun (launch s [UpdateFrom (endless v) k]) turns =
      Ret (Machine s' [Thread (endless v) [k]] h) /\ calls_of h = map feed (repeat x n).
  Proof.
    intros Hx Hu Ha. destruct (alone_S _ _ Ha) as [a [turns' [-> Ha']]].
    destruct (endless_run v x k n s s' [] turns' Hx Hu Ha') as [h [Hr Hc]].
    exists h. split; [exact Hr|exact Hc].
  Qed.

  (** An iterator that calls update on the object it feeds. *)
  Lemma reentrant vs ws us xs ys zs s s1 s2 s3 k (g : option pyexn -> code) turns :
    map convert vs = map inl xs -> map convert ws = map inl ys -> map convert us = map inl zs ->
    update_all fed s xs = Ret s1 -> update_all fed s1 ys = Ret s2 -> update_all fed s2 zs = Ret s3 ->
    g None = giving us Finish ->
    alone (length vs + length ws + length us + 4) turns ->
    exists h, mrun (launch s [UpdateFrom (giving vs (UpdateFrom (giving ws Finish) g)) k]) turns =
      Ret (Machine s3 [Thread (k None) []] h) /\ calls_of h = map feed (xs ++ ys ++ zs).
  Proof.
    intros Hv Hw Hz U1 U2 U3 Hg Ha.
    replace (length vs + length ws + length us + 4)
      with (Datatypes.S (length vs + Datatypes.S (length ws + Datatypes.S (length us + 1)))) in Ha by lia.
    destruct (alone_S _ _ Ha) as [a1 [r1 [-> A1]]].
    destruct (alone_app _ _ _ A1) as [t1 [r2 [-> [B1 A2]]]].
    destruct (alone_S _ _ A2) as [a2 [r3 [-> A3]]].
    destruct (alone_app _ _ _ A3) as [t2 [r4 [-> [B2 A4]]]].
    destruct (alone_S _ _ A4) as [a3 [r5 [-> A5]]].
    destruct (alone_app _ _ _ A5) as [t3 [r6 [-> [B3 A6]]]].
    destruct (alone_S _ _ A6) as [a4 [r7 [-> A7]]]. rewrite (alone_0 _ A7).
    destruct (giving_run vs xs s s1 (UpdateFrom (giving ws Finish) g) k [] [] t1 Hv U1 B1) as [h1 [R1 C1]].
    destruct (giving_run ws ys s1 s2 Finish g [k] h1 t2 Hw U2 B2) as [h2 [R2 C2]].
    destruct (giving_run us zs s2 s3 Finish k [] (h1 ++ h2) t3 Hz U3 B3) as [h3 [R3 C3]].
    exists ((h1 ++ h2) ++ h3). split.
    - cbn [machine_run].
      change (mstep (launch s [UpdateFrom (giving vs (UpdateFrom (giving ws Finish) g)) k]) (0, a1))
        with (Ret (Machine s [Thread (giving vs (UpdateFrom (giving ws Finish) g)) [k]] [])).
      cbn [bind]. rewrite (mrun_app _ _ _ _ R1). cbn [app machine_run].
      assert (Q1 : mstep (Machine s1 [Thread (UpdateFrom (giving ws Finish) g) [k]] h1) (0, a2)
              = Ret (Machine s1 [Thread (giving ws Finish) [g; k]] h1)).
      { unfold machine_step. cbn. rewrite app_nil_r. reflexivity. }
      rewrite Q1. cbn [bind]. rewrite (mrun_app _ _ _ _ R2). cbn [machine_run].
      assert (Q2 : mstep (Machine s2 [Thread Finish [g; k]] (h1 ++ h2)) (0, a3)
              = Ret (Machine s2 [Thread (giving us Finish) [k]] (h1 ++ h2))).
      { unfold machine_step. cbn. rewrite app_nil_r, Hg. reflexivity. }
      rewrite Q2. cbn [bind]. rewrite (mrun_app _ _ _ _ R3). cbn [machine_run].
      unfold machine_step. cbn. rewrite app_nil_r. reflexivity.
    - unfold calls_of in * . rewrite !map_app, C1, C2, C3. rewrite <- app_assoc. reflexivity.
  Qed.

  (** *** The element-list model of Cython.v is the special case *)

  Lemma each_spec vs : forall s s' e,
    py_update_each convert fed s vs = Ret (s', e) ->
    e = trouble convert vs /\ update_all fed s (usable convert vs) = Ret s'.
  Proof.
    induction vs as [|v vs IH]; intros s s' e H; cbn in H.
    - injection H as <- <-. split; reflexivity.
    - cbn. unfold py_update_one in H. destruct (convert v) as [x|e1].
      + cbn. destruct (fed s x) as [s1| |]; cbn in * ; try discriminate H. exact (IH _ _ _ H).
      + cbn in H. injection H as <- <-. split; reflexivity.
  Qed.

  Lemma usable_split vs :
    (trouble convert vs = None /\ map convert vs = map inl (usable convert vs)) \/
    (exists a v b e, vs = a ++ v :: b /\ convert v = inr e /\ trouble convert vs = Some e /\
       map convert a = map inl (usable convert vs)).
  Proof.
    induction vs as [|v vs IH]; [left; split; reflexivity|].
    cbn. destruct (convert v) as [x|e] eqn:Ev.
    - destruct IH as [[H1 H2]|[a [w [b [e [-> [H1 [H2 H3]]]]]]]].
      + left. split; [exact H1|]. cbn. rewrite H2. reflexivity.
      + right. exists (v :: a), w, b, e. repeat split; try assumption.
        cbn. rewrite Ev, H3. reflexivity.
    - right. exists [], v, vs, e. repeat split. exact Ev.
  Qed.

  Lemma giving_app vs ws (c : code) : giving (vs ++ ws) c = giving vs (giving ws c).
  Proof. induction vs as [|v vs IH]; cbn; [reflexivity|]. rewrite IH. reflexivity. Qed.

  Lemma refines vs s s' e k :
    py_update_each convert fed s vs = Ret (s', e) ->
    exists n, forall turns, alone n turns ->
      exists h, mrun (launch s [UpdateFrom (giving vs Finish) k]) turns =
        Ret (Machine s' [Thread (k e) []] h).
  Proof.
    intros H. destruct (each_spec _ _ _ _ H) as [-> Hu].
    destruct (usable_split vs) as [[H1 H2]|[a [v [b [e [Hvs [H1 [H2 H3]]]]]]]].
    - exists (length vs + 2). intros turns Ha. rewrite H1.
      destruct (finishes vs _ s s' k turns H2 Hu Ha) as [h [Hr _]]. exists h. exact Hr.
    - exists (length a + 2). intros turns Ha. rewrite H2.
      destruct (rejected a _ v e (giving b Finish) s s' k turns H3 Hu H1 Ha) as [h [Hr _]].
      exists h. rewrite Hvs, giving_app. exact Hr.
  Qed.
End Facts.

(** *** Statistics *)

Lemma stat_calls {S E O : Type} (update : S -> E -> outcome S) (evaluate : S -> O) cs :
  forall s s' os, call_all (stat_object update evaluate) s cs = Ret (s', os) ->
    update_all update s (observed cs) = Ret s'.
Proof.
  induction cs as [|c cs IH]; intros s s' os H; cbn in H.
  - injection H as <- _. reflexivity.
  - destruct c as [x|]; cbn in * .
    + destruct (update s x) as [s1| |]; cbn in * ; try discriminate H.
      destruct (call_all (stat_object update evaluate) s1 cs) as [[s2 os2]| |] eqn:E1; cbn in H; try discriminate H.
      injection H as <- _. exact (IH _ _ _ E1).
    + destruct (call_all (stat_object update evaluate) s cs) as [[s2 os2]| |] eqn:E1; cbn in H; try discriminate H.
      injection H as <- _. exact (IH _ _ _ E1).
Qed.

Lemma call_all_split {S C O : Type} (call : S -> C -> outcome (S * O)) cs c ds :
  forall s s' os, call_all call s (cs ++ c :: ds) = Ret (s', os) ->
    exists s1 s2 o os1 os2, call_all call s cs = Ret (s1, os1) /\ call s1 c = Ret (s2, o) /\
      os = os1 ++ o :: os2 /\ length os1 = length cs.
Proof.
  induction cs as [|d cs IH]; intros s s' os H; cbn in H.
  - destruct (call s c) as [[s1 o]| |] eqn:E1; cbn in H; try discriminate H.
    destruct (call_all call s1 ds) as [[s2 os2]| |] eqn:E2; cbn in H; try discriminate H.
    injection H as <- <-. exists s, s1, o, [], os2. repeat split. exact E1.
  - destruct (call s d) as [[s1 o]| |] eqn:E1; cbn in H; try discriminate H.
    destruct (call_all call s1 (cs ++ c :: ds)) as [[s2 os2]| |] eqn:E2; cbn in H; try discriminate H.
    injection H as <- <-. destruct (IH _ _ _ E2) as [t1 [t2 [o1 [os1 [os3 [G1 [G2 [G3 G4]]]]]]]].
    exists t1, t2, o1, (o :: os1), os3. cbn. rewrite E1. cbn. rewrite G1. cbn.
    repeat split; [exact G2|rewrite G3; reflexivity|rewrite G4; reflexivity].
Qed.

Lemma stat_reads {S E O : Type} (update : S -> E -> outcome S) (evaluate : S -> O)
      (convert : pyval -> result E) s bodies turns m h1 i o h2 :
  machine_run (stat_object update evaluate) Observe convert (launch s bodies) turns = Ret m ->
  history m = h1 ++ (i, Evaluate, o) :: h2 ->
  exists s', update_all update s (observed (calls_of h1)) = Ret s' /\ o = Some (evaluate s').
Proof.
  intros H Hh. pose proof (launch_history _ _ _ _ _ _ _ H) as Hc. rewrite Hh in Hc.
  unfold calls_of, answers_of in Hc. rewrite !map_app in Hc. cbn [map fst snd] in Hc.
  destruct (call_all_split _ _ _ _ _ _ _ Hc) as [s1 [s2 [o1 [os1 [os2 [G1 [G2 [G3 G4]]]]]]]].
  exists s1. split; [exact (stat_calls _ _ _ _ _ _ G1)|].
  cbn in G2. injection G2 as _ G2.
  assert (Hl : length (map snd h1 : list (option O)) = length os1)
    by (rewrite G4, !map_length; reflexivity).
  assert (Hs : skipn (length os1) (map snd h1 ++ o :: map snd h2) = skipn (length os1) (os1 ++ o1 :: os2))
    by (rewrite G3; reflexivity).
  rewrite <- Hl in Hs at 1.
  rewrite !skipn_app, !skipn_all, !Nat.sub_diag in Hs. cbn in Hs. injection Hs as -> _.
  symmetry. exact G2.
Qed.

Lemma stat_total {S E O : Type} (update : S -> E -> outcome S) (evaluate : S -> O)
      (convert : pyval -> result E) s bodies turns :
  (forall xs, exists s', update_all update s xs = Ret s') ->
  exists m, machine_run (stat_object update evaluate) Observe convert (launch s bodies) turns = Ret m /\
    update_all update s (observed (calls_of (history m))) = Ret (object m).
Proof.
  intros Ht.
  assert (Hs : forall cs, exists s' os, call_all (stat_object update evaluate) s cs = Ret (s', os)).
  { intros cs. revert s Ht. induction cs as [|c cs IH]; intros s Ht; cbn; [eauto|].
    destruct c as [x|]; cbn.
    - destruct (Ht [x]) as [s1 H1]. cbn in H1.
      destruct (update s x) as [s2| |] eqn:E1; cbn in * ; try discriminate H1.
      destruct (IH s2) as [s3 [os H3]].
      + intros xs. destruct (Ht (x :: xs)) as [s4 H4]. cbn in H4. rewrite E1 in H4. exists s4. exact H4.
      + rewrite H3. cbn. eauto.
    - destruct (IH s Ht) as [s3 [os H3]]. rewrite H3. cbn. eauto. }
  destruct (launch_safe (stat_object update evaluate) Observe convert s bodies turns Hs) as [m [Hr Hc]].
  exists m. split; [exact Hr|]. exact (stat_calls _ _ _ _ _ _ Hc).
Qed.

(** *** RingBuffer *)

Lemma call_all_rb {T} (dflt : T) cs : forall s, call_all (rb_call dflt) s cs = rb_run dflt s cs.
Proof.
  induction cs as [|c cs IH]; intros s; cbn; [reflexivity|].
  destruct (rb_call dflt s c) as [[s1 o]| |]; cbn; [|reflexivity|reflexivity].
  rewrite IH. reflexivity.
Qed.

Lemma ring_program {T} (dflt : T) (convert : pyval -> result T) W bodies turns :
  1 <= W -> (N.of_nat W < 2 ^ 64)%N ->
  exists m, machine_run (rb_call dflt) CUpdate convert (launch (rb_new (N.of_nat W)) bodies) turns = Ret m /\
    answers_of (history m) = snd (q_run W dflt [] (calls_of (history m))).
Proof.
  intros H1 H2.
  destruct (launch_safe (rb_call dflt) CUpdate convert (rb_new (N.of_nat W)) bodies turns) as [m [Hr Hc]].
  - intros cs. destruct (rb_history_facts dflt W cs H1 H2) as [s [Es _]].
    exists s, (snd (q_run W dflt [] cs)). rewrite call_all_rb. exact Es.
  - exists m. split; [exact Hr|]. rewrite call_all_rb in Hc.
    destruct (rb_history_facts dflt W (calls_of (history m)) H1 H2) as [s [Es _]].
    rewrite Es in Hc. injection Hc as _ Hc. symmetry. exact Hc.
Qed.

(** *** LinkedList *)

Lemma call_all_ll {T} (dflt : T) cs : forall s, call_all (ll_call dflt) s cs = ll_run dflt s cs.
Proof.
  induction cs as [|c cs IH]; intros s; cbn; [reflexivity|].
  destruct (ll_call dflt s c) as [[s1 o]| |]; cbn; [|reflexivity|reflexivity].
  rewrite IH. reflexivity.
Qed.

Lemma list_program {T} (dflt : T) (convert : pyval -> result T) W bodies turns u :
  machine_run (ll_call dflt) CUpdate convert (launch (ll_new W) bodies) turns = Undef u ->
  exists done turn rest m, turns = done ++ turn :: rest /\
    machine_run (ll_call dflt) CUpdate convert (launch (ll_new W) bodies) done = Ret m /\
    ~ resets_ok W dflt [] (calls_of (history m) ++ [CReset]).
Proof.
  intros H. destruct (launch_faults (ll_call dflt) CUpdate convert (ll_new W) bodies turns) as [Hu _].
  destruct (Hu u H) as [dn [tu [re [m [c [G1 [G2 [_ [_ G5]]]]]]]]].
  exists dn, tu, re, m. split; [exact G1|]. split; [exact G2|].
  rewrite call_all_ll in G5. intros Hr.
  assert (Hr' : resets_ok W dflt [] (calls_of (history m) ++ [c])).
  { destruct c; try exact Hr;
      (revert Hr; generalize (@nil T); generalize (calls_of (history m)); intros l;
       induction l as [|d l IH]; intros q; cbn; [tauto|]; intros [Ha Hb]; split; [exact Ha|exact (IH _ Hb)]). }
  destruct (ll_history_facts dflt W _ Hr') as [s' [E' _]]. congruence.
Qed.

(** *** StreamingMean *)

Lemma mean_program W bodies turns :
  exists m, machine_run (E := double) (stat_object (mean_update (A := B64)) (mean_evaluate (A := B64)))
      Observe as_double (launch (mean_new W) bodies) turns = Ret m /\
    mn_window (object m) =
      (if Nat.ltb 0 W then Some (lastn W (observed (calls_of (history m)))) else None).
Proof.
  destruct (stat_total (E := double) (mean_update (A := B64)) (mean_evaluate (A := B64)) as_double
              (mean_new W) bodies turns) as [m [Hr Hu]].
  - intros xs. destruct (mean_run (A := B64) W xs) as [s [E1 _]]. exists s. exact E1.
  - exists m. split; [exact Hr|].
    destruct (mean_window_facts (A := B64) W (observed (calls_of (history m)))) as [s [E1 [E2 _]]].
    assert (H : Ret s = Ret (object m)) by exact (eq_trans (eq_sym E1) Hu).
    assert (H' : s = object m) by exact (f_equal (fun r => match r with Ret t => t | _ => s end) H).
    exact (eq_ind s (fun t => mn_window t = _) E2 _ H').
Qed.
