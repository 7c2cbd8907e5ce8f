(** Proofs: RingBuffer on weak memory. *)

From Coq Require Import List NArith Arith Lia Bool.
From Verif Require Import Outcome Calls RingBuffer RingBufferConc RingBufferConcSpec Spec ListFacts
  RingBufferFacts RingBufferConcFacts WeakMem WeakMemSpec.
Import ListNotations.

Section WeakMemFacts.
  Context {T : Type} (dflt : T).

  Lemma place_eqb_eq a b : place_eqb a b = true <-> a = b.
  Proof.
    destruct a, b; cbn; try (split; congruence). rewrite N.eqb_eq. split; congruence.
  Qed.

  Lemma place_eqb_refl a : place_eqb a a = true.
  Proof. now apply place_eqb_eq. Qed.

  Lemma visible_newest known (evs : list (event T)) : visible known evs 0 = newest evs.
  Proof. induction evs as [|[|v] evs IH]; cbn; auto. Qed.

  (** Access number [n] is a write. *)
  Fixpoint write_at (evs : list (event T)) (n : nat) : Prop :=
    match evs with
    | [] => False
    | e :: evs' => (n = length evs' /\ is_write e = true) \/ write_at evs' n
    end.

  Lemma write_at_lt evs n : write_at evs n -> n < length evs.
  Proof. induction evs as [|e evs IH]; cbn; [tauto|]. intros [[-> _]|H]; [lia|]. specialize (IH H). lia. Qed.

  Lemma visible_back known (evs : list (event T)) b :
    (forall n, write_at evs n -> known n = true) -> visible known evs (S b) = None.
  Proof.
    induction evs as [|[|v] evs IH]; intros K; cbn; auto.
    - apply IH. intros n H. apply K. cbn. now right.
    - rewrite (K (length evs)); auto. cbn. now left.
  Qed.

  Lemma conflict_read known (evs : list (event T)) :
    (forall n, write_at evs n -> known n = true) -> conflict false known evs = false.
  Proof.
    induction evs as [|e evs IH]; intros K; cbn; auto. rewrite IH.
    - rewrite orb_false_r. destruct (is_write e) eqn:E; cbn; auto.
      rewrite (K (length evs)); auto. cbn. now left.
    - intros n H. apply K. cbn. now right.
  Qed.

  Lemma conflict_write known (evs : list (event T)) :
    (forall n, n < length evs -> known n = true) -> conflict true known evs = false.
  Proof.
    induction evs as [|e evs IH]; intros K; cbn; auto. rewrite IH.
    - rewrite (K (length evs)); auto.
    - intros n H. apply K. cbn. lia.
  Qed.

  Definition knows_all (m : memory T) (vw : view) : Prop := forall l n, n < length (m l) -> vw l n = true.
  Definition knows_writes (m : memory T) (vw : view) : Prop := forall l n, write_at (m l) n -> vw l n = true.

  Lemma all_writes m vw : knows_all m vw -> knows_writes m vw.
  Proof. intros K l n H. apply K. now apply write_at_lt. Qed.

  Lemma record_same (m : memory T) l e : record_access m l e l = e :: m l.
  Proof. unfold record_access. now rewrite place_eqb_refl. Qed.

  Lemma learn_all m vw l e : knows_all m vw -> knows_all (record_access m l e) (learn vw l (length (m l))).
  Proof.
    intros K l' n H. unfold learn, record_access in *. destruct (place_eqb l l') eqn:E; cbn.
    - apply place_eqb_eq in E. subst l'. cbn in H.
      destruct (Nat.eqb_spec (length (m l)) n); cbn; auto. apply K. lia.
    - now apply K.
  Qed.

  Lemma learn_writes m vw vw' l : knows_writes m vw -> (forall l n, vw l n = true -> vw' l n = true) ->
    knows_writes (record_access m l EvRead) vw'.
  Proof.
    intros K Hle l' n H. apply Hle. unfold record_access in H. destruct (place_eqb l l') eqn:E.
    - apply place_eqb_eq in E. subst l'. cbn in H. destruct H as [[_ H]|H]; [discriminate|]. now apply K.
    - now apply K.
  Qed.

  Lemma learn_le (vw : view) l k l' n : vw l' n = true -> learn vw l k l' n = true.
  Proof. intros H. unfold learn. rewrite H. apply orb_true_r. Qed.

  (** ** The memories agree *)

  Definition agree (W : N) (wm : memory T) (m : ring T) : Prop :=
    rb_window m = W /\ length (rb_buf m) = N.to_nat W /\ holds W wm m.

  Lemma agree_read W wm m l : agree W wm m -> agree W (record_access wm l EvRead) m.
  Proof.
    intros (A & B & H). split; [exact A|]. split; [exact B|]. intros l' I.
    unfold record_access. destruct (place_eqb l l') eqn:E; [|now apply H].
    apply place_eqb_eq in E. subst l'. cbn. now apply H.
  Qed.

  Lemma agree_write W wm m m' l v : agree W wm m -> rb_window m' = rb_window m ->
    length (rb_buf m') = length (rb_buf m) -> v = content m' l ->
    (forall l', l' <> l -> inside W l' -> content m' l' = content m l') ->
    agree W (record_access wm l (EvWrite v)) m'.
  Proof.
    intros (A & B & H) E1 E2 -> Ho. split; [congruence|]. split; [congruence|]. intros l' I.
    unfold record_access. destruct (place_eqb l l') eqn:E.
    - apply place_eqb_eq in E. now subst l'.
    - rewrite Ho; auto. intros ->. rewrite place_eqb_refl in E. discriminate.
  Qed.

  (** Reading the newest write is the sequentially consistent access. *)
  Definition result_agrees W (e : effect) (o : outcome (ring T * prog T)) : Prop :=
    match o with
    | Ret (m', p') => exists wm' vw' r, e = Some (Ret (wm', vw', r, p')) /\ agree W wm' m'
    | Throw x => e = Some (Throw x)
    | Undef u => e = Some (Undef u)
    end.

  Lemma nth_of_error {X} (l : list X) n d x : nth_error l n = Some x -> nth n l d = x.
  Proof. revert n; induction l; intros [|n]; cbn; try discriminate; auto. congruence. Qed.

  Lemma nth_set_nth {X} (l : list X) i a j d : i < length l ->
    nth j (set_nth l i a) d = if Nat.eqb j i then a else nth j l d.
  Proof.
    revert i j; induction l as [|x l IH]; intros i j H; cbn in H; [lia|].
    destruct i, j; cbn; auto. apply IH. lia.
  Qed.

  Lemma access_agrees W wm vw m p : agree W wm m ->
    result_agrees W (waccess W wm vw 0 p) (access m p).
  Proof.
    intros AG. pose proof AG as (A & B & H).
    assert (R : forall X l (the : value T -> outcome X) k x, inside W l -> the (content m l) = Ret x ->
      exists wm' vw' r, read wm vw 0 l the k = Some (Ret (wm', vw', r, k x)) /\ agree W wm' m).
    { intros X l the k x I E. unfold read. rewrite visible_newest, (H l I), E. cbn [bind].
      do 3 eexists. split; [reflexivity|]. now apply agree_read. }
    destruct p; cbn [waccess access result_agrees].
    - exists wm, vw, false. auto.
    - reflexivity.
    - apply R; cbn; auto.
    - apply R; cbn; auto.
    - apply R; cbn; auto.
    - unfold at_. destruct (N.ltb_spec i W) as [L|L].
      + destruct (nth_error (rb_buf m) (N.to_nat i)) as [[x|]|] eqn:E.
        * cbn [bind result_agrees]. apply R; cbn; auto. now rewrite (nth_of_error _ _ _ _ E).
        * cbn [bind result_agrees]. unfold read. rewrite visible_newest, (H (AtCell i) L).
          cbn [content]. rewrite (nth_of_error _ _ _ _ E). reflexivity.
        * apply nth_error_None in E. lia.
      + assert (E : nth_error (rb_buf m) (N.to_nat i) = None) by (apply nth_error_None; lia).
        rewrite E. reflexivity.
    - apply R; cbn; auto.
    - do 3 eexists. split; [reflexivity|]. apply agree_write with m; auto.
      intros [] Hl I; cbn; auto; congruence.
    - do 3 eexists. split; [reflexivity|]. apply agree_write with m; auto.
      intros [] Hl I; cbn; auto; congruence.
    - do 3 eexists. split; [reflexivity|]. apply agree_write with m; auto.
      intros [] Hl I; cbn; auto; congruence.
    - unfold store. destruct (N.ltb_spec i W) as [L|L].
      + replace (Nat.ltb (N.to_nat i) (length (rb_buf m))) with true by (symmetry; apply Nat.ltb_lt; lia).
        cbn [bind result_agrees]. do 3 eexists. split; [reflexivity|]. apply agree_write with m; auto.
        * cbn. now rewrite set_nth_length.
        * cbn. rewrite nth_set_nth by lia. now rewrite Nat.eqb_refl.
        * intros [] Hl I; cbn; auto. rewrite nth_set_nth by lia. destruct (Nat.eqb_spec (N.to_nat i0) (N.to_nat i)); auto.
          apply N2Nat.inj in e. congruence.
      + replace (Nat.ltb (N.to_nat i) (length (rb_buf m))) with false by (symmetry; apply Nat.ltb_ge; lia).
        reflexivity.
    - do 3 eexists. split; [reflexivity|]. apply agree_write with m; auto.
      intros [] Hl I; cbn; auto; congruence.
  Qed.

  (** ** Sequentially consistent executions are weak executions *)

  Record same (wc : wconfig T) (c : config T) : Prop := {
    sm_mem : agree (w_window wc) (w_mem wc) (c_mem c);
    sm_lock : w_lock wc = c_lock c;
    sm_threads : w_threads wc = c_threads c;
    sm_log : w_log wc = c_log c
  }.

  Definition step_agrees (o : option (outcome (wconfig T))) (o' : option (outcome (config T))) : Prop :=
    match o' with
    | None => o = None
    | Some (Ret c') => exists wc', o = Some (Ret wc') /\ same wc' c'
    | Some (Throw x) => o = Some (Throw x)
    | Some (Undef u) => o = Some (Undef u)
    end.

  Lemma step_same wc c i : same wc c -> step_agrees (wstep dflt wc i 0) (step dflt c i).
  Proof.
    intros S. pose proof S as [(A & B & H) SL ST SG]. unfold wstep, step. rewrite ST.
    destruct (nth_error (c_threads c) i) as [th|]; [|reflexivity].
    destruct (t_cur th) as [(call, p)|].
    - assert (G : (forall o, p <> Done o) -> step_agrees
        match waccess (w_window wc) (w_mem wc) (w_views wc i) 0 p with
        | Some oe => Some (let* (mvr, p') := oe in let '(m', vw', raced) := mvr in
            Ret (WConfig (w_window wc) m' (set_view (w_views wc) i vw') (w_released wc) (w_lock wc)
                   (set_nth (c_threads c) i (Thread (Some (call, p')) (t_todo th) (t_done th)))
                   (w_log wc) (w_race wc || raced)))
        | None => None
        end
        (Some (let* (m', p') := access (c_mem c) p in
           Ret (Config m' (c_lock c) (set_nth (c_threads c) i (Thread (Some (call, p')) (t_todo th) (t_done th))) (c_log c))))).
      { intros _. pose proof (access_agrees (w_window wc) (w_mem wc) (w_views wc i) (c_mem c) p (conj A (conj B H))) as R.
        destruct (access (c_mem c) p) as [[m' p']|x|u]; cbn [result_agrees bind] in * .
        - destruct R as (wm' & vw' & r & -> & AG). cbn [bind]. eexists. split; [reflexivity|].
          constructor; cbn; auto.
        - rewrite R. reflexivity.
        - rewrite R. reflexivity. }
      destruct p; try (apply G; discriminate).
      destruct (locked call); (eexists; split; [reflexivity|]; constructor; cbn; auto; now repeat split).
    - destruct (t_todo th) as [|call rest]; [reflexivity|].
      rewrite SL, SG, A. destruct (locked call).
      + destruct (c_lock c); [reflexivity|]. eexists. split; [reflexivity|].
        constructor; cbn; auto; repeat split; auto.
      + eexists. split; [reflexivity|]. constructor; cbn; auto; repeat split; auto.
  Qed.

  Lemma start_same W ps : same (wstart W ps) (start W ps).
  Proof.
    constructor; auto. repeat split; auto.
    - cbn. apply repeat_length.
    - intros l I. destruct l; cbn; auto. f_equal. f_equal.
      now rewrite nth_repeat.
  Qed.

  Lemma exec_same c sched : forall wc c', same wc c -> exec dflt c sched = Ret c' ->
    exists wc', wexec dflt wc (map (fun i => (i, 0)) sched) = Ret wc' /\ same wc' c'.
  Proof.
    revert c. induction sched as [|i sched IH]; intros c wc c' S E; cbn in * .
    - injection E as <-. eauto.
    - pose proof (step_same wc c i S) as R. destruct (step dflt c i) as [[c1|x|u]|]; cbn in * .
      + destruct R as (wc1 & -> & S1). cbn. eauto.
      + discriminate.
      + discriminate.
      + rewrite R. eauto.
  Qed.

  (** ** Weak executions *)

  Lemma read_back X (m : memory T) vw back l (the : value T -> outcome X) k :
    knows_writes m vw -> read m vw back l the k = None \/ read m vw back l the k = read m vw 0 l the k.
  Proof.
    intros K. destruct back; [now right|]. left. unfold read. rewrite visible_back; auto.
  Qed.

  Lemma access_back W (m : memory T) vw back p : knows_writes m vw ->
    waccess W m vw back p = None \/ waccess W m vw back p = waccess W m vw 0 p.
  Proof.
    intros K. destruct p; cbn [waccess]; auto using read_back.
    - destruct (N.ltb i W); auto using read_back.
  Qed.

  (** What an access does to the knowledge. *)
  Lemma access_all W (m : memory T) vw p m' vw' r p' : knows_all m vw ->
    waccess W m vw 0 p = Some (Ret (m', vw', r, p')) -> r = false /\ knows_all m' vw'.
  Proof.
    intros K E.
    assert (R : forall X l (the : value T -> outcome X) k, read m vw 0 l the k = Some (Ret (m', vw', r, p')) ->
      r = false /\ knows_all m' vw').
    { intros X l the k H. unfold read in H. destruct (visible (vw l) (m l) 0) as [v|]; [|discriminate].
      destruct (the v); cbn in H; try discriminate. injection H as <- <- <- _. split.
      - apply conflict_read. intros n Hn. apply K. now apply write_at_lt.
      - now apply learn_all. }
    assert (Wr : forall l v k, write m vw l v k = Some (Ret (m', vw', r, p')) -> r = false /\ knows_all m' vw').
    { intros l v k H. unfold write in H. injection H as <- <- <- _. split.
      - apply conflict_write. intros n Hn. now apply K.
      - now apply learn_all. }
    destruct p; cbn [waccess] in E; eauto; try discriminate.
    - injection E as <- <- <- _. auto.
    - destruct (N.ltb i W); eauto; discriminate.
    - destruct (N.ltb i W); eauto; discriminate.
  Qed.

  (** Contents of the right kind. *)
  Definition right_kind (l : place) (v : value T) : Prop :=
    match l, v with
    | AtHead, VN _ | AtTail, VN _ | AtFull, VB _ | AtCell _, VC _ | AtHistory, VH _ => True
    | _, _ => False
    end.
  Definition well_kinded (m : memory T) : Prop := forall l v, In (EvWrite v) (m l) -> right_kind l v.

  Lemma kinded_read m l : well_kinded m -> well_kinded (record_access m l EvRead).
  Proof.
    intros K l' v H. unfold record_access in H. destruct (place_eqb l l') eqn:E; [|now apply K].
    apply place_eqb_eq in E. subst l'. destruct H as [H|H]; [discriminate|]. now apply K.
  Qed.

  Lemma kinded_write m l v : right_kind l v -> well_kinded m -> well_kinded (record_access m l (EvWrite v)).
  Proof.
    intros R K l' v' H. unfold record_access in H. destruct (place_eqb l l') eqn:E; [|now apply K].
    apply place_eqb_eq in E. subst l'. destruct H as [H|H]; [now injection H as <-|]. now apply K.
  Qed.

  Lemma learn_write m vw l v : knows_writes m vw -> knows_writes (record_access m l (EvWrite v)) (learn vw l (length (m l))).
  Proof.
    intros K l' n H. unfold learn, record_access in *. destruct (place_eqb l l') eqn:E; cbn.
    - apply place_eqb_eq in E. subst l'. cbn in H. destruct H as [[-> _]|H].
      + now rewrite Nat.eqb_refl.
      + rewrite (K l n H). apply orb_true_r.
    - now apply K.
  Qed.

  Lemma access_known W (m : memory T) vw p m' vw' r p' : knows_writes m vw -> well_kinded m ->
    waccess W m vw 0 p = Some (Ret (m', vw', r, p')) -> knows_writes m' vw' /\ well_kinded m'.
  Proof.
    intros K KD E.
    assert (R : forall X l (the : value T -> outcome X) k, read m vw 0 l the k = Some (Ret (m', vw', r, p')) ->
      knows_writes m' vw' /\ well_kinded m').
    { intros X l the k H. unfold read in H. destruct (visible (vw l) (m l) 0) as [v|]; [|discriminate].
      destruct (the v); cbn in H; try discriminate. injection H as <- <- <- _. split.
      - apply learn_writes with vw; auto. intros; now apply learn_le.
      - now apply kinded_read. }
    assert (Wr : forall l v k, right_kind l v -> write m vw l v k = Some (Ret (m', vw', r, p')) ->
      knows_writes m' vw' /\ well_kinded m').
    { intros l v k RK H. unfold write in H. injection H as <- <- <- _. split.
      - now apply learn_write.
      - now apply kinded_write. }
    destruct p; cbn [waccess] in E; eauto; try discriminate.
    - injection E as <- <- <- _. auto.
    - destruct (N.ltb i W); eauto; discriminate.
    - eapply Wr; [|exact E]; exact I.
    - eapply Wr; [|exact E]; exact I.
    - eapply Wr; [|exact E]; exact I.
    - destruct (N.ltb i W); [|discriminate]. eapply Wr; [|exact E]; exact I.
    - eapply Wr; [|exact E]; exact I.
  Qed.

  (** What a reader does. *)
  Lemma visible_in known (evs : list (event T)) back v : visible known evs back = Some v -> In (EvWrite v) evs.
  Proof.
    revert back; induction evs as [|[|u] evs IH]; intros back H; cbn in * ; [discriminate|right; eauto|].
    destruct back as [|b]; [injection H as ->; now left|].
    destruct (known (length evs)); [discriminate|]. right. eauto.
  Qed.

  Lemma access_observer W (m : memory T) vw back p : readonly p -> well_kinded m ->
    (exists o, p = Done o) \/ waccess W m vw back p = None \/
    exists l vw' r p', waccess W m vw back p = Some (Ret (record_access m l EvRead, vw', r, p')) /\
      (forall l n, vw l n = true -> vw' l n = true) /\ readonly p' /\
      (knows_writes m vw -> r = false).
  Proof.
    intros RO KD.
    assert (R : forall X l (the : value T -> outcome X) k,
      (forall v, right_kind l v -> exists x, the v = Ret x) -> (forall x, readonly (k x)) ->
      read m vw back l the k = None \/ exists l0 vw' r p',
        read m vw back l the k = Some (Ret (record_access m l0 EvRead, vw', r, p')) /\
      (forall l n, vw l n = true -> vw' l n = true) /\ readonly p' /\ (knows_writes m vw -> r = false)).
    { intros X l the k G RK. unfold read. destruct (visible (vw l) (m l) back) as [v|] eqn:E; [|now left].
      right. apply visible_in in E. destruct (G v (KD l v E)) as (x & ->). cbn [bind].
      do 4 eexists. split; [reflexivity|]. split; [|split]; auto.
      - intros; now apply learn_le.
      - intros K. apply conflict_read. intros n Hn. now apply K. }
    destruct RO as [o|k RK|k RK|k RK]; cbn [waccess]; eauto;
      right; apply R; auto; intros []; cbn; try tauto; eauto.
  Qed.

  (** Without its observer calls a thread makes these calls. *)
  Definition locked_part (th : thread T) : thread T :=
    Thread (match t_cur th with
            | Some (call, p) => if locked call then Some (call, p) else None
            | None => None
            end)
           (filter locked (t_todo th)) (locked_done th).

  Definition knowing (wc : wconfig T) : view :=
    match w_lock wc with Some i => w_views wc i | None => w_released wc end.

  Record follows (W : nat) (wc : wconfig T) (c : config T) : Prop := {
    fo_size : w_window wc = N.of_nat W;
    fo_mem : agree (w_window wc) (w_mem wc) (c_mem c);
    fo_lock : w_lock wc = c_lock c;
    fo_threads : c_threads c = map locked_part (w_threads wc);
    fo_log : w_log wc = c_log c;
    fo_inv : inv dflt W c;
    fo_readers : forall i th call p, nth_error (w_threads wc) i = Some th -> t_cur th = Some (call, p) ->
      locked call = false -> readonly p;
    fo_kinds : well_kinded (w_mem wc);
    fo_known : knows_writes (w_mem wc) (knowing wc)
  }.

  Lemma map_set_nth {X Y} (f : X -> Y) l i a : map f (set_nth l i a) = set_nth (map f l) i (f a).
  Proof. revert i; induction l; intros [|i]; cbn; congruence. Qed.

  Lemma set_nth_id {X} (l : list X) i a : nth_error l i = Some a -> set_nth l i a = l.
  Proof. revert i; induction l; intros [|i] H; cbn in *; try discriminate; [congruence|]. f_equal. auto. Qed.

  Lemma set_view_same vs i vw : set_view vs i vw i = vw.
  Proof. unfold set_view. now rewrite Nat.eqb_refl. Qed.

  Lemma follows_step W wc c i back : follows W wc c ->
    wstep dflt wc i back = None \/
    exists wc', wstep dflt wc i back = Some (Ret wc') /\
      (follows W wc' c \/ exists c', step dflt c i = Some (Ret c') /\ follows W wc' c').
  Proof.
    intros [Fs Fm Fl Ft Fg Fi Fr Fk Fn]. unfold wstep.
    destruct (nth_error (w_threads wc) i) as [th|] eqn:Hi; [|now left].
    assert (Hc : nth_error (c_threads c) i = Some (locked_part th)).
    { rewrite Ft. now apply map_nth_error. }
    assert (Rd : forall th' (P : Prop), (forall call p, t_cur th' = Some (call, p) -> locked call = false -> readonly p) ->
      forall j t call p, nth_error (set_nth (w_threads wc) i th') j = Some t -> t_cur t = Some (call, p) ->
      locked call = false -> readonly p).
    { intros th' _ G j t call p Hj. destruct (nth_set_cases _ _ _ _ _ Hj) as [[-> ->]|[_ Hj']]; eauto. }
    destruct (t_cur th) as [(call, p)|] eqn:Hcur.
    - destruct (locked call) eqn:Hlk.
      + (* under the mutex *)
        assert (Hcp : t_cur (locked_part th) = Some (call, p)) by (cbn; now rewrite Hcur, Hlk).
        destruct (iv_others _ _ _ Fi _ _ _ _ Hc Hcp) as [[Hno _]|[_ Hown]]; [congruence|].
        assert (Kn : knows_writes (w_mem wc) (w_views wc i)) by (unfold knowing in Fn; now rewrite Fl, Hown in Fn).
        destruct (step dflt c i) as [oc|] eqn:Hst.
        2:{ destruct (step_cur_some dflt c i _ call p Hc Hcp) as (oc & E). congruence. }
        destruct (step_inv _ _ _ _ _ Fi Hst) as (c' & -> & Inv').
        assert (G : (forall o, p <> Done o) ->
          let o := match waccess (w_window wc) (w_mem wc) (w_views wc i) back p with
            | Some oe => Some (let* (mvr, p') := oe in let '(m', vw', raced) := mvr in
                Ret (WConfig (w_window wc) m' (set_view (w_views wc) i vw') (w_released wc) (w_lock wc)
                   (set_nth (w_threads wc) i (Thread (Some (call, p')) (t_todo th) (t_done th)))
                   (w_log wc) (w_race wc || raced)))
            | None => None
            end in
          o = None \/ exists wc', o = Some (Ret wc') /\
            (follows W wc' c \/ exists c', Some (Ret c') = Some (Ret c') /\ step dflt c i = Some (Ret c') /\ follows W wc' c')).
        { intros ND. cbv zeta.
          assert (ST : step dflt c i = Some (let* (m', p') := access (c_mem c) p in
             Ret (Config m' (c_lock c) (set_nth (c_threads c) i
                 (Thread (Some (call, p')) (t_todo (locked_part th)) (t_done (locked_part th)))) (c_log c)))).
          { unfold step. rewrite Hc, Hcp. destruct p; try reflexivity. now destruct (ND o). }
          destruct (access_back (w_window wc) (w_mem wc) (w_views wc i) back p Kn) as [->| ->]; [now left|].
          right. pose proof (access_agrees (w_window wc) (w_mem wc) (w_views wc i) (c_mem c) p Fm) as R.
          rewrite Hst in ST. destruct (access (c_mem c) p) as [[m' p']|x|u]; cbn [bind] in ST; try discriminate ST.
          cbn [result_agrees] in R. destruct R as (wm' & vw' & r & E & AG). rewrite E. cbn [bind].
          destruct (access_known _ _ _ _ _ _ _ _ Kn Fk E) as (Kn' & Fk').
          injection ST as ->. eexists. split; [reflexivity|]. right. eexists. split; [reflexivity|].
          split; [exact Hst|]. constructor; cbn [w_window w_mem w_lock w_threads w_log c_mem c_lock c_threads c_log]; auto.
          - rewrite map_set_nth, Ft. f_equal. unfold locked_part. cbn [t_cur t_todo t_done]. now rewrite Hlk.
          - apply Rd; [exact True|]. cbn. intros ? ? H. injection H as <- <-. congruence.
          - unfold knowing. cbn [w_lock w_views]. now rewrite Fl, Hown, set_view_same. }
        destruct p; try (destruct G as [->|(wc' & -> & H)]; [discriminate|now left|right; exists wc'; split; [reflexivity|];
          destruct H as [H|(c1 & _ & E1 & H)]; [now left|right; exists c1; split; [congruence|exact H]]]).
        right. eexists. split; [reflexivity|]. right.
        unfold step in Hst. rewrite Hc, Hcp, Hlk in Hst. injection Hst as <-. eexists. split; [reflexivity|].
        constructor; cbn [w_window w_mem w_lock w_threads w_log c_mem c_lock c_threads c_log]; auto.
        * rewrite map_set_nth, Ft. f_equal. unfold locked_part, locked_done. cbn [t_cur t_todo t_done].
          rewrite filter_app. cbn [filter fst]. now rewrite Hlk.
        * apply Rd; [exact True|]. cbn. discriminate.
        * unfold knowing. cbn [w_lock w_released]. intros l n H. unfold join. rewrite (Kn l n H). apply orb_true_r.
      + (* an observer *)
        assert (RO : readonly p) by eauto.
        assert (LP : forall th', locked_part th' = locked_part th ->
          c_threads c = map locked_part (set_nth (w_threads wc) i th')).
        { intros th' E. rewrite map_set_nth, E, <- Ft. symmetry. now apply set_nth_id. }
        destruct (access_observer (w_window wc) (w_mem wc) (w_views wc i) back p RO Fk)
          as [(o & ->)|[E|(l & vw' & r & p' & E & Le & RO' & _)]].
        * right. eexists. split; [reflexivity|]. left.
          constructor; cbn [w_window w_mem w_lock w_threads w_log]; auto.
          -- apply LP. unfold locked_part, locked_done. cbn [t_cur t_todo t_done]. rewrite Hcur, filter_app.
             cbn [filter fst]. now rewrite Hlk, app_nil_r.
          -- apply Rd; [exact True|]. cbn. discriminate.
        * left. destruct p; try (now rewrite E). discriminate E.
        * right.
          assert (G : (forall o, p <> Done o) -> exists wc', match waccess (w_window wc) (w_mem wc) (w_views wc i) back p with
            | Some oe => Some (let* (mvr, p') := oe in let '(m', vw', raced) := mvr in
                Ret (WConfig (w_window wc) m' (set_view (w_views wc) i vw') (w_released wc) (w_lock wc)
                   (set_nth (w_threads wc) i (Thread (Some (call, p')) (t_todo th) (t_done th)))
                   (w_log wc) (w_race wc || raced)))
            | None => None
            end = Some (Ret wc') /\ follows W wc' c).
          { intros _. rewrite E. cbn [bind]. eexists. split; [reflexivity|].
            constructor; cbn [w_window w_mem w_lock w_threads w_log]; auto.
            - now apply agree_read.
            - apply LP. unfold locked_part. cbn [t_cur t_todo t_done]. now rewrite Hcur, Hlk.
            - apply Rd; [exact True|]. cbn. intros ? ? H. injection H as <- <-. auto.
            - now apply kinded_read.
            - apply learn_writes with (knowing wc); auto. unfold knowing. cbn [w_lock w_views w_released].
              destruct (w_lock wc); auto. unfold set_view. intros l' n'.
              destruct (Nat.eqb_spec n i); subst; auto. }
          destruct p; try (destruct G as (wc' & -> & H); [discriminate|exists wc'; split; [reflexivity|]; now left]).
          eexists. split; [reflexivity|]. left.
          constructor; cbn [w_window w_mem w_lock w_threads w_log]; auto.
          -- apply LP. unfold locked_part, locked_done. cbn [t_cur t_todo t_done]. rewrite Hcur, filter_app.
             cbn [filter fst]. now rewrite Hlk, app_nil_r.
          -- apply Rd; [exact True|]. cbn. discriminate.
    - destruct (t_todo th) as [|call rest] eqn:Htodo; [now left|].
      destruct (locked call) eqn:Hlk.
      + rewrite Fl. destruct (c_lock c) as [j|] eqn:Hlock; [now left|]. right.
        eexists. split; [reflexivity|]. right.
        assert (ST : step dflt c i = Some (Ret (Config (c_mem c) (Some i)
          (set_nth (c_threads c) i (Thread (Some (call, body dflt (rb_window (c_mem c)) call)) (filter locked rest)
             (locked_done th))) (c_log c ++ [(i, call)])))).
        { unfold step. rewrite Hc. unfold locked_part at 1. cbn [t_cur]. rewrite Hcur. cbn [t_todo locked_part].
          rewrite Htodo. cbn [filter]. rewrite Hlk, Hlk, Hlock. reflexivity. }
        eexists. split; [exact ST|].
        destruct (step_inv _ _ _ _ _ Fi ST) as (c' & Ec & Inv'). injection Ec as <-.
        constructor; cbn [w_window w_mem w_lock w_threads w_log c_mem c_lock c_threads c_log]; auto.
        * rewrite map_set_nth, Ft. f_equal. unfold locked_part. cbn [t_cur t_todo t_done]. rewrite Hlk.
          destruct Fm as (-> & _). reflexivity.
        * now rewrite Fg.
        * apply Rd; [exact True|]. cbn. intros ? ? H. injection H as <- <-. congruence.
        * unfold knowing in * . cbn [w_lock w_views]. rewrite Fl in Fn. rewrite set_view_same.
          intros l n H. unfold join. rewrite (Fn l n H). apply orb_true_r.
      + right. eexists. split; [reflexivity|]. left.
        constructor; cbn [w_window w_mem w_lock w_threads w_log]; auto.
        * rewrite map_set_nth. unfold locked_part at 2. cbn [t_cur t_todo t_done]. rewrite Hlk, <- Ft. symmetry.
          apply set_nth_id. rewrite Hc. unfold locked_part. rewrite Hcur, Htodo. cbn [filter]. now rewrite Hlk.
        * apply Rd; [exact True|]. cbn. intros ? ? H. injection H as <- <-. apply body_readonly.
  Qed.

  Lemma start_follows W ps : 1 <= W -> (N.of_nat W < two64)%N ->
    follows W (wstart (N.of_nat W) ps) (start (N.of_nat W) (map (filter locked) ps)).
  Proof.
    intros H1 H2. destruct (start_same (N.of_nat W) (map (filter locked) ps)) as [A _ _ _].
    constructor; auto.
    - cbn. rewrite !map_map. apply map_ext. reflexivity.
    - now apply start_inv.
    - intros i th call p H. apply nth_error_In in H. apply in_map_iff in H as (p' & <- & _). discriminate.
    - intros l v [H|[]]. injection H as <-. destruct l; exact I.
    - intros l n H. cbn in *. destruct H as [[-> _]|[]]. reflexivity.
  Qed.

  Lemma exec_follows W sched : forall wc c, follows W wc c ->
    exists wc' s c', wexec dflt wc sched = Ret wc' /\ exec dflt c s = Ret c' /\ follows W wc' c'.
  Proof.
    induction sched as [|(i, back) sched IH]; intros wc c F.
    - exists wc, [], c. auto.
    - cbn [wexec]. destruct (follows_step W wc c i back F) as [->|(wc1 & -> & H)]; [auto|].
      cbn [bind]. destruct H as [F1|(c1 & E1 & F1)]; [auto|].
      destruct (IH _ _ F1) as (wc' & s & c' & E & E' & F'). exists wc', (i :: s), c'.
      cbn [exec]. now rewrite E1.
  Qed.

  Lemma map_set_calls l : forall j (th th' : thread T), nth_error l j = Some th ->
    thread_calls th' = thread_calls th -> map thread_calls (set_nth l j th') = map thread_calls l.
  Proof.
    induction l; intros [|j] th th' H E; cbn in *; try discriminate.
    - injection H as <-. congruence.
    - f_equal. eauto.
  Qed.

  Lemma wstep_calls wc i back wc' : wstep dflt wc i back = Some (Ret wc') ->
    map thread_calls (w_threads wc') = map thread_calls (w_threads wc).
  Proof.
    unfold wstep. destruct (nth_error (w_threads wc) i) as [th|] eqn:Hi; [|discriminate].
    destruct (t_cur th) as [[call p]|] eqn:Hc.
    - assert (G : match waccess (w_window wc) (w_mem wc) (w_views wc i) back p with
            | Some oe => Some (let* (mvr, p') := oe in let '(m', vw', raced) := mvr in
                Ret (WConfig (w_window wc) m' (set_view (w_views wc) i vw') (w_released wc) (w_lock wc)
                   (set_nth (w_threads wc) i (Thread (Some (call, p')) (t_todo th) (t_done th)))
                   (w_log wc) (w_race wc || raced)))
            | None => None
            end = Some (Ret wc') -> map thread_calls (w_threads wc') = map thread_calls (w_threads wc)).
      { destruct (waccess (w_window wc) (w_mem wc) (w_views wc i) back p) as [[[[[m' vw'] r] p']|x|u]|]; cbn [bind];
          try discriminate. intros H; injection H as <-. cbn [w_threads]. eapply map_set_calls; eauto.
        unfold thread_calls. rewrite Hc. reflexivity. }
      destruct p; try exact G.
      destruct (locked call); intros H; injection H as <-; cbn [w_threads]; eapply map_set_calls; eauto;
        unfold thread_calls; rewrite Hc; cbn; rewrite map_app, <- app_assoc; reflexivity.
    - destruct (t_todo th) as [|call rest] eqn:Ht; [discriminate|]. destruct (locked call).
      + destruct (w_lock wc); [discriminate|]. intros H; injection H as <-. cbn [w_threads].
        eapply map_set_calls; eauto. unfold thread_calls; rewrite Hc, Ht; auto.
      + intros H; injection H as <-. cbn [w_threads].
        eapply map_set_calls; eauto. unfold thread_calls; rewrite Hc, Ht; auto.
  Qed.

  Lemma wexec_calls sched : forall wc wc', wexec dflt wc sched = Ret wc' ->
    map thread_calls (w_threads wc') = map thread_calls (w_threads wc).
  Proof.
    induction sched as [|(i, back) sched IH]; intros wc wc' H; cbn [wexec] in H.
    - injection H as <-. auto.
    - destruct (wstep dflt wc i back) as [[c1|x|u]|] eqn:E; cbn [bind] in H; try discriminate H; auto.
      rewrite (IH _ _ H). eapply wstep_calls; eauto.
  Qed.

  Lemma start_calls W (ps : list (list (rcall T))) : map thread_calls (w_threads (wstart W ps)) = ps.
  Proof. cbn. rewrite map_map. rewrite <- (map_id ps) at 2. now apply map_ext. Qed.

  (** Linearizability on weak memory. *)
  Lemma weak_linearizable W ps sched : 1 <= W -> (N.of_nat W < two64)%N ->
    exists wc (h : list (nat * (rcall T * rout T))) q,
      wexec dflt (wstart (N.of_nat W) ps) sched = Ret wc /\
      q_run W dflt [] (map (fun p => fst (snd p)) h) = (q, map (fun p => snd (snd p)) h) /\
      (exists pending, w_log wc = map (fun p => (fst p, fst (snd p))) h ++ pending /\
                       length pending <= 1) /\
      (forall i th, nth_error (w_threads wc) i = Some th -> locked_done th = of_thread i h) /\
      map thread_calls (w_threads wc) = ps /\
      (w_lock wc = None ->
         w_log wc = map (fun p => (fst p, fst (snd p))) h /\
         exists m, holds (N.of_nat W) (w_mem wc) m /\
           forall cs, exists m', rb_run dflt m cs = Ret (m', snd (q_run W dflt q cs))).
  Proof.
    intros H1 H2.
    destruct (exec_follows W sched _ _ (start_follows W ps H1 H2)) as (wc & s & c & E & Es & F).
    pose proof (wexec_calls _ _ _ E) as Hcalls. rewrite start_calls in Hcalls.
    destruct F as [Fs Fm Fl Ft Fg [(h & q & Hq & Hd & Hl) Iw Io] Fr Fk Fn].
    exists wc, h, q. split; [exact E|]. split; [exact Hq|]. split; [|split; [|split; [exact Hcalls|]]].
    - rewrite Fg. destruct (c_lock c) as [t|].
      + destruct Hl as (call & p & m0 & th & Hlog & _). exists [(t, call)]. split; auto.
      + destruct Hl as [Hlog _]. exists []. rewrite app_nil_r. split; auto.
    - intros i th Hi. rewrite <- (Hd i (locked_part th)).
      + unfold locked_part, locked_done. cbn [t_done].
        induction (t_done th) as [|co l IH]; cbn; auto.
        destruct (locked (fst co)) eqn:El; cbn; rewrite ?El; congruence.
      + rewrite Ft. now apply map_nth_error.
    - intros Hlk. rewrite <- Fl, Hlk in Hl. destruct Hl as [Hlog Hrep]. split; [now rewrite Fg|].
      exists (c_mem c). split; [rewrite <- Fs; apply Fm|].
      intros cs. destruct (rb_run_rep dflt W _ _ cs Hrep) as (m' & Em & _). eauto.
  Qed.

  (** ** No race without observers *)

  Definition quiet (wc : wconfig T) : Prop := w_race wc = false /\ knows_all (w_mem wc) (knowing wc).

  Lemma quiet_step W wc c i back wc' ps : follows W wc c -> quiet wc ->
    map thread_calls (w_threads wc) = ps -> Forall (Forall (fun call => locked call = true)) ps ->
    wstep dflt wc i back = Some (Ret wc') -> quiet wc'.
  Proof.
    intros F [Q K] Hps Hall. unfold wstep.
    destruct (nth_error (w_threads wc) i) as [th|] eqn:Hi; [|discriminate].
    assert (Hth : Forall (fun call => locked call = true) (thread_calls th)).
    { rewrite List.Forall_forall in Hall. apply Hall. rewrite <- Hps. apply in_map. now apply nth_error_In in Hi. }
    destruct (t_cur th) as [(call, p)|] eqn:Hcur.
    - assert (Hlk : locked call = true).
      { rewrite List.Forall_forall in Hth. apply Hth. unfold thread_calls. rewrite Hcur. apply in_or_app. right. now left. }
      assert (Hcp : t_cur (locked_part th) = Some (call, p)) by (cbn; now rewrite Hcur, Hlk).
      assert (Hc : nth_error (c_threads c) i = Some (locked_part th)).
      { rewrite (fo_threads _ _ _ F). now apply map_nth_error. }
      destruct (iv_others _ _ _ (fo_inv _ _ _ F) _ _ _ _ Hc Hcp) as [[Hno _]|[_ Hown]]; [congruence|].
      rewrite <- (fo_lock _ _ _ F) in Hown. unfold knowing in K. rewrite Hown in K.
      assert (G : match waccess (w_window wc) (w_mem wc) (w_views wc i) back p with
            | Some oe => Some (let* (mvr, p') := oe in let '(m', vw', raced) := mvr in
                Ret (WConfig (w_window wc) m' (set_view (w_views wc) i vw') (w_released wc) (w_lock wc)
                   (set_nth (w_threads wc) i (Thread (Some (call, p')) (t_todo th) (t_done th)))
                   (w_log wc) (w_race wc || raced)))
            | None => None
            end = Some (Ret wc') -> quiet wc').
      { destruct (access_back (w_window wc) (w_mem wc) (w_views wc i) back p (all_writes _ _ K)) as [->| ->]; [discriminate|].
        destruct (waccess (w_window wc) (w_mem wc) (w_views wc i) 0 p) as [[[[[m' vw'] r] p']|x|u]|] eqn:E; cbn [bind];
          try discriminate. destruct (access_all _ _ _ _ _ _ _ _ K E) as [-> K'].
        intros H; injection H as <-. split; cbn [w_race w_mem]; [now rewrite Q|].
        unfold knowing. cbn [w_lock w_views]. now rewrite Hown, set_view_same. }
      destruct p; try exact G.
      rewrite Hlk. intros H; injection H as <-. split; cbn [w_race w_mem]; auto.
      unfold knowing. cbn [w_lock w_released]. intros l n Hn. unfold join. rewrite (K l n Hn). apply orb_true_r.
    - destruct (t_todo th) as [|call rest] eqn:Htodo; [discriminate|].
      assert (Hlk : locked call = true).
      { rewrite List.Forall_forall in Hth. apply Hth. unfold thread_calls. rewrite Hcur, Htodo. apply in_or_app. right. now left. }
      rewrite Hlk. destruct (w_lock wc) as [j|] eqn:Hlock; [discriminate|].
      intros H; injection H as <-. split; cbn [w_race w_mem]; auto.
      unfold knowing in * . rewrite Hlock in K. cbn [w_lock w_views]. rewrite set_view_same.
      intros l n Hn. unfold join. rewrite (K l n Hn). apply orb_true_r.
  Qed.

  Lemma quiet_exec W sched ps : Forall (Forall (fun call => locked call = true)) ps ->
    forall wc c, follows W wc c -> quiet wc -> map thread_calls (w_threads wc) = ps ->
    exists wc' s c', wexec dflt wc sched = Ret wc' /\ exec dflt c s = Ret c' /\ follows W wc' c' /\ quiet wc'.
  Proof.
    intros Hall. induction sched as [|(i, back) sched IH]; intros wc c F Q Hps.
    - exists wc, [], c. auto.
    - cbn [wexec]. destruct (follows_step W wc c i back F) as [->|(wc1 & Ew & H)]; [auto|].
      pose proof (quiet_step _ _ _ _ _ _ _ F Q Hps Hall Ew) as Q1.
      assert (Hps1 : map thread_calls (w_threads wc1) = ps) by (rewrite <- Hps; eapply wstep_calls; eauto).
      rewrite Ew. cbn [bind]. destruct H as [F1|(c1 & E1 & F1)]; [auto|].
      destruct (IH _ _ F1 Q1 Hps1) as (wc' & s & c' & E & E' & F' & Q'). exists wc', (i :: s), c'.
      cbn [exec]. now rewrite E1.
  Qed.

  Lemma filter_all {X} (f : X -> bool) l : Forall (fun x => f x = true) l -> filter f l = l.
  Proof. induction 1 as [|x l H _ IH]; cbn; auto. now rewrite H, IH. Qed.

  Lemma locked_part_id th : Forall (fun call => locked call = true) (thread_calls th) -> locked_part th = th.
  Proof.
    destruct th as [cur todo dn]. unfold thread_calls, locked_part, locked_done. cbn [t_cur t_todo t_done].
    rewrite !Forall_app. intros (A & B & C). rewrite (filter_all locked todo C). f_equal.
    - destruct cur as [(call, p)|]; auto. inversion B as [|? ? E]. now rewrite E.
    - apply filter_all. rewrite List.Forall_forall in * . intros co H. apply A. now apply in_map.
  Qed.

  Definition only (v : bool) (ps : list (list (rcall T))) : Prop :=
    Forall (Forall (fun call => locked call = v)) ps.

  Lemma locked_sc W ps sched : 1 <= W -> (N.of_nat W < two64)%N -> only true ps ->
    exists wc s c, wexec dflt (wstart (N.of_nat W) ps) sched = Ret wc /\ w_race wc = false /\
      exec dflt (start (N.of_nat W) ps) s = Ret c /\ w_threads wc = c_threads c /\ w_log wc = c_log c /\
      w_lock wc = c_lock c /\ holds (N.of_nat W) (w_mem wc) (c_mem c).
  Proof.
    intros H1 H2 Hall.
    pose proof (start_follows W ps H1 H2) as F0.
    replace (map (filter locked) ps) with ps in F0.
    2:{ clear F0. induction Hall as [|p ps Hp _ IH]; cbn; auto. now rewrite (filter_all _ _ Hp), <- IH. }
    destruct (quiet_exec W sched ps Hall _ _ F0) as (wc & s & c & E & Es & F & Q & _).
    - split; auto. intros l n Hn. cbn in *. assert (n = 0) by lia. now subst.
    - apply start_calls.
    - pose proof (wexec_calls _ _ _ E) as Hcalls. rewrite start_calls in Hcalls.
      exists wc, s, c. split; [exact E|]. split; [exact Q|]. split; [exact Es|].
      destruct F as [Fs Fm Fl Ft Fg Fi Fr Fk Fn]. split; [|split; [exact Fg|split; [exact Fl|]]].
      + rewrite Ft. clear -Hall Hcalls. unfold only in Hall. rewrite <- Hcalls in Hall. clear Hcalls.
        induction (w_threads wc) as [|th ths IH]; cbn; auto. cbn in Hall. inversion Hall as [|? ? A B]; subst.
        rewrite (locked_part_id _ A). f_equal. auto.
      + rewrite <- Fs. apply Fm.
  Qed.

  (** ** Observers alone *)

  Record watching (W : nat) (wc : wconfig T) (c : config T) : Prop := {
    wa_same : same wc c;
    wa_size : w_window wc = N.of_nat W;
    wa_inv : inv dflt W c;
    wa_race : w_race wc = false;
    wa_kinds : well_kinded (w_mem wc);
    wa_known : forall i, knows_writes (w_mem wc) (w_views wc i)
  }.

  Lemma watching_step W wc c i back ps : watching W wc c ->
    map thread_calls (w_threads wc) = ps -> only false ps ->
    wstep dflt wc i back = None \/
    exists wc' c', wstep dflt wc i back = Some (Ret wc') /\ step dflt c i = Some (Ret c') /\ watching W wc' c'.
  Proof.
    intros [Sm Ws Inv Wr Wk Wn] Hps Hall.
    assert (G : wstep dflt wc i back = None \/
      wstep dflt wc i back = wstep dflt wc i 0 /\
      (forall wc', wstep dflt wc i 0 = Some (Ret wc') -> w_window wc' = w_window wc /\
         w_race wc' = false /\ well_kinded (w_mem wc') /\ forall i, knows_writes (w_mem wc') (w_views wc' i))).
    { unfold wstep. destruct (nth_error (w_threads wc) i) as [th|] eqn:Hi; [|now left].
      assert (Hth : Forall (fun call => locked call = false) (thread_calls th)).
      { unfold only in Hall. rewrite List.Forall_forall in Hall. apply Hall. rewrite <- Hps. apply in_map. now apply nth_error_In in Hi. }
      destruct (t_cur th) as [(call, p)|] eqn:Hcur.
      - assert (Hlk : locked call = false).
        { rewrite List.Forall_forall in Hth. apply Hth. unfold thread_calls. rewrite Hcur. apply in_or_app. right. now left. }
        assert (Hc : nth_error (c_threads c) i = Some th) by (rewrite <- (sm_threads _ _ Sm); exact Hi).
        destruct (iv_others _ _ _ Inv _ _ _ _ Hc Hcur) as [[_ RO]|[Hno _]]; [|congruence].
        assert (O : forall b, (exists o, p = Done o) \/
          (match waccess (w_window wc) (w_mem wc) (w_views wc i) b p with
            | Some oe => Some (let* (mvr, p') := oe in let '(m', vw', raced) := mvr in
                Ret (WConfig (w_window wc) m' (set_view (w_views wc) i vw') (w_released wc) (w_lock wc)
                   (set_nth (w_threads wc) i (Thread (Some (call, p')) (t_todo th) (t_done th)))
                   (w_log wc) (w_race wc || raced)))
            | None => None
            end = None) \/
          (match waccess (w_window wc) (w_mem wc) (w_views wc i) b p with
            | Some oe => Some (let* (mvr, p') := oe in let '(m', vw', raced) := mvr in
                Ret (WConfig (w_window wc) m' (set_view (w_views wc) i vw') (w_released wc) (w_lock wc)
                   (set_nth (w_threads wc) i (Thread (Some (call, p')) (t_todo th) (t_done th)))
                   (w_log wc) (w_race wc || raced)))
            | None => None
            end =
           match waccess (w_window wc) (w_mem wc) (w_views wc i) 0 p with
            | Some oe => Some (let* (mvr, p') := oe in let '(m', vw', raced) := mvr in
                Ret (WConfig (w_window wc) m' (set_view (w_views wc) i vw') (w_released wc) (w_lock wc)
                   (set_nth (w_threads wc) i (Thread (Some (call, p')) (t_todo th) (t_done th)))
                   (w_log wc) (w_race wc || raced)))
            | None => None
            end /\
           forall wc', match waccess (w_window wc) (w_mem wc) (w_views wc i) 0 p with
            | Some oe => Some (let* (mvr, p') := oe in let '(m', vw', raced) := mvr in
                Ret (WConfig (w_window wc) m' (set_view (w_views wc) i vw') (w_released wc) (w_lock wc)
                   (set_nth (w_threads wc) i (Thread (Some (call, p')) (t_todo th) (t_done th)))
                   (w_log wc) (w_race wc || raced)))
            | None => None
            end = Some (Ret wc') -> w_window wc' = w_window wc /\
              w_race wc' = false /\ well_kinded (w_mem wc') /\ forall i, knows_writes (w_mem wc') (w_views wc' i))).
        { intros b. destruct (access_back (w_window wc) (w_mem wc) (w_views wc i) b p (Wn i)) as [->| ->]; [auto|].
          destruct (access_observer (w_window wc) (w_mem wc) (w_views wc i) 0 p RO Wk)
            as [D|[E|(l & vw' & r & p' & E & Le & RO' & Hr)]]; [now left| |]; rewrite E; right.
          - now left.
          - right. split; [reflexivity|]. cbn [bind]. intros wc' H. injection H as <-.
            cbn [w_window w_race w_mem w_views]. rewrite Wr, (Hr (Wn i)).
            split; [reflexivity|]. split; [reflexivity|]. split; [now apply kinded_read|].
            intros j. apply learn_writes with (w_views wc j); auto. unfold set_view.
            intros l' n'. destruct (Nat.eqb_spec j i); subst; auto. }
        destruct p; try (destruct (O back) as [(o & Ho)|[E|E]]; [discriminate Ho|now left|now right]).
        right. split; [reflexivity|]. rewrite Hlk. intros wc' H. injection H as <-. cbn. auto.
      - destruct (t_todo th) as [|call rest] eqn:Htodo; [now left|].
        assert (Hlk : locked call = false).
        { rewrite List.Forall_forall in Hth. apply Hth. unfold thread_calls. rewrite Hcur, Htodo. apply in_or_app. right. now left. }
        rewrite Hlk. right. split; [reflexivity|]. intros wc' H. injection H as <-. cbn. auto. }
    destruct G as [G|[E G]]; [now left|]. rewrite E. pose proof (step_same wc c i Sm) as R.
    destruct (step dflt c i) as [oc|] eqn:Hst; [|now left]. right.
    destruct (step_inv _ _ _ _ _ Inv Hst) as (c' & -> & Inv'). cbn [step_agrees] in R.
    destruct R as (wc' & Ew & Sm'). destruct (G _ Ew) as (A & B & C & D).
    exists wc', c'. split; [exact Ew|]. split; [reflexivity|]. constructor; auto. congruence.
  Qed.

  Lemma watching_exec W sched ps : only false ps ->
    forall wc c, watching W wc c -> map thread_calls (w_threads wc) = ps ->
    exists wc' s c', wexec dflt wc sched = Ret wc' /\ exec dflt c s = Ret c' /\ watching W wc' c'.
  Proof.
    intros Hall. induction sched as [|(i, back) sched IH]; intros wc c F Hps.
    - exists wc, [], c. auto.
    - cbn [wexec]. destruct (watching_step W wc c i back ps F Hps Hall) as [->|(wc1 & c1 & Ew & E1 & F1)]; [auto|].
      assert (Hps1 : map thread_calls (w_threads wc1) = ps) by (rewrite <- Hps; eapply wstep_calls; eauto).
      rewrite Ew. cbn [bind].
      destruct (IH _ _ F1 Hps1) as (wc' & s & c' & E & E' & F'). exists wc', (i :: s), c'.
      cbn [exec]. now rewrite E1.
  Qed.

  Lemma observers_sc W ps sched : 1 <= W -> (N.of_nat W < two64)%N -> only false ps ->
    exists wc s c, wexec dflt (wstart (N.of_nat W) ps) sched = Ret wc /\ w_race wc = false /\
      exec dflt (start (N.of_nat W) ps) s = Ret c /\ w_threads wc = c_threads c /\ w_log wc = c_log c /\
      w_lock wc = c_lock c /\ holds (N.of_nat W) (w_mem wc) (c_mem c).
  Proof.
    intros H1 H2 Hall.
    destruct (watching_exec W sched ps Hall (wstart (N.of_nat W) ps) (start (N.of_nat W) ps)) as (wc & s & c & E & Es & F).
    - constructor; auto.
      + apply start_same.
      + now apply start_inv.
      + intros l v [H|[]]. injection H as <-. destruct l; exact I.
      + intros i l n H. cbn in *. destruct H as [[-> _]|[]]. reflexivity.
    - apply start_calls.
    - destruct F as [[Sm Sl St Sg] Ws Inv Wr Wk Wn]. exists wc, s, c.
      repeat (split; [assumption|]). rewrite <- Ws. apply Sm.
  Qed.

  Lemma homogeneous_sc v W ps sched : 1 <= W -> (N.of_nat W < two64)%N ->
    (forall p call, In p ps -> In call p -> locked call = v) ->
    exists wc s c, wexec dflt (wstart (N.of_nat W) ps) sched = Ret wc /\ w_race wc = false /\
      exec dflt (start (N.of_nat W) ps) s = Ret c /\ w_threads wc = c_threads c /\ w_log wc = c_log c /\
      w_lock wc = c_lock c /\ holds (N.of_nat W) (w_mem wc) (c_mem c).
  Proof.
    intros H1 H2 Hall.
    assert (O : only v ps).
    { unfold only. rewrite List.Forall_forall. intros p Hp. rewrite List.Forall_forall. eauto. }
    destruct v; [now apply locked_sc|now apply observers_sc].
  Qed.

  Lemma sc_is_weak W ps sched c : exec dflt (start W ps) sched = Ret c ->
    exists wc, wexec dflt (wstart W ps) (map (fun i => (i, 0)) sched) = Ret wc /\
      w_threads wc = c_threads c /\ w_log wc = c_log c /\ w_lock wc = c_lock c /\ holds W (w_mem wc) (c_mem c).
  Proof.
    intros E. destruct (exec_same _ _ _ _ (start_same W ps) E) as (wc & Ew & [Sm Sl St Sg]).
    exists wc. repeat (split; [assumption|]).
    destruct Sm as (A & B & H). assert (HW : forall s wc wc', wexec dflt wc s = Ret wc' -> w_window wc' = w_window wc).
    2:{ rewrite (HW _ _ _ Ew) in H. exact H. }
    clear. induction s as [|(i, back) s IH]; intros wc wc' H; cbn [wexec] in H; [now injection H as <-|].
    destruct (wstep dflt wc i back) as [[c1|x|u]|] eqn:Es; cbn [bind] in H; try discriminate H; auto.
    rewrite (IH _ _ H). clear -Es. unfold wstep in Es.
    destruct (nth_error (w_threads wc) i) as [th|]; [|discriminate Es].
    destruct (t_cur th) as [[call p]|].
    - assert (G : match waccess (w_window wc) (w_mem wc) (w_views wc i) back p with
            | Some oe => Some (let* (mvr, p') := oe in let '(m', vw', raced) := mvr in
                Ret (WConfig (w_window wc) m' (set_view (w_views wc) i vw') (w_released wc) (w_lock wc)
                   (set_nth (w_threads wc) i (Thread (Some (call, p')) (t_todo th) (t_done th)))
                   (w_log wc) (w_race wc || raced)))
            | None => None
            end = Some (Ret c1) -> w_window c1 = w_window wc).
      { destruct (waccess (w_window wc) (w_mem wc) (w_views wc i) back p) as [[[[[m' vw'] r] p']|x|u]|]; cbn [bind];
          try discriminate. intros H; injection H as <-. reflexivity. }
      destruct p; try (exact (G Es)).
      destruct (locked call); injection Es as <-; reflexivity.
    - destruct (t_todo th) as [|call rest]; [discriminate Es|]. destruct (locked call).
      + destruct (w_lock wc); [discriminate Es|]. injection Es as <-. reflexivity.
      + injection Es as <-. reflexivity.
  Qed.

  (** ** A stale observer *)

  Definition stale_sched : list (nat * nat) := repeat (0, 0) 13 ++ repeat (1, 0) 1 ++ repeat (1, 1) 2 ++ [(1, 0); (1, 1); (1, 0); (1, 0)].

  Lemma stale_size (x : T) (W : N) : (1 <= W)%N ->
    exists sched wc c,
      wexec dflt (wstart W [[CUpdate x]; [CSize]]) sched = Ret wc /\
      w_threads wc = [Thread None [] [(CUpdate x, OUnit)]; Thread None [] [(CSize, ONum 0%N)]] /\
      w_race wc = true /\
      exec dflt (start W [[CUpdate x]; [CSize]]) (map fst sched) = Ret c /\
      c_threads c = [Thread None [] [(CUpdate x, OUnit)]; Thread None [] [(CSize, ONum 1%N)]].
  Proof.
    intros H. exists stale_sched.
    assert (A : match wexec dflt (wstart W [[CUpdate x]; [CSize]]) stale_sched with
                | Ret wc => (w_threads wc, w_race wc) =
                    ([Thread None [] [(CUpdate x, OUnit)]; Thread None [] [(CSize, ONum 0%N)]], true)
                | _ => False end).
    { destruct W as [|[q|q|]]; [lia| | |]; vm_compute; reflexivity. }
    assert (B : match exec dflt (start W [[CUpdate x]; [CSize]]) (map fst stale_sched) with
                | Ret c => c_threads c = [Thread None [] [(CUpdate x, OUnit)]; Thread None [] [(CSize, ONum 1%N)]]
                | _ => False end).
    { assert (E : exists b, repeat (@None T) (N.to_nat W) = None :: b).
      { destruct (N.to_nat W) eqn:EW; [lia|]. eexists. reflexivity. }
      destruct E as (b & E). unfold start, rb_new. rewrite E. clear E.
      destruct W as [|[q|q|]]; [lia| | |]; vm_compute; reflexivity. }
    destruct (wexec dflt (wstart W [[CUpdate x]; [CSize]]) stale_sched) as [wc|?|?]; try tauto.
    destruct (exec dflt (start W [[CUpdate x]; [CSize]]) (map fst stale_sched)) as [c|?|?]; try tauto.
    exists wc, c. injection A as A1 A2. auto.
  Qed.
End WeakMemFacts.
