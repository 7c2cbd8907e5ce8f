(** Proofs: when calls of evaluate() between observations change nothing. *)

From Coq Require Import List Reals ZArith Lra Lia Bool Arith Permutation Sorting.Sorted.
From Flocq Require Import Core.Core IEEE754.BinarySingleNaN.
From Verif Require Import Outcome Arith P2 P2Spec Spec ListFacts FloatSpec AskSpec AskWinSpec P2Facts P2JainFacts P2Float P2Window P2WinLife P2Witness P2Affine WpRange FloatFacts.
Import ListNotations.
Local Open Scope nat_scope.

Lemma w_calls_snoc {X S} (upd : S -> X -> outcome S) ev s os o :
  w_calls upd ev s (os ++ [o]) = let* t := w_calls upd ev s os in w_call upd ev t o.
Proof.
  revert s. induction os as [|p os IH]; intros s; cbn [w_calls app].
  - cbn. destruct (w_call upd ev s o); reflexivity.
  - destruct (w_call upd ev s p); cbn; auto.
Qed.

Lemma observations_app {X} (os os' : list (w_op X)) : observations (os ++ os') = observations os ++ observations os'.
Proof. induction os as [|[x|] os IH]; cbn; auto. now rewrite IH. Qed.

Lemma asked_well_app {X} W (os os' : list (w_op X)) : asked_well W (os ++ os') -> asked_well W os.
Proof. intros H os1 os2 E. apply (H os1 (os2 ++ os')). rewrite E, <- app_assoc. reflexivity. Qed.

Lemma asked_well_last {X} W (os : list (w_op X)) : asked_well W (os ++ [WAsk]) ->
  in_block W (length (observations os)) = 0 \/ 5 <= in_block W (length (observations os)).
Proof. intros H. apply (H os []). reflexivity. Qed.

Lemma firstn_ext {X} (l l' : list X) i x : length l = length l' -> i < length l -> firstn i l = firstn i l' ->
  firstn (S i) (set_nth l i x) = firstn (S i) (set_nth l' i x).
Proof. intros H K E. rewrite !firstn_set_nth by lia. now rewrite E. Qed.

Section Asked.
  Context {A : arith}.
  Context (Hpos : forall x : A, leb (of_Z 1) x = true -> ltb (of_Z 0) x = true).
  Context (Hneg : forall x : A, leb x (of_Z (-1)) = true -> ltb (of_Z 0) x = false /\ ltb x (of_Z 0) = true).
  Context (idem : forall l : list A, forallb not_nan l = true -> sort_list (sort_list l) = sort_list l).

  Definition with_heights (s : wp2 A) (h : list A) : wp2 A :=
    WP2 (P2 (p_quantile (w_p2 s)) (p_desired (w_p2 s)) (p_pos (w_p2 s)) h (p_history (w_p2 s)))
        (w_previous s) (w_wsize s) (w_history s).

  Record base (W n : nat) (t : wp2 A) : Prop := {
    b_wf : exists last, wf (w_p2 t) last;
    b_h : p_history (w_p2 t) = in_block W n;
    b_w : w_wsize t = W;
    b_n : w_history t = n;
    b_five : p_history (w_p2 t) = 5 -> sort_list (p_heights (w_p2 t)) = p_heights (w_p2 t)
  }.

  Definition loose (W n : nat) (s t : wp2 A) : Prop :=
    exists h, s = with_heights t h /\ in_block W n < 5 /\ length h = 5 /\
      firstn (in_block W n) h = firstn (in_block W n) (p_heights (w_p2 t)) /\
      (in_block W n = 0 -> forallb not_nan h = forallb not_nan (p_heights (w_p2 t)) /\
                           sort_list h = sort_list (p_heights (w_p2 t))).

  Definition eqv W n (s t : wp2 A) : Prop := base W n t /\ (s = t \/ loose W n s t).

  Definition both {X} (P : X -> X -> Prop) (o o' : outcome X) : Prop :=
    match o, o' with
    | Ret a, Ret b => P a b
    | Throw e, Throw e' => e = e'
    | Undef u, Undef u' => u = u'
    | _, _ => False
    end.

  Lemma both_refl {X} (P : X -> X -> Prop) o : (forall a, o = Ret a -> P a a) -> both P o o.
  Proof. destruct o; cbn; auto. Qed.

  Lemma in_block_S W n : in_block W (S n) = if Nat.eqb (S (in_block W n)) (W + 1) then 0 else S (in_block W n).
  Proof. unfold in_block. apply mod_succ. lia. Qed.

  Lemma base_step W n (t t' : wp2 A) x : 4 <= W -> base W n t -> wp2_update t x = Ret t' -> base W (S n) t'.
  Proof.
    intros HW [(last & Bw) Bh Bs Bn Bf] E. unfold wp2_update in E. apply bind_Ret in E as (p & Ep & E).
    destruct (call_update Hpos Hneg _ _ _ _ Bw Ep) as [Wp Hp]. rewrite Bs, Bn in E.
    replace (Nat.ltb 0 W) with true in E by (symmetry; apply Nat.ltb_lt; lia). cbn [andb] in E.
    assert (F5 : p_history p = 5 -> sort_list (p_heights p) = p_heights p).
    { rewrite Hp. intros K. unfold p2_update in Ep. destruct (Nat.ltb_spec (p_history (w_p2 t)) 5); [|lia].
      apply bind_Ret in Ep as (h & Eh & Ep). rewrite K in Ep. cbn [Nat.eqb] in Ep.
      unfold std_sort in Ep. destruct (forallb not_nan h) eqn:N; [|discriminate]. cbn [bind] in Ep. injection Ep as <-.
      cbn [p_heights]. now apply idem. }
    pose proof (in_block_S W n) as IB. change (S n mod (W + 1)) with (in_block W (S n)) in E. rewrite IB in E.
    destruct (Nat.eqb_spec (S (in_block W n)) (W + 1)) as [K|K]; cbn [Nat.eqb] in E.
    - apply bind_Ret in E as ([p' v] & Ev & E). injection E as <-.
      destruct (eval_fields _ _ _ Ev) as (E1 & E2 & E3 & E4 & E5). pose proof (wf_len _ _ Wp) as [Lp Dp].
      constructor; cbn [w_p2 w_wsize w_history p2_clear p_history p_heights]; auto; [|discriminate].
      eexists. eapply (wf_fields p); unfold p2_clear; cbn [p_heights p_pos p_desired];
        [exact Wp|rewrite E5; exact Lp|exact E3|rewrite E2; exact Dp].
    - injection E as <-. constructor; cbn [w_p2 w_wsize w_history]; auto; [eauto|]. rewrite IB, Hp, Bh. reflexivity.
  Qed.

  Lemma eqv_step W n (s t : wp2 A) x : 4 <= W -> eqv W n s t -> both (eqv W (S n)) (wp2_update s x) (wp2_update t x).
  Proof.
    intros HW [B [->|(h & -> & Hj & Lh & Ef & _)]].
    { apply both_refl. intros a E. split; [eapply base_step; eauto|auto]. }
    assert (BS := fun t' => base_step W n t t' x HW B). destruct B as [(last & Bw) Bh Bs Bn Bf].
    pose proof (wf_len _ _ Bw) as [Lt Dt]. set (j := in_block W n) in * .
    unfold wp2_update in BS |- * . unfold p2_update in BS |- * . unfold with_heights.
    cbn [w_p2 p_heights p_history p_quantile p_desired p_pos w_previous w_wsize w_history].
    rewrite Bh in BS |- * . destruct (Nat.ltb_spec j 5); [|lia].
    rewrite (store_Ret (p_heights (w_p2 t))) in BS by lia. rewrite (store_Ret (p_heights (w_p2 t))), (store_Ret h) by lia.
    cbn [bind] in BS |- * .
    pose proof (firstn_ext h (p_heights (w_p2 t)) j x ltac:(congruence) ltac:(lia) Ef) as Ef'.
    destruct (Nat.eqb_spec (S j) 5) as [K|K].
    - assert (Eh : set_nth h j x = set_nth (p_heights (w_p2 t)) j x).
      { rewrite <- (firstn_all2 (n := S j) (set_nth h j x)) by (rewrite set_nth_length; lia). rewrite Ef'.
        apply firstn_all2. rewrite set_nth_length. lia. }
      rewrite Eh.
      apply both_refl. intros a E. split; [apply BS; exact E|auto].
    - cbn [bind] in BS |- * . rewrite Bs, Bn in BS |- * .
      pose proof (in_block_S W n) as IB. fold j in IB. change (S n mod (W + 1)) with (in_block W (S n)) in BS |- * .
      assert (IB' : in_block W (S n) = S j) by (rewrite IB; destruct (Nat.eqb_spec (S j) (W + 1)); [lia|reflexivity]).
      rewrite IB' in BS |- * . cbn [Nat.eqb] in BS |- * . rewrite andb_false_r in BS |- * . cbn [both].
      split; [apply BS; reflexivity|]. right. eexists. unfold with_heights. cbn [w_p2 p_heights p_history p_quantile p_desired p_pos w_previous w_wsize w_history].
      split; [reflexivity|]. rewrite IB'. split; [lia|]. split; [rewrite set_nth_length; exact Lh|]. split; [exact Ef'|]. discriminate.
  Qed.

  Lemma not_nan_perm (l l' : list A) : Permutation l l' -> forallb not_nan l = forallb not_nan l'.
  Proof.
    induction 1; cbn; auto; [congruence| |congruence]. now destruct (not_nan x), (not_nan y).
  Qed.

  Lemma eqv_ask W n (s s' t : wp2 A) v : 4 <= W -> eqv W n s t -> in_block W n = 0 \/ 5 <= in_block W n ->
    wp2_evaluate s = Ret (s', v) -> eqv W n s' t /\ exists t', wp2_evaluate t = Ret (t', v).
  Proof.
    intros HW [B C] Hj E. destruct C as [->|(h & -> & Hj5 & Lh & _ & Ez)].
    - split; [|eauto]. split; [exact B|]. destruct B as [(last & Bw) Bh Bs Bn Bf].
      assert (E' : exists p v', p2_evaluate (w_p2 t) = Ret (p, v') /\ s' = WP2 p (w_previous t) (w_wsize t) (w_history t)).
      { unfold wp2_evaluate in E. destruct (Nat.ltb _ _).
        - apply bind_Ret in E as ([p v'] & Ep & E). injection E as <- _. eauto.
        - destruct (Nat.eqb _ _); [discriminate|]. apply bind_Ret in E as ([p v'] & Ep & E). injection E as <- _. eauto. }
      destruct E' as (p & v' & Ep & ->). unfold p2_evaluate in Ep. destruct (Nat.leb_spec (p_history (w_p2 t)) 5) as [L|L].
      + unfold std_sort in Ep. destruct (forallb _ _) eqn:N; [|discriminate]. cbn [bind] in Ep.
        destruct (round_int _); [|discriminate]. destruct (_ && _)%bool; [|discriminate]. apply bind_Ret in Ep as (w & _ & Ep). injection Ep as <- _.
        destruct Hj as [Hj|Hj].
        * right. exists (sort_list (p_heights (w_p2 t))). split; [reflexivity|]. rewrite Hj. pose proof (wf_len _ _ Bw) as [Lt _].
          split; [lia|]. split; [rewrite sort_list_length; exact Lt|]. split; [reflexivity|]. intros _.
          split; [apply not_nan_perm, sort_list_perm|now apply idem].
        * left. rewrite Bf by lia. now destruct t as [[? ? ? ? ?] ? ? ?].
      + apply bind_Ret in Ep as (w & _ & Ep). injection Ep as <- _. left. now destruct t.
    - destruct Hj as [Hj|Hj]; [|lia]. destruct (Ez Hj) as [En Es]. pose proof B as [(last & Bw) Bh Bs Bn _]. rewrite Hj in * .
      unfold wp2_evaluate, p2_evaluate, with_heights in E |- * .
      cbn [w_p2 p_heights p_history p_quantile p_desired p_pos w_previous w_wsize w_history] in E.
      unfold std_sort in E |- * . rewrite Bh in E |- * . cbn [Nat.leb] in E |- * . rewrite En, Es in E.
      destruct (forallb not_nan (p_heights (w_p2 t))) eqn:N; [|destruct (Nat.ltb _ _); [discriminate|destruct (Nat.eqb _ _); discriminate]].
      cbn [bind] in E |- * . destruct (round_int _) as [z|]; [|destruct (Nat.ltb _ _); [discriminate|destruct (Nat.eqb _ _); discriminate]].
      destruct (_ && _)%bool; [|destruct (Nat.ltb _ _); [discriminate|destruct (Nat.eqb _ _); discriminate]].
      destruct (if Z.ltb z 0 then _ else _) as [w| |]; cbn [bind] in E |- * ;
        [|destruct (Nat.ltb _ _); [discriminate|destruct (Nat.eqb _ _); discriminate]..].
      assert (S' : s' = with_heights t (sort_list (p_heights (w_p2 t)))).
      { unfold with_heights. rewrite Bh. destruct (Nat.ltb _ _); [|destruct (Nat.eqb _ _); [discriminate|]]; injection E as <- _; reflexivity. }
      split.
      + split; [exact B|]. right. exists (sort_list (p_heights (w_p2 t))). split; [exact S'|]. rewrite Hj. split; [lia|].
        split; [rewrite sort_list_length; apply wf_len in Bw; tauto|]. split; [reflexivity|]. intros _.
        split; [apply not_nan_perm, sort_list_perm|now apply idem].
      + destruct (Nat.ltb _ _); [|destruct (Nat.eqb _ _); [discriminate|]]; injection E as _ <-; eauto.
  Qed.

  Lemma base_new (q : A) W s0 : 4 <= W -> wp2_new q W = Ret s0 -> base W 0 s0.
  Proof.
    intros HW E. unfold wp2_new in E. apply bind_Ret in E as (p & Ep & E). injection E as <-.
    apply new_shape in Ep as [Ep Sh]. constructor; cbn [w_p2 w_wsize w_history]; auto.
    - exists 4%Z. eexists _, 1%Z, 2%Z, 3%Z. exact Sh.
    - subst p. cbn [p_history]. unfold in_block. now rewrite Nat.mod_small by lia.
    - subst p. discriminate.
  Qed.

  Lemma asked_run (q : A) W s0 os s : 4 <= W -> wp2_new q W = Ret s0 -> asked_well W os ->
    w_calls wp2_update wp2_evaluate s0 os = Ret s ->
    exists t, update_all wp2_update s0 (observations os) = Ret t /\ eqv W (length (observations os)) s t.
  Proof.
    intros HW E0. revert s. induction os as [|o os IH] using rev_ind; intros s Q E.
    - injection E as <-. exists s0. split; [reflexivity|]. split; [eapply base_new; eauto|auto].
    - rewrite w_calls_snoc in E. apply bind_Ret in E as (s1 & E1 & E).
      destruct (IH s1 (asked_well_app _ _ _ Q) E1) as (t1 & Et & Eq). rewrite observations_app.
      destruct o as [x|]; cbn [observations w_call] in E |- * .
      + pose proof (eqv_step W _ s1 t1 x HW Eq) as H. rewrite E in H.
        rewrite update_all_snoc, Et. cbn [bind]. destruct (wp2_update t1 x) as [t| |]; cbn [both] in H; try contradiction.
        exists t. split; [reflexivity|]. rewrite app_length. cbn [length]. rewrite Nat.add_1_r. exact H.
      + apply bind_Ret in E as ([s' v] & Ev & E). injection E as ->. rewrite app_nil_r. exists t1. split; [exact Et|].
        eapply eqv_ask; eauto.
  Qed.

  Lemma asked_same (q : A) W s0 os s s' v : 4 <= W -> wp2_new q W = Ret s0 -> asked_well W (os ++ [WAsk]) ->
    w_calls wp2_update wp2_evaluate s0 os = Ret s -> wp2_evaluate s = Ret (s', v) ->
    exists t t', update_all wp2_update s0 (observations os) = Ret t /\ wp2_evaluate t = Ret (t', v).
  Proof.
    intros HW E0 Q E Ev. destruct (asked_run q W s0 os s HW E0 (asked_well_app _ _ _ Q) E) as (t & Et & Eq).
    destruct (eqv_ask W _ s s' t v HW Eq (asked_well_last _ _ Q) Ev) as (_ & t' & Ev'). eauto.
  Qed.

  (** StreamingIQR consists of two of them. *)
  Lemma iqr_calls (s0 : iqr A) os s : w_calls iqr_update iqr_evaluate s0 os = Ret s ->
    w_calls wp2_update wp2_evaluate (i_low s0) os = Ret (i_low s) /\ w_calls wp2_update wp2_evaluate (i_high s0) os = Ret (i_high s).
  Proof.
    revert s. induction os as [|o os IH] using rev_ind; intros s E.
    - injection E as <-. auto.
    - rewrite w_calls_snoc in E. rewrite !w_calls_snoc. apply bind_Ret in E as (s1 & E1 & E). destruct (IH s1 E1) as [L H].
      rewrite L, H. cbn [bind]. destruct o as [x|]; cbn [w_call] in E |- * .
      + unfold iqr_update in E. apply bind_Ret in E as (l & El & E). apply bind_Ret in E as (h & Eh & E). injection E as <-. auto.
      + apply bind_Ret in E as ([s' v] & E & Es). injection Es as ->. unfold iqr_evaluate in E.
        apply bind_Ret in E as ([h vh] & Eh & E). apply bind_Ret in E as ([l vl] & El & E). injection E as <- _.
        rewrite Eh, El. auto.
  Qed.

  Lemma iqr_asked_same (ql qh : A) W s0 os s s' v : 4 <= W -> iqr_new_range ql qh W = Ret s0 -> asked_well W (os ++ [WAsk]) ->
    w_calls iqr_update iqr_evaluate s0 os = Ret s -> iqr_evaluate s = Ret (s', v) ->
    exists t t', update_all iqr_update s0 (observations os) = Ret t /\ iqr_evaluate t = Ret (t', v).
  Proof.
    intros HW E0 Q E Ev. pose proof E0 as E1. rewrite iqr_new_pair in E1.
    apply bind_Ret in E1 as (l0 & El & E1). apply bind_Ret in E1 as (h0 & Eh & E1). injection E1 as <-.
    destruct (iqr_calls _ _ _ E) as [Cl Ch]. cbn [i_low i_high] in Cl, Ch. unfold iqr_evaluate in Ev.
    apply bind_Ret in Ev as ([h vh] & Evh & Ev). apply bind_Ret in Ev as ([l vl] & Evl & Ev). injection Ev as _ <-.
    destruct (asked_same ql W l0 os _ _ _ HW El Q Cl Evl) as (tl & tl' & Tl & Ul).
    destruct (asked_same qh W h0 os _ _ _ HW Eh Q Ch Evh) as (th & th' & Th & Uh).
    exists (IQR tl th (length (observations os))), (IQR tl' th' (length (observations os))). split.
    - apply (iqr_run ql qh W _ l0 h0 _ E0 El Eh). eauto.
    - exact (iqr_evaluate_diff tl th tl' th' _ vl vh Ul Uh).
  Qed.
End Asked.

(** ** Sorting twice *)
Section Idem.
  Context {A : arith}.
  Lemma insert_last (x : A) l : Forall (fun y => ltb x y = false) l -> sort_insert x l = l ++ [x].
  Proof. induction 1 as [|y l H _ IH]; cbn [sort_insert app]; auto. rewrite H. now rewrite IH. Qed.

  Lemma sort_sorted (l : list A) : StronglySorted (fun a b => ltb b a = false) l -> sort_list l = l.
  Proof.
    intros H. unfold sort_list.
    assert (G : forall acc, StronglySorted (fun a b => ltb b a = false) (acc ++ l) ->
      fold_left (fun acc x => sort_insert x acc) l acc = acc ++ l).
    { clear H. induction l as [|x l IH]; intros acc H; cbn [fold_left]; [now rewrite app_nil_r|].
      rewrite insert_last.
      - rewrite IH; rewrite <- app_assoc; auto.
      - clear IH. induction acc as [|a acc IH]; constructor; inversion_clear H as [|? ? H1 H2].
        + rewrite Forall_app in H2. destruct H2 as [_ H2]. inversion_clear H2. auto.
        + apply IH. exact H1. }
    apply (G []). exact H.
  Qed.
End Idem.

Lemma idem_RA (l : list (num RA)) : forallb not_nan l = true -> sort_list (A := RA) (sort_list l) = sort_list l.
Proof.
  intros _. apply sort_sorted. pose proof (sortedR_sort l) as H. induction H; constructor; auto.
  eapply Forall_impl; [|eassumption]. intros y Hy. change (Rltb y a = false). unfold Rltb. destruct (Rlt_dec y a); [lra|reflexivity].
Qed.

Lemma idem_B64 (l : list (num B64)) : forallb not_nan l = true -> sort_list (A := B64) (sort_list l) = sort_list l.
Proof.
  intros N. apply not_nan_B64 in N. apply sort_sorted. pose proof (asc_sort l N) as H.
  assert (F : Forall okay (sort_list (A := B64) l)) by now apply Forall_sort.
  unfold ascending in H. induction H as [|x k Hk IH Hx]; constructor.
  - apply IH. now inversion F.
  - inversion_clear F as [|? ? Fx Fk]. rewrite Forall_forall in Hx, Fk |- * . intros y Hy. specialize (Hx y Hy). specialize (Fk y Hy).
    change (Bltb y x = false). destruct (Bltb y x) eqn:L; auto. apply X_ltb in L; auto. apply X_leb in Hx; auto. lra.
Qed.

(** ** Asking early in a later block *)
Definition early_ops (asks : bool) : list (w_op double) :=
  map (fun z => WUpdate (Bz z)) [0; 0; 0; 0; 0; 0]%Z ++
  flat_map (fun z => WUpdate (Bz z) :: (if asks then [WAsk] else [])) [1; 2; 3; 4]%Z ++ [WUpdate (Bz 5)].

Lemma early_run :
  ok (wp2_new (A := B64) Bhalf 5) (fun s0 =>
  ok (w_calls (X := double) wp2_update wp2_evaluate s0 (early_ops true)) (fun s =>
  ok (w_calls (X := double) wp2_update wp2_evaluate s0 (early_ops false)) (fun t =>
  ok (wp2_evaluate s) (fun '(_, u) => ok (wp2_evaluate t) (fun '(_, v) =>
    Beqb (u : double) (Bz 2) && Beqb (v : double) (Bz 6)))))) = true.
Proof. vm_compute. reflexivity. Qed.

Lemma early_refuted :
  exists (q : double) (W : nat) (os os' : list (w_op double)) (s0 s t s' t' : wp2 B64) (u v : double),
    4 <= W /\ observations os = observations os' /\ wp2_new (A := B64) q W = Ret s0 /\
    w_calls (X := double) wp2_update wp2_evaluate s0 os = Ret s /\ w_calls (X := double) wp2_update wp2_evaluate s0 os' = Ret t /\
    wp2_evaluate s = Ret (s', u) /\ wp2_evaluate t = Ret (t', v) /\ Beqb u (Bz 2) = true /\ Beqb v (Bz 6) = true.
Proof.
  pose proof early_run as H. apply ok_true in H as (s0 & E0 & H). apply ok_true in H as (s & E & H).
  apply ok_true in H as (t & E' & H). apply ok_true in H as ([s' u] & Eu & H). apply ok_true in H as ([t' v] & Ev & H).
  apply andb_prop in H as [Hu Hv].
  exists Bhalf, 5, (early_ops true), (early_ops false), s0, s, t, s', t', u, v.
  split; [lia|]. split; [reflexivity|]. auto 10.
Qed.

(** Calls that satisfy the condition: after every observation from the fifth of a
    block on, and once a block is complete. *)
Definition late_ops : list (w_op double) :=
  [WAsk] ++ map (fun z => WUpdate (Bz z)) [4; 8; 1; 7; 3]%Z ++ [WAsk; WAsk; WUpdate (Bz 5); WAsk] ++
  map (fun z => WUpdate (Bz z)) [2; 9; 4; 6; 5]%Z.

Fixpoint asked_wellb {X} (W n : nat) (os : list (w_op X)) : bool :=
  match os with
  | [] => true
  | WUpdate _ :: os' => asked_wellb W (S n) os'
  | WAsk :: os' => (Nat.eqb (in_block W n) 0 || Nat.leb 5 (in_block W n)) && asked_wellb W n os'
  end.

Lemma asked_wellb_sound {X} W n (os : list (w_op X)) : asked_wellb W n os = true ->
  forall os1 os2, os = os1 ++ WAsk :: os2 ->
    in_block W (n + length (observations os1)) = 0 \/ 5 <= in_block W (n + length (observations os1)).
Proof.
  revert n. induction os as [|o os IH]; intros n H [|o1 os1] os2 E; try discriminate E; cbn [app] in E.
  - injection E as -> ->. cbn [asked_wellb] in H. apply andb_prop in H as [H _]. apply orb_prop in H as [H|H].
    + apply Nat.eqb_eq in H. left. cbn. now rewrite Nat.add_0_r.
    + apply Nat.leb_le in H. right. cbn. now rewrite Nat.add_0_r.
  - injection E as -> ->. destruct o1 as [x|]; cbn [asked_wellb observations length] in H |- * .
    + replace (n + S (length (observations os1))) with (S n + length (observations os1)) by lia. eapply IH; eauto.
    + apply andb_prop in H as [_ H]. eapply IH; eauto.
Qed.

Lemma late_run :
  ok (wp2_new (A := B64) Bhalf 5) (fun s0 =>
  ok (w_calls (X := double) wp2_update wp2_evaluate s0 late_ops) (fun s =>
  ok (wp2_evaluate s) (fun '(_, u) => negb (Nat.eqb (p_history (w_p2 s)) 0)))) = true.
Proof. vm_compute. reflexivity. Qed.

Lemma late_example :
  asked_well 5 (late_ops ++ [WAsk]) /\
  exists (s0 s s' : wp2 B64) (v : double), wp2_new (A := B64) Bhalf 5 = Ret s0 /\
    w_calls (X := double) wp2_update wp2_evaluate s0 late_ops = Ret s /\ wp2_evaluate s = Ret (s', v).
Proof.
  split.
  - intros os1 os2 E. apply (asked_wellb_sound 5 0 (late_ops ++ [WAsk])) with (os2 := os2); [vm_compute; reflexivity|exact E].
  - pose proof late_run as H. apply ok_true in H as (s0 & E0 & H). apply ok_true in H as (s & E & H).
    apply ok_true in H as ([s' u] & Eu & H). eauto 10.
Qed.

(** ** In exact arithmetic nothing fails *)
Lemma eval_any (s : wp2 RA) : length (p_heights (w_p2 s)) = 5 -> (0 < p_quantile (w_p2 s) < 1)%R -> 0 < w_wsize s ->
  exists s' v, wp2_evaluate s = Ret (s', v).
Proof.
  intros L Hq HW. destruct (evaluate_in (w_p2 s) L Hq) as (p & v & E & _). unfold wp2_evaluate.
  destruct (Nat.ltb _ _); [|destruct (Nat.eqb_spec (w_wsize s) 0); [lia|]]; rewrite E; cbn [bind]; eauto.
Qed.

Lemma eqv_any (q : R) lo hi W n (s t : wp2 RA) : (0 < q < 1)%R -> 4 <= W -> eqv W n s t -> rinv lo hi q W n t ->
  exists s' v, wp2_evaluate s = Ret (s', v).
Proof.
  intros Hq HW [B C] [Iw _ Iq Isz _ _ _ _]. pose proof (wf_len _ _ Iw) as [L _].
  destruct C as [->|(h & -> & _ & Lh & _)]; apply eval_any; cbn [with_heights w_p2 p_heights p_quantile w_wsize]; auto; try lia;
    rewrite Iq; exact Hq.
Qed.

Lemma asked_total (q : R) W (s0 : wp2 RA) (os : list (w_op R)) : (0 < q < 1)%R -> 4 <= W -> wp2_new (A := RA) q W = Ret s0 ->
  asked_well W os -> (Z.of_nat (length (observations os)) <= 2 ^ 31)%Z ->
  exists s s' v, w_calls (X := R) wp2_update wp2_evaluate s0 os = Ret s /\ wp2_evaluate s = Ret (s', v).
Proof.
  intros Hq HW E0. destruct (list_bounds (observations os)) as (lo & hi & F). revert F.
  assert (G : Forall (inr lo hi) (observations os) -> asked_well W os -> (Z.of_nat (length (observations os)) <= 2 ^ 31)%Z ->
    exists s t, w_calls (X := R) wp2_update wp2_evaluate s0 os = Ret s /\ update_all wp2_update s0 (observations os) = Ret t /\
      eqv (A := RA) W (length (observations os)) s t /\ rinv lo hi q W (length (observations os)) t).
  { induction os as [|o os IH] using rev_ind; intros F Q HL.
    - destruct (rinv_run lo hi q W s0 [] E0 Hq HW) as (t & Et & It); [cbn; lia|constructor|]. injection Et as <-.
      exists s0, s0. split; [reflexivity|]. split; [reflexivity|]. split; [|exact It].
      split; [exact (base_new q W s0 HW E0)|auto].
    - rewrite observations_app in F, HL |- * . pose proof F as F'. apply Forall_app in F' as [F1 _].
      rewrite app_length in HL. destruct IH as (s1 & t1 & E1 & Et1 & Eq1 & I1); auto; [eapply asked_well_app; eauto|lia|].
      rewrite w_calls_snoc. pose proof (f_equal (fun r => bind r (fun t => w_call (X := R) wp2_update wp2_evaluate t o)) E1) as E1'.
      destruct o as [x|]; cbn [observations] in * .
      + destruct (rinv_run lo hi q W s0 (observations os ++ [x]) E0 Hq HW) as (t & Et & It).
        { rewrite app_length. exact HL. } { exact F. }
        rewrite app_length in It |- * . cbn [length] in It |- * . rewrite Nat.add_1_r in It |- * .
        pose proof (eqv_step pos_RA neg_RA idem_RA W _ s1 t1 x HW Eq1) as H. pose proof Et as Et'.
        rewrite update_all_snoc in Et'. apply bind_Ret in Et' as (t1' & Et1' & Et').
        assert (t1' = t1) by congruence. subst t1'. rewrite Et' in H.
        destruct (wp2_update s1 x) as [s| |] eqn:Es; cbn [both] in H; try contradiction.
        exists s, t. split; [|auto]. etransitivity; [exact E1'|]. exact Es.
      + rewrite app_nil_r in * . destruct (eqv_any q lo hi W _ s1 t1 Hq HW Eq1 I1) as (s' & v & Ev).
        exists s', t1. split; [etransitivity; [exact E1'|]; cbn [bind w_call]; now rewrite Ev|]. split; [exact Et1|]. split; [|exact I1].
        exact (proj1 (eqv_ask idem_RA W _ s1 s' t1 v HW Eq1 (asked_well_last _ _ Q) Ev)). }
  intros F Q HL. destruct (G F Q HL) as (s & t & E & Et & Eq & I).
  destruct (eqv_any q lo hi W _ s t Hq HW Eq I) as (s' & v & Ev). eauto.
Qed.

Lemma asked_RA (q : R) W (os : list (w_op R)) : (0 < q < 1)%R -> 4 <= W -> asked_well W (os ++ [WAsk]) ->
  (Z.of_nat (length (observations os)) <= 2 ^ 31)%Z ->
  exists s0 s s' t t' v, wp2_new (A := RA) q W = Ret s0 /\
    w_calls (X := R) wp2_update wp2_evaluate s0 os = Ret s /\ wp2_evaluate s = Ret (s', v) /\
    update_all wp2_update s0 (observations os) = Ret t /\ wp2_evaluate t = Ret (t', v).
Proof.
  intros Hq HW Q HL. destruct (p2_new_RA q Hq) as (p0 & Ep).
  assert (E0 : wp2_new (A := RA) q W = Ret (WP2 p0 (of_Z 0) W 0)) by (unfold wp2_new; rewrite Ep; reflexivity).
  destruct (asked_total q W _ os Hq HW E0 (asked_well_app _ _ _ Q) HL) as (s & s' & v & E & Ev).
  destruct (asked_same pos_RA neg_RA idem_RA q W _ os s s' v HW E0 Q E Ev) as (t & t' & Et & Et').
  exists (WP2 p0 (of_Z 0) W 0), s, s', t, t', v. auto.
Qed.

Lemma iqr_calls_back (s0 : iqr RA) (os : list (w_op R)) l h :
  w_calls (X := R) wp2_update wp2_evaluate (i_low s0) os = Ret l -> w_calls (X := R) wp2_update wp2_evaluate (i_high s0) os = Ret h ->
  exists n, w_calls (X := R) iqr_update iqr_evaluate s0 os = Ret (IQR l h n).
Proof.
  revert l h. induction os as [|o os IH] using rev_ind; intros l h El Eh.
  - injection El as <-. injection Eh as <-. exists (i_history s0). now destruct s0.
  - rewrite w_calls_snoc in El, Eh. rewrite w_calls_snoc. apply bind_Ret in El as (l1 & El1 & El). apply bind_Ret in Eh as (h1 & Eh1 & Eh).
    destruct (IH _ _ El1 Eh1) as (n & E). 
    pose proof (f_equal (fun r => bind r (fun t => w_call (X := R) iqr_update iqr_evaluate t o)) E) as E'.
    destruct o as [x|]; cbn [w_call] in El, Eh.
    + exists (S n). etransitivity; [exact E'|]. cbn [bind w_call]. unfold iqr_update. cbn [i_low i_high i_history].
      rewrite El. cbn [bind]. rewrite Eh. reflexivity.
    + apply bind_Ret in El as ([l' vl] & El & K). injection K as <-. apply bind_Ret in Eh as ([h' vh] & Eh & K). injection K as <-.
      exists n. etransitivity; [exact E'|]. cbn [bind w_call]. unfold iqr_evaluate. cbn [i_low i_high i_history].
      rewrite Eh. cbn [bind]. rewrite El. reflexivity.
Qed.

Lemma iqr_asked_RA (ql qh : R) W (os : list (w_op R)) : (0 < ql < 1)%R -> (0 < qh < 1)%R -> 4 <= W -> asked_well W (os ++ [WAsk]) ->
  (Z.of_nat (length (observations os)) <= 2 ^ 31)%Z ->
  exists s0 s s' t t' v, iqr_new_range (A := RA) ql qh W = Ret s0 /\
    w_calls (X := R) iqr_update iqr_evaluate s0 os = Ret s /\ iqr_evaluate s = Ret (s', v) /\
    update_all iqr_update s0 (observations os) = Ret t /\ iqr_evaluate t = Ret (t', v).
Proof.
  intros Hl Hh HW Q HL.
  destruct (asked_RA ql W os Hl HW Q HL) as (l0 & l & l' & _ & _ & vl & El0 & El & Evl & _).
  destruct (asked_RA qh W os Hh HW Q HL) as (h0 & h & h' & _ & _ & vh & Eh0 & Eh & Evh & _).
  assert (E0 : iqr_new_range (A := RA) ql qh W = Ret (IQR l0 h0 0)) by (rewrite iqr_new_pair, El0, Eh0; reflexivity).
  destruct (iqr_calls_back (IQR l0 h0 0) os l h El Eh) as (n & E).
  pose proof (iqr_evaluate_diff l h l' h' n vl vh Evl Evh) as Ev.
  destruct (iqr_asked_same pos_RA neg_RA idem_RA ql qh W _ os _ _ _ HW E0 Q E Ev) as (t & t' & Et & Et').
  exists (IQR l0 h0 0), (IQR l h n), (IQR l' h' n), t, t'. eexists. eauto 10.
Qed.
