(** Proofs about WindowedP2Quantile and StreamingIQR. *)

From Coq Require Import List Reals ZArith Lra Lia Bool Arith.
From Flocq Require Import Core.Core IEEE754.BinarySingleNaN.
From Verif Require Import Outcome Arith P2 P2Spec Spec ListFacts.
Import ListNotations.

Section Window.
  Context {A : arith}.

  Lemma p2_update_history (s s' : p2 A) x : p2_update s x = Ret s' -> p_history s' = S (p_history s).
  Proof.
    unfold p2_update. destruct (Nat.ltb _ _).
    - intros E. apply bind_Ret in E as (h & _ & H). destruct (Nat.eqb _ _).
      + apply bind_Ret in H as (h' & _ & H). injection H as <-. reflexivity.
      + injection H as <-. reflexivity.
    - intros E. apply bind_Ret in E as ([h k] & _ & H). apply bind_Ret in H as (n & _ & H).
      apply bind_Ret in H as (d0 & _ & H). apply bind_Ret in H as ([h' n'] & _ & H). injection H as <-. reflexivity.
  Qed.

  Lemma wp2_update_counts (s s' : wp2 A) x : wp2_update s x = Ret s' ->
    w_wsize s' = w_wsize s /\ w_history s' = S (w_history s).
  Proof.
    unfold wp2_update. intros E. apply bind_Ret in E as (p & _ & E). destruct (_ && _)%bool.
    - apply bind_Ret in E as ([p' v] & _ & E). injection E as <-. auto.
    - injection E as <-. auto.
  Qed.

  Lemma wp2_run_counts (q : A) W s0 xs s : wp2_new q W = Ret s0 -> update_all wp2_update s0 xs = Ret s ->
    w_wsize s = W /\ w_history s = length xs.
  Proof.
    intros E0. revert s. induction xs as [|x xs IH] using rev_ind; intros s E.
    - injection E as <-. unfold wp2_new in E0. apply bind_Ret in E0 as (p & _ & E0). injection E0 as <-. auto.
    - rewrite update_all_snoc in E. apply bind_Ret in E as (t & Et & E). destruct (IH _ Et).
      destruct (wp2_update_counts _ _ _ E). rewrite app_length. simpl. split; [congruence|lia].
  Qed.

  (** Inside the first window. *)
  Lemma wp2_first_window (q : A) W s0 p0 xs : wp2_new q W = Ret s0 -> p2_new q = Ret p0 ->
    W = 0 \/ length xs <= W ->
    update_all wp2_update s0 xs =
    let* p := update_all p2_update p0 xs in Ret (WP2 p (of_Z 0) W (length xs)).
  Proof.
    intros E0 E1. unfold wp2_new in E0. rewrite E1 in E0. cbn [bind] in E0. injection E0 as <-.
    induction xs as [|x xs IH] using rev_ind; intros HW; [reflexivity|].
    rewrite !update_all_snoc. rewrite app_length in HW |- * . simpl in HW |- * .
    rewrite IH by lia. destruct (update_all p2_update p0 xs) as [p| |]; cbn [bind]; auto.
    unfold wp2_update. cbn [w_p2 w_history w_wsize w_previous].
    destruct (p2_update p x) as [p'| |]; cbn [bind]; auto.
    replace (length xs + 1) with (S (length xs)) by lia.
    destruct (Nat.ltb_spec 0 W) as [H|H]; [|reflexivity].
    destruct (Nat.eqb_spec (S (length xs) mod (W + 1)) 0) as [K|K]; [|reflexivity].
    rewrite Nat.mod_small in K by lia. discriminate.
  Qed.

  Lemma wp2_eval_first_window (q : A) W s0 p0 xs s p : wp2_new q W = Ret s0 -> p2_new q = Ret p0 ->
    length xs < W ->
    update_all p2_update p0 xs = Ret p -> update_all wp2_update s0 xs = Ret s ->
    match p2_evaluate p with
    | Ret (_, v) => exists s', wp2_evaluate s = Ret (s', v)
    | Throw e => wp2_evaluate s = Throw e
    | Undef u => wp2_evaluate s = Undef u
    end.
  Proof.
    intros E0 E1 HW Ep Es. rewrite (wp2_first_window q W s0 p0 xs E0 E1) in Es by lia.
    rewrite Ep in Es. cbn [bind] in Es. injection Es as <-.
    unfold wp2_evaluate. cbn [w_p2 w_history w_wsize w_previous].
    destruct (Nat.ltb_spec (length xs) W); [|lia].
    destruct (p2_evaluate p) as [[p' v]| |]; cbn [bind]; eauto.
  Qed.

  (** windowSize 0. *)
  Lemma wp2_zero_window (q : A) s0 xs s : wp2_new q 0 = Ret s0 -> update_all wp2_update s0 xs = Ret s ->
    wp2_evaluate s = Undef DivByZero.
  Proof.
    intros E0 E. destruct (wp2_run_counts _ _ _ _ _ E0 E) as [HW _].
    unfold wp2_evaluate. rewrite HW. reflexivity.
  Qed.

  (** IQR as a pair of estimators. *)
  Lemma iqr_new_pair (lo hi : A) W :
    iqr_new_range lo hi W =
    let* l := wp2_new lo W in let* h := wp2_new hi W in Ret (IQR l h 0).
  Proof. reflexivity. Qed.

  Lemma iqr_run (lo hi : A) W s0 l0 h0 xs : iqr_new_range lo hi W = Ret s0 ->
    wp2_new lo W = Ret l0 -> wp2_new hi W = Ret h0 ->
    forall s, update_all iqr_update s0 xs = Ret s <->
      (exists l h, update_all wp2_update l0 xs = Ret l /\ update_all wp2_update h0 xs = Ret h /\
         s = IQR l h (length xs)).
  Proof.
    intros E0 El Eh. rewrite iqr_new_pair, El, Eh in E0. cbn [bind] in E0. injection E0 as <-.
    induction xs as [|x xs IH] using rev_ind; intros s.
    - simpl. split; [intros E; injection E as <-; eauto|]. intros (l & h & E1 & E2 & ->). congruence.
    - rewrite update_all_snoc. split.
      + intros E. apply bind_Ret in E as (t & Et & E). apply IH in Et as (l & h & E1 & E2 & ->).
        unfold iqr_update in E. cbn [i_low i_high i_history] in E.
        apply bind_Ret in E as (l' & E3 & E). apply bind_Ret in E as (h' & E4 & E). injection E as <-.
        exists l', h'. rewrite !update_all_snoc, E1, E2, app_length. cbn [bind]. repeat split; auto.
        simpl. f_equal. lia.
      + intros (l & h & E1 & E2 & ->). rewrite update_all_snoc in E1, E2.
        apply bind_Ret in E1 as (l1 & E1 & E3). apply bind_Ret in E2 as (h1 & E2 & E4).
        assert (Et : update_all iqr_update (IQR l0 h0 0) xs = Ret (IQR l1 h1 (length xs)))
          by (apply IH; eauto).
        rewrite Et. cbn [bind]. unfold iqr_update. cbn [i_low i_high i_history]. rewrite E3. cbn [bind].
        rewrite E4. cbn [bind]. rewrite app_length. simpl. do 2 f_equal. lia.
  Qed.

  Lemma iqr_evaluate_diff (l h l' h' : wp2 A) n vl vh :
    wp2_evaluate l = Ret (l', vl) -> wp2_evaluate h = Ret (h', vh) ->
    iqr_evaluate (IQR l h n) = Ret (IQR l' h' n, vh -. vl)%num.
  Proof. intros E1 E2. unfold iqr_evaluate. cbn [i_high i_low i_history]. rewrite E2, E1. reflexivity. Qed.

  Lemma iqr_difference (lo hi : A) W s0 l0 h0 xs s : iqr_new_range lo hi W = Ret s0 ->
    wp2_new lo W = Ret l0 -> wp2_new hi W = Ret h0 -> update_all iqr_update s0 xs = Ret s ->
    exists l h, update_all wp2_update l0 xs = Ret l /\ update_all wp2_update h0 xs = Ret h /\
      forall l' vl h' vh, wp2_evaluate l = Ret (l', vl) -> wp2_evaluate h = Ret (h', vh) ->
        exists s', iqr_evaluate s = Ret (s', vh -. vl)%num /\ i_history s' = length xs.
  Proof.
    intros E0 El Eh E. apply (iqr_run lo hi W s0 l0 h0 xs E0 El Eh) in E as (l & h & E1 & E2 & ->).
    exists l, h. repeat split; auto. intros l' vl h' vh V1 V2.
    exists (IQR l' h' (length xs)). split; auto. apply iqr_evaluate_diff; auto.
  Qed.

  Lemma iqr_zero_window (lo hi : A) s0 xs s : iqr_new_range lo hi 0 = Ret s0 ->
    update_all iqr_update s0 xs = Ret s -> iqr_evaluate s = Undef DivByZero.
  Proof.
    intros E0 E. pose proof E0 as E0'. rewrite iqr_new_pair in E0'.
    apply bind_Ret in E0' as (l0 & El & E0'). apply bind_Ret in E0' as (h0 & Eh & _).
    destruct (proj1 (iqr_run lo hi 0 s0 l0 h0 xs E0 El Eh s) E) as (l & h & E1 & E2 & ->).
    unfold iqr_evaluate. cbn [i_high]. rewrite (wp2_zero_window _ _ _ _ Eh E2). reflexivity.
  Qed.

  Lemma wp2_new_outcome (q : A) W :
    (exists s, wp2_new q W = Ret s) <-> (exists p, p2_new q = Ret p).
  Proof.
    unfold wp2_new. destruct (p2_new q); cbn [bind]; split; intros [x H]; try discriminate; eauto.
  Qed.

  Lemma p2_new_cases (q : A) : (exists p, p2_new q = Ret p) \/ p2_new q = Throw InvalidArgument.
  Proof. unfold p2_new. destruct (_ || _)%bool; eauto. Qed.

  Lemma iqr_new_throws (lo hi : A) W :
    iqr_new_range lo hi W = Throw InvalidArgument <->
    p2_new lo = Throw InvalidArgument \/ p2_new hi = Throw InvalidArgument.
  Proof.
    rewrite iqr_new_pair. unfold wp2_new.
    destruct (p2_new_cases lo) as [[p ->]| ->]; cbn [bind]; [|tauto].
    destruct (p2_new_cases hi) as [[p' ->]| ->]; cbn [bind]; split; auto; try discriminate.
    intros [H|H]; discriminate.
  Qed.

  (** Restarts. *)
  Lemma wp2_restart (q : A) W s0 xs s x s' : wp2_new q W = Ret s0 -> 1 <= W ->
    update_all wp2_update s0 xs = Ret s -> wp2_update s x = Ret s' ->
    exists p, p2_update (w_p2 s) x = Ret p /\
    if Nat.eqb ((length xs + 1) mod (W + 1)) 0
    then exists p', p2_evaluate p = Ret (p', w_previous s') /\ w_p2 s' = p2_clear p' /\
           p_pos (w_p2 s') = p_pos p /\ p_heights (w_p2 s') = p_heights p' /\ p_history (w_p2 s') = 0
    else w_p2 s' = p /\ w_previous s' = w_previous s.
  Proof.
    intros E0 HW E Eu. destruct (wp2_run_counts _ _ _ _ _ E0 E) as [HWs HH].
    unfold wp2_update in Eu. apply bind_Ret in Eu as (p & Ep & Eu). exists p. split; auto.
    rewrite HWs, HH in Eu. replace (Nat.ltb 0 W) with true in Eu by (symmetry; apply Nat.ltb_lt; lia).
    cbn [andb] in Eu. replace (length xs + 1) with (S (length xs)) by lia.
    destruct (Nat.eqb _ 0).
    - apply bind_Ret in Eu as ([p' v] & Ev & Eu). injection Eu as <-. exists p'. cbn.
      repeat split; auto. unfold p2_evaluate in Ev. destruct (Nat.leb _ _).
      + apply bind_Ret in Ev as (h & _ & Ev). destruct (round_int _); [|discriminate].
        destruct (_ && _)%bool; [|discriminate]. apply bind_Ret in Ev as (w & _ & Ev). injection Ev as <- _. reflexivity.
      + apply bind_Ret in Ev as (w & _ & Ev). injection Ev as <- _. reflexivity.
    - injection Eu as <-. auto.
  Qed.

  Lemma mod_succ n m : 0 < m -> S n mod m = if Nat.eqb (S (n mod m)) m then 0 else S (n mod m).
  Proof.
    intros Hm. pose proof (Nat.div_mod n m ltac:(lia)) as D. pose proof (Nat.mod_upper_bound n m ltac:(lia)) as B.
    destruct (Nat.eqb_spec (S (n mod m)) m) as [E|E].
    - replace (S n) with (0 + (S (n / m)) * m) by nia. rewrite Nat.mod_add by lia. apply Nat.mod_small. lia.
    - replace (S n) with (S (n mod m) + (n / m) * m) by nia. rewrite Nat.mod_add by lia. apply Nat.mod_small. lia.
  Qed.

  Lemma wp2_inner_count (q : A) W s0 xs s : wp2_new q W = Ret s0 -> 1 <= W ->
    update_all wp2_update s0 xs = Ret s -> p_history (w_p2 s) = length xs mod (W + 1).
  Proof.
    intros E0 HW. revert s. induction xs as [|x xs IH] using rev_ind; intros s E.
    - injection E as <-. unfold wp2_new in E0. apply bind_Ret in E0 as (p & Ep & E0). injection E0 as <-.
      unfold p2_new in Ep. destruct (_ || _)%bool; [discriminate|]. injection Ep as <-.
      cbn [w_p2 p_history length]. now rewrite Nat.mod_small by lia.
    - rewrite update_all_snoc in E. apply bind_Ret in E as (t & Et & E). specialize (IH _ Et).
      destruct (wp2_restart _ _ _ _ _ _ _ E0 HW Et E) as (p & Ep & H).
      apply p2_update_history in Ep. rewrite app_length. simpl length.
      rewrite Nat.add_1_r in H |- * . rewrite mod_succ in H |- * by lia. rewrite IH in Ep.
      destruct (Nat.eqb_spec (S (length xs mod (W + 1))) (W + 1)) as [K|K].
      + cbn in H. destruct H as (p' & _ & _ & _ & _ & ->). reflexivity.
      + cbn in H. destruct H as [-> _]. auto.
  Qed.

  (** The mixing formula. *)
  Lemma wp2_mix (q : A) W s0 xs s p v : wp2_new q W = Ret s0 -> 1 <= W -> W <= length xs ->
    update_all wp2_update s0 xs = Ret s -> p2_evaluate (w_p2 s) = Ret (p, v) ->
    exists s', wp2_evaluate s = Ret (s',
      (of_Z 1 -. of_nat (length xs mod W + 1)) *. w_previous s +. of_nat (length xs mod W + 1) *. v)%num.
  Proof.
    intros E0 HW HL E Ev. destruct (wp2_run_counts _ _ _ _ _ E0 E) as [HWs HH].
    unfold wp2_evaluate. rewrite HWs, HH. destruct (Nat.ltb_spec (length xs) W); [lia|].
    destruct (Nat.eqb_spec W 0); [lia|]. rewrite Ev. cbn [bind]. eauto.
  Qed.
End Window.

Open Scope R_scope.
Lemma wp2_extrapolates (q : R) W s0 (xs : list R) s p v : wp2_new (A := RA) q W = Ret s0 -> (1 <= W)%nat -> (W <= length xs)%nat ->
  update_all wp2_update s0 xs = Ret s -> p2_evaluate (A := RA) (w_p2 s) = Ret (p, v) ->
  exists s' w1 w2 r, wp2_evaluate s = Ret (s', r) /\
    r = w1 * w_previous s + w2 * v /\ w1 + w2 = 1 /\ w2 = INR (length xs mod W) + 1 /\ w1 <= 0 /\ 1 <= w2 <= INR W.
Proof.
  intros E0 HW HL E Ev. destruct (wp2_mix (A := RA) q W s0 xs s p v E0 HW HL E Ev) as [s' H].
  exists s', (1 - INR (length xs mod W + 1)), (INR (length xs mod W + 1)). eexists. split; [exact H|].
  assert (B : (length xs mod W + 1 <= W)%nat) by (pose proof (Nat.mod_upper_bound (length xs) W ltac:(lia)); lia).
  apply le_INR in B. assert (P : 1 <= INR (length xs mod W + 1)) by (rewrite plus_INR; simpl; pose proof (pos_INR (length xs mod W)); lra).
  assert (N : forall n, of_nat (A := RA) n = INR n) by (intros n; unfold of_nat; cbn; symmetry; apply INR_IZR_INZ).
  change (num RA) with R in * . rewrite !N. cbn [add sub mul of_Z RA].
  rewrite plus_INR in * . simpl (INR 1) in * . repeat split; lra.
Qed.
