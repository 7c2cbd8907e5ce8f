(** Proofs about RingBuffer: refinement to a bounded queue. *)

From Coq Require Import List NArith Arith Lia Bool.
From Verif Require Import Outcome Calls RingBuffer Spec ListFacts.
Import ListNotations.

Lemma mod_small_cases t i W : t < W -> i <= W ->
  (t + i) mod W = if Nat.ltb (t + i) W then t + i else t + i - W.
Proof.
  intros Ht Hi. destruct (Nat.ltb_spec (t + i) W).
  - apply Nat.mod_small; lia.
  - replace (t + i) with (t + i - W + 1 * W) at 1 by lia.
    rewrite Nat.mod_add by lia. apply Nat.mod_small.
    destruct (Nat.eq_dec i W); lia.
Qed.

Section Facts.
  Context {T : Type} (dflt : T).

  (** Representation invariant: the retained items, oldest first, sit in the
      cells tail, tail+1, ... modulo W. *)
  Record rb_rep (W : nat) (s : ring T) (q : list T) : Prop := {
    rep_W : rb_window s = N.of_nat W;
    rep_W1 : 1 <= W;
    rep_W2 : (N.of_nat W < two64)%N;
    rep_len : length (rb_buf s) = W;
    rep_q : length q <= W;
    rep_full : rb_full s = Nat.eqb (length q) W;
    rep_ex : exists t, rb_tail s = N.of_nat t /\ t < W /\
             rb_head s = N.of_nat ((t + length q) mod W) /\
             forall i x, nth_error q i = Some x ->
               nth_error (rb_buf s) ((t + i) mod W) = Some (Some x)
  }.

  Lemma umod_succ a W : a < W -> (N.of_nat W < two64)%N ->
    umod (wrap64 (N.of_nat a + 1)) (N.of_nat W) = Ret (N.of_nat ((a + 1) mod W)).
  Proof.
    intros Ha HW. unfold umod, wrap64.
    destruct (N.eqb_spec (N.of_nat W) 0); [lia|].
    rewrite (N.mod_small (N.of_nat a + 1) two64) by lia.
    f_equal. rewrite Nat2N.inj_mod. f_equal. lia.
  Qed.

  Lemma rb_new_rep W : 1 <= W -> (N.of_nat W < two64)%N ->
    rb_rep W (rb_new (N.of_nat W)) [].
  Proof.
    intros H1 H2. constructor; simpl; auto; try lia.
    - rewrite repeat_length, Nat2N.id. auto.
    - destruct W; auto; lia.
    - exists 0. repeat split; auto; try lia.
      + rewrite Nat.mod_small by lia. auto.
      + intros [|i] x; discriminate.
  Qed.

  Lemma rb_update_rep W s q x : rb_rep W s q ->
    exists s', rb_update s x = Ret s' /\ rb_rep W s' (lastn W (q ++ [x])) /\
               rb_history s' = S (rb_history s).
  Proof.
    intros [HW H1 H2 Hlen Hq Hf (t & Ht & HtW & Hh & Hc)].
    unfold rb_update. rewrite HW, Hh, Ht, Nat2N.id.
    assert (Hm : (t + length q) mod W < W) by (apply Nat.mod_upper_bound; lia).
    rewrite store_Ret by lia. simpl.
    rewrite Hf. destruct (Nat.eqb_spec (length q) W) as [E|E].
    - rewrite umod_succ by auto. simpl. rewrite umod_succ by auto. simpl.
      eexists; split; [reflexivity|]. split; auto.
      rewrite lastn_snoc_full by lia. destruct q as [|y q]; simpl in *; [lia|].
      assert (Hh2 : (t + S (length q)) mod W = t).
      { rewrite E. rewrite mod_small_cases by lia.
        destruct (Nat.ltb_spec (t + W) W); lia. }
      rewrite Hh2 in *.
      constructor; simpl; auto; rewrite ?set_nth_length, ?app_length; simpl; try lia.
      { rewrite N.eqb_refl. symmetry. apply Nat.eqb_eq. lia. }
      exists ((t + 1) mod W). repeat split; auto.
      + apply Nat.mod_upper_bound; lia.
      + f_equal. rewrite Nat.add_mod_idemp_l by lia.
        replace (t + 1 + (length q + 1)) with (t + 1 + 1 * W) by lia.
        now rewrite Nat.mod_add by lia.
      + intros i z Hi. rewrite Nat.add_mod_idemp_l by lia.
        rewrite nth_error_set_nth, Hlen.
        destruct (Nat.ltb_spec t W); [|lia].
        assert (Hib : i < length (q ++ [x])) by (apply nth_error_Some; congruence).
        rewrite app_length in Hib; simpl in Hib.
        rewrite <- Nat.add_assoc, mod_small_cases by lia.
        destruct (Nat.eqb_spec t (if t + (1 + i) <? W then t + (1 + i) else t + (1 + i) - W)) as [e|e].
        * assert (i = length q) by (destruct (Nat.ltb_spec (t + (1 + i)) W); lia). subst i.
          rewrite nth_error_app2, Nat.sub_diag in Hi by lia. simpl in Hi. congruence.
        * assert (i < length q).
          { destruct (Nat.ltb_spec (t + (1 + i)) W); [lia|].
            destruct (Nat.eq_dec i (length q)); lia. }
          rewrite nth_error_app1 in Hi by auto.
          specialize (Hc (S i) z Hi). rewrite mod_small_cases in Hc by lia.
          exact Hc.
    - simpl. rewrite umod_succ by auto. simpl.
      eexists; split; [reflexivity|]. split; auto.
      rewrite lastn_snoc_short by lia.
      rewrite Nat.add_mod_idemp_l by lia.
      constructor; simpl; auto; rewrite ?set_nth_length, ?app_length; simpl; try lia.
      { rewrite <- Nat.add_assoc, mod_small_cases by lia.
        destruct (Nat.ltb_spec (t + (length q + 1)) W);
        destruct (Nat.eqb_spec (length q + 1) W);
        destruct (N.eqb_spec (N.of_nat (t + (length q + 1))) (N.of_nat t));
        destruct (N.eqb_spec (N.of_nat (t + (length q + 1) - W)) (N.of_nat t)); lia. }
      exists t. repeat split; auto.
      + f_equal. f_equal. lia.
      + intros i z Hi.
        assert (Hib : i < length (q ++ [x])) by (apply nth_error_Some; congruence).
        rewrite app_length in Hib; simpl in Hib.
        rewrite nth_error_set_nth, Hlen.
        destruct (Nat.ltb_spec ((t + length q) mod W) W); [|lia].
        rewrite !mod_small_cases by lia.
        destruct (Nat.eqb_spec (if t + length q <? W then t + length q else t + length q - W)
                               (if t + i <? W then t + i else t + i - W)) as [e|e].
        * assert (i = length q).
          { destruct (Nat.ltb_spec (t + length q) W), (Nat.ltb_spec (t + i) W); lia. }
          subst i. rewrite nth_error_app2, Nat.sub_diag in Hi by lia. simpl in Hi. congruence.
        * assert (i < length q).
          { destruct (Nat.eq_dec i (length q)); [subst; congruence|lia]. }
          rewrite nth_error_app1 in Hi by auto.
          specialize (Hc i z Hi). rewrite mod_small_cases in Hc by lia. exact Hc.
  Qed.

  Lemma rb_empty_rep W s q : rb_rep W s q -> rb_empty s = Nat.eqb (length q) 0.
  Proof.
    intros [HW H1 H2 Hlen Hq Hf (t & Ht & HtW & Hh & Hc)].
    unfold rb_empty. rewrite Hf, Ht, Hh, mod_small_cases by lia.
    destruct (Nat.eqb_spec (length q) W), (Nat.eqb_spec (length q) 0); simpl; try lia; auto;
    apply N.eqb_eq || apply N.eqb_neq;
    destruct (Nat.ltb_spec (t + length q) W); lia.
  Qed.

  Lemma rb_size_rep W s q : rb_rep W s q -> rb_size s = N.of_nat (length q).
  Proof.
    intros [HW H1 H2 Hlen Hq Hf (t & Ht & HtW & Hh & Hc)].
    unfold rb_size, wrap64. rewrite Hf, Ht, Hh, HW, mod_small_cases by lia.
    destruct (Nat.eqb_spec (length q) W); [congruence|].
    destruct (Nat.ltb_spec (t + length q) W).
    - destruct (N.leb_spec (N.of_nat t) (N.of_nat (t + length q))); [|lia].
      replace (N.of_nat (t + length q) + two64 - N.of_nat t)%N
        with (N.of_nat (length q) + 1 * two64)%N by lia.
      rewrite N.mod_add by (unfold two64; discriminate). apply N.mod_small. lia.
    - destruct (N.leb_spec (N.of_nat t) (N.of_nat (t + length q - W))); [lia|].
      replace (N.of_nat W + N.of_nat (t + length q - W))%N with (N.of_nat (t + length q)) by lia.
      destruct (N.lt_ge_cases (N.of_nat (t + length q)) two64).
      + rewrite (N.mod_small (N.of_nat _)) by auto.
        replace (N.of_nat (t + length q) + two64 - N.of_nat t)%N
          with (N.of_nat (length q) + 1 * two64)%N by lia.
        rewrite N.mod_add by (unfold two64; discriminate). apply N.mod_small. lia.
      + replace (N.of_nat (t + length q)) with ((N.of_nat (t + length q) - two64) + 1 * two64)%N by lia.
        rewrite N.mod_add by (unfold two64; discriminate).
        rewrite (N.mod_small (N.of_nat _ - _)) by lia.
        replace (N.of_nat (t + length q) - two64 + two64 - N.of_nat t)%N
          with (N.of_nat (length q)) by lia.
        apply N.mod_small; lia.
  Qed.

  Lemma rb_pop_rep W s q : rb_rep W s q ->
    exists s', rb_pop dflt s = Ret (s', hd dflt q) /\ rb_rep W s' (tl q) /\
               rb_history s' = rb_history s.
  Proof.
    intros H. unfold rb_pop. rewrite (rb_empty_rep _ _ _ H).
    destruct q as [|x q]; simpl; [eauto|].
    destruct H as [HW H1 H2 Hlen Hq Hf (t & Ht & HtW & Hh & Hc)]. simpl in *.
    rewrite Ht, HW, Nat2N.id. unfold at_.
    pose proof (Hc 0 x eq_refl) as H0. rewrite Nat.add_0_r, Nat.mod_small in H0 by lia.
    rewrite H0. simpl. rewrite umod_succ by auto. simpl.
    eexists; split; [reflexivity|]. split; auto.
    constructor; simpl; auto; try lia.
    - symmetry. apply Nat.eqb_neq. lia.
    - exists ((t + 1) mod W). repeat split; auto.
      + apply Nat.mod_upper_bound; lia.
      + rewrite Hh. f_equal. rewrite Nat.add_mod_idemp_l by lia. f_equal. lia.
      + intros i z Hi. rewrite Nat.add_mod_idemp_l by lia.
        specialize (Hc (S i) z Hi). rewrite <- Hc. do 2 f_equal. lia.
  Qed.

  Lemma rb_reset_rep W s q : rb_rep W s q -> rb_rep W (rb_reset s) [].
  Proof.
    intros [HW H1 H2 Hlen Hq Hf (t & Ht & HtW & Hh & Hc)].
    constructor; simpl; auto; try lia.
    - destruct W; auto; lia.
    - exists t. repeat split; auto.
      + rewrite Nat.add_0_r, Nat.mod_small by auto. auto.
      + intros [|i] x; discriminate.
  Qed.

  Lemma rb_call_rep W s q c : rb_rep W s q ->
    exists s', rb_call dflt s c = Ret (s', snd (q_call W dflt q c)) /\
               rb_rep W s' (fst (q_call W dflt q c)) /\
               rb_history s' = rb_history s + match c with CUpdate _ => 1 | _ => 0 end.
  Proof.
    intros H. destruct c; simpl.
    - destruct (rb_update_rep W s q x H) as (s' & E & H' & Hh). rewrite E. simpl.
      exists s'. repeat split; auto; try apply H'. rewrite Hh; lia.
    - destruct (rb_pop_rep W s q H) as (s' & E & H' & Hh). rewrite E.
      exists s'. destruct q; simpl in *; repeat split; auto; try apply H'; lia.
    - exists (rb_reset s). split; [auto|]. split; [eapply rb_reset_rep; eauto|simpl; lia].
    - exists s. rewrite (rb_size_rep W s q) by auto. repeat split; auto; try apply H; lia.
    - exists s. rewrite (rb_empty_rep W s q) by auto. repeat split; auto; try apply H; lia.
    - exists s. unfold rb_isfull. rewrite (rep_full _ _ _ H). repeat split; auto; try apply H; lia.
  Qed.

  Lemma rb_run_rep W s q cs : rb_rep W s q ->
    exists s', rb_run dflt s cs = Ret (s', snd (q_run W dflt q cs)) /\
               rb_rep W s' (fst (q_run W dflt q cs)) /\
               rb_history s' = rb_history s +
                 updates cs.
  Proof.
    revert s q. induction cs as [|c cs IH]; intros s q H; simpl.
    - exists s. split; [reflexivity|]. split; auto.
    - destruct (rb_call_rep W s q c H) as (s1 & E1 & H1 & Hh1). rewrite E1. simpl.
      destruct (q_call W dflt q c) as [q1 o]. simpl in *.
      destruct (IH s1 q1 H1) as (s2 & E2 & H2 & Hh2). rewrite E2. simpl.
      destruct (q_run W dflt q1 cs) as [q2 os]. simpl in *.
      exists s2. split; [reflexivity|]. split; auto.
      rewrite Hh2, Hh1. unfold updates. destruct c; simpl; lia.
  Qed.

  (** ** Window size zero *)
  Lemma rb_zero_run cs : forall (s : ring T),
    rb_window s = 0%N -> rb_buf s = [] -> rb_head s = 0%N -> rb_tail s = 0%N -> rb_full s = false ->
    no_update cs = true ->
    exists os, rb_run dflt s cs = Ret (s, os).
  Proof.
    induction cs as [|c cs IH]; intros s H1 H2 H3 H4 H5 Hn; simpl; eauto.
    simpl in Hn. apply andb_prop in Hn as [Hc Hn].
    assert (E : exists o, rb_call dflt s c = Ret (s, o)).
    { destruct s as [W b h t f n]; simpl in *; subst. destruct c; simpl; eauto. discriminate. }
    destruct E as [o ->]. simpl. destruct (IH s) as [os ->]; auto. simpl. eauto.
  Qed.

  Lemma rb_zero_undef cs x ds : no_update cs = true ->
    rb_run dflt (rb_new 0) (cs ++ CUpdate x :: ds) = Undef OutOfBounds.
  Proof.
    intros Hn.
    assert (G : forall cs, no_update cs = true -> forall s : ring T,
      rb_window s = 0%N -> rb_buf s = [] -> rb_head s = 0%N -> rb_tail s = 0%N -> rb_full s = false ->
      rb_run dflt s (cs ++ CUpdate x :: ds) = Undef OutOfBounds).
    { clear. induction cs as [|c cs IH]; intros Hn s H1 H2 H3 H4 H5; simpl.
      - unfold rb_update. rewrite H2. simpl. unfold store. simpl.
        destruct (N.to_nat (rb_head s)); auto.
      - simpl in Hn. apply andb_prop in Hn as [Hc Hn].
        assert (E : exists o, rb_call dflt s c = Ret (s, o)).
        { destruct s as [W b h t f n]; simpl in *; subst. destruct c; simpl; eauto. discriminate. }
        destruct E as [o ->]. simpl. rewrite IH; auto. }
    apply G; auto.
  Qed.

  Lemma rb_history_facts W cs : 1 <= W -> (N.of_nat W < two64)%N ->
    exists s, rb_run dflt (rb_new (N.of_nat W)) cs = Ret (s, snd (q_run W dflt [] cs)) /\
      rb_rep W s (fst (q_run W dflt [] cs)) /\ rb_history s = updates cs.
  Proof.
    intros H1 H2. destruct (rb_run_rep W _ _ cs (rb_new_rep W H1 H2)) as (s & E & H & Hh).
    exists s. split; [exact E|]. split; [exact H|]. rewrite Hh. auto.
  Qed.

  Lemma rb_reach W cs s os : 1 <= W -> (N.of_nat W < two64)%N ->
    rb_run dflt (rb_new (N.of_nat W)) cs = Ret (s, os) -> rb_rep W s (fst (q_run W dflt [] cs)).
  Proof.
    intros H1 H2 E. destruct (rb_history_facts W cs H1 H2) as (s' & E' & H & _).
    rewrite E in E'. injection E' as <- _. exact H.
  Qed.

  Lemma rb_sizes W cs s os : 1 <= W -> (N.of_nat W < two64)%N ->
    rb_run dflt (rb_new (N.of_nat W)) cs = Ret (s, os) ->
    rb_size s = N.of_nat (length (fst (q_run W dflt [] cs))) /\
    (rb_size s <= N.of_nat W)%N /\
    (rb_isfull s = true <-> rb_size s = N.of_nat W) /\
    (rb_empty s = true <-> rb_size s = 0%N).
  Proof.
    intros H1 H2 E. pose proof (rb_reach W cs s os H1 H2 E) as H.
    rewrite (rb_size_rep _ _ _ H), (rb_empty_rep _ _ _ H). unfold rb_isfull.
    rewrite (rep_full _ _ _ H). pose proof (rep_q _ _ _ H).
    rewrite !Nat.eqb_eq. split; [auto|]. split; [lia|]. split; lia.
  Qed.

  Lemma rb_safe W cs : 1 <= W -> (N.of_nat W < two64)%N ->
    forall u e, rb_run dflt (rb_new (N.of_nat W)) cs <> Undef u /\
                rb_run dflt (rb_new (N.of_nat W)) cs <> Throw e.
  Proof.
    intros H1 H2 u e. destruct (rb_history_facts W cs H1 H2) as (s & -> & _). split; discriminate.
  Qed.
End Facts.
