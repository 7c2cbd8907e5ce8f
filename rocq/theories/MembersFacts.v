(** Proofs: LinkedList, histogram and mean with public members assigned to. *)

From Coq Require Import List NArith Arith.
From stdpp Require Import gmap.
From Verif Require Import Outcome Calls RingBuffer LinkedList LinkedListSpec Spec ListFacts LinkedListFacts Members MembersSpec.
Import ListNotations.

Section LList.
  Context {T : Type} (dflt : T).

  Lemma core_window (s : llist T) w q lk : ll_core s q lk -> ll_core (ll_set_window s w) q lk.
  Proof. intros [H1 H2 H3]. split; auto. Qed.

  Lemma rep_any (s : llist T) W q lk : ll_rep W s q lk -> ll_rep 0 (ll_set_window s 0) q lk.
  Proof. intros [H1 H2 H3 H4]. split; auto; [lia|]. now apply core_window. Qed.

  Lemma rep_back (s : llist T) w q lk : ll_rep 0 (ll_set_window s 0) q lk -> (1 <= w -> length q <= w) ->
    ll_rep w (ll_set_window s w) q lk.
  Proof. intros [H1 H2 H3 H4] L. split; auto. now apply (core_window _ w) in H4. Qed.

  Lemma set_same (s : llist T) : ll_set_window s (ll_window s) = s.
  Proof. now destruct s. Qed.
  Lemma set_set (s : llist T) v w : ll_set_window (ll_set_window s v) w = ll_set_window s w.
  Proof. reflexivity. Qed.

  (** Without an eviction the window size does not matter. *)
  Lemma update_no_evict (s : llist T) w x : ll_size s <> w -> ll_size s <> 0 \/ ll_empty s = true ->
    ll_update dflt (ll_set_window s w) x =
    let* s' := ll_update dflt (ll_set_window s 0) x in Ret (ll_set_window s' w).
  Proof.
    intros H1 H2. unfold ll_update. change (ll_empty (ll_set_window s w)) with (ll_empty s).
    change (ll_empty (ll_set_window s 0)) with (ll_empty s). destruct (ll_empty s) eqn:Em; [reflexivity|].
    destruct H2 as [H2|H2]; [|discriminate H2].
    cbn [ll_set_window ll_size ll_window ll_tail ll_heap ll_fresh ll_head ll_history].
    destruct (deref _ _) as [[t tn]| |]; cbn [bind]; try reflexivity.
    destruct (Nat.eqb_spec (ll_size s) w); [contradiction|].
    destruct (Nat.eqb_spec (ll_size s) 0); [contradiction|]. reflexivity.
  Qed.

  Lemma list_act (s : llist T) q lk c : ll_rep 0 (ll_set_window s 0) q lk ->
    (match c with MCall CReset => q <> [] | _ => True end) ->
    exists s' lk', ll_act dflt s c = Ret (s', snd (v_act dflt (ll_window s, q) c)) /\
      fst (v_act dflt (ll_window s, q) c) = (ll_window s', snd (fst (v_act dflt (ll_window s, q) c))) /\
      ll_rep 0 (ll_set_window s' 0) (snd (fst (v_act dflt (ll_window s, q) c))) lk'.
  Proof.
    intros R Hok. destruct c as [c|w]; [|exists (ll_set_window s (N.to_nat w)), lk; auto].
    set (w := ll_window s).
    assert (D : (exists x, c = CUpdate x) \/ forall x, c <> CUpdate x) by (destruct c; eauto; right; discriminate).
    destruct D as [[x ->]|D].
    - assert (V : v_act dflt (w, q) (MCall (CUpdate x)) =
        ((w, if Nat.eqb (length q) w && negb (Nat.eqb w 0) then tl q ++ [x] else q ++ [x]), OUnit)).
      { cbn [v_act]. destruct q as [|y q']; [destruct w; reflexivity|].
        destruct (Nat.eqb_spec (length (y :: q')) w) as [L|L]; [|reflexivity]. destruct w; [discriminate L|reflexivity]. }
      rewrite V. cbn [ll_act ll_call fst snd].
      assert (C : length q = w /\ w <> 0 \/ (Nat.eqb (length q) w && negb (Nat.eqb w 0) = false /\ (length q <> w \/ w = 0))).
      { destruct (Nat.eqb_spec (length q) w), (Nat.eqb_spec w 0); cbn; auto. }
      destruct C as [[L L0]|[Ec L]].
      + pose proof (rep_back s w q lk R ltac:(lia)) as R1.
        destruct (ll_update_rep dflt w _ q lk x R1) as (s1 & E & R2 & _).
        unfold w in E at 1. rewrite set_same in E. rewrite E. cbn [bind].
        pose proof (lr_W _ _ _ _ R2) as Ew. exists s1, lk. split; [auto|]. split; [now rewrite Ew|].
        apply rep_any in R2. rewrite L, Nat.eqb_refl. destruct w as [|w']; [contradiction|].
        rewrite lastn_snoc_full in R2 by lia. exact R2.
      + rewrite Ec. destruct (ll_update_rep dflt 0 _ q lk x R) as (s1 & E & R2 & _).
        pose proof (lr_size _ _ _ _ R) as Sz. cbn in Sz.
        pose proof (ll_empty_core _ _ _ (lr_core _ _ _ _ R)) as Em. cbn in Em.
        change (ll_empty (ll_set_window s 0)) with (ll_empty s) in Em.
        assert (E' : ll_update dflt s x = let* s' := ll_update dflt (ll_set_window s 0) x in Ret (ll_set_window s' w)).
        { destruct (Nat.eq_dec w 0) as [W0|W0].
          - rewrite W0, <- W0. unfold w at 2. rewrite W0. rewrite <- (set_same s) at 1. fold w. rewrite W0, E. cbn [bind].
            pose proof (lr_W _ _ _ _ R2) as Ew. now rewrite <- (set_same s1), Ew at 1.
          - rewrite <- (set_same s) at 1. fold w. apply update_no_evict; [lia|].
            destruct q; [right|left]; [exact Em|cbn in Sz; lia]. }
        rewrite E', E. cbn [bind].  exists (ll_set_window s1 w), lk. split; [auto|]. split; [auto|].
        rewrite set_set. pose proof (lr_W _ _ _ _ R2) as Ew. rewrite <- (set_same s1), Ew in R2. exact R2.
    - destruct (ll_call_rep dflt 0 _ q lk c R) as (s1 & E & R2 & _); [destruct c; auto|].
      assert (E' : ll_call dflt s c = Ret (ll_set_window s1 w, snd (q0_call 0 dflt q c))).
      { clear R2. revert E. generalize (snd (q0_call 0 dflt q c)). intros o E. destruct c; cbn [ll_call] in * .
        - now destruct (D x).
        - unfold ll_pop in *. change (ll_empty (ll_set_window s 0)) with (ll_empty s) in E.
          destruct (ll_empty s); cbn [bind] in *.
          + injection E as <- <-. rewrite set_set. unfold w. now rewrite set_same.
          + change (ll_heap (ll_set_window s 0)) with (ll_heap s) in E.
            change (ll_head (ll_set_window s 0)) with (ll_head s) in E.
            destruct (deref _ _) as [[l n]| |]; cbn [bind] in *; try discriminate E. injection E as <- <-. reflexivity.
        - unfold ll_reset in *. change (ll_free_loop (ll_set_window s 0)) with (ll_free_loop s) in E.
          destruct (ll_free_loop s); cbn [bind] in *; try discriminate E. injection E as <- <-. reflexivity.
        - injection E as <- <-. rewrite set_set. unfold w. now rewrite set_same.
        - injection E as <- <-. rewrite set_set. unfold w. now rewrite set_same.
        - injection E as <- <-. rewrite set_set. unfold w. now rewrite set_same. }
      assert (V : v_act dflt (w, q) (MCall c) = ((w, fst (q0_call 0 dflt q c)), snd (q0_call 0 dflt q c))).
      { destruct c; try reflexivity. now destruct (D x). }
      rewrite V. cbn [ll_act fst snd]. rewrite E'. do 2 eexists. split; [reflexivity|]. split; [reflexivity|].
      rewrite set_set. pose proof (lr_W _ _ _ _ R2) as Ew. rewrite <- (set_same s1), Ew in R2. exact R2.
  Qed.

  Lemma list_acts cs : forall (s : llist T) q lk, ll_rep 0 (ll_set_window s 0) q lk ->
    v_resets_ok dflt (ll_window s, q) cs ->
    exists s', ll_acts dflt s cs = Ret (s', snd (v_acts dflt (ll_window s, q) cs)) /\
      ll_display s' = Ret (snd (fst (v_acts dflt (ll_window s, q) cs))) /\
      ll_getsize s' = length (snd (fst (v_acts dflt (ll_window s, q) cs))).
  Proof.
    induction cs as [|c cs IH]; intros s q lk R K.
    - exists s. cbn [ll_acts v_acts fst snd]. split; [auto|]. split.
      + change (ll_display s) with (ll_display (ll_set_window s 0)). eapply ll_display_core, lr_core, R.
      + exact (lr_size _ _ _ _ R).
    - destruct K as [K1 K2]. destruct (list_act s q lk c R) as (s1 & lk1 & E & V & R1); [destruct c as [[]|]; auto|].
      cbn [ll_acts v_acts]. rewrite E. cbn [bind].
      destruct (v_act dflt (ll_window s, q) c) as [[w1 q1] o]. cbn [fst snd] in * . injection V as ->.
      destruct (IH s1 q1 lk1 R1 K2) as (s2 & E2 & D2). rewrite E2. cbn [bind].
      destruct (v_acts dflt (ll_window s1, q1) cs) as [wq os]. exists s2. auto.
  Qed.

  Lemma list_changes W cs : v_resets_ok dflt (W, []) cs ->
    exists s, ll_acts dflt (ll_new W) cs = Ret (s, snd (v_acts dflt (W, []) cs)) /\
      ll_display s = Ret (snd (fst (v_acts dflt (W, []) cs))) /\
      ll_getsize s = length (snd (fst (v_acts dflt (W, []) cs))).
  Proof. intros K. eapply (list_acts cs (ll_new W)); [|exact K]. apply (rep_any _ W), ll_new_rep. Qed.

  Lemma list_shrunk W w cs xs s os : resets_ok W dflt [] cs -> ll_run dflt (ll_new W) cs = Ret (s, os) ->
    w < ll_getsize s ->
    exists s', update_all (ll_update dflt) (ll_set_window s w) xs = Ret s' /\ ll_getsize s' = ll_getsize s + length xs.
  Proof.
    intros K E L. destruct (ll_history_facts dflt W cs K) as (s1 & E1 & R & _). rewrite E in E1. injection E1 as <- _.
    apply rep_any in R. revert R L. unfold ll_getsize. generalize (fst (q0_run W dflt [] cs)), (reset_items W dflt [] cs).
    clear E K. revert s. induction xs as [|x xs IH]; intros s q lk R L.
    { eexists. split; [reflexivity|]. cbn. lia. }
    cbn [update_all]. destruct (ll_update_rep dflt 0 _ q lk x R) as (s1 & E & R2 & _).
    rewrite update_no_evict by lia. rewrite E. cbn [bind].
    pose proof (lr_size _ _ _ _ R) as Sz. pose proof (lr_size _ _ _ _ R2) as Sz2. rewrite app_length in Sz2. cbn in Sz, Sz2.
    pose proof (lr_W _ _ _ _ R2) as Ew. rewrite <- (set_same s1), Ew in R2.
    destruct (IH s1 _ _ R2 ltac:(lia)) as (s2 & E2 & L2). exists s2. split; [exact E2|]. cbn [length]. lia.
  Qed.
End LList.
