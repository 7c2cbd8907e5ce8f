(** Proofs about containers whose element copies throw. *)

From Coq Require Import List NArith Arith Lia Bool.
From stdpp Require Import gmap.
From Verif Require Import Outcome Calls RingBuffer LinkedList LinkedListSpec Spec ThrowCopy ThrowSpec
     ListFacts RingBufferFacts LinkedListFacts.
Import ListNotations.

Section Ring.
  Context {T : Type} (dflt : T).

  Lemma rb_assign_rep W (s : ring T) q x junk : rb_rep W s q ->
    exists s', rb_assign_throws s junk = Ret s' /\ rb_rep W s' (fst (rq_event W dflt q (RAssignThrows x junk))) /\ rb_history s' = rb_history s.
  Proof.
    intros [HW H1 H2 Hlen Hq Hf (t & Ht & HtW & Hh & Hc)].
    unfold rb_assign_throws. rewrite Hh, Nat2N.id.
    assert (Hm : (t + length q) mod W < W) by (apply Nat.mod_upper_bound; lia).
    destruct (at_lt (rb_buf s) ((t + length q) mod W)) as [old Hold]; [lia|]. rewrite Hold. cbn [bind].
    rewrite store_Ret by lia. cbn [bind]. eexists. split; [reflexivity|]. split; [|reflexivity]. apply at_Ret in Hold.
    assert (G : forall q' v, length q' = length q ->
      (forall i z, nth_error q' i = Some z -> nth_error (set_nth (rb_buf s) ((t + length q) mod W) v) ((t + i) mod W) = Some (Some z)) ->
      rb_rep W (Ring (rb_window s) (set_nth (rb_buf s) ((t + length q) mod W) v) (N.of_nat ((t + length q) mod W)) (rb_tail s) (rb_full s) (rb_history s)) q').
    { intros q' v L HN. constructor; simpl; auto; rewrite ?set_nth_length, ?L; auto. exists t. repeat split; auto. }
    destruct junk as [j|]; cbn [rq_event fst].
    - destruct (Nat.eqb_spec (length q) W) as [E|E].
      + destruct q as [|y q]; [simpl in E; lia|]. apply G; [reflexivity|]. intros i z Hi.
        assert (Hib : i < S (length q)) by (change (S (length q)) with (length (j :: tl (y :: q))); apply nth_error_Some; rewrite Hi; discriminate).
        rewrite nth_error_set_nth, Hlen. destruct (Nat.ltb_spec ((t + length (y :: q)) mod W) W); [|lia].
        rewrite E in * . simpl in E. rewrite !mod_small_cases by lia. destruct (Nat.ltb_spec (t + W) W); [lia|].
        destruct (Nat.eqb_spec (t + W - W) (if t + i <? W then t + i else t + i - W)) as [e|e].
        * assert (i = 0) by (destruct (Nat.ltb_spec (t + i) W); lia). subst i. simpl in Hi. congruence.
        * destruct i as [|i]; [destruct (Nat.ltb_spec (t + 0) W); lia|]. specialize (Hc (S i) z Hi). rewrite mod_small_cases in Hc by lia. exact Hc.
      + apply G; [reflexivity|]. intros i z Hi. assert (Hib : i < length q) by (apply nth_error_Some; rewrite Hi; discriminate).
        rewrite nth_error_set_nth, Hlen. destruct (Nat.ltb_spec ((t + length q) mod W) W); [|lia]. rewrite !mod_small_cases by lia.
        destruct (Nat.eqb_spec (if t + length q <? W then t + length q else t + length q - W) (if t + i <? W then t + i else t + i - W)) as [e|e].
        * exfalso. destruct (Nat.ltb_spec (t + length q) W), (Nat.ltb_spec (t + i) W); lia.
        * specialize (Hc i z Hi). rewrite mod_small_cases in Hc by lia. exact Hc.
    - apply G; [reflexivity|]. intros i z Hi. rewrite nth_error_set_nth, Hlen.
      destruct (Nat.eqb_spec ((t + length q) mod W) ((t + i) mod W)) as [e|e]; [|now apply Hc].
      destruct (Nat.ltb_spec ((t + length q) mod W) W); [|lia].
      rewrite <- (Hc i z Hi), <- e. now rewrite Hold.
  Qed.

  Lemma rb_react_rep W (s : ring T) q e : rb_rep W s q ->
    exists s', rb_react dflt s e = Ret (s', snd (rq_event W dflt q e)) /\ rb_rep W s' (fst (rq_event W dflt q e)) /\
      rb_history s' = rb_history s + updates (ring_calls [e]).
  Proof.
    intros H. destruct e as [c|x junk| |].
    - destruct (rb_call_rep dflt W s q c H) as (s' & E & H' & Hh). cbn [rb_react rq_event]. rewrite E. cbn [bind].
      destruct (q_call W dflt q c) as [q' o]. exists s'. split; [reflexivity|]. split; [exact H'|]. rewrite Hh. destruct c; reflexivity.
    - destruct (rb_assign_rep W s q x junk H) as (s' & E & H' & Hh). cbn [rb_react]. rewrite E. cbn [bind].
      exists s'. split; [destruct junk; reflexivity|]. split; [exact H'|]. rewrite Hh. cbn. lia.
    - exists s. split; [reflexivity|]. split; [exact H|]. cbn. lia.
    - destruct (rb_pop_rep dflt W s q H) as (s' & E & H' & Hh). cbn [rb_react]. rewrite E. exists s'.
      split; [reflexivity|]. split; [exact H'|]. rewrite Hh. cbn. lia.
  Qed.

  Lemma ring_calls_cons (e : ring_event T) es : updates (ring_calls (e :: es)) = updates (ring_calls [e]) + updates (ring_calls es).
  Proof. destruct e as [[]| | |]; reflexivity. Qed.

  Lemma rb_reacts_rep W es : forall (s : ring T) q, rb_rep W s q ->
    exists s', rb_reacts dflt s es = Ret (s', snd (rq_events W dflt q es)) /\ rb_rep W s' (fst (rq_events W dflt q es)) /\
      rb_history s' = rb_history s + updates (ring_calls es).
  Proof.
    induction es as [|e es IH]; intros s q H; [exists s; cbn; auto|]. cbn [rb_reacts rq_events].
    destruct (rb_react_rep W s q e H) as (s1 & E1 & H1 & Hh1). rewrite E1. cbn [bind]. destruct (rq_event W dflt q e) as [q1 o]. cbn [fst snd] in * .
    destruct (IH s1 q1 H1) as (s2 & E2 & H2 & Hh2). rewrite E2. cbn [bind]. destruct (rq_events W dflt q1 es) as [q2 os].
    exists s2. split; [reflexivity|]. split; [exact H2|]. rewrite ring_calls_cons, Hh2, Hh1. lia.
  Qed.

  Lemma ring_throws W es : 1 <= W -> (N.of_nat W < 2 ^ 64)%N ->
    exists s, rb_reacts dflt (rb_new (N.of_nat W)) es = Ret (s, snd (rq_events W dflt [] es)) /\
      rb_history s = updates (ring_calls es).
  Proof. intros H1 H2. destruct (rb_reacts_rep W es _ _ (rb_new_rep W H1 H2)) as (s & E & _ & Hh). exists s. auto. Qed.

  Lemma rq_strong W es : strong_events es -> forall q,
    fst (rq_events W dflt q es) = fst (q_run W dflt q (ring_calls es)) /\
    handed (snd (rq_events W dflt q es)) = snd (q_run W dflt q (ring_calls es)).
  Proof.
    induction 1 as [|e es He HF IH]; intros q; [auto|]. destruct e as [c|x [j|]| |]; try contradiction; cbn [rq_events rq_event ring_calls q_run].
    - destruct (q_call W dflt q c) as [q1 o]. specialize (IH q1). destruct (rq_events W dflt q1 es), (q_run W dflt q1 (ring_calls es)). cbn in * .
      destruct IH as [-> ->]. auto.
    - specialize (IH q). destruct (rq_events W dflt q es). exact IH.
    - specialize (IH q). destruct (rq_events W dflt q es). exact IH.
  Qed.

  Lemma ring_strong W es : 1 <= W -> (N.of_nat W < 2 ^ 64)%N -> strong_events es ->
    exists s os t, rb_reacts dflt (rb_new (N.of_nat W)) es = Ret (s, os) /\
      rb_run dflt (rb_new (N.of_nat W)) (ring_calls es) = Ret (t, handed os).
  Proof.
    intros H1 H2 HS. destruct (ring_throws W es H1 H2) as (s & E & _). destruct (rb_history_facts dflt W (ring_calls es) H1 H2) as (t & E' & _).
    exists s, (snd (rq_events W dflt [] es)), t. split; auto. rewrite E'. do 2 f_equal. symmetry. now apply rq_strong.
  Qed.
End Ring.

Section List_.
  Context {T : Type} (dflt : T).

  Lemma ll_link_core (s : llist T) q lk x : ll_core s q lk ->
    exists s', ll_link s x = Ret s' /\ ll_core s' (q ++ [x]) lk /\ ll_window s' = ll_window s /\ ll_history s' = ll_history s.
  Proof.
    intros H. unfold ll_link. rewrite (ll_empty_core _ _ _ H).
    destruct H as [Hhv Hf (ls & Hc & Hnd & Hh & Ht)].
    pose proof (chain_length _ _ _ Hc) as Hlen.
    assert (Hout : ~ In (ll_fresh s) ls).
    { intros Hin. destruct (chain_in _ _ _ _ Hc Hin) as [n Hn]. rewrite Hf in Hn by auto. discriminate. }
    destruct q as [|y q].
    - simpl. eexists; split; [reflexivity|]. split; [|auto]. constructor; simpl; auto.
      + rewrite hv_insert_fresh by auto. simpl. now rewrite Hhv.
      + intros l' Hl'. rewrite lookup_insert_ne by lia. apply Hf. lia.
      + exists [ll_fresh s]. simpl. repeat split; auto.
        * exists None. now rewrite lookup_insert.
        * constructor; [apply not_elem_of_nil|constructor].
    - cbn [length Nat.eqb].
      destruct (last_some ls) as (t & Hlt & Hin).
      { intros ->. simpl in Hlen. discriminate. }
      destruct (chain_in _ _ _ _ Hc Hin) as [tn Htn].
      assert (Hne : ll_fresh s <> t) by (intros <-; tauto).
      rewrite Ht by (intros ->; simpl in Hlen; discriminate). rewrite Hlt.
      unfold deref at 1. rewrite lookup_insert_ne by auto. rewrite Htn. cbn [bind].
      rewrite (insert_commute _ t (ll_fresh s)) by auto. rewrite insert_insert.
      eexists; split; [reflexivity|]. split; [|auto].
      constructor; cbn [ll_heap ll_fresh ll_head ll_tail]; auto.
      + rewrite hv_insert_fresh.
        * rewrite (hv_insert_same _ t tn) by auto. rewrite Hhv. simpl.
          rewrite <- app_assoc. simpl. rewrite <- (Permutation_middle q lk x). apply perm_swap.
        * rewrite lookup_insert_ne by auto. apply Hf; lia.
      + intros l' Hl'. rewrite !lookup_insert_ne; [apply Hf; lia| |lia].
        intros ->. rewrite Hf in Htn by lia. discriminate.
      + exists (ls ++ [ll_fresh s]). split; [|split; [|split]].
        * apply chain_snoc; auto.
        * apply NoDup_app. repeat split; auto.
          -- intros l' Hl' Hl2. rewrite elem_of_list_In in Hl'. apply elem_of_list_singleton in Hl2. subst; tauto.
          -- constructor; [apply not_elem_of_nil|constructor].
        * rewrite Hh. rewrite hd_error_app_ne; auto. intros ->. simpl in Hlen; discriminate.
        * intros _. now rewrite last_snoc_loc.
  Qed.

  (** The split of update used here is the update of LinkedList.v. *)
  Lemma link_is_update (s : llist T) x :
    ll_update dflt s x =
      let* l1 := ll_link s x in
      let* l2 := (if negb (ll_empty s) && Nat.eqb (ll_size s) (ll_window s) then let* (l2, _) := ll_pop dflt l1 in Ret l2 else Ret l1) in
      Ret (LList (ll_window l2) (ll_head l2) (ll_tail l2) (S (ll_size l2)) (S (ll_history l2)) (ll_heap l2) (ll_fresh l2)).
  Proof.
    unfold ll_update, ll_link. destruct (ll_empty s); [reflexivity|]. destruct (deref _ (ll_tail s)) as [[t tn]|e|u]; reflexivity.
  Qed.

  Record xl_rep (W : nat) (s : xlist T) (q : list T) (k : nat) (lk : list T) : Prop := {
    xr_W : ll_window (xl_list s) = W;
    xr_len : length q <= W + k;
    xr_size : xl_size s = ((N.of_nat (length q) + (2 ^ 64 - N.of_nat k)) mod 2 ^ 64)%N;
    xr_core : ll_core (xl_list s) q lk }.

  Notation sz n k := ((N.of_nat n + (2 ^ 64 - N.of_nat k)) mod 2 ^ 64)%N.

  Lemma two64_val : two64 = (2 ^ 64)%N. Proof. reflexivity. Qed.

  Lemma sz_inc n k : (N.of_nat k < 2 ^ 64)%N -> inc64 (sz n k) = sz (S n) k.
  Proof.
    intros Hk. unfold inc64, wrap64. rewrite two64_val, N.add_mod_idemp_l by lia. f_equal. lia.
  Qed.

  Lemma sz_dec n k : (N.of_nat k < 2 ^ 64)%N -> dec64 (sz (S n) k) = sz n k.
  Proof.
    intros Hk. unfold dec64, wrap64. rewrite two64_val, N.add_mod_idemp_l by lia.
    replace (N.of_nat (S n) + (2 ^ 64 - N.of_nat k) + (2 ^ 64 - 1))%N with (N.of_nat n + (2 ^ 64 - N.of_nat k) + 1 * 2 ^ 64)%N by lia.
    now rewrite N.mod_add by lia.
  Qed.

  Lemma sz_more n k : (N.of_nat (S k) < 2 ^ 64)%N -> sz (S n) (S k) = sz n k.
  Proof. intros Hk. f_equal. lia. Qed.

  Lemma sz_full W n k : n <= W + k -> (N.of_nat (W + k) < 2 ^ 64)%N -> (sz n k =? N.of_nat W)%N = (n =? W + k).
  Proof.
    intros Hn HW. destruct (Nat.leb_spec k n) as [L|L].
    - replace (N.of_nat n + (2 ^ 64 - N.of_nat k))%N with (N.of_nat (n - k) + 1 * 2 ^ 64)%N by lia.
      rewrite N.mod_add, N.mod_small by lia. destruct (N.eqb_spec (N.of_nat (n - k)) (N.of_nat W)), (Nat.eqb_spec n (W + k)); lia.
    - rewrite N.mod_small by lia. destruct (N.eqb_spec (N.of_nat n + (2 ^ 64 - N.of_nat k)) (N.of_nat W)), (Nat.eqb_spec n (W + k)); lia.
  Qed.

  Lemma xl_pop_rep W s q k lk : (N.of_nat k < 2 ^ 64)%N -> xl_rep W s q k lk ->
    exists s', xl_pop dflt s = Ret (s', hd dflt q) /\ xl_rep W s' (tl q) k lk /\ ll_history (xl_list s') = ll_history (xl_list s).
  Proof.
    intros Hk [HW Hl Hs Hc]. unfold xl_pop. destruct (ll_pop_core dflt _ _ _ Hc) as (l & E & Hc' & H1 & _ & H3 & _). rewrite E. cbn [bind].
    eexists. split; [reflexivity|]. rewrite (ll_empty_core _ _ _ Hc). split; [|exact H3]. destruct q as [|y q]; cbn [length Nat.eqb tl] in * .
    - constructor; cbn; auto; congruence.
    - constructor; cbn [xl_list xl_size]; auto; [congruence|lia|]. rewrite Hs. now apply sz_dec.
  Qed.

  Lemma count_core s q lk : ll_core (T := T) s q lk -> ll_core (ll_count s) q lk.
  Proof. intros [A B C]. constructor; auto. Qed.

  Lemma xl_update_rep W s q k lk ev x : 1 <= W -> (N.of_nat (W + S k) < 2 ^ 64)%N -> xl_rep W s q k lk ->
    let '(q', k', o) := lq_update W q k ev x in
    exists s', xl_update dflt ev s x = Ret (s', match o with Some _ => true | None => false end) /\ xl_rep W s' q' k' lk /\
      k' <= S k /\ ll_history (xl_list s') = ll_history (xl_list s) + match o with Some _ => 1 | None => 0 end.
  Proof.
    intros HW1 HB [HW Hl Hs Hc]. unfold lq_update, xl_update. destruct (ll_link_core _ _ _ x Hc) as (l1 & E1 & Hc1 & Hw1 & Hh1).
    rewrite E1. cbn [bind]. rewrite (ll_empty_core _ _ _ Hc), HW, Hs, sz_full by lia.
    destruct (Nat.eqb_spec (length q) (W + k)) as [E|E].
    - destruct q as [|y q]; [cbn in E; lia|]. cbn [length Nat.eqb negb andb]. cbn [length] in E.
      assert (HP : exists l2 v, ll_pop dflt l1 = Ret (l2, v) /\ ll_core l2 (q ++ [x]) lk /\ ll_window l2 = W /\ ll_history l2 = ll_history (xl_list s)).
      { destruct (ll_pop_core dflt _ _ _ Hc1) as (l2 & Ep & Hc2 & H1 & _ & H3 & _). exists l2. eexists. split; [exact Ep|]. split; [exact Hc2|]. split; congruence. }
      destruct HP as (l2 & v & Ep & Hc2 & Hw2 & Hh2).
      assert (He : ll_empty l1 = false) by (rewrite (ll_empty_core _ _ _ Hc1); reflexivity).
      destruct ev; cbn [tl].
      + unfold xl_pop. cbn [xl_list xl_size]. rewrite Ep. cbn [bind]. rewrite He. eexists. split; [reflexivity|].
        split; [constructor; cbn [xl_list xl_size ll_count ll_window]; auto|split; [lia|cbn; lia]].
        * rewrite app_length. cbn. lia.
        * rewrite app_length. cbn [length]. rewrite sz_dec, sz_inc by lia. f_equal. lia.
        * now apply count_core.
      + eexists. split; [reflexivity|]. split; [constructor; cbn [xl_list xl_size]; auto; [congruence| |]|split; [lia|cbn; lia]].
        * rewrite app_length. cbn. lia.
        * rewrite app_length. replace (length (y :: q) + length [x]) with (S (S (length q))) by (cbn; lia). symmetry. apply sz_more. lia.
      + unfold xl_pop. cbn [xl_list xl_size]. rewrite Ep. cbn [bind]. rewrite He. eexists. split; [reflexivity|].
        split; [constructor; cbn [xl_list xl_size]; auto|split; [lia|cbn; lia]].
        * rewrite app_length. cbn. lia.
        * rewrite app_length. replace (length q + length [x]) with (S (length q)) by (cbn; lia). rewrite sz_dec by lia. symmetry. apply sz_more. lia.
    - replace (negb (length q =? 0) && false) with false by (destruct (length q =? 0); reflexivity).
      eexists. split; [reflexivity|]. split; [constructor; cbn [xl_list xl_size ll_count ll_window]; auto|split; [lia|cbn; lia]].
      + congruence.
      + rewrite app_length. cbn. lia.
      + rewrite app_length. replace (length q + length [x]) with (S (length q)) by (cbn; lia). now rewrite sz_inc by lia.
      + now apply count_core.
  Qed.

  Lemma xl_react_rep W s q k lk e : 1 <= W -> (N.of_nat (W + S k) < 2 ^ 64)%N -> xl_rep W s q k lk ->
    (match e with LCall CReset => q <> [] | _ => True end) ->
    let '(q', k', o) := lq_event W dflt q k e in
    exists s' lk', xl_react dflt s e = Ret (s', o) /\ xl_rep W s' q' k' lk' /\ k' <= S k /\
      ll_history (xl_list s') = ll_history (xl_list s) + list_done [e] [o].
  Proof.
    intros HW1 HB H Hr. destruct e as [[x| | | | |]|x|ev x| |]; cbn [lq_event xl_react].
    - pose proof (xl_update_rep W s q k lk EvictOk x HW1 HB H) as G. unfold lq_update in * . destruct (length q =? W + k).
      + destruct G as (s' & E & H' & Hk & Hh). rewrite E. exists s', lk. auto.
      + destruct G as (s' & E & H' & Hk & Hh). rewrite E. exists s', lk. auto.
    - destruct (xl_pop_rep W s q k lk) as (s' & E & H' & Hh); [lia|auto|]. rewrite E. exists s', lk. split; [reflexivity|]. split; [exact H'|]. split; [lia|]. cbn. lia.
    - destruct H as [HW Hl Hs Hc]. unfold ll_reset. rewrite (ll_free_loop_core _ _ _ Hc Hr). cbn [bind].
      eexists. exists (q ++ lk). split; [reflexivity|]. split; [|split; [lia|cbn; lia]].
      destruct Hc as [H1 H2 H3]. constructor; cbn [xl_list xl_size ll_window]; auto; [cbn; lia|].
      constructor; cbn [ll_heap ll_fresh ll_head ll_tail]; auto. exists []. cbn. split; [auto|]. split; [constructor|]. split; auto; congruence.
    - exists s, lk. rewrite (xr_size _ _ _ _ _ H). split; [reflexivity|]. split; [exact H|]. split; [lia|cbn; lia].
    - exists s, lk. rewrite (ll_empty_core _ _ _ (xr_core _ _ _ _ _ H)). split; [reflexivity|]. split; [exact H|]. split; [lia|cbn; lia].
    - exists s, lk. rewrite (ll_full_core _ _ _ (xr_core _ _ _ _ _ H)). split; [reflexivity|]. split; [exact H|]. split; [lia|cbn; lia].
    - exists s, lk. split; [reflexivity|]. split; [exact H|]. split; [lia|cbn; lia].
    - pose proof (xl_update_rep W s q k lk ev x HW1 HB H) as G. unfold lq_update in * . destruct (length q =? W + k); [destruct ev|];
        destruct G as (s' & E & H' & Hk & Hh); rewrite E; exists s', lk; auto.
    - exists s, lk. split; [reflexivity|]. split; [exact H|]. split; [lia|cbn; lia].
    - destruct (xl_pop_rep W s q k lk) as (s' & E & H' & Hh); [lia|auto|]. rewrite E. exists s', lk. split; [reflexivity|]. split; [exact H'|]. split; [lia|]. cbn. lia.
  Qed.

  Lemma list_done_cons (e : list_event T) es o os : list_done (e :: es) (o :: os) = list_done [e] [o] + list_done es os.
  Proof. destruct e as [[]| | | |], o; reflexivity. Qed.

  Lemma xl_reacts_rep W es : 1 <= W -> forall s q k lk, (N.of_nat (W + k + length es) < 2 ^ 64)%N -> xl_rep W s q k lk -> lq_resets_ok W dflt q k es ->
    let '(q', k', os) := lq_events W dflt q k es in
    exists s', xl_reacts dflt s es = Ret (s', os) /\ ll_display (xl_list s') = Ret q' /\ ll_history (xl_list s') = ll_history (xl_list s) + list_done es os.
  Proof.
    intros HW1. induction es as [|e es IH]; intros s q k lk HB H Hr.
    - cbn. exists s. split; [reflexivity|]. split; [|lia]. exact (ll_display_core _ _ _ (xr_core _ _ _ _ _ H)).
    - cbn [lq_resets_ok] in Hr. destruct Hr as [Hr Hrs]. cbn [length] in HB. assert (HB' : (N.of_nat (W + S k) < 2 ^ 64)%N) by lia.
      pose proof (xl_react_rep W s q k lk e HW1 HB' H Hr) as G. cbn [lq_events xl_reacts].
      destruct (lq_event W dflt q k e) as [[q1 k1] o]. destruct G as (s1 & lk1 & E1 & H1 & Hk1 & Hh1). rewrite E1. cbn [bind].
      specialize (IH s1 q1 k1 lk1 ltac:(lia) H1 Hrs). destruct (lq_events W dflt q1 k1 es) as [[q2 k2] os]. destruct IH as (s2 & E2 & Hd & Hh2).
      rewrite E2. cbn [bind]. exists s2. split; [reflexivity|]. split; auto. rewrite list_done_cons. lia.
  Qed.

  Lemma list_throws W es : 1 <= W -> (N.of_nat (W + length es) < 2 ^ 64)%N -> lq_resets_ok W dflt [] 0 es ->
    let '(q, k, os) := lq_events W dflt [] 0 es in
    exists s, xl_reacts dflt (xl_new W) es = Ret (s, os) /\ ll_display (xl_list s) = Ret q /\ ll_history (xl_list s) = list_done es os.
  Proof.
    intros HW1 HB Hr. apply (xl_reacts_rep W es HW1 (xl_new W) [] 0 []); auto; [lia|].
    constructor; cbn [xl_new xl_list xl_size]; auto; [cbn; lia|]. apply (lr_core _ _ _ _ (ll_new_rep W)).
  Qed.

  Lemma lq_call W (q : list T) c : 1 <= W -> (N.of_nat W < 2 ^ 64)%N -> length q <= W ->
    lq_event W dflt q 0 (LCall c) = (fst (q0_call W dflt q c), 0, Some (snd (q0_call W dflt q c))) /\ length (fst (q0_call W dflt q c)) <= W.
  Proof.
    intros HW HB Hl. destruct W as [|W]; [lia|]. destruct c; cbn [lq_event q0_call q_call fst snd]; auto.
    - unfold lq_update. rewrite Nat.add_0_r. destruct (Nat.eqb_spec (length q) (S W)) as [E|E].
      + rewrite lastn_snoc_full by lia. split; [reflexivity|]. rewrite app_length. destruct q; cbn in *; lia.
      + rewrite lastn_snoc_short by lia. split; [reflexivity|]. rewrite app_length. cbn. lia.
    - destruct q; cbn in *; split; auto; lia.
    - cbn. split; auto; lia.
    - split; auto. do 3 f_equal. change (N.of_nat 0) with 0%N. rewrite N.sub_0_r.
      replace (N.of_nat (length q) + 2 ^ 64)%N with (N.of_nat (length q) + 1 * 2 ^ 64)%N by lia. rewrite N.mod_add, N.mod_small by lia. reflexivity.
  Qed.

  Lemma lq_strong W es : 1 <= W -> (N.of_nat W < 2 ^ 64)%N -> list_strong es -> forall q : list T, length q <= W ->
    lq_resets_ok W dflt q 0 es ->
    handed (snd (lq_events W dflt q 0 es)) = snd (q0_run W dflt q (list_calls es)) /\ resets_ok W dflt q (list_calls es).
  Proof.
    intros HW HB. induction 1 as [|e es He HF IH]; intros q Hl Hr; [auto|].
    destruct e as [c|x|ev x| |]; try contradiction; cbn [lq_events list_calls q0_run resets_ok lq_resets_ok] in * .
    - destruct (lq_call W q c HW HB Hl) as [E Hl']. rewrite E in * . destruct (q0_call W dflt q c) as [q1 o]. cbn [fst snd] in * .
      destruct Hr as [Hr1 Hr2]. destruct (IH q1 Hl' Hr2) as [I1 I2]. destruct (lq_events W dflt q1 0 es) as [[q2 k2] os], (q0_run W dflt q1 (list_calls es)). cbn in * .
      rewrite I1. auto.
    - cbn [lq_event] in * . destruct Hr as [_ Hr]. destruct (IH q Hl Hr) as [I1 I2]. destruct (lq_events W dflt q 0 es) as [[q2 k2] os]. auto.
    - cbn [lq_event] in * . destruct Hr as [_ Hr]. destruct (IH q Hl Hr) as [I1 I2]. destruct (lq_events W dflt q 0 es) as [[q2 k2] os]. auto.
  Qed.

  Lemma list_strong_calls W es : 1 <= W -> (N.of_nat (W + length es) < 2 ^ 64)%N -> lq_resets_ok W dflt [] 0 es -> list_strong es ->
    exists s os t, xl_reacts dflt (xl_new W) es = Ret (s, os) /\ ll_run dflt (ll_new W) (list_calls es) = Ret (t, handed os).
  Proof.
    intros HW HB Hr HS. pose proof (list_throws W es HW HB Hr) as G. assert (HB' : (N.of_nat W < 2 ^ 64)%N) by lia.
    destruct (lq_strong W es HW HB' HS [] (Nat.le_0_l W) Hr) as [I1 I2].
    destruct (lq_events W dflt [] 0 es) as [[q k] os]. destruct G as (s & E & _). destruct (ll_fifo dflt W (list_calls es) I2) as (t & Et & _).
    exists s, os, t. split; auto. rewrite Et. cbn in I1. now rewrite I1.
  Qed.
End List_.

Lemma list_window_grows :
  exists (es : list (list_event nat)) s,
    list_calls es = [CUpdate 1; CUpdate 2; CUpdate 4; CSize; CPop; CPop; CPop; CEmpty; CSize] /\
    xl_reacts 0 (xl_new 2) es =
      Ret (s, [Some OUnit; Some OUnit; None; Some OUnit; Some (ONum 2%N); Some (OVal 2); Some (OVal 3); Some (OVal 4);
               Some (OBool true); Some (ONum (2 ^ 64 - 1)%N)]).
Proof.
  set (es := [LCall (CUpdate 1); LCall (CUpdate 2); LEvictThrows EvictCopyThrows 3; LCall (CUpdate 4); LCall CSize;
              LCall CPop; LCall CPop; LCall CPop; LCall CEmpty; LCall CSize] : list (list_event nat)).
  exists es.
  assert (E : lq_events 2 0 [] 0 es = ([], 1, [Some OUnit; Some OUnit; None; Some OUnit; Some (ONum 2%N); Some (OVal 2); Some (OVal 3); Some (OVal 4);
               Some (OBool true); Some (ONum (2 ^ 64 - 1)%N)])) by (vm_compute; reflexivity).
  assert (G : lq_resets_ok 2 0 [] 0 es) by (repeat split).
  assert (B : (N.of_nat (2 + length es) < 2 ^ 64)%N) by (vm_compute; reflexivity).
  pose proof (list_throws 0 2 es (le_S _ _ (le_n 1)) B G) as H. rewrite E in H. destruct H as (s & H & _).
  exists s. split; [reflexivity|exact H].
Qed.
