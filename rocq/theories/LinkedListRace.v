(** LinkedList: data races, and what the mutex of reset is worth. *)

From Coq Require Import List Arith Lia Bool.
From stdpp Require Import gmap.
From Verif Require Import Outcome Calls LinkedList LinkedListConc LinkedListConcSpec Spec ListFacts LinkedListConcFacts.
Import ListNotations.

Section Race.
  Context {T : Type} (dflt : T).

  (** The loop of reset, uninterrupted. *)
  Lemma lfinish_walk f : forall (m : llist T) p k h' fuel m' o,
    ll_walk f (ll_heap m) p = Ret h' -> lfinish fuel m k = Ret (m', o) ->
    h' = ll_heap m /\ exists fuel', lfinish fuel' m (LWalk p k) = Ret (m', o).
  Proof.
    induction f as [|f IH]; intros m p k h' fuel m' o Hw Hk.
    - destruct p; [discriminate|]. cbn in Hw. injection Hw as <-. split; auto. exists (S fuel). cbn. exact Hk.
    - destruct p as [l|]; cbn in Hw.
      + destruct (ll_heap m !! l) as [n|] eqn:El; cbn in Hw; [|discriminate].
        assert (Hw' : ll_walk f (ll_heap m) (n_next n) = Ret h') by (destruct (n_prev n); exact Hw).
        destruct (IH _ _ k _ _ _ _ Hw' Hk) as (E & fuel' & Ef). split; auto.
        destruct (n_prev n) eqn:Ep.
        * exists (S (S (S fuel'))). cbn. rewrite El. cbn. rewrite Ep. cbn. rewrite El. cbn. exact Ef.
        * exists (S (S (S (S (S fuel'))))). cbn. rewrite El. cbn. rewrite Ep. cbn. rewrite El. cbn. rewrite Ep. cbn. rewrite El. cbn. exact Ef.
      + injection Hw as <-. split; auto. exists (S fuel). cbn. exact Hk.
  Qed.

  Lemma lfinish_reset (m m' : llist T) o : ll_call dflt m CReset = Ret (m', o) ->
    exists fuel, lfinish fuel m (lbody dflt (ll_window m) CReset) = Ret (m', o).
  Proof.
    unfold ll_call, ll_reset, ll_free_loop. intros H.
    destruct (ll_head m) as [l|] eqn:Eh; [|discriminate]. cbn [deref] in H.
    destruct (ll_heap m !! l) as [n|] eqn:El; [|discriminate]. cbn [bind] in H.
    destruct (ll_walk _ _ (n_next n)) as [h'| |] eqn:Ew; try discriminate. cbn [bind] in H. injection H as <- <-.
    destruct (lfinish_walk _ _ _ (LWriteSize 0 (LWriteHead None (LWriteTail None (LDone OUnit)))) _ 4
       (LList (ll_window m) None None 0 (ll_history m) (ll_heap m) (ll_fresh m)) OUnit Ew eq_refl) as (-> & fuel & Ef).
    exists (S (S fuel)). cbn [lbody l_reset lfinish laccess bind]. rewrite Eh. cbn [deref]. rewrite El. cbn [bind]. exact Ef.
  Qed.

  Lemma lfinish_call (m m' : llist T) o c :
    (forall l, ll_fresh m <= l -> ll_heap m !! l = None) ->
    (forall t, ll_tail m = Some t -> t < ll_fresh m) ->
    ll_call dflt m c = Ret (m', o) ->
    exists fuel, lfinish fuel m (lbody dflt (ll_window m) c) = Ret (m', o).
  Proof.
    intros H1 H2 H. destruct c; try (exists 30; rewrite lfinish_body; [exact H|discriminate|auto|auto]).
    now apply lfinish_reset.
  Qed.

  Lemma list_races W (x : T) b : exists s c,
    lexec dflt (lstart W [[CUpdate x]; [b]]) s = Ret c /\ lrace c (CUpdate x) b.
  Proof.
    destruct b.
    - exists [0;0;0;1;1]. eexists. split; [vm_compute; reflexivity|].
      exists 0, 1. do 7 eexists. do 7 (split; [first [discriminate|reflexivity]|]). now left.
    - exists [0;0;0;1]. eexists. split; [vm_compute; reflexivity|].
      exists 0, 1. do 7 eexists. do 7 (split; [first [discriminate|reflexivity]|]). now left.
    - exists [0;0;0;1]. eexists. split; [vm_compute; reflexivity|].
      exists 0, 1. do 7 eexists. do 7 (split; [first [discriminate|reflexivity]|]). now left.
    - exists [0;0;0;0;0;0;1]. eexists. split; [vm_compute; reflexivity|].
      exists 0, 1. do 7 eexists. do 7 (split; [first [discriminate|reflexivity]|]). now left.
    - exists [0;0;0;1]. eexists. split; [vm_compute; reflexivity|].
      exists 0, 1. do 7 eexists. do 7 (split; [first [discriminate|reflexivity]|]). now left.
    - exists [0;0;0;1]. eexists. split; [vm_compute; reflexivity|].
      exists 0, 1. do 7 eexists. do 7 (split; [first [discriminate|reflexivity]|]). now left.
  Qed.

  Lemma reset_breaks_update W (x y : T) : exists s,
    lexec dflt (lstart W [[CUpdate x; CUpdate y]; [CReset]]) s = Undef NullDeref.
  Proof. exists (repeat 0 10 ++ repeat 0 3 ++ repeat 1 8 ++ [0; 0]). vm_compute. reflexivity. Qed.

  Lemma reset_breaks_pop W (x : T) : exists s,
    lexec dflt (lstart W [[CUpdate x; CPop]; [CReset]]) s = Undef NullDeref.
  Proof. exists (repeat 0 10 ++ repeat 0 2 ++ repeat 1 8 ++ [0; 0]). vm_compute. reflexivity. Qed.

  (** Concurrent resets. *)
  Definition fin : lprog T := LWriteTail None (LDone OUnit).
  Definition rest : lprog T := LWriteSize 0 (LWriteHead None fin).
  Inductive before : lprog T -> Prop :=
  | b_head k : (forall h, before (k h)) -> before (LReadHead k)
  | b_load p k : (forall n, before (k n)) -> before (LLoad p k)
  | b_free p k : before k -> before (LFree p k)
  | b_walk p : before (LWalk p rest)
  | b_size : before rest
  | b_write : before (LWriteHead None fin).

  Lemma before_reset : before l_reset.
  Proof. constructor; intros h. constructor; intros n. apply b_walk. Qed.

  Lemma before_access (m m' : llist T) p p' : before p -> laccess m p = Ret (m', p') ->
    before p' \/ (p' = fin /\ ll_head m' = None).
  Proof.
    intros H E. inversion H; subst; cbn in E.
    - injection E as <- <-. auto.
    - destruct (deref (ll_heap m) p0) as [[l n]| |]; cbn in E; try discriminate. injection E as <- <-. auto.
    - destruct p0 as [l|]; [|injection E as <- <-; auto].
      change (bind (deref (ll_heap m) (Some l)) (fun '(l, _) => Ret (with_heap m (delete l (ll_heap m)), k)) = Ret (m', p')) in E.
      destruct (deref (ll_heap m) (Some l)) as [[l' n]| |]; cbn [bind] in E; try discriminate. injection E as <- <-. auto.
    - injection E as <- <-. left. destruct p0; [|constructor]. constructor; intros n. destruct (n_prev n).
      + constructor; intros. constructor.
      + constructor; intros. constructor. constructor; intros. constructor.
    - injection E as <- <-. left. constructor.
    - injection E as <- <-. right. auto.
  Qed.

  Record rinv (c : lconfig T) : Prop := {
    ri_todo : forall i th, nth_error (lc_threads c) i = Some th -> Forall (eq CReset) (lt_todo th);
    ri_cur : forall i th call p, nth_error (lc_threads c) i = Some th -> lt_cur th = Some (call, p) ->
      call = CReset /\ lc_lock c = Some i /\
      ((completed c = 0 /\ before p) \/
       (completed c = 0 /\ (p = fin \/ p = LDone OUnit) /\ ll_head (lc_mem c) = None) \/
       (completed c = 1 /\ (p = l_reset \/ exists k, p = LLoad None k)));
    ri_done : completed c = 0 \/ (completed c = 1 /\ ll_head (lc_mem c) = None)
  }.

  Lemma completed_set (l : list (lthread T)) i th th' : nth_error l i = Some th ->
    length (concat (map lt_done (set_nth l i th'))) + length (lt_done th) =
    length (concat (map lt_done l)) + length (lt_done th').
  Proof.
    revert i. induction l as [|a l IH]; intros [|i] H; cbn in *; try discriminate.
    - injection H as ->. rewrite !app_length. lia.
    - rewrite !app_length. specialize (IH i H). lia.
  Qed.

  Lemma nth_set_cases {X} (l : list X) i j a b : nth_error (set_nth l i a) j = Some b ->
    (i = j /\ a = b) \/ (i <> j /\ nth_error l j = Some b).
  Proof.
    rewrite nth_error_set_nth. destruct (Nat.eqb_spec i j); auto.
    destruct (i <? length l); [|discriminate]. intros H; injection H; auto.
  Qed.

  Lemma rstep c i c' : rinv c -> lstep dflt c i = Some (Ret c') -> rinv c'.
  Proof.
    intros [Ht Hc Hd] Hs. unfold lstep in Hs.
    destruct (nth_error (lc_threads c) i) as [th|] eqn:Hi; [|discriminate].
    destruct (lt_cur th) as [[call p]|] eqn:Ec.
    - destruct (Hc _ _ _ _ Hi Ec) as (-> & Hl & Hp).
      assert (Hothers : forall j tj call p, j <> i -> nth_error (lc_threads c) j = Some tj -> lt_cur tj = Some (call, p) -> False).
      { intros j tj call q Hj Nj Cj. destruct (Hc _ _ _ _ Nj Cj) as (_ & Hl' & _). congruence. }
      assert (Hcases : (p = LDone OUnit /\ c' = LConfig (lc_mem c) None (set_nth (lc_threads c) i (LThread None (lt_todo th) (lt_done th ++ [(CReset, OUnit)])))) \/
        exists m' p', laccess (lc_mem c) p = Ret (m', p') /\ (forall o, p <> LDone o) /\
          c' = LConfig m' (lc_lock c) (set_nth (lc_threads c) i (LThread (Some (CReset, p')) (lt_todo th) (lt_done th)))).
      { assert (Hd' : forall o, p = LDone o -> o = OUnit).
        { intros o ->. destruct Hp as [[_ B]|[(_ & [E|E] & _)|(_ & [E|[k E]])]]; try discriminate; [inversion B|congruence]. }
        assert (Hx : (exists o, p = LDone o) \/ ((forall o, p <> LDone o) /\
            (bind (laccess (lc_mem c) p) (fun '(m', p') => Ret (LConfig m' (lc_lock c) (set_nth (lc_threads c) i (LThread (Some (CReset, p')) (lt_todo th) (lt_done th))))) = Ret c'))).
        { destruct p; [left; eauto|..]; (right; split; [discriminate|exact (f_equal (fun o => match o with Some r => r | None => Undef NullDeref end) Hs)]). }
        destruct Hx as [[o ->]|[Hn Hx]].
        2: { right. destruct (laccess (lc_mem c) p) as [[m' p']| |]; cbn [bind] in Hx; try discriminate. injection Hx as <-. exists m', p'. auto. }
        left. rewrite (Hd' o eq_refl). rewrite (Hd' o eq_refl) in Hs. cbn in Hs. injection Hs as <-. auto. }
      destruct Hcases as [(-> & ->)|(m' & p' & Ea & Hnd & ->)].
      + assert (C0 : completed c = 0 /\ ll_head (lc_mem c) = None).
        { destruct Hp as [[_ B]|[(A & _ & B)|(_ & [E|[k E]])]]; try discriminate; auto. inversion B. }
        destruct C0 as [C0 H0]. pose proof (completed_set (lc_threads c) i th (LThread None (lt_todo th) (lt_done th ++ [(CReset, OUnit)])) Hi) as L.
        cbn [lt_done] in L. rewrite app_length in L. cbn [length] in L. unfold completed in * .
        constructor; cbn [lc_threads lc_lock lc_mem].
        * intros j tj Nj. apply nth_set_cases in Nj as [[-> <-]|[Hn Nj]]; [eapply Ht in Hi; exact Hi|eauto].
        * intros j tj call q Nj Cj. apply nth_set_cases in Nj as [[-> <-]|[Hn Nj]]; [discriminate|]. exfalso. eapply Hothers; eauto.
        * right. unfold completed. cbn [lc_threads]. split; [lia|auto].
      + pose proof (completed_set (lc_threads c) i th (LThread (Some (CReset, p')) (lt_todo th) (lt_done th)) Hi) as L.
        cbn [lt_done] in L. assert (L' : completed (LConfig m' (lc_lock c) (set_nth (lc_threads c) i (LThread (Some (CReset, p')) (lt_todo th) (lt_done th)))) = completed c)
          by (unfold completed; cbn [lc_threads]; lia).
        assert (G : ((completed c = 0 /\ before p') \/ (completed c = 0 /\ (p' = fin \/ p' = LDone OUnit) /\ ll_head m' = None) \/
                  (completed c = 1 /\ (p' = l_reset \/ exists k, p' = LLoad None k))) /\ (completed c = 0 \/ (completed c = 1 /\ ll_head m' = None))).
        { destruct Hp as [[A B]|[(A & [->| ->] & B)|(A & [->|[k ->]])]].
          - destruct (before_access _ _ _ _ B Ea) as [B'|[-> B']]; (split; [tauto|tauto]).
          - cbn in Ea. injection Ea as <- <-. cbn [ll_head]. split; tauto.
          - now destruct (Hnd OUnit).
          - cbn in Ea. injection Ea as <- <-. destruct Hd as [Hd|[Hd1 Hd2]]; [congruence|]. rewrite Hd2. split; [|auto]. right. right. split; [auto|]. right. eauto.
          - discriminate Ea. }
        destruct G as [G1 G2]. constructor; cbn [lc_threads lc_lock lc_mem].
        * intros j tj Nj. apply nth_set_cases in Nj as [[-> <-]|[Hn Nj]]; [eapply Ht in Hi; exact Hi|eauto].
        * intros j tj call q Nj Cj. rewrite L'. apply nth_set_cases in Nj as [[-> <-]|[Hn Nj]].
          -- cbn in Cj. injection Cj as <- <-. auto.
          -- exfalso. eapply Hothers; eauto.
        * rewrite L'. exact G2.
    - destruct (lt_todo th) as [|call rst] eqn:Et; [discriminate|].
      pose proof (Ht _ _ Hi) as F. rewrite Et in F. inversion F as [|? ? E F']; subst. cbn [llocked] in Hs.
      destruct (lc_lock c) eqn:El; [discriminate|]. injection Hs as <-.
      assert (Hothers : forall j tj call p, nth_error (lc_threads c) j = Some tj -> lt_cur tj = Some (call, p) -> False).
      { intros j tj call q Nj Cj. destruct (Hc _ _ _ _ Nj Cj) as (_ & Hl' & _). congruence. }
      set (th' := LThread _ _ _). pose proof (completed_set (lc_threads c) i th th' Hi) as L. cbn [lt_done th'] in L.
      assert (L' : completed (LConfig (lc_mem c) (Some i) (set_nth (lc_threads c) i th')) = completed c) by (unfold completed; cbn [lc_threads]; lia).
      constructor; cbn [lc_threads lc_lock lc_mem].
      + intros j tj Nj. apply nth_set_cases in Nj as [[-> <-]|[Hn Nj]]; [exact F'|eauto].
      + intros j tj call q Nj Cj. rewrite L'. apply nth_set_cases in Nj as [[-> <-]|[Hn Nj]].
        * cbn in Cj. injection Cj as <- <-. split; [auto|]. split; [auto|].
          destruct Hd as [Hd|[Hd _]]; [left; split; auto; apply before_reset|]. right. right. auto.
        * exfalso. eapply Hothers; eauto.
      + rewrite L'. exact Hd.
  Qed.

  Lemma one_reset (m : llist T) ps sched c : Forall (Forall (eq CReset)) ps ->
    lexec dflt (LConfig m None (map (fun p => LThread None p []) ps)) sched = Ret c -> completed c <= 1.
  Proof.
    intros HF. set (c0 := LConfig m None _).
    assert (I0 : rinv c0).
    { constructor; cbn.
      - intros i th Hi. apply nth_error_In, in_map_iff in Hi as (p & <- & Hp). exact (proj1 (List.Forall_forall _ _) HF _ Hp).
      - intros i th call p Hi Hc. apply nth_error_In, in_map_iff in Hi as (p' & <- & _). discriminate.
      - left. unfold completed. cbn. clear. induction ps; cbn; auto. }
    clearbody c0. revert c0 I0. induction sched as [|i sched IH]; intros c0 I0 E; cbn in E.
    - injection E as <-. destruct I0 as [_ _ [Hd|[Hd _]]]; lia.
    - destruct (lstep dflt c0 i) as [[c1| |]|] eqn:Es; cbn in E; try discriminate; eauto.
      eapply IH; [eapply rstep; eauto|exact E].
  Qed.
End Race.
