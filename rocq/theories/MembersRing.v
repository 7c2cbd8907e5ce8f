(** Proofs: RingBuffer whose m_windowSize is assigned to. *)

From Coq Require Import List NArith Arith Lia Bool.
From Verif Require Import Outcome Calls RingBuffer Spec ListFacts RingBufferFacts Members MembersSpec.
Import ListNotations.

Section Ring.
  Context {T : Type} (dflt : T).

  Definition written (b : list (option T)) (m : nat) : Prop :=
    forall i, i < m -> exists x, nth_error b i = Some (Some x).

  Lemma written_set b m i x : written b m -> i < length b -> i <= m ->
    written (set_nth b i (Some x)) (Nat.max m (i + 1)).
  Proof.
    intros H L Li j Lj. rewrite nth_error_set_nth.
    destruct (Nat.eqb_spec i j) as [->|n0].
    - destruct (Nat.ltb_spec j (length b)); [eauto|lia].
    - apply H. lia.
  Qed.

  Lemma written_le b m n : written b m -> n <= m -> written b n.
  Proof. intros H L i Li. apply H. lia. Qed.

  Lemma written_set_any b m i x : written b m -> written (set_nth b i (Some x)) m.
  Proof.
    intros H j Lj. rewrite nth_error_set_nth.
    destruct (Nat.eqb_spec i j) as [->|n0]; [|now apply H].
    destruct (Nat.ltb_spec j (length b)); [eauto|]. destruct (H j Lj) as [y Ey].
    assert (j < length b) by (apply nth_error_Some; congruence). lia.
  Qed.

  (** Either the cells below the window size are all written, or the buffer has not
      wrapped yet. *)
  Record shr (W w : nat) (s : ring T) : Prop := {
    sh_w : rb_window s = N.of_nat w;
    sh_1 : 1 <= w <= W;
    sh_2 : (N.of_nat W < two64)%N;
    sh_len : length (rb_buf s) = W;
    sh_ex : exists t h, rb_tail s = N.of_nat t /\ rb_head s = N.of_nat h /\ h < W /\ t < W /\
      ((exists m, w <= m /\ t < m /\ written (rb_buf s) m) \/
       (rb_full s = false /\ t <= h /\ written (rb_buf s) h))
  }.

  Lemma shr_new W : 1 <= W -> (N.of_nat W < two64)%N -> shr W W (rb_new (N.of_nat W)).
  Proof.
    intros H1 H2. split; cbn; auto.
    - now rewrite repeat_length, Nat2N.id.
    - exists 0, 0. repeat split; auto. right. repeat split; auto. intros i Hi. lia.
  Qed.

  Lemma umod_next a W w : a < W -> (N.of_nat W < two64)%N -> 1 <= w ->
    umod (wrap64 (N.of_nat a + 1)) (N.of_nat w) = Ret (N.of_nat ((a + 1) mod w)).
  Proof.
    intros Ha HW H1. unfold umod, wrap64.
    destruct (N.eqb_spec (N.of_nat w) 0); [lia|].
    rewrite (N.mod_small (N.of_nat a + 1) two64) by lia.
    f_equal. rewrite Nat2N.inj_mod. f_equal. lia.
  Qed.

  Lemma next_cases a w : 1 <= w -> (a + 1) mod w < w /\ (a + 1 < w -> (a + 1) mod w = a + 1) /\ (a + 1) mod w <= a + 1.
  Proof.
    intros H. split; [apply Nat.mod_upper_bound; lia|]. split; [intros; now apply Nat.mod_small|apply Nat.mod_le; lia].
  Qed.

  Lemma shr_update W w s x : shr W w s -> exists s', rb_update s x = Ret s' /\ shr W w s'.
  Proof.
    intros [Hw H1 H2 Hl (t & h & Ht & Hh & Lh & Lt & D)].
    unfold rb_update. rewrite Hw, Ht, Hh, Nat2N.id. rewrite store_Ret by lia. cbn [bind].
    destruct (next_cases h w) as (Bh & Ch & Mh); [lia|]. destruct (next_cases t w) as (Bt & Ct & Mt); [lia|].
    assert (E : exists t', (if rb_full s then umod (wrap64 (N.of_nat t + 1)) (N.of_nat w) else Ret (N.of_nat t)) = Ret (N.of_nat t') /\
      (t' = t \/ (t' = (t + 1) mod w /\ rb_full s = true))).
    { destruct (rb_full s); [|eauto]. exists ((t + 1) mod w). split; [|auto]. apply (umod_next t W w); auto; lia. }
    destruct E as (t' & -> & Ht'). cbn [bind]. rewrite (umod_next h W w) by (auto; lia). cbn [bind].
    eexists. split; [reflexivity|]. split; cbn [rb_window rb_buf rb_head rb_tail rb_full]; auto.
    - now rewrite set_nth_length.
    - exists t', ((h + 1) mod w). split; [auto|]. split; [auto|]. split; [lia|]. split; [lia|].
      destruct D as [(m & Lm & Ltm & Wm)|(F & L & Wh)].
      + left. exists m. split; [auto|]. split; [lia|]. now apply written_set_any.
      + rewrite F in Ht'. destruct Ht' as [->|[_ K]]; [|discriminate K].
        assert (W' : written (set_nth (rb_buf s) h (Some x)) (h + 1)).
        { eapply written_le; [apply (written_set _ h h x Wh); lia|lia]. }
        destruct (Nat.lt_ge_cases (h + 1) w) as [Lw|Lw].
        * right. rewrite (Ch Lw). split; [apply N.eqb_neq; lia|]. split; [lia|auto].
        * left. exists (h + 1). split; [auto|]. split; [lia|auto].
  Qed.

  Lemma shr_pop W w s : shr W w s -> exists s' v, rb_pop dflt s = Ret (s', v) /\ shr W w s'.
  Proof.
    intros H. unfold rb_pop. destruct (rb_empty s) eqn:Em; [eauto|].
    destruct H as [Hw H1 H2 Hl (t & h & Ht & Hh & Lh & Lt & D)].
    rewrite Ht, Hw, Nat2N.id. unfold rb_empty in Em.
    assert (C : exists x, nth_error (rb_buf s) t = Some (Some x)).
    { destruct D as [(m & Lm & Ltm & Wm)|(F & L & Wh)]; [apply Wm; auto|]. apply Wh.
      rewrite F, Ht, Hh in Em. cbn in Em. apply N.eqb_neq in Em. lia. }
    destruct C as [x Ex]. unfold at_. rewrite Ex. cbn [bind].
    destruct (next_cases t w) as (Bt & Ct & Mt); [lia|].
    rewrite (umod_next t W w) by (auto; lia). cbn [bind]. do 2 eexists. split; [reflexivity|].
    split; cbn [rb_window rb_buf rb_head rb_tail rb_full]; auto.
    exists ((t + 1) mod w), h. split; [auto|]. split; [auto|]. split; [lia|]. split; [lia|].
    destruct D as [(m & Lm & Ltm & Wm)|(F & L & Wh)].
    - left. exists m. split; [auto|]. split; [lia|auto].
    - right. split; [auto|]. split; [|auto].
      rewrite F, Ht, Hh in Em. cbn in Em. apply N.eqb_neq in Em. lia.
  Qed.

  Lemma shr_act W w s c : shr W w s -> shrinking (N.of_nat w) [c] ->
    exists s' o w', rb_act dflt s c = Ret (s', o) /\ shr W w' s' /\
      (forall cs, shrinking (N.of_nat w) (c :: cs) -> shrinking (N.of_nat w') cs).
  Proof.
    intros H K. destruct c as [c|w'].
    - destruct c as [x| | | | |]; cbn [rb_act rb_call].
      + destruct (shr_update W w s x H) as (s' & -> & H'). cbn [bind]. exists s', OUnit, w. repeat split; auto.
        all: apply H'.
      + destruct (shr_pop W w s H) as (s' & v & -> & H'). cbn [bind]. exists s', (OVal v), w. repeat split; auto.
        all: apply H'.
      + exists (rb_reset s), OUnit, w. split; [auto|]. split; [|auto].
        destruct H as [Hw H1 H2 Hl (t & h & Ht & Hh & Lh & Lt & D)]. split; cbn; auto.
        exists t, t. split; [auto|]. split; [auto|]. split; [lia|]. split; [lia|].
        right. split; [auto|]. split; [lia|].
        destruct D as [(m & Lm & Ltm & Wm)|(F & L & Wh)]; eapply written_le; eauto; lia.
      + exists s, (ONum (rb_size s)), w. split; [auto|]. split; auto.
      + exists s, (OBool (rb_empty s)), w. split; [auto|]. split; auto.
      + exists s, (OBool (rb_isfull s)), w. split; [auto|]. split; auto.
    - destruct K as [K _]. exists (rb_set_window s w'), OUnit, (N.to_nat w'). split; [auto|]. split.
      + destruct H as [Hw H1 H2 Hl (t & h & Ht & Hh & Lh & Lt & D)]. split; cbn; auto; try lia.
        exists t, h. split; [auto|]. split; [auto|]. split; [lia|]. split; [lia|].
        destruct D as [(m & Lm & Ltm & Wm)|D]; [left|now right]. exists m. split; [lia|auto].
      + rewrite N2Nat.id. intros cs [_ Kc]. exact Kc.
  Qed.

  Lemma ring_shrink_safe W cs : 1 <= W -> (N.of_nat W < two64)%N -> shrinking (N.of_nat W) cs ->
    exists s os, rb_acts dflt (rb_new (N.of_nat W)) cs = Ret (s, os).
  Proof.
    intros H1 H2. pose proof (shr_new W H1 H2) as H. revert H. generalize (rb_new (T := T) (N.of_nat W)).
    assert (G : forall w s, shr W w s -> shrinking (N.of_nat w) cs -> exists s' os, rb_acts dflt s cs = Ret (s', os)).
    { induction cs as [|c cs IH]; intros w s H K; [cbn; eauto|]. cbn [rb_acts].
      destruct (shr_act W w s c H) as (s1 & o & w1 & -> & H' & K').
      { destruct c; cbn in *; tauto. }
      cbn [bind]. destruct (IH w1 s1 H' (K' _ K)) as (s2 & os & ->). cbn [bind]. eauto. }
    intros r H K. eapply G; eauto.
  Qed.

  (** ** Growing *)

  Lemma grow_updates W w xs : W < w -> (N.of_nat w < two64)%N -> forall (s : ring T) h t,
    rb_window s = N.of_nat w -> length (rb_buf s) = W -> rb_head s = N.of_nat h -> rb_tail s = N.of_nat t ->
    h <= W -> t < w -> W - h < length xs -> update_all rb_update s xs = Undef OutOfBounds.
  Proof.
    intros L1 L2. induction xs as [|x xs IH]; intros s h t Hw Hl Hh Ht L Lt Ln; [cbn in Ln; lia|].
    cbn [update_all]. unfold rb_update at 1. rewrite Hh, Nat2N.id.
    destruct (Nat.eq_dec h W) as [->|n0].
    { unfold store. replace (Nat.ltb W (length (rb_buf s))) with false by (symmetry; apply Nat.ltb_ge; lia). reflexivity. }
    rewrite store_Ret by lia. cbn [bind]. rewrite Hw, Ht.
    destruct (next_cases h w) as (_ & Ch & _); [lia|]. destruct (next_cases t w) as (Bt & _ & _); [lia|].
    assert (E : exists t', (if rb_full s then umod (wrap64 (N.of_nat t + 1)) (N.of_nat w) else Ret (N.of_nat t)) = Ret (N.of_nat t') /\ t' < w).
    { destruct (rb_full s); [|eauto]. exists ((t + 1) mod w). split; [|auto]. apply (umod_next t w w); auto; lia. }
    destruct E as (t' & -> & Lt'). cbn [bind]. rewrite (umod_next h w w) by (auto; lia). cbn [bind].
    rewrite Ch by lia.
    eapply IH with (h := h + 1) (t := t'); cbn [rb_window rb_buf rb_head rb_tail]; auto; try lia.
    - now rewrite set_nth_length.
    - cbn in Ln. lia.
  Qed.

  Lemma ring_grow W w cs s os xs : 1 <= W -> W < w -> (N.of_nat w < two64)%N ->
    rb_run dflt (rb_new (N.of_nat W)) cs = Ret (s, os) -> W < length xs ->
    update_all rb_update (rb_set_window s (N.of_nat w)) xs = Undef OutOfBounds.
  Proof.
    intros H1 L1 L2 E L. destruct (rb_reach dflt W cs s os H1 ltac:(lia) E) as [HW _ _ Hlen Hq Hf (t & Ht & HtW & Hh & Hc)].
    assert (Hm : (t + length (fst (q_run W dflt [] cs))) mod W < W) by (apply Nat.mod_upper_bound; lia).
    eapply (grow_updates W w); cbn; eauto; lia.
  Qed.

  Lemma grow_pops W w n : W < w -> (N.of_nat w < two64)%N -> forall (s : ring T) h t,
    rb_window s = N.of_nat w -> length (rb_buf s) = W -> rb_head s = N.of_nat h -> rb_tail s = N.of_nat t ->
    rb_full s = false -> h < t -> t <= W -> W - t < n ->
    (forall i, t <= i -> i < W -> exists x, nth_error (rb_buf s) i = Some (Some x)) ->
    rb_run dflt s (repeat CPop n) = Undef OutOfBounds.
  Proof.
    intros L1 L2. induction n as [|n IH]; intros s h t Hw Hl Hh Ht Hf Lh Lt Ln Hc; [lia|].
    cbn [repeat rb_run rb_call]. unfold rb_pop, rb_empty. rewrite Hf, Hh, Ht, Nat2N.id. cbn [negb andb].
    replace (N.of_nat h =? N.of_nat t)%N with false by (symmetry; apply N.eqb_neq; lia).
    destruct (Nat.eq_dec t W) as [->|n0].
    { rewrite at_oob by lia. reflexivity. }
    destruct (Hc t) as [x Ex]; [lia|lia|]. unfold at_. rewrite Ex. cbn [bind]. rewrite Hw.
    rewrite (umod_next t w w) by (auto; lia). cbn [bind]. destruct (next_cases t w) as (_ & Ct & _); [lia|].
    rewrite Ct by lia.
    rewrite (IH _ h (t + 1)); cbn [rb_window rb_buf rb_head rb_tail rb_full]; auto; try lia.
    intros i Li1 Li2. apply Hc; lia.
  Qed.

  Lemma ring_grow_pops W w cs s os : 1 <= W -> W < w -> (N.of_nat w < two64)%N ->
    rb_run dflt (rb_new (N.of_nat W)) cs = Ret (s, os) -> rb_isfull s = true ->
    rb_run dflt (rb_set_window s (N.of_nat w)) (repeat CPop (W + 1)) = Undef OutOfBounds.
  Proof.
    intros H1 L1 L2 E F. destruct (rb_reach dflt W cs s os H1 ltac:(lia) E) as [HW _ _ Hlen Hq Hf (t & Ht & HtW & Hh & Hc)].
    unfold rb_isfull in F. rewrite F in Hf. symmetry in Hf. apply Nat.eqb_eq in Hf.
    set (q := fst (q_run W dflt [] cs)) in * .
    assert (Hh' : rb_head s = N.of_nat t).
    { rewrite Hh, Hf, mod_small_cases by lia. destruct (Nat.ltb_spec (t + W) W); f_equal; lia. }
    assert (Hc' : forall i, t <= i -> i < W -> exists x, nth_error (rb_buf s) i = Some (Some x)).
    { intros i L3 L4. destruct (nth_error q (i - t)) as [x|] eqn:Ex.
      - exists x. rewrite <- (Hc _ _ Ex). f_equal. rewrite Nat.mod_small; lia.
      - apply nth_error_None in Ex. lia. }
    replace (W + 1) with (S W) by lia. cbn [repeat rb_run rb_call].
    unfold rb_pop, rb_empty, rb_set_window. cbn [rb_full rb_head rb_tail rb_buf rb_window rb_history].
    rewrite F, Ht, Nat2N.id. cbn [negb andb]. destruct (Hc' t) as [x Ex]; [lia|lia|]. unfold at_. rewrite Ex. cbn [bind].
    rewrite (umod_next t w w) by (auto; lia). cbn [bind]. destruct (next_cases t w) as (_ & Ct & _); [lia|].
    rewrite Ct by lia.
    rewrite (grow_pops W w W L1 L2 _ t (t + 1)); cbn [rb_window rb_buf rb_head rb_tail rb_full]; auto; try lia.
    intros i Li1 Li2. apply Hc'; lia.
  Qed.

  (** ** Window size zero *)

  Lemma ring_zero W cs s os : 1 <= W -> (N.of_nat W < two64)%N ->
    rb_run dflt (rb_new (N.of_nat W)) cs = Ret (s, os) ->
    (forall x, rb_update (rb_set_window s 0) x = Undef DivByZero) /\
    (rb_empty s = false -> rb_pop dflt (rb_set_window s 0) = Undef DivByZero).
  Proof.
    intros H1 H2 E. pose proof (rb_reach dflt W cs s os H1 H2 E) as R. split.
    - intros x. destruct R as [HW _ _ Hlen Hq Hf (t & Ht & HtW & Hh & Hc)].
      assert (Hm : (t + length (fst (q_run W dflt [] cs))) mod W < W) by (apply Nat.mod_upper_bound; lia).
      unfold rb_update, rb_set_window. cbn [rb_full rb_head rb_tail rb_buf rb_window rb_history].
      rewrite store_Ret by lia. cbn [bind]. unfold umod. rewrite N.eqb_refl. destruct (rb_full s); reflexivity.
    - intros Em. pose proof (rb_empty_rep _ _ _ R) as Em'. rewrite Em in Em'.
      destruct (fst (q_run W dflt [] cs)) as [|x q] eqn:Eq; [discriminate Em'|].
      destruct R as [HW _ _ Hlen Hq Hf (t & Ht & HtW & Hh & Hc)].
      unfold rb_pop. change (rb_empty (rb_set_window s 0)) with (rb_empty s). rewrite Em.
      unfold rb_set_window. cbn [rb_full rb_head rb_tail rb_buf rb_window rb_history].
      rewrite Ht, Nat2N.id. specialize (Hc 0 x eq_refl). rewrite Nat.add_0_r, Nat.mod_small in Hc by lia.
      unfold at_. rewrite Hc. reflexivity.
  Qed.

  (** ** Shrinking before the buffer wraps *)

  Definition cut (w : nat) (s : ring T) : ring T :=
    Ring (rb_window s) (firstn w (rb_buf s)) (rb_head s) (rb_tail s) (rb_full s) (rb_history s).

  Lemma set_firstn (b : list (option T)) w i x : i < w -> set_nth (firstn w b) i x = firstn w (set_nth b i x).
  Proof.
    revert b i. induction w as [|w IH]; intros b i L; [lia|]. destruct b as [|y b]; [reflexivity|].
    destruct i as [|i]; [reflexivity|]. cbn. f_equal. apply IH. lia.
  Qed.

  Lemma nth_firstn {X} (b : list X) w i : i < w -> nth_error (firstn w b) i = nth_error b i.
  Proof.
    revert b i. induction w as [|w IH]; intros b i L; [lia|]. destruct b as [|y b]; [reflexivity|].
    destruct i as [|i]; [reflexivity|]. cbn. apply IH. lia.
  Qed.

  Lemma cut_call w s q c : rb_rep w (cut w s) q -> w <= length (rb_buf s) ->
    exists s', rb_call dflt s c = Ret (s', snd (q_call w dflt q c)) /\
      rb_rep w (cut w s') (fst (q_call w dflt q c)) /\ length (rb_buf s') = length (rb_buf s).
  Proof.
    intros R L. destruct (rb_call_rep dflt w (cut w s) q c R) as (s1 & E & R1 & _).
    assert (P : exists h t, rb_head s = N.of_nat h /\ rb_tail s = N.of_nat t /\ h < w /\ t < w).
    { destruct R as [HW H1 _ Hlen Hq Hf (t & Ht & HtW & Hh & Hc)]. do 2 eexists. split; [exact Hh|]. split; [exact Ht|].
      split; [apply Nat.mod_upper_bound; lia|auto]. }
    destruct P as (h & t & Hh & Ht & Lh & Lt).
    assert (S' : exists s', rb_call dflt s c = Ret (s', snd (q_call w dflt q c)) /\ cut w s' = s1 /\ length (rb_buf s') = length (rb_buf s)).
    2:{ destruct S' as (s' & E' & <- & L'). exists s'. auto. }
    revert E. generalize (snd (q_call w dflt q c)). intros o E.
    destruct c as [x| | | | |]; cbn [rb_call] in *.
    - unfold rb_update in *. cbn [rb_full rb_head rb_tail rb_buf rb_window rb_history cut] in E.
      rewrite Hh, Nat2N.id in *. rewrite store_Ret in E by (rewrite firstn_length; lia). rewrite store_Ret by lia.
      cbn [bind] in *. destruct (if rb_full s then _ else _) as [tl| |]; try discriminate E. cbn [bind] in *.
      destruct (umod _ _) as [hd| |]; try discriminate E. cbn [bind] in *. injection E as <- <-.
      eexists. split; [reflexivity|]. cbn [rb_buf]. rewrite set_nth_length. split; [|auto].
      unfold cut. cbn. f_equal. now rewrite set_firstn.
    - unfold rb_pop in *. change (rb_empty (cut w s)) with (rb_empty s) in E.
      destruct (rb_empty s); cbn [bind] in *.
      + injection E as <- <-. eauto.
      + cbn [rb_full rb_head rb_tail rb_buf rb_window rb_history cut] in E. rewrite Ht, Nat2N.id in *.
        unfold at_ in *. rewrite nth_firstn in E by auto.
        destruct (nth_error (rb_buf s) t) as [[x|]|]; cbn [bind] in *; try discriminate E.
        destruct (umod _ _) as [tl| |]; cbn [bind] in *; try discriminate E. injection E as <- <-.
        eexists. split; [reflexivity|]. auto.
    - injection E as <- <-. eexists. split; [reflexivity|]. auto.
    - injection E as <- <-. eexists. split; [reflexivity|]. auto.
    - injection E as <- <-. eexists. split; [reflexivity|]. auto.
    - injection E as <- <-. eexists. split; [reflexivity|]. auto.
  Qed.

  Lemma cut_run w cs : forall s q, rb_rep w (cut w s) q -> w <= length (rb_buf s) ->
    exists s', rb_run dflt s cs = Ret (s', snd (q_run w dflt q cs)).
  Proof.
    induction cs as [|c cs IH]; intros s q R L; cbn [rb_run q_run]; [eauto|].
    destruct (cut_call w s q c R L) as (s1 & -> & R1 & L1). cbn [bind].
    destruct (q_call w dflt q c) as [q1 o]. cbn [fst snd] in *.
    destruct (IH s1 q1 R1 ltac:(lia)) as (s2 & ->). cbn [bind]. destruct (q_run w dflt q1 cs). eauto.
  Qed.

  (** Before the first wrap: [n] updates, head and tail at most [n]. *)
  Lemma early W n : n < W -> (N.of_nat W < two64)%N -> forall cs (s s' : ring T) os k h t,
    rb_window s = N.of_nat W -> rb_head s = N.of_nat h -> rb_tail s = N.of_nat t -> rb_full s = false ->
    t <= h -> h <= k -> k + updates cs <= n -> rb_run dflt s cs = Ret (s', os) ->
    exists h' t', rb_head s' = N.of_nat h' /\ rb_tail s' = N.of_nat t' /\ rb_full s' = false /\ t' <= h' /\ h' <= n.
  Proof.
    intros L1 L2. induction cs as [|c cs IH]; intros s s' os k h t Hw Hh Ht Hf La Lb Lc E.
    { injection E as <- <-. exists h, t. unfold updates in Lc. cbn in Lc. repeat split; auto. lia. }
    cbn [rb_run] in E. destruct (rb_call dflt s c) as [[s1 o]| |] eqn:E1; try discriminate E. cbn [bind] in E.
    destruct (rb_run dflt s1 cs) as [[s2 os2]| |] eqn:E2; try discriminate E. injection E as <- _.
    unfold updates in Lc. destruct c as [x| | | | |]; cbn [rb_call filter length] in * .
    - unfold rb_update in E1. destruct (store _ _ _) as [b| |]; try discriminate E1. cbn [bind] in E1.
      rewrite Hf, Hw, Hh in E1. cbn [bind] in E1. rewrite (umod_next h W W) in E1 by (auto; lia). cbn [bind] in E1.
      injection E1 as <- _. rewrite Nat.mod_small in E2 by lia.
      eapply IH with (k := k + 1) (h := h + 1) (t := t) in E2; cbn; auto; try lia.
      + rewrite Ht. apply N.eqb_neq. lia.
      + unfold updates. cbn in Lc. lia.
    - unfold rb_pop in E1. destruct (rb_empty s) eqn:Em; cbn [bind] in E1.
      + injection E1 as <- _. eapply IH; eauto.
      + destruct (at_ _ _) as [[v|]| |]; cbn [bind] in E1; try discriminate E1.
        unfold rb_empty in Em. rewrite Hf, Hh, Ht in Em. cbn in Em. apply N.eqb_neq in Em.
        rewrite Ht, Hw, (umod_next t W W) in E1 by (auto; lia). cbn [bind] in E1. injection E1 as <- _.
        rewrite Nat.mod_small in E2 by lia.
        eapply IH with (k := k) (h := h) (t := t + 1) in E2; cbn; auto; lia.
    - injection E1 as <- _. eapply IH with (k := k) (h := t) (t := t) in E2; cbn; auto; lia.
    - injection E1 as <- _. eapply IH; eauto.
    - injection E1 as <- _. eapply IH; eauto.
    - injection E1 as <- _. eapply IH; eauto.
  Qed.

  Lemma ring_shrink_early W w cs ds s os : w <= W -> (N.of_nat W < two64)%N ->
    rb_run dflt (rb_new (N.of_nat W)) cs = Ret (s, os) -> updates cs < w ->
    exists s', rb_run dflt (rb_set_window s (N.of_nat w)) ds = Ret (s', snd (q_run w dflt (fst (q_run W dflt [] cs)) ds)).
  Proof.
    intros L1 L2 E Lu. assert (H1 : 1 <= W) by lia.
    destruct (early W (updates cs) ltac:(lia) L2 cs (rb_new (N.of_nat W)) s os 0 0 0) as (h & t & Hh & Ht & Hf & La & Lb);
      cbn; auto; try lia.
    destruct (rb_reach dflt W cs s os H1 L2 E) as [HW _ _ Hlen Hq Hfu (t' & Ht' & HtW & Hh' & Hc)].
    set (q := fst (q_run W dflt [] cs)) in * . assert (t' = t) by lia. subst t'.
    rewrite Hf in Hfu. symmetry in Hfu. apply Nat.eqb_neq in Hfu.
    rewrite mod_small_cases in Hh' by lia.
    assert (Eh : h = t + length q) by (destruct (Nat.ltb_spec (t + length q) W); lia).
    apply cut_run; cbn; [|lia]. split; cbn [cut rb_set_window rb_window rb_buf rb_head rb_tail rb_full]; auto; try lia.
    - rewrite firstn_length. lia.
    - rewrite Hf. symmetry. apply Nat.eqb_neq. lia.
    - exists t. split; [auto|]. split; [lia|]. rewrite Nat.mod_small by lia. split; [now rewrite <- Eh|].
      intros i x Ex. assert (i < length q) by (apply nth_error_Some; congruence).
      rewrite Nat.mod_small by lia. rewrite nth_firstn by lia. rewrite <- (Hc i x Ex). f_equal.
      rewrite Nat.mod_small; lia.
  Qed.
End Ring.

Lemma ring_reduced_wrong :
  (exists cs, shrinking 8 cs /\ exists s os,
     rb_acts 0 (rb_new 8) (cs ++ [MCall CSize]) = Ret (s, os ++ [ONum (two64 - 2)%N])) /\
  (exists s os, rb_acts 0 (rb_new 4)
     (map MCall (map CUpdate [1; 2; 3; 4]) ++ [MWindow 2; MCall CPop; MCall CPop; MCall CEmpty]) =
     Ret (s, os ++ [OVal 1; OVal 2; OBool true])).
Proof.
  split.
  - exists (map MCall (map CUpdate [1; 2; 3; 4; 5] ++ [CPop; CPop; CPop; CPop]) ++ [MWindow 2; MCall (CUpdate 6)]).
    split; [vm_compute; repeat split; discriminate|]. do 2 eexists.
    instantiate (2 := Ring 2 _ _ _ _ _). instantiate (1 := [_; _; _; _; _; _; _; _; _; _; _]). vm_compute. reflexivity.
  - do 2 eexists. instantiate (2 := Ring 2 _ _ _ _ _). instantiate (1 := [_; _; _; _; _]). vm_compute. reflexivity.
Qed.

Lemma ring_uninit :
  rb_acts 0 (rb_new 8)
    (map MCall (map CUpdate [1; 2; 3; 4] ++ [CPop; CPop; CPop]) ++ [MWindow 1; MCall (CUpdate 5); MWindow 8] ++
     map MCall [CPop; CPop; CPop]) = Undef UninitRead.
Proof. vm_compute. reflexivity. Qed.
