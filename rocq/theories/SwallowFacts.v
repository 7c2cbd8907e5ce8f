(** Increasing data whose gaps do not shrink. *)

From Coq Require Import List Reals ZArith Lra Lia Bool Arith.
From Flocq Require Import Core.Core IEEE754.BinarySingleNaN.
From Verif Require Import Outcome Arith Utils IBin Histogram Spec ListFacts HistSpec FloatSpec FloatFacts UtilsFacts HistFacts HistStreams HistWitness P2Witness.
Import ListNotations.
Local Open Scope nat_scope.

Section Swallow.
  Context {A : arith}.
  Variables (x : nat -> A) (n : nat).
  Hypothesis up : forall i j, i < j < n -> definitelyLessThan (x i) (x j) default_eps = true.
  Hypothesis down : forall i j, i < j < n ->
    definitelyLessThan (x j) (x i) bin_eps = false /\ definitelyGreaterThan (x j) (x i) bin_eps = true.
  Hypothesis gaps : forall i j, i < j -> j + 1 < n ->
    definitelyLessThan (x (j + 1) -. x j)%num (x (i + 1) -. x i)%num default_eps = false.
  Hypothesis fits : forall i j, i < n -> j < n -> definitelyLessThan (x j -. x i)%num dbl_max default_eps = true.

  Definition point (i : nat) : bin A := Bin (x i) (x i) 1.
  Definition swallowed (N k : nat) : list (bin A) :=
    if Nat.ltb k N then map point (seq 0 k)
    else Bin (x 0) (x (k - N)) (k - N + 1) :: map point (seq (k - N + 1) (N - 1)).

  Lemma found_end (bins : list (bin A)) (y : A) i : Forall (fun b => definitelyLessThan (b_left b) y default_eps = true) bins ->
    found bins (Bin y y 1) i -> i = length bins.
  Proof.
    intros F (l & r & -> & Li & _ & Hr). destruct Hr as [->|(c & r' & -> & Hc)]; [now rewrite app_nil_r|].
    apply Forall_app in F as [_ F]. inversion_clear F as [|? ? K _]. unfold bin_lt in Hc. cbn [b_left] in Hc. congruence.
  Qed.

  Lemma swallowed_lefts N k : k < n -> 1 <= N -> Forall (fun b => definitelyLessThan (b_left b) (x k) default_eps = true) (swallowed N k).
  Proof.
    intros Hk HN. unfold swallowed. destruct (Nat.ltb_spec k N) as [L|L].
    - apply Forall_map, Forall_forall. intros i Ii. apply in_seq in Ii. apply up. lia.
    - constructor; [apply up; lia|]. apply Forall_map, Forall_forall. intros i Ii. apply in_seq in Ii. apply up. lia.
  Qed.

  Lemma min_gap_keep (bins : list (bin A)) : forall idx m i,
    (forall u b c v, bins = u ++ b :: c :: v -> definitelyLessThan (b_right c -. b_right b)%num m default_eps = false) ->
    snd (min_gap bins idx m i) = i.
  Proof.
    induction bins as [|b bins IH]; intros idx m i H; [reflexivity|]. destruct bins as [|c bins]; [reflexivity|].
    rewrite min_gap_cons. cbv zeta. rewrite (H [] b c bins eq_refl). apply IH. intros u b' c' v E. apply (H (b :: u) b' c' v). now rewrite E.
  Qed.

  (** Two neighbours in a map over a sequence. *)
  Lemma seq_pair a m u (b c : bin A) v : map point (seq a m) = u ++ b :: c :: v ->
    b = point (a + length u) /\ c = point (a + length u + 1) /\ length u + 1 < m.
  Proof.
    revert a m. induction u as [|z u IH]; intros a m E.
    - destruct m as [|[|m]]; try discriminate E. cbn in E. injection E as <- <- _. cbn [length]. split; [f_equal; lia|split; [f_equal; lia|lia]].
    - destruct m as [|m]; [discriminate E|]. cbn in E. injection E as _ E. apply IH in E as (-> & -> & L). cbn [length]. split; [f_equal; lia|split; [f_equal; lia|lia]].
  Qed.

  Lemma swallow_step N W k h h' : 1 <= N -> k < n -> n <= W ->
    update_all hist_update (hist_new N W true) (map x (seq 0 k)) = Ret h ->
    h_bins h = swallowed N k -> hist_update h (x k) = Ret h' -> h_bins h' = swallowed N (S k).
  Proof.
    intros HN Hk HW Et Eb E.
    rewrite <- calls_updates in Et. destruct (run_basic _ _ _ _ Et) as ((w & Lv & _) & T & _ & _).
    rewrite hist_items_updates, map_length, seq_length in T.
    destruct (update_inv h (x k) h' N W w Lv E) as (i & bins & w' & f & _ & _ & Eb' & U & _). subst bins.
    destruct U as [i bins1 f' bins2 w2 bins3 w3 total' Ff Ha Hd Hm].
    rewrite Eb in Ff, Ha. pose proof (found_end _ _ _ (swallowed_lefts N k Hk HN) Ff) as Ei.
    assert (E1 : bins1 = swallowed N k ++ [point k]).
    { destruct Ha as [_|l b r _ El Li _|l b r _ El Li _]; [reflexivity| |];
        exfalso; rewrite El, app_length in Ei; cbn [length] in Ei; lia. }
    destruct Hd as [(_ & -> & _)|(K & _)]; [|exfalso; rewrite T in K; lia].
    assert (LL : length bins1 = if Nat.ltb k N then S k else S N).
    { subst bins1. rewrite app_length. unfold swallowed. destruct (Nat.ltb_spec k N); cbn [length]; rewrite map_length, seq_length; lia. }
    destruct Hm as [(K & -> & _)|(K & l & a & c & r & E2 & Em & E3 & _)].
    - rewrite LL in K. destruct (Nat.ltb_spec k N) as [L|L]; [|lia]. rewrite E1. unfold swallowed.
      destruct (Nat.ltb_spec k N) as [_|?]; [|lia]. destruct (Nat.ltb_spec (S k) N) as [L2|L2].
      + rewrite seq_S, map_app. reflexivity.
      + assert (N = S k) as -> by lia. rewrite Nat.sub_diag. cbn [Nat.add Nat.sub]. rewrite Nat.sub_0_r.
        destruct k as [|k']; [reflexivity|]. change (map point (seq 0 (S k'))) with (point 0 :: map point (seq 1 k')).
        rewrite (seq_S k' 1), map_app. reflexivity.
    - rewrite LL in K. destruct (Nat.ltb_spec k N) as [L|L]; [lia|]. clear K.
      assert (E4 : bins1 = Bin (x 0) (x (k - N)) (k - N + 1) :: point (k - N + 1) :: map point (seq (k - N + 2) (N - 1))).
      { rewrite E1. unfold swallowed. destruct (Nat.ltb_spec k N); [lia|]. cbn [app]. f_equal.
        replace [point k] with (map point [k - N + 1 + (N - 1)]) by (cbn [map]; do 2 f_equal; lia).
        rewrite <- map_app, <- seq_S. cbn [seq map]. do 3 f_equal. lia. }
      assert (I0 : length l = 0).
      { unfold hist_merge in Em. rewrite E4 in Em. rewrite min_gap_cons in Em. cbv zeta in Em. cbn [b_right point] in Em.
        replace (k - N + 1) with (k - N + 1) in Em by lia. rewrite fits in Em by lia.
        set (mg := min_gap _ _ _ _) in Em.
        assert (Z : snd mg = 0).
        { unfold mg. apply min_gap_keep. intros u b c' v Ev.
          change (point (k - N + 1) :: map point (seq (k - N + 2) (N - 1))) with (point (k - N + 1) :: map point (seq (k - N + 2) (N - 1))) in Ev.
          replace (point (k - N + 1) :: map point (seq (k - N + 2) (N - 1))) with (map point (seq (k - N + 1) N)) in Ev.
          - apply seq_pair in Ev as (-> & -> & Lu). cbn [b_right point].
            apply (gaps (k - N) (k - N + 1 + length u)); lia.
          - destruct N as [|N']; [lia|]. cbn [seq map Nat.sub]. rewrite Nat.sub_0_r. do 3 f_equal. lia. }
        destruct mg as [m0 i0]. cbn [snd] in Z. subst i0. apply bind_Ret in Em as (b' & _ & Em). injection Em as _ <-. reflexivity. }
      destruct l; [|discriminate I0]. cbn [app] in E2, E3. rewrite E4 in E2. injection E2 as <- <- <-. rewrite E3. unfold swallowed.
      destruct (Nat.ltb_spec (S k) N); [lia|]. replace (S k - N) with (k - N + 1) by lia.
      replace (k - N + 1 + 1) with (k - N + 2) by lia. f_equal.
      unfold bin_add, point. cbn [b_left b_right b_count]. destruct (down 0 (k - N + 1)) as [-> _]; [lia|]. destruct (down (k - N) (k - N + 1)) as [_ ->]; [lia|]. f_equal; lia.
  Qed.

  Lemma swallow_run N W k : 1 <= N -> n <= W -> k <= n ->
    exists h, update_all hist_update (hist_new N W true) (map x (seq 0 k)) = Ret h /\ h_bins h = swallowed N k.
  Proof.
    intros HN HW. induction k as [|k IH]; intros Hk.
    - exists (hist_new N W true). split; [reflexivity|]. unfold swallowed. destruct (Nat.ltb_spec 0 N); [reflexivity|lia].
    - destruct IH as (h & E & B); [lia|].
      destruct (run_safe (fun y => exists i, i < n /\ y = x i) N W (map x (seq 0 (S k)))) as (h' & E'); auto.
      + rewrite map_length, seq_length. lia.
      + apply Forall_map, Forall_forall. intros i I. apply in_seq in I. exists i. split; [lia|reflexivity].
      + intros y z (i & Hi & ->) (j & Hj & ->). now apply fits.
      + exists h'. split; auto. rewrite seq_S, map_app in E'. cbn [map Nat.add] in E'. rewrite update_all_snoc, E in E'. cbn [bind] in E'.
        eapply swallow_step; eauto.
  Qed.
End Swallow.
