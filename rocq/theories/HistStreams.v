(** Particular families of streams: constant streams, a first value followed by
    a larger one, far-apart doubles; and the choice made by merge. *)

From Coq Require Import List Sorting.Sorted Arith Bool Lia ZArith Reals Lra.
From Flocq Require Import Core.Core IEEE754.BinarySingleNaN.
From Verif Require Import Outcome Arith Utils IBin Histogram Spec ListFacts HistSpec UtilsFacts HistFacts
  FloatSpec FloatFacts UtilsMono HistOrder.
Import ListNotations.
Local Open Scope nat_scope.

Section Streams.
  Context {A : arith}.
  Implicit Types (h : hist A) (x : A) (bins : list (bin A)).

  Lemma repeat_snoc {X} (y : X) n : repeat y (S n) = repeat y n ++ [y].
  Proof. induction n; simpl in *; congruence. Qed.

  (** The indices pushed so far, [W] zeros included. *)
  Definition pushed (W k : nat) : list nat := repeat 0 (S W) ++ repeat 1 k.

  Lemma first_update N W x : 1 <= N -> 1 <= W ->
    hist_update (hist_new N W true) x = Ret (Hist N W true [Bin x x 1] (Some (pushed W 0)) 1 1 1 0).
  Proof.
    intros HN HW. unfold pushed. rewrite app_nil_r, repeat_snoc.
    unfold hist_update, hist_add, hist_binSearch_bin, hist_decayCounts. cbn -[Nat.ltb repeat].
    change (0 <? 0) with false. cbn -[Nat.ltb repeat].
    destruct (Nat.ltb_spec W 1); [lia|]. cbn -[Nat.ltb repeat]. destruct (Nat.ltb_spec N 1); [lia|]. reflexivity.
  Qed.

  (** ** One value *)

  Lemma found_one (x : A) c i : definitelyLessThan x x default_eps = false -> found [Bin x x c] (Bin x x 1) i -> i = 0.
  Proof.
    intros H (l & r & E & <- & Pl & _). destruct Pl as [->|(l' & b & -> & Hb)]; auto. exfalso.
    destruct l' as [|y [|z l']]; simpl in E; try discriminate.
    injection E as E _. subst b. unfold bin_lt in Hb. cbn in Hb. congruence.
  Qed.

  Lemma constant_run (x : A) N W n : definitelyLessThan x x default_eps = false -> leb x x = true ->
    1 <= N -> 1 <= W -> 1 <= n ->
    exists h, update_all hist_update (hist_new N W true) (repeat x n) = Ret h /\
      live h N W (repeat 0 (Nat.min (W + n) (2 * W))) /\
      h_bins h = [Bin x x (Nat.min n W)] /\ h_total h = Nat.min n W.
  Proof.
    intros H1 H2 HN HW Hn. induction n as [|n IH]; [lia|]. clear Hn.
    assert (Z : forall k, repeat 0 k ++ [0] = repeat 0 (k + 1)) by (intros; now rewrite Nat.add_1_r, repeat_snoc).
    destruct n as [|n].
    - exists (Hist N W true [Bin x x 1] (Some (pushed W 0)) 1 1 1 0).
      split; [|split; [|split]].
      + cbn [repeat update_all]. rewrite first_update by auto. reflexivity.
      + repeat split. cbn [h_window]. unfold pushed. rewrite app_nil_r. do 2 f_equal. lia.
      + cbn [h_bins]. replace (Nat.min 1 W) with 1 by lia. reflexivity.
      + cbn [h_total]. lia.
    - destruct IH as (h & E & (L1 & L2 & L3 & L4) & B & T); [lia|]. rewrite repeat_snoc, update_all_snoc, E. cbn [bind].
      unfold hist_update. destruct (hist_add_eq h x _ L4) as (i & bins1 & f & Es & Ff & Ha & Eq). rewrite Eq. clear Eq.
      rewrite B in Ff. apply (found_one _ _ _ H1) in Ff. subst i.
      assert (B1 : bins1 = [Bin x x (Nat.min (S n) W + 1)]).
      { rewrite B in Ha. inversion Ha as [C|l b r C E1 E2 H|l b r C E1 E2 H].
        - simpl in C. lia.
        - destruct l; [|simpl in E2; discriminate]. simpl in E1. injection E1 as <- <-. reflexivity.
        - destruct l; [|simpl in E2; discriminate]. simpl in E1. injection E1 as <- <-. cbn in H. congruence. }
      rewrite B1, L1, L2, L3, T, Z. clear B1 Ha bins1.
      unfold hist_decayCounts. cbn [h_decay h_windowSize h_total h_window h_bins h_numBins].
      destruct (Nat.ltb_spec W (Nat.min (S n) W + 1)) as [K|K].
      + replace (Nat.min (W + S n) (2 * W) + 1) with (S (2 * W)) by lia. cbn [repeat].
        cbn [at_ nth_error bind b_count b_left b_right].
        destruct (Nat.ltb_spec 0 (Nat.min (S n) W + 1)); [|lia].
        cbn [b_count set_nth length]. destruct (Nat.ltb_spec N 1) as [?|K2]; [lia|]. cbn [bind h_numBins h_bins length].
        destruct (Nat.ltb_spec N 1); [lia|].
        eexists. split; [reflexivity|]. split; [repeat split; cbn [h_window]; do 2 f_equal; lia|]. cbn [h_bins h_total]. split; [do 2 f_equal; lia|lia].
      + cbn [bind h_numBins h_bins length]. destruct (Nat.ltb_spec N 1); [lia|].
        eexists. split; [reflexivity|]. split; [repeat split; cbn [h_window]; do 2 f_equal; lia|]. cbn [h_bins h_total]. split; [do 2 f_equal; lia|lia].
  Qed.

  Lemma single_quantile h x c q : h_bins h = [Bin x x c] -> div (of_nat c) (of_nat (h_total h)) = of_Z (a := A) 1 ->
    hist_quantile h q =
    (if ltb q zero || ltb (of_Z 1) q then Throw RuntimeError
     else if essentiallyEqual q (of_Z 1) default_eps then Ret x else Undef OutOfBounds).
  Proof.
    intros B E. unfold hist_quantile, hist_cdf, hist_pdf. rewrite B. cbn [map b_count]. rewrite E.
    cbn [partial_sum partial_sum_from length lower_bound forallb].
    change (q >?. of_Z 1)%num with (ltb (of_Z 1) q).
    destruct (ltb q zero); cbn [orb]; [reflexivity|]. destruct (ltb (of_Z 1) q); [reflexivity|].
    cbn [bind Nat.eqb at_ nth_error b_left]. destruct (essentiallyEqual q (of_Z 1) default_eps); reflexivity.
  Qed.

  Lemma empty_quantile N W q : ltb q zero || ltb (of_Z 1) q = false ->
    hist_quantile (hist_new (A := A) N W true) q = Undef OutOfBounds.
  Proof. intros H. unfold hist_quantile. rewrite H. reflexivity. Qed.

  (** ** A first value, then a larger one for ever *)

  Lemma found_two (a b : A) ca cb i : definitelyLessThan a b default_eps = true ->
    definitelyLessThan b b default_eps = false ->
    found [Bin a a ca; Bin b b cb] (Bin b b 1) i -> i = 1.
  Proof.
    intros H1 H2 (l & r & E & <- & Pl & Pr).
    destruct l as [|y [|z [|u l]]]; simpl in E; try discriminate; auto.
    - subst r. destruct Pr as [|(c & r' & Er & Hc)]; [discriminate|]. injection Er as <- _.
      unfold bin_lt in Hc. cbn in Hc. congruence.
    - injection E as <- <- _. destruct Pl as [|(l' & c & El & Hc)]; [discriminate|].
      destruct l' as [|u [|v l']]; try discriminate. injection El as <- <-.
      unfold bin_lt in Hc. cbn in Hc. congruence. destruct l'; discriminate.
  Qed.

  Lemma found_after (a b : A) ca i : definitelyLessThan a b default_eps = true ->
    found [Bin a a ca] (Bin b b 1) i -> i = 1.
  Proof.
    intros H1 (l & r & E & <- & Pl & Pr). destruct l as [|y [|z l]]; simpl in E; try discriminate; auto.
    subst r. destruct Pr as [|(c & r' & Er & Hc)]; [discriminate|]. injection Er as <- _.
    unfold bin_lt in Hc. cbn in Hc. congruence.
  Qed.

  Lemma pushed_nth W k p : p < S W + k -> nth_error (pushed W k) p = Some (if Nat.leb p W then 0 else 1).
  Proof.
    intros H. unfold pushed. destruct (Nat.leb_spec p W).
    - rewrite nth_error_app1 by (rewrite repeat_length; lia). apply nth_error_repeat. lia.
    - rewrite nth_error_app2; rewrite repeat_length; [|lia]. apply nth_error_repeat. lia.
  Qed.

  Lemma pushed_length W k : length (pushed W k) = S W + k.
  Proof. unfold pushed. rewrite app_length, !repeat_length. lia. Qed.

  Lemma pushed_snoc W k : pushed W k ++ [1] = pushed W (S k).
  Proof. unfold pushed. rewrite <- app_assoc, <- repeat_snoc. reflexivity. Qed.

  Lemma skipn_nth {X} (l : list X) p y : nth_error l p = Some y -> skipn p l = y :: skipn (S p) l.
  Proof.
    revert p. induction l as [|z l IH]; intros [|p] H; simpl in *; try discriminate.
    - now injection H as <-.
    - rewrite (IH p H). reflexivity.
  Qed.

  Lemma skipn_snoc {X} (l : list X) p y : p <= length l -> skipn p l ++ [y] = skipn p (l ++ [y]).
  Proof. intros H. rewrite skipn_app. replace (p - length l) with 0 by lia. reflexivity. Qed.

  Lemma drift_run (a b : A) N W k : definitelyLessThan a b default_eps = true ->
    definitelyLessThan b b default_eps = false -> leb b b = true -> 2 <= N -> 1 <= W -> 1 <= k ->
    exists h, update_all hist_update (hist_new N W true) (a :: repeat b k) = Ret h /\
      live h N W (skipn (S k - W) (pushed W k)) /\
      h_bins h = [Bin a a (if Nat.leb (S k) W then 1 else 0); Bin b b (Nat.min k (2 * W))] /\
      h_total h = Nat.min (S k) W.
  Proof.
    intros H1 H2 H3 HN HW Hk. induction k as [|k IH]; [lia|]. clear Hk.
    assert (E0 : hist_update (hist_new N W true) a =
                 Ret (Hist N W true [Bin a a 1] (Some (pushed W 0)) 1 1 1 0)).
    { apply first_update; lia. }
    assert (Step : forall h w ca cb, live h N W w -> h_total h = Nat.min (S k) W -> w = skipn (S k - W) (pushed W k) ->
              (exists i bins1 f, hist_add h b = hist_decayCounts (Hist N W true bins1 (Some (w ++ [i])) (h_total h + 1) (h_history h + 1) (h_news h + 1) (h_deletes h + f)) /\
                 i = 1 /\ bins1 = [Bin a a ca; Bin b b cb]) ->
              ca = (if Nat.leb (S k) W then 1 else 0) -> cb = Nat.min k (2 * W) + 1 ->
              exists h', hist_update h b = Ret h' /\
                live h' N W (skipn (S (S k) - W) (pushed W (S k))) /\
                h_bins h' = [Bin a a (if Nat.leb (S (S k)) W then 1 else 0); Bin b b (Nat.min (S k) (2 * W))] /\
                h_total h' = Nat.min (S (S k)) W).
    { intros h w ca cb (L1 & L2 & L3 & L4) T Ew (i & bins1 & f & Ea & -> & ->) Eca Ecb.
      unfold hist_update. rewrite Ea. clear Ea.
      rewrite Ew, skipn_snoc, pushed_snoc by (rewrite pushed_length; lia).
      unfold hist_decayCounts. cbn [h_decay h_windowSize h_total h_window h_bins h_numBins].
      destruct (Nat.ltb_spec W (h_total h + 1)) as [K|K].
      - assert (W <= S k) by lia.
        erewrite (skipn_nth (pushed W (S k)) (S k - W)) by (apply pushed_nth; lia).
        destruct (Nat.leb_spec (S k - W) W) as [M|M].
        + cbn [at_ nth_error bind b_count b_left b_right].
          assert (Ca : b_count (if Nat.ltb 0 ca then Bin a a (ca - 1) else Bin a a ca) = 0 /\
                       (if Nat.ltb 0 ca then Bin a a (ca - 1) else Bin a a ca) = Bin a a 0).
          { subst ca. destruct (Nat.leb (S k) W); cbn; auto. }
          destruct Ca as [Ca1 Ca2]. rewrite Ca2. cbn [b_count set_nth length].
          destruct (Nat.ltb_spec N 2); [lia|]. cbn [bind h_numBins h_bins length]. destruct (Nat.ltb_spec N 2); [lia|].
          eexists. split; [reflexivity|]. split; [|split].
          * repeat split. cbn [h_window]. replace (S (S k) - W) with (S (S k - W)) by lia. reflexivity.
          * cbn [h_bins]. destruct (Nat.leb_spec (S (S k)) W); [lia|]. replace (Nat.min (S k) (2 * W)) with cb by lia. reflexivity.
          * cbn [h_total]. lia.
        + cbn [at_ nth_error bind b_count b_left b_right].
          destruct (Nat.ltb_spec 0 cb); [|lia]. cbn [b_count set_nth length].
          destruct (Nat.ltb_spec N 2); [lia|]. cbn [bind h_numBins h_bins length]. destruct (Nat.ltb_spec N 2); [lia|].
          eexists. split; [reflexivity|]. split; [|split].
          * repeat split. cbn [h_window]. replace (S (S k) - W) with (S (S k - W)) by lia. reflexivity.
          * cbn [h_bins]. destruct (Nat.leb_spec (S (S k)) W); [lia|]. subst ca.
            destruct (Nat.leb_spec (S k) W); [lia|]. replace (Nat.min (S k) (2 * W)) with (cb - 1) by lia. reflexivity.
          * cbn [h_total]. lia.
      - cbn [bind h_numBins h_bins length]. destruct (Nat.ltb_spec N 2); [lia|].
        eexists. split; [reflexivity|]. split; [|split].
        * repeat split. cbn [h_window]. replace (S (S k) - W) with (S k - W) by lia. reflexivity.
        * cbn [h_bins]. subst ca. destruct (Nat.leb_spec (S (S k)) W), (Nat.leb_spec (S k) W); try lia. replace (Nat.min (S k) (2 * W)) with cb by lia. reflexivity.
        * cbn [h_total]. lia. }
    destruct k as [|k].
    - cbn [repeat update_all]. rewrite E0. cbn [bind]. set (h := Hist _ _ _ _ _ _ _ _ _).
      destruct (Step h (pushed W 0) 1 1) as (h' & E & R).
      + repeat split.
      + change (1 = Nat.min 1 W). lia.
      + replace (1 - W) with 0 by lia. reflexivity.
      + destruct (hist_add_eq h b (pushed W 0) eq_refl) as (i & bins1 & f & Es & Ff & Ha & Eq).
        exists i, bins1, f. split; [exact Eq|]. apply (found_after _ _ _ _ H1) in Ff. split; auto. subst i.
        inversion Ha as [C|l c r C E1 E2 H|l c r C E1 E2 H]; auto; exfalso;
          cbn in E1; destruct l as [|? [|? l]]; discriminate.
      + destruct (Nat.leb_spec 1 W); [auto|lia].
      + reflexivity.
      + exists h'. rewrite E. split; [reflexivity|exact R].
    - destruct IH as (h & E & Lv & B & T); [lia|].
      rewrite (repeat_snoc b (S k)), app_comm_cons, update_all_snoc, E.
      cbn [bind]. eapply Step; [exact Lv|exact T|reflexivity| |reflexivity|reflexivity].
      destruct Lv as (L1 & L2 & L3 & L4).
      destruct (hist_add_eq h b _ L4) as (i & bins1 & f & Es & Ff & Ha & Eq). rewrite L1, L2, L3 in Eq.
      exists i, bins1, f. split; [exact Eq|]. rewrite B in Ff, Ha.
      apply (found_two _ _ _ _ _ H1 H2) in Ff. split; auto. subst i.
      inversion Ha as [C|l c r C E1 E2 H|l c r C E1 E2 H].
      + cbn in C. lia.
      + destruct l as [|? [|? l]]; try discriminate. cbn in E1. injection E1 as <- <- <-. reflexivity.
      + destruct l as [|? [|? l]]; try discriminate. cbn in E1. injection E1 as <- <- <-. cbn in H. congruence.
  Qed.

  Lemma drift_counts (a b : A) N W k : definitelyLessThan a b default_eps = true ->
    definitelyLessThan b b default_eps = false -> leb b b = true -> 2 <= N -> 1 <= W -> W < k ->
    exists h, update_all hist_update (hist_new N W true) (a :: repeat b k) = Ret h /\
      hist_binCounts h = Throw RuntimeError.
  Proof.
    intros H1 H2 H3 HN HW Hk. destruct (drift_run a b N W k H1 H2 H3 HN HW) as (h & E & _ & B & T); [lia|].
    exists h. split; auto. rewrite binCounts_eq. unfold counts_sum. rewrite B, T.
    destruct (Nat.leb_spec (S k) W); [lia|]. cbn [map b_count list_sum fold_right].
    destruct (Nat.eqb_spec (0 + (Nat.min k (2 * W) + 0)) (Nat.min (S k) W)); [lia|auto].
  Qed.

  (** ** Two values whose distance is not definitely less than dbl_max *)

  Lemma two_apart (a b : A) W : definitelyLessThan a b default_eps = true ->
    definitelyLessThan (sub b a) dbl_max default_eps = false -> 2 <= W ->
    exists h, hist_update (hist_new 1 W true) a = Ret h /\ hist_update h b = Undef OutOfBounds.
  Proof.
    intros H1 H2 HW. exists (Hist 1 W true [Bin a a 1] (Some (pushed W 0)) 1 1 1 0). split.
    - apply first_update; lia.
    - set (h := Hist _ _ _ _ _ _ _ _ _). unfold hist_update.
      destruct (hist_add_eq h b (pushed W 0) eq_refl) as (i & bins1 & f & Es & Ff & Ha & Eq).
      apply (found_after _ _ _ _ H1) in Ff. subst i.
      assert (bins1 = [Bin a a 1; Bin b b 1]) as ->.
      { inversion Ha as [C|l c r C E1 E2 H|l c r C E1 E2 H]; auto; exfalso;
          cbn in E1; destruct l as [|? [|? l]]; discriminate. }
      rewrite Eq. clear Eq. unfold hist_decayCounts. cbn [h_decay h_windowSize h_total h_window h_bins h_numBins h].
      destruct (Nat.ltb_spec W (1 + 1)); [lia|]. cbn [bind h_numBins h_bins length Nat.ltb Nat.leb].
      rewrite merge_undefined; auto; [simpl; lia|].
      intros l u v r E. destruct l as [|? [|? l]]; try discriminate.
      + cbn in E. injection E as <- <- <-. exact H2.
      + destruct l; discriminate.
  Qed.

  (** ** What merge chooses *)

  Section Merge.
    Variable (D : A -> Prop).
    Hypothesis Hlt : forall u v : A, D u -> D v -> definitelyLessThan u v default_eps = true -> ltb u v = true.
    Hypothesis Hirr : forall u : A, D u -> ltb u u = false.
    Hypothesis Htr : forall u v w : A, D u -> D v -> D w -> ltb v u = false -> ltb w v = false -> ltb w u = false.
    Hypothesis Hasym : forall u v : A, D u -> D v -> ltb u v = true -> ltb v u = false.
    Hypothesis Hmr : forall u v v' : A, D u -> D v -> D v' -> ltb v' v = false ->
      definitelyLessThan u v default_eps = true -> definitelyLessThan u v' default_eps = true.

    Lemma min_gap_choice bins : (forall l b c r, bins = l ++ b :: c :: r -> D (gap b c)) ->
      forall idx m i m' i', D m -> min_gap bins idx m i = (m', i') ->
      D m' /\ ltb m m' = false /\
      (forall l b c r, bins = l ++ b :: c :: r -> definitelyLessThan (gap b c) m' default_eps = false) /\
      (i' = i /\ m' = m \/ exists l b c r, bins = l ++ b :: c :: r /\ i' = idx + length l /\ m' = gap b c).
    Proof.
      induction bins as [|b [|c r] IH]; intros HD idx m i m' i' Dm E.
      - injection E as <- <-. split; auto. split; auto. split; auto. intros [|? l] ? ? ? ?; discriminate.
      - injection E as <- <-. split; auto. split; auto. split; auto. intros [|? [|? l]] ? ? ? ?; discriminate.
      - rewrite min_gap_cons in E. cbv zeta in E. fold (gap b c) in E.
        assert (Dg : D (gap b c)) by (apply (HD [] b c r); auto).
        assert (HD' : forall l b0 c0 r0, c :: r = l ++ b0 :: c0 :: r0 -> D (gap b0 c0)).
        { intros l b0 c0 r0 El. apply (HD (b :: l) b0 c0 r0). now rewrite El. }
        destruct (definitelyLessThan (gap b c) m default_eps) eqn:K.
        + destruct (IH HD' _ _ _ _ _ Dg E) as (Dm' & Le & No & Ch).
          split; auto. split; [|split].
          * apply (Htr m' (gap b c) m); auto.
          * intros l b0 c0 r0 El. destruct l as [|y l]; simpl in El.
            -- injection El as <- <- <-. destruct (definitelyLessThan (gap b c) m' default_eps) eqn:Q; auto.
               apply Hlt in Q; auto. congruence.
            -- injection El as <- El. eapply No; eauto.
          * right. destruct Ch as [[-> ->]|(l & b0 & c0 & r0 & El & -> & ->)].
            -- exists [], b, c, r. split; [auto|split; [simpl; lia|auto]].
            -- exists (b :: l), b0, c0, r0. rewrite El. split; [auto|split; [simpl; lia|auto]].
        + destruct (IH HD' _ _ _ _ _ Dm E) as (Dm' & Le & No & Ch).
          split; auto. split; [auto|split].
          * intros l b0 c0 r0 El. destruct l as [|y l]; simpl in El.
            -- injection El as <- <- <-. destruct (definitelyLessThan (gap b c) m' default_eps) eqn:Q; auto.
               rewrite (Hmr _ m' m) in K; auto.
            -- injection El as <- El. eapply No; eauto.
          * destruct Ch as [Ch|(l & b0 & c0 & r0 & El & -> & ->)]; auto.
            right. exists (b :: l), b0, c0, r0. rewrite El. split; [auto|split; [simpl; lia|auto]].
    Qed.

    Lemma merge_choice bins bins' i : (forall l b c r, bins = l ++ b :: c :: r -> D (gap b c)) -> D dbl_max ->
      hist_merge bins = Ret (bins', i) ->
      exists l b c r, bins = l ++ b :: c :: r /\ i = length l /\ bins' = l ++ bin_add b c :: r /\
        forall l' b' c' r', bins = l' ++ b' :: c' :: r' ->
          definitelyLessThan (gap b' c') (gap b c) default_eps = false.
    Proof.
      intros HD Dm E. unfold hist_merge in E. destruct (min_gap bins 0 dbl_max (length bins)) as [m j] eqn:Em.
      destruct (min_gap_choice bins HD _ _ _ _ _ Dm Em) as (_ & _ & No & Ch).
      destruct Ch as [[-> _]|(l & b & c & r & El & -> & ->)].
      - unfold mergeBins in E. rewrite at_oob in E by lia. discriminate.
      - exists l, b, c, r. simpl in E. rewrite El in E at 1. rewrite mergeBins_split in E. cbn [bind] in E.
        injection E as <- <-. auto.
    Qed.
  End Merge.
End Streams.

Lemma merge_choice_RA (bins bins' : list (bin RA)) i : hist_merge bins = Ret (bins', i) ->
  exists l b c r, bins = l ++ b :: c :: r /\ i = length l /\ bins' = l ++ bin_add b c :: r /\
    forall l' b' c' r', bins = l' ++ b' :: c' :: r' ->
      definitelyLessThan (gap b' c') (gap b c) default_eps = false.
Proof.
  apply (merge_choice (fun _ => True)); auto.
  - intros. apply (o_less _ _ ordered_RA); auto; exact I.
  - intros. apply (o_irrefl _ _ ordered_RA). exact I.
  - intros u v w _ _ _. apply (o_ge_trans _ _ ordered_RA); exact I.
  - intros. apply (asym ordered_RA); auto; exact I.
  - intros u v v' _ _ _ H1 H2. cbn in H1. apply Rltb_false in H1. eapply RA_less_mono; [| | |exact H2]; try lra.
    unfold default_eps, lit. cbn. lra.
Qed.

Lemma merge_choice_B64 (bins bins' : list (bin B64)) i :
  (forall l b c r, bins = l ++ b :: c :: r -> finite64 (gap b c) = true) -> hist_merge bins = Ret (bins', i) ->
  exists l b c r, bins = l ++ b :: c :: r /\ i = length l /\ bins' = l ++ bin_add b c :: r /\
    forall l' b' c' r', bins = l' ++ b' :: c' :: r' ->
      definitelyLessThan (gap b' c') (gap b c) default_eps = false.
Proof.
  intros HD. destruct default_eps_ok as [F1 _]. apply (merge_choice (A := B64) finD); auto.
  - intros. apply (o_less _ _ ordered_B64); auto.
  - intros. apply (o_irrefl _ _ ordered_B64). auto.
  - intros u v w ? ? ?. apply (o_ge_trans _ _ ordered_B64); auto.
  - intros. apply (asym ordered_B64); auto.
  - intros u v v' D1 D2 D3 H1 H2. unfold finD in * . cbn in H1. apply X_ltb_false in H1; auto using fin_nan.
    rewrite !X_fin in H1 by auto.
    apply (less_mono default_eps F1 default_small u u v v'); auto. apply Rle_refl.
Qed.

(** In exact arithmetic, with non-negative gaps. *)
Lemma gap_bound (g m : R) : (0 <= g)%R -> definitelyLessThan (A := RA) g m default_eps = false ->
  (m * (1 - / 10000) <= g)%R.
Proof.
  intros Hg H. assert (E : default_eps (A := RA) = (/ 10000)%R) by (unfold default_eps, lit; cbn; lra).
  rewrite E in H. destruct (Rle_or_lt (m * (1 - / 10000)) g) as [L|L]; auto.
  exfalso. assert (K : definitelyLessThan (A := RA) g m (/ 10000)%R = true); [|congruence].
  apply RA_less. assert (Hm : (g < m)%R) by nra. rewrite Rmax_right by (rewrite !Rabs_pos_eq; lra).
  rewrite Rabs_pos_eq by lra. lra.
Qed.

(** Doubles whose difference overflows. *)
(** Doubles whose difference overflows. *)
Lemma apart_less (a b : double) : finite64 a = true -> finite64 b = true ->
  Bsub b a = B754_infinity false -> definitelyLessThan (A := B64) a b default_eps = true.
Proof.
  intros Fa Fb E. destruct default_eps_ok as [Fe He]. apply (B_less a b default_eps Fa Fb Fe).
  destruct (X_sub b a Fb Fa) as [Xs _]. rewrite <- Xs, E. cbn [X]. unfold tol.
  assert (K : exists m : double, finite64 m = true /\ Rmax (Rabs (B2R a)) (Rabs (B2R b)) = B2R m).
  { unfold Rmax. destruct (Rle_dec _ _).
    - exists (Babs b). split; [now rewrite fin_abs|]. symmetry. apply B2R_Babs.
    - exists (Babs a). split; [now rewrite fin_abs|]. symmetry. apply B2R_Babs. }
  destruct K as (m & Fm & Em).
  assert (Pm : (0 <= B2R m)%R) by (rewrite <- Em; eapply Rle_trans; [apply Rabs_pos|apply Rmax_l]).
  rewrite Em. apply Rle_lt_trans with (B2R m).
  - rewrite <- (R64_B2R m) at 2 by auto. apply R64_le.
    pose proof default_small. nra.
  - pose proof (B2R_lt_big m) as L. rewrite Rabs_pos_eq in L by auto. exact L.
Qed.

Lemma infinity_not_less : definitelyLessThan (A := B64) (B754_infinity false) dbl_max default_eps = false.
Proof. vm_compute. reflexivity. Qed.

Lemma two_apart_B64 (a b : double) W : finite64 a = true -> finite64 b = true ->
  Bsub b a = B754_infinity false -> 2 <= W ->
  exists h, hist_update (hist_new (A := B64) 1 W true) a = Ret h /\ hist_update h b = Undef OutOfBounds.
Proof.
  intros Fa Fb E HW. apply two_apart; auto; [now apply apart_less|].
  change (sub b a) with (Bsub b a). rewrite E. apply infinity_not_less.
Qed.

(** Doubles of magnitude at most 2^1022. *)
Lemma Bz_pow n : (0 <= n < 1024)%Z -> B2R (Bz (2 ^ n)) = bpow radix2 n /\ finite64 (Bz (2 ^ n)) = true.
Proof.
  intros Hn. destruct (Bz_X (2 ^ n)) as [HX HN].
  assert (E : R64 (IZR (2 ^ n)) = bpow radix2 n).
  { rewrite (IZR_Zpower radix2) by lia. unfold R64. rewrite rnd_fix.
    - apply sat_in. rewrite Rabs_pos_eq by apply bpow_ge_0. apply bpow_lt. lia.
    - apply generic_format_bpow. unfold fexp64, SpecFloat.fexp, SpecFloat.emin. lia. }
  rewrite E in HX. assert (F : finite64 (Bz (2 ^ n)) = true).
  { apply fin_X; auto. rewrite HX, Rabs_pos_eq by apply bpow_ge_0. apply bpow_lt. lia. }
  split; auto. now rewrite <- X_fin.
Qed.

Lemma moderate_gap (x y : double) : finite64 x = true -> finite64 y = true ->
  (Rabs (B2R x) <= bpow radix2 1022)%R -> (Rabs (B2R y) <= bpow radix2 1022)%R ->
  definitelyLessThan (A := B64) (Bsub y x) dbl_max default_eps = true.
Proof.
  intros Fx Fy Hx Hy. destruct (X_sub y x Fy Fx) as [Xs Ns]. destruct (Bz_pow 1023) as [E3 F3]; [lia|].
  assert (B : (bpow radix2 1022 + bpow radix2 1022 = bpow radix2 1023)%R).
  { change 1023%Z with (1022 + 1)%Z. rewrite bpow_plus. change (bpow radix2 1) with 2%R. ring. }
  apply Rabs_le_inv in Hx, Hy.
  assert (L : (- bpow radix2 1023 <= X (Bsub y x) <= bpow radix2 1023)%R).
  { rewrite Xs, <- E3. rewrite <- (R64_B2R (Bz (2 ^ 1023))), <- R64_opp. rewrite E3. split; apply R64_le; lra. }
  assert (F : finite64 (Bsub y x) = true).
  { apply fin_X; auto. apply Rle_lt_trans with (bpow radix2 1023); [apply Rabs_le; lra|apply bpow_lt; lia]. }
  destruct default_eps_ok as [F1 _].
  eapply (less_left default_eps F1 default_small (Bz (2 ^ 1023))); auto.
  - rewrite E3, <- X_fin by auto. lra.
Qed.

Lemma moderate_run N W (xs : list double) : 1 <= N -> length xs <= W ->
  Forall (fun x => finite64 x = true /\ (Rabs (B2R x) <= bpow radix2 1022)%R) xs ->
  exists h, update_all hist_update (hist_new (A := B64) N W true) xs = Ret h.
Proof.
  intros HN L F. eapply (run_safe (A := B64) (fun x => finite64 x = true /\ (Rabs (B2R x) <= bpow radix2 1022)%R)); auto.
  intros x y [Fx Hx] [Fy Hy]. now apply moderate_gap.
Qed.

(** Counts as doubles. *)
Lemma of_nat_ok c : 1 <= c -> (Z.of_nat c < 2 ^ 64)%Z ->
  finite64 (of_nat (A := B64) c) = true /\ (1 <= B2R (of_nat (A := B64) c) <= bpow radix2 64)%R.
Proof.
  intros H1 H2. unfold of_nat. change (of_Z (Z.of_nat c)) with (Bz (Z.of_nat c)).
  destruct (Bz_X (Z.of_nat c)) as [HX HN]. destruct (Bz_pow 0) as [E0 F0]; [lia|]. destruct (Bz_pow 64) as [E6 F6]; [lia|].
  change (bpow radix2 0) with 1%R in E0.
  assert (L : (1 <= X (Bz (Z.of_nat c)) <= bpow radix2 64)%R).
  { rewrite HX, <- E6, <- (R64_B2R (Bz (2 ^ 64))), E6, <- (IZR_Zpower radix2) by lia.
    replace 1%R with (R64 1) by (rewrite <- E0; apply R64_B2R).
    split; apply R64_le; apply IZR_le; [lia|]. change (radix2 ^ 64)%Z with (2 ^ 64)%Z. lia. }
  assert (F : finite64 (Bz (Z.of_nat c)) = true).
  { apply fin_X; auto. rewrite Rabs_pos_eq by lra. apply Rle_lt_trans with (bpow radix2 64); [lra|apply bpow_lt; lia]. }
  rewrite <- (X_fin _ F). auto.
Qed.

Lemma self_div c : 1 <= c -> (Z.of_nat c < 2 ^ 64)%Z ->
  div (of_nat (A := B64) c) (of_nat c) = of_Z 1%Z.
Proof.
  intros H1 H2. destruct (of_nat_ok c H1 H2) as [F L]. set (x := of_nat c) in * . clearbody x.
  change (Bquot x x = Bz 1). destruct (Bz_exact 1) as [E1 F1]; [lia|].
  destruct (X_div x x F F) as [Xd Nd]; [lra|].
  assert (E : X (Bquot x x) = 1%R).
  { rewrite Xd. replace (B2R x / B2R x)%R with 1%R by (field; lra). rewrite <- E1 at 1. rewrite R64_B2R. exact E1. }
  apply X_inj; auto using fin_nan.
  - rewrite E, (X_fin _ F1), E1. reflexivity.
  - rewrite E. lra.
Qed.
