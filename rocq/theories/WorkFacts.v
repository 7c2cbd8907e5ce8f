(** Proofs: how much work a call does. *)

From Coq Require Import List ZArith Bool Arith Lia.
From Verif Require Import Outcome Arith Utils IBin Histogram Mean P2 Spec HistSpec ListFacts HistFacts HistSlide Work WorkSpec P2Witness HistWitness.
Import ListNotations.
Local Open Scope nat_scope.

(** ** The counted calls are the calls *)

Lemma answer_bind {X Y} (m : work X) (k : X -> work Y) :
  answer (wbind m k) = bind (answer m) (fun x => answer (k x)).
Proof. destruct m as [[x c]| |]; cbn; auto. destruct (k x) as [[y d]| |]; cbn; auto. Qed.

Lemma answer_ret {X} (x : X) : answer (wret x) = Ret x. Proof. reflexivity. Qed.
Lemma answer_free {X} (o : outcome X) : answer (free o) = o. Proof. destruct o; reflexivity. Qed.
Lemma answer_pay n : answer (pay n) = Ret tt. Proof. reflexivity. Qed.

Lemma bind_same {X Y} (m m' : outcome X) (k k' : X -> outcome Y) :
  m = m' -> (forall x, k x = k' x) -> bind m k = bind m' k'.
Proof. intros -> H. destruct m'; cbn; auto. Qed.

Lemma answer_at {X} (v : list X) i : answer (wat v i) = at_ v i.
Proof. unfold wat. rewrite answer_bind. cbn. apply answer_free. Qed.
Lemma answer_store {X} (v : list X) i a : answer (wstore v i a) = store v i a.
Proof. unfold wstore. rewrite answer_bind. cbn. apply answer_free. Qed.
Lemma answer_push {X} (v : list X) a : answer (wpush v a) = Ret (v ++ [a]). Proof. reflexivity. Qed.
Lemma answer_set {X} (v : list X) i a : answer (wset v i a) = Ret (set_nth v i a). Proof. reflexivity. Qed.
Lemma answer_insert {X} (v : list X) i a : answer (winsert v i a) = Ret (insert_nth v i a). Proof. reflexivity. Qed.
Lemma answer_erase {X} (v : list X) i : answer (werase v i) = Ret (erase_nth v i). Proof. reflexivity. Qed.

Ltac ans := repeat first [rewrite answer_bind | rewrite answer_at | rewrite answer_store | rewrite answer_push
  | rewrite answer_set | rewrite answer_insert | rewrite answer_erase | rewrite answer_pay | rewrite answer_free
  | rewrite answer_ret | progress cbn [bind]].

Section WorkFacts.
  Context {A : arith}.

  Lemma search_answer bins (b : bin A) : forall fuel low high index,
    answer (wsearch fuel bins b low high index) = bsearch fuel bins b low high index.
  Proof.
    induction fuel as [|f IH]; intros low high index; cbn [wsearch bsearch]; destruct (Nat.ltb low high); auto.
    ans. apply bind_same; auto.
  Qed.

  Lemma decay_answer (h : hist A) : answer (whist_decayCounts h) = hist_decayCounts h.
  Proof.
    unfold whist_decayCounts, hist_decayCounts. destruct (h_decay h); auto.
    destruct (Nat.ltb (h_windowSize h) (h_total h)); auto.
    destruct (h_window h) as [[|del w]|]; auto. ans. apply bind_same; auto. intros b. ans.
    destruct (Nat.ltb (h_numBins h) _); auto. destruct (Nat.eqb _ 0); auto.
  Qed.

  Lemma add_answer (h : hist A) x : answer (whist_add h x) = hist_add h x.
  Proof.
    unfold whist_add, hist_add, whist_binSearch_bin, hist_binSearch_bin. rewrite answer_bind, search_answer.
    apply bind_same; auto. intros i. rewrite answer_bind. apply bind_same.
    - destruct (Nat.eqb 0 (h_total h)); auto. destruct (Nat.eqb i (length (h_bins h))); auto.
      rewrite answer_bind, answer_at. apply bind_same; auto. intros b. destruct (x >=?. b_left b); auto.
    - intros (bins, freed). destruct (h_window h) as [w|]; auto. ans. apply decay_answer.
  Qed.

  Lemma gap_answer (bins : list (bin A)) : forall idx d mi, answer (wmin_gap bins idx d mi) = Ret (min_gap bins idx d mi).
  Proof.
    induction bins as [|b0 [|b1 bins] IH]; intros idx d mi; auto.
    change (wmin_gap (b0 :: b1 :: bins) idx d mi) with
      (let+ _ := pay 2 in
       if definitelyLessThan (b_right b1 -. b_right b0) d default_eps
       then wmin_gap (b1 :: bins) (S idx) (b_right b1 -. b_right b0) idx
       else wmin_gap (b1 :: bins) (S idx) d mi).
    change (min_gap (b0 :: b1 :: bins) idx d mi) with
      (if definitelyLessThan (b_right b1 -. b_right b0) d default_eps
       then min_gap (b1 :: bins) (S idx) (b_right b1 -. b_right b0) idx
       else min_gap (b1 :: bins) (S idx) d mi).
    ans. destruct (definitelyLessThan _ _ _); apply IH.
  Qed.

  Lemma merge_answer (bins : list (bin A)) : answer (whist_merge bins) = hist_merge bins.
  Proof.
    unfold whist_merge, hist_merge, wmergeBins, mergeBins. rewrite answer_bind, gap_answer. cbn [bind].
    destruct (min_gap bins 0 dbl_max (length bins)) as [d i]. ans.
    destruct (at_ bins (i + 1)) as [t| |]; cbn [bind]; auto. ans.
    destruct (at_ (erase_nth bins (i + 1)) i); cbn [bind]; auto.
  Qed.

  Lemma remap_answer i w : answer (wremap i w) = Ret (map (fun j => if Nat.eqb j (i + 1) then i else j) w).
  Proof.
    induction w as [|j w IH]; auto. cbn [wremap map]. ans. destruct (Nat.eqb j (i + 1)); ans; rewrite IH; reflexivity.
  Qed.

  Lemma update_answer (h : hist A) x : answer (whist_update h x) = hist_update h x.
  Proof.
    unfold whist_update, hist_update. rewrite answer_bind, add_answer. apply bind_same; auto. intros h1.
    destruct (Nat.ltb (h_numBins h1) (length (h_bins h1))); auto.
    rewrite answer_bind, merge_answer. apply bind_same; auto. intros (bins', i).
    rewrite answer_bind. apply bind_same; auto. destruct (h_decay h1); auto.
    destruct (h_window h1) as [w|]; auto. rewrite answer_bind, remap_answer. reflexivity.
  Qed.

  Lemma mean_answer (s : mean A) x : answer (wmean_update s x) = mean_update s x.
  Proof.
    unfold wmean_update, mean_update. rewrite answer_bind. apply bind_same.
    - destruct (mn_window s) as [w|]; auto. destruct (Nat.ltb _ _); auto. destruct w; auto.
    - intros (w, m). reflexivity.
  Qed.

  Lemma variance_answer (s : variance A) x : answer (wvariance_update s x) = variance_update s x.
  Proof.
    unfold wvariance_update, variance_update. rewrite answer_bind, mean_answer. apply bind_same; auto. intros m.
    rewrite answer_bind, mean_answer. reflexivity.
  Qed.

  Ltac go := repeat first [progress ans | apply bind_same; [try reflexivity|intros ?]].

  Lemma findK_answer (h : list A) x : answer (wfindK h x) = findK h x.
  Proof.
    unfold wfindK, findK. go.
    repeat match goal with |- context [if ?c then _ else _] => destruct c end; go; reflexivity.
  Qed.

  Lemma bump_answer : forall todo i n, answer (wbump_from todo i n) = bump_from todo i n.
  Proof. induction todo as [|t IH]; intros i n; cbn [wbump_from bump_from]; go; auto. Qed.

  Lemma idiff_answer n i j : answer (widiff n i j) = idiff n i j.
  Proof. unfold widiff, idiff. go; reflexivity. Qed.

  Ltac go' := repeat first [rewrite idiff_answer | progress ans | apply bind_same; [try reflexivity|intros ?]]; try reflexivity.

  Lemma parabolic_answer (h : list A) n i d : answer (wparabolic h n i d) = parabolic h n i d.
  Proof. unfold wparabolic, parabolic. go'. Qed.

  Lemma linear_answer (h : list A) n i d : answer (wlinear h n i d) = linear h n i d.
  Proof. unfold wlinear, linear. go'. Qed.

  Lemma adjust_answer (des : list A) hn i : answer (wadjustHeights des hn i) = adjustHeights des hn i.
  Proof.
    destruct hn as [h n]. unfold wadjustHeights, adjustHeights. go'.
    match goal with |- answer (if ?c then _ else _) = _ => destruct c end; auto.
    rewrite answer_bind, parabolic_answer. apply bind_same; auto. intros q. go'.
    match goal with |- answer (if ?c then _ else _) = _ => destruct c end; go'.
    rewrite linear_answer. reflexivity.
  Qed.

  Lemma p2_answer sw (s : p2 A) x : answer (w_p2_update sw s x) = p2_update s x.
  Proof.
    unfold w_p2_update, p2_update. destruct (Nat.ltb (p_history s) 5).
    - go'. destruct (Nat.eqb (S (p_history s)) 5); auto. unfold wstd_sort. go'.
    - rewrite answer_bind, findK_answer. apply bind_same; auto. intros (h, k).
      rewrite answer_bind, bump_answer. apply bind_same; auto. intros n. go'.
      2:{ match goal with |- answer (match ?x with _ => _ end) = _ => destruct x; reflexivity end. }
      destruct (p_quantile s >=?. lit 1 2); rewrite !answer_bind, adjust_answer;
        (apply bind_same; [reflexivity|intros a1]; rewrite answer_bind, adjust_answer;
         apply bind_same; [reflexivity|intros a2]; apply adjust_answer).
  Qed.

  (** ** Bounds *)

  (** At most [n] accesses, and the result satisfies [P]. *)
  Definition within {X} (n : nat) (m : work X) (P : X -> Prop) : Prop :=
    forall x c, m = Ret (x, c) -> c <= n /\ P x.

  Lemma within_bind {X Y} (m : work X) (k : X -> work Y) a b P Q :
    within a m P -> (forall x, P x -> within b (k x) Q) -> within (a + b) (wbind m k) Q.
  Proof.
    intros H1 H2 y c E. destruct m as [[x c1]| |]; cbn in E; try discriminate.
    destruct (H1 _ _ eq_refl) as [L1 Px]. destruct (k x) as [[y' d]| |] eqn:Ek; cbn in E; try discriminate.
    injection E as -> <-. destruct (H2 x Px _ _ Ek). split; [lia|auto].
  Qed.

  Lemma within_ret {X} (x : X) n (P : X -> Prop) : P x -> within n (wret x) P.
  Proof. intros H y c E. injection E as <- <-. split; [lia|auto]. Qed.

  Lemma within_weaken {X} (m : work X) a b (P Q : X -> Prop) : within a m P -> a <= b -> (forall x, P x -> Q x) -> within b m Q.
  Proof. intros H L I x c E. destruct (H x c E). split; [lia|auto]. Qed.

  Lemma within_pay n : within n (pay n) (fun _ => True).
  Proof. intros x c E. injection E as <- <-. auto. Qed.
  Lemma within_free {X} (o : outcome X) n : within n (free o) (fun x => o = Ret x).
  Proof. intros x c E. destruct o; cbn in E; try discriminate. injection E as <- <-. split; [lia|auto]. Qed.
  Lemma within_undef {X} u n (P : X -> Prop) : within n (Undef u) P.
  Proof. intros x c E. discriminate. Qed.

  Lemma within_at {X} (v : list X) i : within 1 (wat v i) (fun x => at_ v i = Ret x).
  Proof. unfold wat. change 1 with (1 + 0). eapply within_bind; [apply within_pay|]. intros _ _. apply within_free. Qed.
  Lemma within_store {X} (v : list X) i a : within 1 (wstore v i a) (fun _ => True).
  Proof.
    unfold wstore. change 1 with (1 + 0). eapply within_bind; [apply within_pay|]. intros _ _.
    eapply within_weaken; [apply (within_free _ 0)|lia|auto].
  Qed.
  Lemma within_paid {X} n (x : X) : within n (let+ _ := pay n in wret x) (fun y => y = x).
  Proof. intros y c E. cbn in E. injection E as <- <-. split; [lia|auto]. Qed.

  (** Binary search. *)
  Lemma search_cost bins (b : bin A) : forall fuel low high c i,
    low <= high -> wsearch fuel bins b low high ((low + high) / 2) = Ret (i, c) ->
    Nat.log2 (high - low + 1) <= c <= (if Nat.eqb (high - low) 0 then 0 else Nat.log2 (high - low) + 1).
  Proof.
    induction fuel as [|f IH]; intros low high c i L E; cbn [wsearch] in E;
      destruct (Nat.ltb_spec low high) as [Hlt|Hge]; try discriminate E.
    1,3: injection E as _ <-; replace (high - low) with 0 by lia; cbn; lia.
    set (mid := (low + high) / 2) in * .
    assert (Hmid : 2 * mid <= low + high < 2 * mid + 2).
    { unfold mid. pose proof (Nat.div_mod (low + high) 2). pose proof (Nat.mod_upper_bound (low + high) 2). lia. }
    unfold wat in E. destruct (at_ bins mid) as [bi| |]; cbn in E; try discriminate E.
    assert (T : exists c', c = S c' /\ exists lo hi, lo <= hi /\
       high - low = 2 * (hi - lo) + (if Nat.even (high - low) then if Nat.eqb lo low then 0 else 2 else 1) /\
       wsearch f bins b lo hi ((lo + hi) / 2) = Ret (i, c')).
    { destruct (bin_lt bi b);
        match type of E with context [wsearch f bins b ?lo ?hi ?ix] => destruct (wsearch f bins b lo hi ix) as [[i' c']| |] eqn:Es end;
        cbn in E; try discriminate E; injection E as <- <-; exists c'; (split; [lia|]).
      - exists (mid + 1), high. split; [lia|]. split; [|exact Es].
        destruct (Nat.eqb_spec (mid + 1) low); [lia|].
        destruct (Nat.even (high - low)) eqn:Ev.
        + apply Nat.even_spec in Ev as (k & Ek). lia.
        + assert (Od : Nat.odd (high - low) = true) by (unfold Nat.odd; now rewrite Ev).
          apply Nat.odd_spec in Od as (k & Ek). lia.
      - exists low, mid. split; [lia|]. split; [|exact Es].
        destruct (Nat.eqb_spec low low); [|lia].
        destruct (Nat.even (high - low)) eqn:Ev.
        + apply Nat.even_spec in Ev as (k & Ek). lia.
        + assert (Od : Nat.odd (high - low) = true) by (unfold Nat.odd; now rewrite Ev).
          apply Nat.odd_spec in Od as (k & Ek). lia. }
    destruct T as (c' & -> & lo & hi & Lh & Eq & Es). clear E.
    destruct (IH _ _ _ _ Lh Es) as [I1 I2].
    destruct (Nat.eqb_spec (high - low) 0) as [|n0]; [lia|].
    set (n := high - low) in * . set (k := hi - lo) in * . clearbody n k. clear -n0 Eq I1 I2.
    assert (K : n = 2 * k \/ n = 2 * k + 1 \/ n = 2 * k + 2).
    { destruct (Nat.even n); [destruct (Nat.eqb lo low)|]; lia. }
    split.
    - assert (n + 1 < 2 * (k + 1) + 2) by lia.
      apply Nat.le_trans with (Nat.log2 (2 * (k + 1) + 1)); [apply Nat.log2_le_mono; lia|].
      rewrite Nat.log2_succ_double by lia. lia.
    - destruct (Nat.eqb_spec k 0) as [->|Hk]; [lia|].
      assert (Nat.log2 (2 * k) <= Nat.log2 n) by (apply Nat.log2_le_mono; lia).
      rewrite Nat.log2_double in H by lia. lia.
  Qed.

  Lemma search_terminates (h : hist A) b : exists i c, whist_binSearch_bin h b = Ret (i, c) /\ hist_binSearch_bin h b = Ret i.
  Proof.
    destruct (search_found h b) as (i & E & _). pose proof (search_answer (h_bins h) b (S (length (h_bins h))) 0 (length (h_bins h)) ((0 + length (h_bins h)) / 2)) as Ha.
    unfold hist_binSearch_bin in E. rewrite E in Ha. unfold whist_binSearch_bin.
    destruct (wsearch _ _ _ _ _ _) as [[j c]| |]; cbn in Ha; try discriminate Ha. injection Ha as ->.
    exists i, c. auto.
  Qed.

  Lemma search_logarithmic (h : hist A) (b : bin A) : exists i c,
    whist_binSearch_bin h b = Ret (i, c) /\
    Nat.log2 (hist_size h + 1) <= c <= (if Nat.eqb (hist_size h) 0 then 0 else Nat.log2 (hist_size h) + 1).
  Proof.
    destruct (search_terminates h b) as (i & c & E & _). exists i, c. split; [exact E|].
    unfold whist_binSearch_bin in E. apply search_cost in E; [|lia]. now rewrite Nat.sub_0_r in E.
  Qed.

  Lemma within_search (h : hist A) b : within (Nat.log2 (length (h_bins h)) + 1) (whist_binSearch_bin h b) (fun _ => True).
  Proof.
    intros i c E. split; auto. unfold whist_binSearch_bin in E. apply search_cost in E; [|lia].
    rewrite Nat.sub_0_r in E. destruct (Nat.eqb (length (h_bins h)) 0); lia.
  Qed.

  Lemma erase_length_le {X} (v : list X) i : length (erase_nth v i) <= length v.
  Proof. revert i; induction v; intros [|i]; cbn; auto. specialize (IHv i). lia. Qed.

  (** Removing an old observation. *)
  Lemma within_decay (h : hist A) w : h_window h = Some w -> h_decay h = true ->
    within (length (h_bins h) + 4) (whist_decayCounts h)
      (fun h' => h_numBins h' = h_numBins h /\ h_decay h' = true /\ length (h_bins h') <= length (h_bins h) /\
                 exists w', h_window h' = Some w' /\
                   length w' = if Nat.ltb (h_windowSize h) (h_total h) then length w - 1 else length w).
  Proof.
    intros Hw Hd. unfold whist_decayCounts. rewrite Hd, Hw.
    destruct (Nat.ltb (h_windowSize h) (h_total h)).
    2:{ apply within_ret. repeat split; auto. exists w. auto. }
    destruct w as [|del w']; [apply within_undef|].
    replace (length (h_bins h) + 4) with (2 + (1 + (1 + (length (h_bins h) + 0)))) by lia.
    eapply within_bind; [apply within_pay|]. intros _ _.
    eapply within_bind; [apply within_at|]. intros b _. cbv beta.
    eapply within_bind; [apply within_paid|]. intros bins1 ->.
    eapply within_bind with (P := fun bins2 => length bins2 <= length (h_bins h)).
    - assert (L : length (set_nth (h_bins h) del (if Nat.ltb 0 (b_count b)
                      then Bin (b_left b) (b_right b) (b_count b - 1) else b)) = length (h_bins h)) by apply set_nth_length.
      destruct (Nat.ltb (h_numBins h) _); [destruct (Nat.eqb _ 0)|]; try (apply within_ret; lia).
      eapply within_weaken; [apply within_paid|lia|]. intros x ->. etransitivity; [apply erase_length_le|lia].
    - intros bins2 L. apply within_ret. cbn. repeat split; auto. exists w'. split; auto. lia.
  Qed.

  Lemma insert_length {X} (v : list X) i a : length (insert_nth v i a) = S (length v).
  Proof. revert i; induction v; intros [|i]; cbn; auto. Qed.

  (** Adding an observation. *)
  Lemma within_add (h : hist A) x w : h_window h = Some w -> h_decay h = true ->
    within (Nat.log2 (length (h_bins h)) + 2 * length (h_bins h) + 9) (whist_add h x)
      (fun h' => h_numBins h' = h_numBins h /\ h_decay h' = true /\ length (h_bins h') <= length (h_bins h) + 1 /\
                 exists w', h_window h' = Some w' /\
                   length w' = if Nat.ltb (h_windowSize h) (h_total h + 1) then length w else length w + 1).
  Proof.
    intros Hw Hd. unfold whist_add. cbv zeta. rewrite Hw. set (n := length (h_bins h)).
    replace (Nat.log2 n + 2 * n + 9) with ((Nat.log2 n + 1) + ((n + 2) + (1 + ((n + 1) + 4)))) by lia.
    eapply within_bind; [apply within_search|]. intros i _.
    eapply within_bind with (P := fun bf => length (fst bf) <= n + 1).
    - assert (P1 : forall v : list (bin A), length v <= n + 1 -> forall k, k <= n + 2 -> forall f : nat,
        within (n + 2) (let+ v := (let+ _ := pay k in wret v) in wret (v, f)) (fun bf => length (fst bf) <= n + 1)).
      { intros v Lv k Lk f. replace (n + 2) with (k + (n + 2 - k)) by lia.
        eapply within_bind; [apply within_paid|]. intros v' ->. now apply within_ret. }
      assert (La : length (h_bins h ++ [Bin x x 1]) <= n + 1) by (rewrite app_length; cbn; unfold n; lia).
      destruct (Nat.eqb 0 (h_total h)); [apply P1; [exact La|lia]|].
      destruct (Nat.eqb i n); [apply P1; [exact La|lia]|].
      replace (n + 2) with (1 + (n + 1)) by lia.
      eapply within_bind; [apply within_at|]. intros b _. cbv beta.
      destruct (x >=?. b_left b).
      + replace (n + 1) with (1 + n) at 1 by lia. eapply within_bind; [apply within_paid|].
        intros v ->. apply within_ret. cbn [fst]. rewrite set_nth_length. unfold n. lia.
      + replace (n + 1) with (length (h_bins h) - i + 1 + (n - (length (h_bins h) - i))) at 1 by (unfold n; lia).
        eapply within_bind; [apply within_paid|].
        intros v ->. apply within_ret. cbn [fst]. rewrite insert_length. unfold n. lia.
    - intros (bins, f) L. cbn [fst] in L.
      eapply within_bind; [apply within_paid|]. intros w' ->.
      eapply within_weaken; [eapply within_decay; [reflexivity|exact Hd]| |]; cbn [h_bins h_numBins h_windowSize h_total].
      + lia.
      + intros h' (E1 & E2 & E3 & w' & E4 & E5). cbn [h_bins h_numBins h_windowSize h_total] in * .
        unfold n in L. repeat split; auto; try lia. exists w'. split; auto.
        rewrite E5, app_length. cbn [length]. destruct (Nat.ltb (h_windowSize h) (h_total h + 1)); lia.
  Qed.

  (** Merging. *)
  Lemma within_gap (bins : list (bin A)) : forall idx d mi, within (2 * (length bins - 1)) (wmin_gap bins idx d mi) (fun _ => True).
  Proof.
    induction bins as [|b0 [|b1 bins] IH]; intros idx d mi; try now apply within_ret.
    change (wmin_gap (b0 :: b1 :: bins) idx d mi) with
      (let+ _ := pay 2 in
       if definitelyLessThan (b_right b1 -. b_right b0) d default_eps
       then wmin_gap (b1 :: bins) (S idx) (b_right b1 -. b_right b0) idx
       else wmin_gap (b1 :: bins) (S idx) d mi).
    replace (2 * (length (b0 :: b1 :: bins) - 1)) with (2 + 2 * (length (b1 :: bins) - 1)) by (cbn; lia).
    eapply within_bind; [apply within_pay|]. intros _ _. destruct (definitelyLessThan _ _ _); apply IH.
  Qed.

  Lemma within_merge (bins : list (bin A)) : within (3 * length bins + 3) (whist_merge bins) (fun _ => True).
  Proof.
    unfold whist_merge.
    apply within_weaken with (2 * (length bins - 1) + ((1 + (length bins + (1 + 1))) + 0)) (fun _ => True); [|lia|auto].
    eapply within_bind; [apply within_gap|]. intros (d, i) _.
    eapply within_bind with (P := fun _ => True); [|intros; now apply within_ret].
    unfold wmergeBins. eapply within_bind; [apply within_at|]. intros t _. cbv beta.
    eapply within_bind; [eapply within_weaken; [apply within_paid|lia|intros y Hy; exact Hy]|]. intros bins1 ->.
    eapply within_bind; [apply within_at|]. intros l _. cbv beta.
    eapply within_weaken; [apply within_paid|lia|auto].
  Qed.

  (** Redirecting the window. *)
  Lemma within_remap i w : within (2 * length w) (wremap i w) (fun _ => True).
  Proof.
    induction w as [|j w IH]; [now apply within_ret|]. cbn [wremap length].
    replace (2 * S (length w)) with (1 + (1 + (2 * length w + 0))) by lia.
    eapply within_bind; [apply within_pay|]. intros _ _.
    eapply within_bind with (P := fun _ => True).
    { destruct (Nat.eqb j (i + 1)); [|now apply within_ret]. eapply within_weaken; [apply within_paid|lia|auto]. }
    intros j' _. eapply within_bind; [exact IH|]. intros; now apply within_ret.
  Qed.

  Lemma remap_least i w : at_least (length w) (wremap i w).
  Proof.
    induction w as [|j w IH]; intros r c E; [cbn in *; lia|]. cbn [wremap length] in * .
    destruct (wremap i w) as [[r' c']| |] eqn:Er; destruct (Nat.eqb j (i + 1)); cbn in E; try discriminate E;
      injection E as _ <-; specialize (IH _ _ eq_refl); lia.
  Qed.

  (** One update. *)
  Lemma update_most N W os (h : hist A) x : hist_calls (hist_new N W true) os = Ret h ->
    at_most (Nat.log2 N + 5 * N + 4 * W + 15) (whist_update h x).
  Proof.
    intros E. destruct (run_basic N W os h E) as ((w & (HN & HW & Hd & Hw) & Lw) & T & Lb & _).
    assert (G : within (Nat.log2 N + 5 * N + 4 * W + 15) (whist_update h x) (fun _ => True)).
    { unfold whist_update.
      pose proof (Nat.log2_le_mono _ _ Lb) as Ll.
      apply within_weaken with (Nat.log2 (length (h_bins h)) + 2 * length (h_bins h) + 9 + ((3 * (N + 1) + 3) + (2 * (2 * W) + 0 + 0)))
        (fun _ => True); [|lia|auto].
      eapply within_bind; [apply (within_add h x w Hw Hd)|].
      intros h1 (E1 & E2 & E3 & w' & E4 & E5). cbv beta.
      destruct (Nat.ltb (h_numBins h1) (length (h_bins h1))); [|now apply within_ret].
      eapply within_bind; [eapply within_weaken; [apply within_merge|lia|intros y Hy; exact Hy]|].
      intros (bins', i) _. eapply within_bind with (P := fun _ => True); [|intros; now apply within_ret].
      rewrite E2, E4. eapply within_bind with (P := fun _ => True); [|intros; now apply within_ret].
      eapply within_weaken; [apply within_remap| |auto].
      rewrite E5, HW. destruct (Nat.ltb_spec W (h_total h + 1)); lia. }
    intros h' c Eu. now apply G in Eu.
  Qed.

  Lemma cost_split {X Y} (m : work X) (k : X -> work Y) y c : wbind m k = Ret (y, c) ->
    exists x c1 c2, m = Ret (x, c1) /\ k x = Ret (y, c2) /\ c = c1 + c2.
  Proof.
    destruct m as [[x c1]| |]; cbn; try discriminate. destruct (k x) as [[y' c2]| |] eqn:E; cbn; try discriminate.
    intros H; injection H as <- <-. eauto 6.
  Qed.

  Lemma add_run (h : hist A) x h1 : hist_add h x = Ret h1 -> exists c, whist_add h x = Ret (h1, c).
  Proof.
    intros E. rewrite <- add_answer in E. destruct (whist_add h x) as [[h' c]| |]; cbn in E; try discriminate.
    injection E as ->. eauto.
  Qed.

  (** Without a merge the window does not matter. *)
  Lemma update_most_fits N W os (h h1 : hist A) x : hist_calls (hist_new N W true) os = Ret h ->
    hist_add h x = Ret h1 -> hist_size h1 <= N -> at_most (Nat.log2 N + 2 * N + 9) (whist_update h x).
  Proof.
    intros E Ea Fit h' c Eu. destruct (run_basic N W os h E) as ((w & (HN & HW & Hd & Hw) & Lw) & T & Lb & _).
    pose proof (Nat.log2_le_mono _ _ Lb) as Ll.
    destruct (add_run _ _ _ Ea) as (c1 & Ec). destruct (within_add h x w Hw Hd _ _ Ec) as (L & E1 & _).
    unfold whist_update in Eu. rewrite Ec in Eu. cbn [wbind bind] in Eu. unfold hist_size in Fit.
    destruct (Nat.ltb_spec (h_numBins h1) (length (h_bins h1))); [lia|]. cbn in Eu. injection Eu as _ <-. lia.
  Qed.

  Lemma gap_least (bins : list (bin A)) : forall idx d mi, at_least (2 * (length bins - 1)) (wmin_gap bins idx d mi).
  Proof.
    induction bins as [|b0 [|b1 bins] IH]; intros idx d mi r c E; try (cbn; lia).
    change (wmin_gap (b0 :: b1 :: bins) idx d mi) with
      (let+ _ := pay 2 in
       if definitelyLessThan (b_right b1 -. b_right b0) d default_eps
       then wmin_gap (b1 :: bins) (S idx) (b_right b1 -. b_right b0) idx
       else wmin_gap (b1 :: bins) (S idx) d mi) in E.
    apply cost_split in E as (u & c1 & c2 & E1 & E2 & ->). injection E1 as _ <-.
    destruct (definitelyLessThan _ _ _); apply IH in E2; cbn [length] in *; lia.
  Qed.

  Lemma add_least (h : hist A) x : at_least (Nat.log2 (hist_size h + 1)) (whist_add h x).
  Proof.
    intros y c E. unfold whist_add in E. apply cost_split in E as (i & c1 & c2 & E1 & _ & ->).
    unfold whist_binSearch_bin in E1. apply search_cost in E1; [|lia]. rewrite Nat.sub_0_r in E1. unfold hist_size. lia.
  Qed.

  (** A merge visits every bin and every index of the window. *)
  Lemma update_least N W xs (h h1 : hist A) x : update_all hist_update (hist_new N W true) xs = Ret h ->
    hist_add h x = Ret h1 -> N < hist_size h1 ->
    at_least (Nat.log2 (hist_size h + 1) + 2 * N + W + Nat.min (length xs + 1) W) (whist_update h x).
  Proof.
    intros E Ea Big h' c Eu. destruct (queue_length N W xs h E) as (w & Hw & Lw).
    rewrite <- calls_updates in E. destruct (run_basic N W _ h E) as ((w0 & (HN & HW & Hd & Hw0) & _) & T & _).
    rewrite hist_items_updates in T.
    destruct (add_run _ _ _ Ea) as (c1 & Ec). destruct (within_add h x w Hw Hd _ _ Ec) as (_ & E1 & E2 & _ & w' & E4 & E5).
    unfold whist_update in Eu. rewrite Ec in Eu. unfold hist_size at 1 in Big. apply add_least in Ec.
    apply cost_split in Eu as (h1' & c1' & c2 & Eh & Eu & ->). injection Eh as <- <-.
    replace (Nat.ltb (h_numBins h1) (length (h_bins h1))) with true in Eu by (symmetry; apply Nat.ltb_lt; lia).
    apply cost_split in Eu as ((bins', i) & c3 & c4 & Em & Eu & ->).
    unfold whist_merge in Em. apply cost_split in Em as ((d, i0) & cg & cm & Eg & _ & ->). apply gap_least in Eg.
    apply cost_split in Eu as (wr & c5 & c6 & Er & _ & ->). rewrite E2, E4 in Er.
    apply cost_split in Er as (w'' & c7 & c8 & Er & _ & ->). apply remap_least in Er.
    rewrite E5, HW in Er. destruct (Nat.ltb_spec W (h_total h + 1)); lia.
  Qed.

  (** The first two updates of a histogram of one bin. *)
  Lemma first_update W (a : A) : 1 <= W ->
    hist_update (hist_new 1 W true) a = Ret (Hist 1 W true [Bin a a 1] (Some (repeat 0 W ++ [0])) 1 1 1 0).
  Proof. intros H. destruct W; [lia|]. reflexivity. Qed.

  Lemma second_add W (a b : A) : 2 <= W -> bin_lt (Bin a a 1) (Bin b b 1) = true ->
    exists h1, hist_add (Hist 1 W true [Bin a a 1] (Some (repeat 0 W ++ [0])) 1 1 1 0) b = Ret h1 /\ hist_size h1 = 2.
  Proof.
    intros H E. destruct W as [|[|W]]; try lia. unfold hist_add, hist_binSearch_bin.
    cbn [h_bins length bsearch Nat.ltb Nat.leb].
    change ((0 + 1) / 2) with 0. cbn [at_ nth_error bind]. rewrite E. cbn. eexists. split; reflexivity.
  Qed.

  (** ** Mean, variance, P2 *)

  Lemma within_mean (s : mean A) x : within 3 (wmean_update s x) (fun _ => True).
  Proof.
    unfold wmean_update. change 3 with (3 + 0). eapply within_bind with (P := fun _ => True).
    - destruct (mn_window s) as [w|]; [|now apply within_ret]. destruct (Nat.ltb _ _).
      + destruct w as [|f w']; [apply within_undef|]. change 3 with (2 + (1 + 0)).
        eapply within_bind; [apply within_pay|]. intros _ _. eapply within_bind; [apply within_paid|].
        intros v _. now apply within_ret.
      + change 3 with (1 + 2). eapply within_bind; [apply within_paid|]. intros v _. now apply within_ret.
    - intros (w, m) _. now apply within_ret.
  Qed.

  Lemma mean_most (s : mean A) x : at_most 3 (wmean_update s x).
  Proof. intros y c E. now apply within_mean in E. Qed.

  Lemma variance_most (s : variance A) x : at_most 6 (wvariance_update s x).
  Proof.
    assert (G : within 6 (wvariance_update s x) (fun _ => True)).
    { unfold wvariance_update. change 6 with (3 + (3 + 0)). eapply within_bind; [apply within_mean|]. intros m _.
      eapply within_bind; [apply within_mean|]. intros q _. now apply within_ret. }
    intros y c E. now apply G in E.
  Qed.

  Ltac wstep_at := eapply within_bind; [apply within_at|intros ? _; cbv beta].

  Lemma within_idiff n i j : within 2 (widiff n i j) (fun _ => True).
  Proof.
    unfold widiff. change 2 with (1 + (1 + 0)). wstep_at. wstep_at.
    eapply within_weaken; [apply (within_free _ 0)|lia|auto].
  Qed.

  Lemma within_findK (h : list A) x : within 6 (wfindK h x) (fun hk => snd hk <= 3).
  Proof.
    unfold wfindK. change 6 with (1 + (1 + (1 + (1 + (1 + 1))))). do 5 wstep_at.
    repeat match goal with |- context [if ?c then _ else _] => destruct c end;
      try (apply within_ret; cbn; lia);
      (change 1 with (1 + 0) at 1; eapply within_bind; [apply within_store|intros ? _; apply within_ret; cbn; lia]).
  Qed.

  Lemma within_bump : forall todo i n, within (2 * todo) (wbump_from todo i n) (fun _ => True).
  Proof.
    induction todo as [|t IH]; intros i n; cbn [wbump_from]; [now apply within_ret|].
    replace (2 * S t) with (1 + (0 + (1 + 2 * t))) by lia. wstep_at.
    eapply within_bind; [apply within_free|]. intros z _. cbv beta.
    eapply within_bind; [apply within_store|]. intros n' _. apply IH.
  Qed.

  Lemma within_parabolic (h : list A) n i d : within 9 (wparabolic h n i d) (fun _ => True).
  Proof.
    unfold wparabolic. change 9 with (1 + (1 + (1 + (2 + (2 + (2 + 0)))))). do 3 wstep_at.
    do 3 (eapply within_bind; [apply within_idiff|intros ? _]). now apply within_ret.
  Qed.

  Lemma within_linear (h : list A) n i d : within 4 (wlinear h n i d) (fun _ => True).
  Proof.
    unfold wlinear. change 4 with (1 + (1 + (2 + 0))). do 2 wstep_at.
    eapply within_bind; [apply within_idiff|intros ? _]. now apply within_ret.
  Qed.

  Lemma within_adjust (des : list A) hn i : within 23 (wadjustHeights des hn i) (fun _ => True).
  Proof.
    destruct hn as [h n]. unfold wadjustHeights. change 23 with (1 + (1 + (2 + (2 + (9 + (1 + (1 + (5 + (0 + (1 + 0)))))))))).
    do 2 wstep_at. do 2 (eapply within_bind; [apply within_idiff|intros ? _]).
    match goal with |- within _ (if ?c then _ else _) _ => destruct c end; [|now apply within_ret].
    eapply within_bind; [apply within_parabolic|intros q _]. do 2 wstep_at.
    eapply within_bind with (P := fun _ => True).
    { match goal with |- within _ (if ?c then _ else _) _ => destruct c end.
      - eapply within_weaken; [apply within_store|lia|auto].
      - change 5 with (4 + 1). eapply within_bind; [apply within_linear|intros v _; apply within_store]. }
    intros h' _. eapply within_bind; [apply within_free|]. intros z _. cbv beta.
    eapply within_bind; [apply within_store|]. intros n' _. now apply within_ret.
  Qed.

  Lemma within_p2 sw (s : p2 A) x : within (Nat.max 88 (6 + sw (length (p_heights s)))) (w_p2_update sw s x) (fun _ => True).
  Proof.
    unfold w_p2_update. destruct (Nat.ltb (p_history s) 5).
    - apply within_weaken with (1 + (sw (length (p_heights s)) + (5 + 0))) (fun _ => True); [|lia|auto].
      unfold wstore. eapply within_bind with (P := fun h => length h = length (p_heights s)).
      { change 1 with (1 + 0). eapply within_bind; [apply within_pay|]. intros _ _.
        eapply within_weaken; [apply (within_free _ 0)|lia|]. intros h Hs. unfold store in Hs.
        destruct (Nat.ltb _ _); [|discriminate]. injection Hs as <-. apply set_nth_length. }
      intros h Lh. destruct (Nat.eqb (S (p_history s)) 5); [|now apply within_ret].
      unfold wstd_sort. rewrite Lh. eapply within_bind with (P := fun _ => True).
      { eapply within_weaken; [eapply within_bind; [apply within_pay|intros _ _; apply (within_free _ 0)]|lia|auto]. }
      intros h' _. eapply within_bind; [apply within_pay|]. intros _ _. now apply within_ret.
    - apply within_weaken with (6 + (8 + (1 + (4 + ((23 + (23 + 23)) + 0))))) (fun _ => True); [|lia|auto].
      eapply within_bind; [apply within_findK|]. intros (h, k) Hk. cbn [snd] in Hk.
      eapply within_bind; [eapply within_weaken; [apply within_bump|lia|intros ? Hy; exact Hy]|]. intros n _.
      wstep_at. eapply within_bind; [apply within_pay|]. intros _ _.
      eapply within_bind with (P := fun _ => True); [|intros (h', n') _; now apply within_ret].
      destruct (p_quantile s >=?. lit 1 2);
        (eapply within_bind; [apply within_adjust|intros a1 _];
         eapply within_bind; [apply within_adjust|intros a2 _; apply within_adjust]).
  Qed.

  Lemma p2_most sw (s : p2 A) x : length (p_heights s) = 5 -> at_most (Nat.max 88 (6 + sw 5)) (w_p2_update sw s x).
  Proof. intros L y c E. apply within_p2 in E. now rewrite L in E. Qed.
End WorkFacts.

(** One bin and a long window. *)
Lemma window_matters K : exists W (h h' : hist B64) c,
  update_all hist_update (hist_new (A := B64) 1 W true) [Bz 1] = Ret h /\
  whist_update h (Bz 2) = Ret (h', c) /\ K < c.
Proof.
  set (W := K + 2). exists W.
  set (h := Hist (A := B64) 1 W true [Bin (A := B64) (Bz 1) (Bz 1) 1] (Some (repeat 0 W ++ [0])) 1 1 1 0).
  assert (E : update_all hist_update (hist_new (A := B64) 1 W true) [Bz 1] = Ret h).
  { cbn [update_all]. rewrite (first_update (A := B64) W (Bz 1)) by (unfold W; lia). reflexivity. }
  assert (Lt : bin_lt (A := B64) (Bin (A := B64) (Bz 1) (Bz 1) 1) (Bin (A := B64) (Bz 2) (Bz 2) 1) = true) by (vm_compute; reflexivity).
  destruct (second_add (A := B64) W (Bz 1) (Bz 2)) as (h1 & Ea & Es); [unfold W; lia|exact Lt|].
  assert (R : exists h2, update_all hist_update (hist_new (A := B64) 1 W true) [Bz 1; Bz 2] = Ret h2).
  { apply (run_safe (A := B64) (fun x => x = Bz 1 \/ x = Bz 2)); [lia|cbn; unfold W; lia| |].
    - constructor; [left; reflexivity|constructor; [right; reflexivity|constructor]].
    - intros x y [->| ->] [->| ->]; vm_compute; reflexivity. }
  destruct R as (h2 & E2). change [Bz 1; Bz 2] with ([Bz 1] ++ [Bz 2]) in E2.
  rewrite update_all_snoc, E in E2. cbn [bind] in E2. rewrite <- update_answer in E2.
  destruct (whist_update h (Bz 2)) as [[h' c]| |] eqn:Eu; cbn [answer bind] in E2; try discriminate E2.
  exists h, h', c. split; [exact E|]. split; [exact Eu|].
  pose proof (update_least 1 W [Bz 1] h h1 (Bz 2) E Ea ltac:(lia) _ _ Eu). unfold W in *; cbn in *; lia.
Qed.

Lemma counted_calls (A : arith) (sw : nat -> nat) (x : A) :
  (forall h, answer (whist_update h x) = hist_update h x) /\
  (forall s, answer (wmean_update s x) = mean_update s x) /\
  (forall s, answer (wvariance_update s x) = variance_update s x) /\
  (forall s, answer (w_p2_update sw s x) = p2_update s x).
Proof. repeat split; intros; [apply update_answer|apply mean_answer|apply variance_answer|apply p2_answer]. Qed.

Lemma constant_work (A : arith) (sw : nat -> nat) (x : A) :
  (forall s, at_most 3 (wmean_update s x)) /\ (forall s, at_most 6 (wvariance_update s x)) /\
  (forall s, length (p_heights s) = 5 -> at_most (Nat.max 88 (6 + sw 5)) (w_p2_update sw s x)).
Proof. repeat split; intros; [apply mean_most|apply variance_most|now apply p2_most]. Qed.

Lemma gap_exact (A : arith) (bins : list (bin A)) : forall idx (d : A) m, exists r,
  wmin_gap bins idx d m = Ret (r, 2 * (length bins - 1)).
Proof.
  induction bins as [|b0 bins IH]; intros idx d m; [now exists (d, m)|].
  destruct bins as [|b1 bins]; [now exists (d, m)|].
  change (wmin_gap (b0 :: b1 :: bins) idx d m) with
    (let+ _ := pay 2 in
     if definitelyLessThan (b_right b1 -. b_right b0) d default_eps
     then wmin_gap (b1 :: bins) (S idx) (b_right b1 -. b_right b0) idx
     else wmin_gap (b1 :: bins) (S idx) d m).
  destruct (definitelyLessThan _ _ _).
  - destruct (IH (S idx) (b_right b1 -. b_right b0) idx) as [r ->]. exists r. cbn [wbind pay bind length].
    do 2 f_equal. lia.
  - destruct (IH (S idx) d m) as [r ->]. exists r. cbn [wbind pay bind length]. do 2 f_equal. lia.
Qed.

Lemma merge_exact (A : arith) (bins bins' : list (bin A)) i c : whist_merge bins = Ret ((bins', i), c) ->
  c + i = 3 * length bins /\ i + 1 < length bins.
Proof.
  unfold whist_merge. destruct (gap_exact A bins 0 dbl_max (length bins)) as [[d m] ->].
  unfold wmergeBins, wat, werase, wset. cbn [wbind pay bind]. intros E.
  destruct (at_ bins (m + 1)) as [x| |] eqn:Ex; cbn in E; try discriminate E.
  assert (Lm : m + 1 < length bins).
  { unfold at_ in Ex. destruct (nth_error bins (m + 1)) eqn:En; try discriminate Ex.
    apply nth_error_Some. congruence. }
  destruct (at_ (erase_nth bins (m + 1)) m) as [y| |]; cbn in E; try discriminate E.
  injection E as _ Ei Ec. lia.
Qed.

Lemma merge_linear (A : arith) (bins : list (bin A)) :
  answer (whist_merge bins) = hist_merge bins /\
  forall bins' i c, whist_merge bins = Ret ((bins', i), c) -> c + i = 3 * length bins /\ i + 1 < length bins.
Proof. split; [apply merge_answer|]. apply merge_exact. Qed.
