(** Proofs about the histogram that hold for every arithmetic. *)

From Coq Require Import List Sorting.Sorted Arith Bool Lia ZArith.
From Verif Require Import Outcome Arith Utils IBin Histogram Spec ListFacts HistSpec UtilsFacts.
Import ListNotations.

(** ** Lists *)

Lemma set_nth_split {X} (l : list X) a r x : set_nth (l ++ a :: r) (length l) x = l ++ x :: r.
Proof. induction l; simpl; congruence. Qed.
Lemma erase_nth_split {X} (l : list X) a r : erase_nth (l ++ a :: r) (length l) = l ++ r.
Proof. induction l; simpl; congruence. Qed.
Lemma insert_nth_split {X} (l r : list X) x : insert_nth (l ++ r) (length l) x = l ++ x :: r.
Proof. induction l; simpl; [now destruct r|congruence]. Qed.
Lemma at_split {X} (l : list X) a r : at_ (l ++ a :: r) (length l) = Ret a.
Proof. unfold at_. now rewrite nth_error_app2, Nat.sub_diag by lia. Qed.
Lemma split_at {X} (v : list X) i : i <= length v -> exists l r, v = l ++ r /\ length l = i.
Proof.
  intros H. exists (firstn i v), (skipn i v). rewrite firstn_skipn, firstn_length. split; auto. lia.
Qed.
Lemma split_at_elem {X} (v : list X) i a : nth_error v i = Some a -> exists l r, v = l ++ a :: r /\ length l = i.
Proof. intros H. apply nth_error_split in H as (l & r & -> & <-). eauto. Qed.

Lemma sum_fold (l : list nat) : fold_left Nat.add l 0 = list_sum l.
Proof. apply fold_symmetric; intros; lia. Qed.

Section Gen.
  Context {A : arith}.
  Implicit Types (h : hist A) (x : A) (b : bin A) (bins : list (bin A)).

  Notation sumc bins := (list_sum (map (@b_count A) bins)).

  (** ** Binary search *)

  Lemma bsearch_spec bins b : forall fuel low high,
    low <= high -> high <= length bins -> high - low <= fuel ->
    (low = 0 \/ exists c, nth_error bins (low - 1) = Some c /\ bin_lt c b = true) ->
    (high = length bins \/ exists c, nth_error bins high = Some c /\ bin_lt c b = false) ->
    exists i, bsearch fuel bins b low high ((low + high) / 2) = Ret i /\ low <= i <= high /\
      (i = 0 \/ exists c, nth_error bins (i - 1) = Some c /\ bin_lt c b = true) /\
      (i = length bins \/ exists c, nth_error bins i = Some c /\ bin_lt c b = false).
  Proof.
    induction fuel as [|f IH]; intros low high L H F Pl Ph.
    - assert (low = high) by lia. subst high. replace ((low + low) / 2) with low.
      2:{ replace (low + low) with (low * 2) by lia. now rewrite Nat.div_mul. }
      simpl. rewrite Nat.ltb_irrefl. exists low. auto.
    - cbn [bsearch]. destruct (Nat.ltb_spec low high) as [C|C].
      + pose proof (Nat.div_mod (low + high) 2 ltac:(lia)) as DM.
        pose proof (Nat.mod_upper_bound (low + high) 2 ltac:(lia)) as MB.
        set (m := (low + high) / 2) in * .
        destruct (nth_error bins m) as [c|] eqn:E.
        2:{ apply nth_error_None in E. lia. }
        unfold at_. rewrite E. cbn [bind]. destruct (bin_lt c b) eqn:B.
        * destruct (IH (m + 1) high) as (i & Ei & Bi & P); auto; try lia.
          { right. exists c. replace (m + 1 - 1) with m by lia. auto. }
          exists i. split; auto. split; [lia|auto].
        * destruct (IH low m) as (i & Ei & Bi & P); auto; try lia.
          { right. exists c. auto. }
          exists i. split; auto. split; [lia|auto].
      + assert (low = high) by lia. subst high. replace ((low + low) / 2) with low.
        2:{ replace (low + low) with (low * 2) by lia. now rewrite Nat.div_mul. }
        exists low. auto.
  Qed.

  (** [found bins b i]: where the search stops. *)
  Definition found bins b i : Prop :=
    exists l r, bins = l ++ r /\ length l = i /\
      (l = [] \/ exists l' c, l = l' ++ [c] /\ bin_lt c b = true) /\
      (r = [] \/ exists c r', r = c :: r' /\ bin_lt c b = false).

  Lemma search_found h b : exists i, hist_binSearch_bin h b = Ret i /\ i <= length (h_bins h) /\ found (h_bins h) b i.
  Proof.
    unfold hist_binSearch_bin.
    destruct (bsearch_spec (h_bins h) b (S (length (h_bins h))) 0 (length (h_bins h))) as (i & E & Hi & P1 & P2);
      auto; try lia.
    exists i. split; [exact E|]. split; [lia|].
    destruct (split_at (h_bins h) i) as (l & r & E1 & E2); [lia|].
    exists l, r. split; auto. split; auto. rewrite E1 in P1, P2. split.
    - destruct P1 as [->|(c & Ec & Hc)]; [left; destruct l; [auto|discriminate]|].
      destruct l as [|y l0] using rev_ind; [auto|]. right. exists l0, y. split; auto.
      rewrite app_length in E2. simpl in E2. rewrite <- app_assoc in Ec. simpl in Ec.
      replace (i - 1) with (length l0) in Ec by lia.
      rewrite nth_error_app2, Nat.sub_diag in Ec by lia. simpl in Ec. congruence.
    - destruct P2 as [Hn|(c & Ec & Hc)].
      + left. rewrite app_length in Hn. destruct r; auto. simpl in Hn. lia.
      + rewrite nth_error_app2, E2, Nat.sub_diag in Ec by lia. destruct r as [|c' r]; [discriminate|].
        simpl in Ec. right. exists c', r. split; congruence.
  Qed.

  (** The number of bins below, when they come first. *)
  Lemma found_count bins b i :
    found bins b i ->
    (forall j k c d, j < k -> nth_error bins j = Some c -> nth_error bins k = Some d ->
       bin_lt d b = true -> bin_lt c b = true) ->
    i = length (filter (fun c => bin_lt c b) bins).
  Proof.
    intros (l & r & -> & <- & Pl & Pr) M. rewrite filter_app, app_length.
    assert (Hl : filter (fun c => bin_lt c b) l = l).
    { destruct Pl as [->|(l' & c & -> & Hc)]; [auto|].
      assert (G : forall d, In d (l' ++ [c]) -> bin_lt d b = true).
      { intros d I. apply in_app_or in I as [I|[<-|[]]]; auto.
        apply In_nth_error in I as (j & Ej).
        assert (Lj : j < length l') by (apply nth_error_Some; congruence).
        apply (M j (length l') d c); auto.
        - rewrite <- app_assoc, nth_error_app1 by lia. auto.
        - rewrite <- app_assoc, nth_error_app2, Nat.sub_diag by lia. auto. }
      clear -G. induction (l' ++ [c]) as [|y t IH]; auto. simpl. rewrite G by (left; auto).
      rewrite IH; auto. intros; apply G; right; auto. }
    assert (Hr : filter (fun c => bin_lt c b) r = []).
    { destruct Pr as [->|(c & r' & -> & Hc)]; [auto|].
      assert (G : forall d, In d (c :: r') -> bin_lt d b = false).
      { intros d [<-|I]; auto. destruct (bin_lt d b) eqn:B; auto.
        apply In_nth_error in I as (j & Ej).
        rewrite (M (length l) (length l + S j) c d) in Hc; auto; try lia.
        - rewrite nth_error_app2, Nat.sub_diag by lia. auto.
        - rewrite nth_error_app2 by lia. replace (length l + S j - length l) with (S j) by lia. auto. }
      clear -G. induction (c :: r') as [|y t IH]; auto. simpl. rewrite G by (left; auto).
      apply IH. intros; apply G; right; auto. }
    rewrite Hl, Hr. simpl. lia.
  Qed.

  (** ** Adding *)

  Inductive adding (total : nat) (x : A) bins (i : nat) : list (bin A) -> nat -> Prop :=
  | AddEnd : total = 0 \/ i = length bins -> adding total x bins i (bins ++ [Bin x x 1]) 0
  | AddHit l b r : total <> 0 -> bins = l ++ b :: r -> length l = i -> leb (b_left b) x = true ->
      adding total x bins i (l ++ Bin (b_left b) (b_right b) (b_count b + 1) :: r) 1
  | AddNew l b r : total <> 0 -> bins = l ++ b :: r -> length l = i -> leb (b_left b) x = false ->
      adding total x bins i (l ++ Bin x x 1 :: b :: r) 0.

  Lemma hist_add_eq h x w : h_window h = Some w ->
    exists i bins freed, hist_binSearch h x = Ret i /\ found (h_bins h) (Bin x x 1) i /\
      adding (h_total h) x (h_bins h) i bins freed /\
      hist_add h x = hist_decayCounts
        (Hist (h_numBins h) (h_windowSize h) (h_decay h) bins (Some (w ++ [i]))
              (h_total h + 1) (h_history h + 1) (h_news h + 1) (h_deletes h + freed)).
  Proof.
    intros Hw. destruct (search_found h (Bin x x 1)) as (i & Ei & Li & Fi).
    unfold hist_add, hist_binSearch. rewrite Ei. cbn [bind]. rewrite Hw. exists i.
    destruct (Nat.eqb_spec 0 (h_total h)) as [T|T].
    { do 2 eexists. cbn [bind]. repeat split; eauto. constructor; auto. }
    destruct (Nat.eqb_spec i (length (h_bins h))) as [L|L].
    { do 2 eexists. cbn [bind]. repeat split; eauto. constructor; auto. }
    destruct (nth_error (h_bins h) i) as [b|] eqn:E.
    2:{ apply nth_error_None in E. lia. }
    unfold at_. rewrite E. cbn [bind]. destruct (split_at_elem _ _ _ E) as (l & r & E1 & E2).
    rewrite E1, <- E2.
    destruct (leb (b_left b) x) eqn:B; cbn [bind].
    - rewrite set_nth_split. do 2 eexists. repeat split; eauto; [now rewrite <- E1, E2|]. eapply AddHit; eauto.
    - rewrite insert_nth_split. do 2 eexists. repeat split; eauto; [now rewrite <- E1, E2|]. eapply AddNew; eauto.
  Qed.

  Lemma adding_length t x bins i bins' f : adding t x bins i bins' f ->
    length bins' + f = length bins + 1 /\ f <= 1.
  Proof.
    intros []; subst; rewrite ?app_length; simpl; lia.
  Qed.

  Lemma sumc_app l r : sumc (l ++ r) = sumc l + sumc r.
  Proof. now rewrite map_app, list_sum_app. Qed.

  Lemma adding_sum t x bins i bins' f : adding t x bins i bins' f -> sumc bins' = sumc bins + 1.
  Proof. intros []; subst; rewrite ?sumc_app; simpl; lia. Qed.

  (** ** Expiry *)

  (** [decaying N bins del bins']: one expiry charged to bin [del]. *)
  Definition dec b : bin A := Bin (b_left b) (b_right b) (b_count b - 1).

  Lemma dec_if b : (if Nat.ltb 0 (b_count b) then Bin (b_left b) (b_right b) (b_count b - 1) else b) = dec b.
  Proof. destruct b as [l r [|c]]; reflexivity. Qed.

  Definition decaying (N : nat) bins (del : nat) bins' : Prop :=
    exists l b r, bins = l ++ b :: r /\ length l = del /\
      ((N < length bins /\ b_count b <= 1 /\ bins' = l ++ r) \/
       ((length bins <= N \/ 1 < b_count b) /\ bins' = l ++ dec b :: r)).

  Lemma decay_eq h w : h_decay h = true -> h_window h = Some w ->
    (h_total h <= h_windowSize h -> hist_decayCounts h = Ret h) /\
    (h_windowSize h < h_total h ->
      match w with
      | [] => hist_decayCounts h = Undef OutOfBounds
      | del :: w' =>
          (length (h_bins h) <= del -> hist_decayCounts h = Undef OutOfBounds) /\
          (del < length (h_bins h) -> exists bins', decaying (h_numBins h) (h_bins h) del bins' /\
             hist_decayCounts h = Ret (Hist (h_numBins h) (h_windowSize h) (h_decay h) bins' (Some w')
                      (h_total h - 1) (h_history h) (h_news h) (h_deletes h)))
      end).
  Proof.
    intros Hd Hw. unfold hist_decayCounts. rewrite Hd, Hw. split.
    - intros H. destruct (Nat.ltb_spec (h_windowSize h) (h_total h)); [lia|auto].
    - intros H. destruct (Nat.ltb_spec (h_windowSize h) (h_total h)); [|lia].
      destruct w as [|del w']; auto. split.
      + intros L. now rewrite at_oob.
      + intros L. destruct (nth_error (h_bins h) del) as [b|] eqn:E.
        2:{ apply nth_error_None in E. lia. }
        unfold at_. rewrite E. cbn [bind]. destruct (split_at_elem _ _ _ E) as (l & r & E1 & E2).
        rewrite dec_if, E1, <- E2, set_nth_split, erase_nth_split.
        eexists. split; [|reflexivity]. exists l, b, r. split; auto. split; auto.
        rewrite !app_length. simpl.
        destruct (Nat.ltb_spec (h_numBins h) (length l + S (length r))) as [C|C].
        * destruct (Nat.eqb_spec (b_count b - 1) 0); [left; split; auto; split; auto; lia|right; split; auto; lia].
        * right. auto.
  Qed.

  Lemma decaying_length N bins del bins' : decaying N bins del bins' ->
    length bins' <= length bins /\ length bins <= length bins' + 1 /\
    (length bins <= N -> length bins' = length bins) /\ (length bins' < length bins -> N < length bins).
  Proof.
    intros (l & b & r & -> & _ & [(H & _ & ->)|(H & ->)]); rewrite !app_length in *; simpl in *; lia.
  Qed.

  Lemma decaying_sum N bins del bins' : decaying N bins del bins' ->
    sumc bins' <= sumc bins <= sumc bins' + 1.
  Proof.
    intros (l & b & r & -> & _ & [(H & ? & ->)|(H & ->)]); rewrite !sumc_app; simpl; lia.
  Qed.

  (** ** Merging *)

  Lemma min_gap_index bins : forall idx m i m' i', min_gap bins idx m i = (m', i') ->
    (m' = m /\ i' = i) \/ (idx <= i' /\ i' + 1 < idx + length bins).
  Proof.
    induction bins as [|b bins IH]; intros idx m i m' i' E; [simpl in E; left; split; congruence|].
    destruct bins as [|c bins]; [simpl in E; left; split; congruence|].
    cbn [min_gap] in E. set (t := c :: bins) in * . destruct (definitelyLessThan _ _ _).
    - apply IH in E as [[-> ->]|H]; right; unfold t in *; cbn [length] in *; lia.
    - apply IH in E as [H|H]; [auto|right; unfold t in *; cbn [length] in *; lia].
  Qed.

  Lemma mergeBins_split (l : list (bin A)) a c r : mergeBins (l ++ a :: c :: r) (length l) (length l + 1) = Ret (l ++ bin_add a c :: r).
  Proof.
    unfold mergeBins.
    replace (l ++ a :: c :: r) with ((l ++ [a]) ++ c :: r) by now rewrite <- app_assoc.
    replace (length l + 1) with (length (l ++ [a])) by (rewrite app_length; simpl; lia).
    rewrite at_split. cbn [bind]. rewrite erase_nth_split, <- app_assoc. simpl app.
    rewrite at_split. cbn [bind]. now rewrite set_nth_split.
  Qed.

  Lemma merge_cases bins : 1 <= length bins ->
    (exists l a c r, bins = l ++ a :: c :: r /\ hist_merge bins = Ret (l ++ bin_add a c :: r, length l)) \/
    (hist_merge bins = Undef OutOfBounds /\ snd (min_gap bins 0 dbl_max (length bins)) = length bins).
  Proof.
    intros L. unfold hist_merge. destruct (min_gap bins 0 dbl_max (length bins)) as [m i] eqn:E.
    cbn [snd]. apply min_gap_index in E as [[_ ->]|H].
    - right. unfold mergeBins. rewrite at_oob by lia. auto.
    - left. destruct (split_at bins i) as (l & r & -> & <-); [lia|].
      rewrite app_length in H. destruct r as [|a [|c r]]; simpl in H; [lia..|].
      exists l, a, c, r. split; auto. rewrite mergeBins_split. reflexivity.
  Qed.

  Lemma merge_sum bins bins' i : hist_merge bins = Ret (bins', i) -> 1 <= length bins ->
    sumc bins' = sumc bins /\ length bins' + 1 = length bins /\ i + 1 < length bins.
  Proof.
    intros E L. destruct (merge_cases bins L) as [(l & a & c & r & -> & E')|[E' _]]; [|congruence].
    rewrite E in E'. injection E' as -> ->. rewrite !sumc_app, !app_length. simpl. lia.
  Qed.

  (** ** Updates *)

  Definition remap (m : nat) (w : list nat) : list nat := map (fun i => if Nat.eqb i (m + 1) then m else i) w.

  (** Everything an update does, in relational form. *)
  Inductive updating (N W total : nat) bins (w : list nat) x : nat -> list (bin A) -> list nat -> nat -> Prop :=
  | Updating i bins1 f bins2 w2 bins3 w3 total' :
      found bins (Bin x x 1) i ->
      adding total x bins i bins1 f ->
      (total < W /\ bins2 = bins1 /\ w2 = w ++ [i] /\ total' = S total \/
       W <= total /\ (exists del, w ++ [i] = del :: w2 /\ decaying N bins1 del bins2) /\ total' = total) ->
      (length bins2 <= N /\ bins3 = bins2 /\ w3 = w2 \/
       N < length bins2 /\ exists l a c r, bins2 = l ++ a :: c :: r /\
         hist_merge bins2 = Ret (bins3, length l) /\ bins3 = l ++ bin_add a c :: r /\ w3 = remap (length l) w2) ->
      updating N W total bins w x i bins3 w3 total'.

  Definition live h (N W : nat) (w : list nat) : Prop :=
    h_numBins h = N /\ h_windowSize h = W /\ h_decay h = true /\ h_window h = Some w.

  Lemma update_inv h x h' N W w : live h N W w -> hist_update h x = Ret h' ->
    exists i bins w' f, hist_binSearch h x = Ret i /\ live h' N W w' /\ h_bins h' = bins /\
      updating N W (h_total h) (h_bins h) w x i bins w' (h_total h') /\
      (exists bins1, adding (h_total h) x (h_bins h) i bins1 f) /\
      h_history h' = S (h_history h) /\ h_news h' = S (h_news h) /\ h_deletes h' = h_deletes h + f.
  Proof.
    intros (HN & HW & Hd & Hw) E. unfold hist_update in E. apply bind_Ret in E as (h1 & E1 & E).
    destruct (hist_add_eq h x w Hw) as (i & bins1 & f & Es & Ff & Ha & Eq). rewrite Eq in E1. clear Eq.
    set (h0 := Hist _ _ _ _ _ _ _ _ _) in E1.
    destruct (decay_eq h0 (w ++ [i]) Hd eq_refl) as [D1 D2].
    unfold h0 in D1, D2. cbn [h_total h_windowSize h_bins h_numBins h_decay h_history h_news h_deletes] in D1, D2.
    fold h0 in D1, D2.
    assert (G : exists bins2 w2 tot, h1 = Hist N W true bins2 (Some w2) tot (S (h_history h)) (S (h_news h)) (h_deletes h + f) /\
       (h_total h < W /\ bins2 = bins1 /\ w2 = w ++ [i] /\ tot = S (h_total h) \/
        W <= h_total h /\ (exists del, w ++ [i] = del :: w2 /\ decaying N bins1 del bins2) /\ tot = h_total h)).
    { destruct (le_lt_dec (h_total h + 1) (h_windowSize h)) as [C|C].
      - rewrite D1 in E1 by lia. injection E1 as <-. unfold h0.
        exists bins1, (w ++ [i]), (S (h_total h)). split; [|left; repeat split; auto; lia].
        rewrite HN, HW, Hd. f_equal; lia.
      - specialize (D2 C). destruct (w ++ [i]) as [|del w2] eqn:Ew; [congruence|].
        destruct D2 as [D2 D3]. destruct (le_lt_dec (length bins1) del) as [C2|C2].
        { rewrite D2 in E1 by auto. discriminate. }
        destruct (D3 C2) as (bins2 & Hdec & E2). rewrite E2 in E1. injection E1 as <-.
        exists bins2, w2, (h_total h). split.
        + rewrite HN, HW, Hd. f_equal; lia.
        + right. split; [lia|]. split; auto. exists del. rewrite HN in Hdec. auto. }
    destruct G as (bins2 & w2 & tot & -> & G).
    cbn [h_total h_windowSize h_bins h_numBins h_decay h_window h_history h_news h_deletes] in E.
    destruct (Nat.ltb_spec N (length bins2)) as [C|C].
    - apply bind_Ret in E as ([bins3 m] & Em & E). cbn [bind] in E. injection E as <-.
      destruct (merge_cases bins2) as [(l & a & c & r & Eb & Em')|[Em' _]]; [lia| |congruence].
      pose proof Em as Em2. rewrite Em' in Em2. injection Em2 as E3 E4. subst m.
      exists i, bins3, (remap (length l) w2), f. cbn.
      repeat split; eauto. econstructor; eauto. right. split; auto. exists l, a, c, r.
      repeat split; auto.
    - injection E as <-. exists i, bins2, w2, f. cbn. repeat split; eauto. econstructor; eauto.
  Qed.

  (** The update as a whole fails only through an index. *)
  Lemma update_fails h x N W w : live h N W w ->
    (exists h', hist_update h x = Ret h') \/ hist_update h x = Undef OutOfBounds.
  Proof.
    intros (HN & HW & Hd & Hw). unfold hist_update.
    destruct (hist_add_eq h x w Hw) as (i & bins1 & f & Es & Ff & Ha & Eq). rewrite Eq. clear Eq.
    set (h0 := Hist _ _ _ _ _ _ _ _ _).
    destruct (decay_eq h0 (w ++ [i]) Hd eq_refl) as [D1 D2].
    assert (G : (exists h1 w1, hist_decayCounts h0 = Ret h1 /\ h_decay h1 = true /\ h_window h1 = Some w1) \/
                hist_decayCounts h0 = Undef OutOfBounds).
    { destruct (le_lt_dec (h_total h0) (h_windowSize h0)) as [C|C].
      - left. exists h0, (w ++ [i]). rewrite D1 by auto. auto.
      - specialize (D2 C). destruct (w ++ [i]) as [|del w2]; auto. destruct D2 as [D2 D3].
        destruct (le_lt_dec (length (h_bins h0)) del) as [C2|C2]; auto.
        destruct (D3 C2) as (bins2 & _ & ->). left. do 2 eexists. split; [reflexivity|]. split; [exact Hd|reflexivity]. }
    destruct G as [(h1 & w1 & -> & Hd1 & Hw1)|G]; [|rewrite G; auto]. cbn [bind].
    destruct (Nat.ltb_spec (h_numBins h1) (length (h_bins h1))) as [C|C]; [|eauto].
    destruct (merge_cases (h_bins h1)) as [(l & a & c & r & Eb & Em)|[Em _]]; [lia| |rewrite Em; auto].
    rewrite Em. cbn [bind]. rewrite Hd1, Hw1. cbn [bind]. eauto.
  Qed.

  Lemma new_live N W : live (hist_new (A := A) N W true) N W (repeat 0 W).
  Proof. repeat split. Qed.

  Lemma reset_live h N W w : live h N W w -> live (hist_reset h) N W [].
  Proof. intros (? & ? & ? & H). repeat split; auto. unfold hist_reset. simpl. now rewrite H. Qed.

  (** ** Runs *)

  Lemma hist_calls_app h os os' : hist_calls h (os ++ os') = let* h' := hist_calls h os in hist_calls h' os'.
  Proof.
    revert h. induction os as [|o os IH]; intros h; simpl; auto.
    destruct (hist_call h o); simpl; auto.
  Qed.

  Lemma hist_calls_snoc h os o : hist_calls h (os ++ [o]) = let* h' := hist_calls h os in hist_call h' o.
  Proof.
    rewrite hist_calls_app. destruct (hist_calls h os); simpl; auto. destruct (hist_call a o); auto.
  Qed.

  Lemma calls_updates h xs : hist_calls h (map HUpdate xs) = update_all hist_update h xs.
  Proof. revert h. induction xs as [|x xs IH]; intros h; simpl; auto. destruct (hist_update h x); simpl; auto. Qed.

  Lemma hist_items_app (os os' : list (hist_op A)) : hist_items (os ++ os') = hist_items os ++ hist_items os'.
  Proof. induction os as [|[x|] os IH]; simpl; congruence. Qed.

  Lemma hist_items_updates (xs : list A) : hist_items (map HUpdate xs) = xs.
  Proof. induction xs; simpl; congruence. Qed.

  Lemma since_reset_app (os os' : list (hist_op A)) acc : since_reset acc (os ++ os') = since_reset (since_reset acc os) os'.
  Proof. revert acc. induction os as [|[x|] os IH]; intros; simpl; auto. Qed.

  Lemma since_reset_updates (xs : list A) acc : since_reset acc (map HUpdate xs) = acc ++ xs.
  Proof.
    revert acc. induction xs as [|x xs IH]; intros acc; simpl; [now rewrite app_nil_r|].
    rewrite IH, <- app_assoc. reflexivity.
  Qed.

  (** Induction over calls with an invariant depending on the calls so far. *)
  Lemma calls_inv (P : list (hist_op A) -> hist A -> Prop) h0 os h :
    P [] h0 ->
    (forall os h x h', P os h -> hist_update h x = Ret h' -> P (os ++ [HUpdate x]) h') ->
    (forall os h, P os h -> P (os ++ [HReset]) (hist_reset h)) ->
    hist_calls h0 os = Ret h -> P os h.
  Proof.
    intros P0 Pu Pr. revert h. induction os as [|o os IH] using rev_ind; intros h E.
    - injection E as <-. auto.
    - rewrite hist_calls_snoc in E. apply bind_Ret in E as (t & Et & E). destruct o as [x|]; simpl in E.
      + eapply Pu; eauto.
      + injection E as <-. auto.
  Qed.

  Lemma updating_total N W total bins w x i bins' w' total' : updating N W total bins w x i bins' w' total' ->
    total' = Nat.min (S total) (Nat.max W total).
  Proof. intros [? ? ? ? ? ? ? ? ? ? [(? & _ & _ & ->)|(? & _ & ->)] _]; lia. Qed.

  Lemma updating_window N W total bins w x i bins' w' total' : updating N W total bins w x i bins' w' total' ->
    length w' + total = length w + total'.
  Proof.
    intros [i0 bins1 f bins2 w2 bins3 w3 tot Ff Ha Hd Hm].
    assert (length w2 + total = length w + tot).
    { destruct Hd as [(? & _ & -> & ->)|(? & (del & E & _) & ->)].
      - rewrite app_length. simpl. lia.
      - apply (f_equal (@length nat)) in E. rewrite app_length in E. simpl in E. lia. }
    destruct Hm as [(_ & _ & ->)|(_ & l & a & c & r & _ & _ & _ & ->)]; auto. unfold remap. now rewrite map_length.
  Qed.

  Lemma updating_length N W total bins w x i bins' w' total' : updating N W total bins w x i bins' w' total' ->
    length bins <= N -> length bins <= length bins' <= N /\ length bins' <= length bins + 1.
  Proof.
    intros [i0 bins1 f bins2 w2 bins3 w3 tot Ff Ha Hd Hm] L. apply adding_length in Ha as [La Lf].
    assert (length bins <= length bins2 <= length bins1 /\ (length bins1 <= N -> length bins2 = length bins1)) as [B1 B2].
    { destruct Hd as [(_ & -> & _)|(_ & (del & _ & D) & _)]; [lia|]. apply decaying_length in D. lia. }
    destruct Hm as [(H & -> & _)|(H & l & a & c & r & -> & E & -> & _)]; [lia|].
    rewrite !app_length in *; simpl in *; lia.
  Qed.

  (** The counters and sizes. *)
  Lemma run_basic N W os h : hist_calls (hist_new N W true) os = Ret h ->
    (exists w, live h N W w /\ length w <= W + h_total h) /\
    h_total h = Nat.min (length (hist_items os)) W /\
    length (h_bins h) <= N /\
    h_history h = length (since_reset [] os).
  Proof.
    apply (calls_inv (fun (os : list (hist_op A)) h => (exists w, live h N W w /\ length w <= W + h_total h) /\
      h_total h = Nat.min (length (hist_items os)) W /\
      length (h_bins h) <= N /\ h_history h = length (since_reset [] os))); clear.
    - split; [exists (repeat 0 W); split; [apply new_live|rewrite repeat_length; cbn; lia]|].
      cbn. split; [reflexivity|]. split; [lia|auto].
    - intros os h x h' ((w & L & Lw) & T & Lb & Hh) E.
      destruct (update_inv _ _ _ _ _ _ L E) as (i & bins & w' & f & _ & L' & Eb & U & _ & Hh' & _ & _).
      rewrite hist_items_app, since_reset_app, app_length. simpl. rewrite app_length. simpl.
      rewrite Eb, Hh', Hh. pose proof (updating_total _ _ _ _ _ _ _ _ _ _ U).
      pose proof (updating_window _ _ _ _ _ _ _ _ _ _ U).
      pose proof (updating_length _ _ _ _ _ _ _ _ _ _ U Lb).
      split; [exists w'; split; [auto|lia]|]. lia.
    - intros os h ((w & L & Lw) & T & Lb & Hh). split; [exists []; split; [eapply reset_live; eauto|simpl; lia]|].
      rewrite hist_items_app, since_reset_app, app_nil_r. simpl. split; [auto|]. split; [lia|auto].
  Qed.

  Lemma size_grows N W os h x h' : hist_calls (hist_new N W true) os = Ret h -> hist_update h x = Ret h' ->
    length (h_bins h) <= length (h_bins h') <= length (h_bins h) + 1.
  Proof.
    intros E Eu. destruct (run_basic _ _ _ _ E) as ((w & L & _) & _ & Lb & _).
    destruct (update_inv _ _ _ _ _ _ L Eu) as (i & bins & w' & f & _ & _ & Eb & U & _).
    pose proof (updating_length _ _ _ _ _ _ _ _ _ _ U Lb). rewrite Eb. lia.
  Qed.

  (** ** Counts *)

  Lemma updating_sum N W total bins w x i bins' w' total' : updating N W total bins w x i bins' w' total' ->
    (total < W -> sumc bins' = S (sumc bins)) /\ (W <= total -> sumc bins <= sumc bins' <= S (sumc bins)).
  Proof.
    intros [i0 bins1 f bins2 w2 bins3 w3 tot Ff Ha Hd Hm]. apply adding_sum in Ha.
    assert (Em : sumc bins3 = sumc bins2).
    { destruct Hm as [(_ & -> & _)|(H & l & a & c & r & -> & E & -> & _)]; auto.
      rewrite !sumc_app. simpl. lia. }
    rewrite Em. destruct Hd as [(? & -> & _)|(? & (del & _ & D) & _)]; [lia|].
    apply decaying_sum in D. lia.
  Qed.

  Lemma run_counts N W xs h : update_all hist_update (hist_new N W true) xs = Ret h ->
    h_total h <= counts_sum h /\ (length xs <= W -> counts_sum h = length xs /\ h_total h = length xs).
  Proof.
    intros E.
    assert (Hb : forall ys t, update_all hist_update (hist_new N W true) ys = Ret t ->
              (exists w, live t N W w) /\ h_total t = Nat.min (length ys) W).
    { intros ys t Et. rewrite <- calls_updates in Et.
      destruct (run_basic _ _ _ _ Et) as ((w & L & _) & T & _). rewrite hist_items_updates in T. eauto. }
    revert h E. induction xs as [|x xs IH] using rev_ind; intros h E.
    - injection E as <-. cbn. lia.
    - destruct (Hb _ _ E) as [_ T]. rewrite update_all_snoc in E. apply bind_Ret in E as (t & Et & E).
      destruct (Hb _ _ Et) as [(w & L) Tt]. destruct (IH _ Et) as [I1 I2].
      destruct (update_inv _ _ _ _ _ _ L E) as (i & bins & w' & f & _ & _ & Eb & U & _).
      destruct (updating_sum _ _ _ _ _ _ _ _ _ _ U) as [U1 U2].
      unfold counts_sum in * . rewrite Eb. rewrite app_length in T |- * . simpl in T |- * .
      destruct (le_lt_dec W (h_total t)) as [C|C].
      + specialize (U2 C). split; [lia|]. intros. lia.
      + specialize (U1 C). split; [lia|]. intros. destruct I2; lia.
  Qed.

  Lemma binCounts_eq h : hist_binCounts h =
    if Nat.eqb (counts_sum h) (h_total h) then Ret (map b_count (h_bins h)) else Throw RuntimeError.
  Proof. unfold hist_binCounts. now rewrite sum_fold. Qed.

  Lemma run_binCounts N W xs h : update_all hist_update (hist_new N W true) xs = Ret h -> length xs <= W ->
    hist_binCounts h = Ret (map b_count (h_bins h)).
  Proof.
    intros E L. destruct (run_counts _ _ _ _ E) as [_ H]. destruct (H L) as [H1 H2].
    rewrite binCounts_eq, H1, H2, Nat.eqb_refl. auto.
  Qed.

  (** ** Memory *)

  Lemma adding_hits h x i bins1 f : hist_binSearch h x = Ret i -> adding (h_total h) x (h_bins h) i bins1 f ->
    f = if falls_in h x then 1 else 0.
  Proof.
    intros Es Ha. unfold falls_in. rewrite Es. destruct Ha as [C|l b r T E L H|l b r T E L H].
    - destruct (Nat.eqb_spec (h_total h) 0); auto. destruct C as [C| ->]; [lia|].
      destruct (nth_error (h_bins h) (length (h_bins h))) eqn:En; auto.
      assert (length (h_bins h) < length (h_bins h)) by (apply nth_error_Some; congruence). lia.
    - destruct (Nat.eqb_spec (h_total h) 0); [lia|]. rewrite E, nth_error_app2, L, Nat.sub_diag by lia. simpl. now rewrite H.
    - destruct (Nat.eqb_spec (h_total h) 0); [lia|]. rewrite E, nth_error_app2, L, Nat.sub_diag by lia. simpl. now rewrite H.
  Qed.

  Lemma update_memory N W os h x h' : hist_calls (hist_new N W true) os = Ret h -> hist_update h x = Ret h' ->
    h_news h' = S (h_news h) /\ h_deletes h' = h_deletes h + if falls_in h x then 1 else 0.
  Proof.
    intros E Eu. destruct (run_basic _ _ _ _ E) as ((w & L & _) & _).
    destruct (update_inv _ _ _ _ _ _ L Eu) as (i & bins & w' & f & Es & _ & _ & _ & (b1 & Ha) & _ & Hn & Hd).
    split; auto. rewrite Hd, (adding_hits _ _ _ _ _ Es Ha). auto.
  Qed.

  Lemma inserts_app os os' : forall h h', hist_calls h os = Ret h' -> inserts h (os ++ os') = inserts h os + inserts h' os'.
  Proof.
    induction os as [|o os IH]; intros h h' E; [injection E as <-; auto|].
    simpl in E |- * . destruct (hist_call h o) as [t| |]; try discriminate. cbn [bind] in E.
    rewrite (IH _ _ E). lia.
  Qed.

  Lemma run_memory N W os h : hist_calls (hist_new N W true) os = Ret h ->
    h_news h = length (hist_items os) /\
    h_news h = h_deletes h + inserts (hist_new N W true) os.
  Proof.
    revert h. induction os as [|o os IH] using rev_ind; intros h E.
    - injection E as <-. auto.
    - rewrite hist_calls_snoc in E. apply bind_Ret in E as (t & Et & E). destruct (IH _ Et) as [I1 I2].
      rewrite hist_items_app, app_length, (inserts_app _ _ _ _ Et). cbn [inserts]. destruct o as [x|]; simpl in E |- * .
      + destruct (update_memory _ _ _ _ _ _ Et E) as [-> ->]. rewrite E. destruct (falls_in t x); lia.
      + injection E as <-. simpl. lia.
  Qed.

  Lemma destroy_memory N W os h : hist_calls (hist_new N W true) os = Ret h ->
    h_news (hist_destroy h) - h_deletes (hist_destroy h) = inserts (hist_new N W true) os /\
    length (h_bins h) <= inserts (hist_new N W true) os.
  Proof.
    intros E. pose proof (run_memory _ _ _ _ E) as [_ H]. split; [cbn; lia|]. clear H.
    revert h E. induction os as [|o os IH] using rev_ind; intros h E.
    - injection E as <-. auto.
    - rewrite hist_calls_snoc in E. apply bind_Ret in E as (t & Et & E).
      rewrite (inserts_app _ _ _ _ Et). specialize (IH _ Et). destruct o as [x|]; simpl in E |- * .
      + destruct (run_basic _ _ _ _ Et) as ((w & L & _) & _ & Lb & _).
        destruct (update_inv _ _ _ _ _ _ L E) as (i & bins & w' & f & Es & _ & Eb & U & _).
        rewrite Eb, E. destruct U as [i0 bins1 f0 bins2 w2 bins3 w3 tot Ff Ha Hd Hm].
        assert (length bins3 <= length bins1).
        { assert (length bins2 <= length bins1).
          { destruct Hd as [(_ & -> & _)|(_ & (del & _ & D) & _)]; [lia|]. apply decaying_length in D. lia. }
          destruct Hm as [(H' & -> & _)|(H' & l & a & c & r & -> & E' & -> & _)]; [lia|].
          rewrite !app_length in *; simpl in *; lia. }
        rewrite <- (adding_hits _ _ _ _ _ Es Ha) || idtac.
        pose proof (adding_hits _ _ _ _ _ Es Ha). apply adding_length in Ha. destruct (falls_in t x); lia.
      + injection E as <-. simpl. lia.
  Qed.

  (** ** After a reset with a full window *)

  Definition drained h N W : Prop :=
    live h N W [] /\ h_total h = W /\ Forall (fun b => b_count b = 0) (h_bins h) /\ length (h_bins h) <= N.

  Lemma sumc_zero bins : Forall (fun b => b_count b = 0) bins -> sumc bins = 0.
  Proof. induction 1; simpl; lia. Qed.

  Lemma drained_update h x N W : 1 <= W -> drained h N W -> exists h', hist_update h x = Ret h' /\ drained h' N W.
  Proof.
    intros HW ((HN & HWs & Hd & Hw) & T & Z & Lb). unfold hist_update.
    destruct (hist_add_eq h x [] Hw) as (i & bins1 & f & Es & Ff & Ha & Eq). rewrite Eq. clear Eq.
    set (h0 := Hist _ _ _ _ _ _ _ _ _).
    destruct (decay_eq h0 [i] Hd eq_refl) as [_ D].
    assert (W0 : h_windowSize h0 < h_total h0) by (cbn; lia).
    specialize (D W0). destruct D as [_ D].
    assert (G : exists l b r, bins1 = l ++ b :: r /\ length l = i /\ b_count b = 1 /\
              Forall (fun b => b_count b = 0) (l ++ r) /\ length (l ++ r) <= N).
    { destruct Ha as [C|l b r _ E1 E2 _|l b r _ E1 E2 _].
      - destruct C as [C| ->]; [lia|]. exists (h_bins h), (Bin x x 1), []. rewrite app_nil_r. auto.
      - rewrite E1 in Z, Lb. apply Forall_app in Z as [Z1 Z2]. inversion_clear Z2 as [|? ? Z3 Z4].
        exists l, (Bin (b_left b) (b_right b) (b_count b + 1)), r. repeat split; auto.
        + cbn. lia.
        + apply Forall_app. auto.
        + rewrite app_length in * . simpl in Lb. lia.
      - exists l, (Bin x x 1), (b :: r). rewrite <- E1. auto. }
    destruct G as (l & b & r & E1 & E2 & E3 & Z' & L').
    destruct D as (bins2 & (l' & b' & r' & E1' & E2' & Hdec) & E).
    { cbn. rewrite E1, app_length. simpl. lia. }
    rewrite E. cbn [bind h_numBins h_bins]. cbn [h_bins h0] in E1'. rewrite E1 in E1'.
    assert (l' = l /\ b' = b /\ r' = r) as (-> & -> & ->).
    { rewrite <- E2 in E2'. clear -E1' E2'. revert l' E1' E2'. induction l as [|y l IH]; intros [|y' l'] E L; simpl in *; try discriminate.
      - injection E as <- <-. auto.
      - injection E as <- E. destruct (IH l' E) as (-> & -> & ->); [lia|]. auto. }
    assert (H2 : Forall (fun b => b_count b = 0) bins2 /\ length bins2 <= N).
    { apply Forall_app in Z' as [Z1 Z2]. rewrite app_length in L'.
      change (h_bins h0) with bins1 in Hdec. change (h_numBins h0) with (h_numBins h) in Hdec. rewrite HN, E1 in Hdec.
      destruct Hdec as [(_ & _ & ->)|(C & ->)].
      - rewrite app_length. split; auto. apply Forall_app. auto.
      - split; [apply Forall_app; split; auto; constructor; auto; cbn; lia|].
        destruct C as [C|C]; [|lia]. rewrite app_length in C |- * . simpl in C |- * . lia. }
    destruct H2 as [H2 H3]. change (h_numBins h0) with (h_numBins h).
    replace (Nat.ltb (h_numBins h) (length bins2)) with false by (symmetry; apply Nat.ltb_ge; lia).
    eexists. split; [reflexivity|]. repeat split; auto. cbn. lia.
  Qed.

  Lemma reset_drains N W os h xs : 1 <= W -> hist_calls (hist_new N W true) os = Ret h -> W <= length (hist_items os) ->
    exists h', update_all hist_update (hist_reset h) xs = Ret h' /\
      h_total h' = W /\ length (h_bins h') <= N /\ Forall (fun b => b_count b = 0) (h_bins h') /\
      hist_binCounts h' = Throw RuntimeError.
  Proof.
    intros HW E L. destruct (run_basic _ _ _ _ E) as ((w & Lv & _) & T & Lb & _).
    assert (D : drained (hist_reset h) N W).
    { split; [eapply reset_live; eauto|]. cbn. repeat split; auto; lia. }
    assert (H : exists h', update_all hist_update (hist_reset h) xs = Ret h' /\ drained h' N W).
    { clear -D HW. revert D. generalize (hist_reset h). induction xs as [|x xs IH]; intros t D; simpl; eauto.
      destruct (drained_update t x N W HW D) as (t' & -> & D'). cbn [bind]. auto. }
    destruct H as (h' & E' & (_ & T' & Z & L')). exists h'. repeat split; auto.
    rewrite binCounts_eq. unfold counts_sum. rewrite sumc_zero, T' by auto.
    destruct (Nat.eqb_spec 0 W); [lia|auto].
  Qed.

  (** ** Edges are observed values *)

  Definition edges_in (P : A -> Prop) bins : Prop := Forall (fun b => P (b_left b) /\ P (b_right b)) bins.

  Lemma bin_add_edge (P : A -> Prop) (a c : bin A) : P (b_left a) -> P (b_left c) -> P (b_right a) -> P (b_right c) ->
    P (b_left (bin_add a c)) /\ P (b_right (bin_add a c)).
  Proof. intros. unfold bin_add. cbn. destruct (definitelyLessThan _ _ _), (definitelyGreaterThan _ _ _); auto. Qed.

  Lemma updating_edges (P : A -> Prop) N W total bins w x i bins' w' total' :
    updating N W total bins w x i bins' w' total' -> P x -> edges_in P bins -> edges_in P bins'.
  Proof.
    intros [i0 bins1 f bins2 w2 bins3 w3 tot Ff Ha Hd Hm] Px H. unfold edges_in in * .
    assert (H1 : Forall (fun b => P (b_left b) /\ P (b_right b)) bins1).
    { destruct Ha as [C|l b r _ -> _ _|l b r _ -> _ _].
      - apply Forall_app; split; auto.
      - apply Forall_app in H as [Hl Hr]. inversion_clear Hr. apply Forall_app; split; auto.
      - apply Forall_app in H as [Hl Hr]. apply Forall_app; split; auto. }
    assert (H2 : Forall (fun b => P (b_left b) /\ P (b_right b)) bins2).
    { destruct Hd as [(_ & -> & _)|(_ & (del & _ & (l & b & r & -> & _ & D)) & _)]; auto.
      apply Forall_app in H1 as [Hl Hr]. inversion_clear Hr.
      destruct D as [(_ & _ & ->)|(_ & ->)]; apply Forall_app; split; auto. }
    destruct Hm as [(_ & -> & _)|(_ & l & a & c & r & -> & _ & -> & _)]; auto.
    apply Forall_app in H2 as [Hl Hr]. inversion_clear Hr as [|? ? Ka Hr']. inversion_clear Hr' as [|? ? Kc Hr].
    apply Forall_app; split; auto. constructor; auto. apply bin_add_edge; tauto.
  Qed.

  Lemma run_edges N W os h : hist_calls (hist_new N W true) os = Ret h ->
    edges_in (fun v => In v (since_reset [] os)) (h_bins h).
  Proof.
    revert h. induction os as [|o os IH] using rev_ind; intros h E.
    - injection E as <-. constructor.
    - rewrite hist_calls_snoc in E. apply bind_Ret in E as (t & Et & E). specialize (IH _ Et).
      rewrite since_reset_app. destruct o as [x|]; simpl in E |- * .
      + destruct (run_basic _ _ _ _ Et) as ((w & L & _) & _).
        destruct (update_inv _ _ _ _ _ _ L E) as (i & bins & w' & f & Es & _ & Eb & U & _).
        rewrite Eb. eapply updating_edges; eauto; [apply in_or_app; simpl; auto|].
        eapply Forall_impl; [|exact IH]. cbn. intros b [H1 H2]. split; apply in_or_app; auto.
      + injection E as <-. constructor.
  Qed.

  (** ** Safety inside the window *)

  Lemma min_gap_cons b c r idx m i : min_gap (b :: c :: r) idx m i =
    let diff := (b_right c -. b_right b)%num in
    if definitelyLessThan diff m default_eps then min_gap (c :: r) (S idx) diff idx
    else min_gap (c :: r) (S idx) m i.
  Proof. reflexivity. Qed.

  Lemma min_gap_first bins : forall idx m i, 2 <= length bins ->
    (forall b c r, bins = b :: c :: r -> definitelyLessThan (b_right c -. b_right b)%num m default_eps = true) ->
    idx <= snd (min_gap bins idx m i) /\ snd (min_gap bins idx m i) + 1 < idx + length bins.
  Proof.
    intros idx m i L H. destruct bins as [|b [|c r]]; simpl in L; try lia.
    rewrite min_gap_cons. cbv zeta. rewrite (H b c r eq_refl). cbv iota.
    destruct (min_gap (c :: r) (S idx) (b_right c -. b_right b)%num idx) as [m' i'] eqn:E.
    apply min_gap_index in E as [[_ ->]|E]; cbn [snd length] in *; lia.
  Qed.

  Lemma merge_ok bins : 2 <= length bins ->
    (forall b c, In b bins -> In c bins -> definitelyLessThan (b_right c -. b_right b)%num dbl_max default_eps = true) ->
    exists l a c r, bins = l ++ a :: c :: r /\ hist_merge bins = Ret (l ++ bin_add a c :: r, length l).
  Proof.
    intros L H. destruct (merge_cases bins) as [M|[_ M]]; [lia|auto|]. exfalso.
    destruct (min_gap_first bins 0 dbl_max (length bins) L) as [_ B]; [|lia].
    intros b c r ->. apply H; simpl; auto.
  Qed.

  Lemma merge_undefined bins : 1 <= length bins ->
    (forall l b c r, bins = l ++ b :: c :: r -> definitelyLessThan (b_right c -. b_right b)%num dbl_max default_eps = false) ->
    hist_merge bins = Undef OutOfBounds.
  Proof.
    intros L H.
    assert (G : forall idx i, min_gap bins idx dbl_max i = (dbl_max, i)).
    { clear L. induction bins as [|b [|c r] IH]; intros idx i; auto. rewrite min_gap_cons. cbv zeta.
      rewrite (H [] b c r eq_refl). apply IH. intros l b' c' r' E. apply (H (b :: l) b' c' r').
      now rewrite E. }
    unfold hist_merge. rewrite G. unfold mergeBins. rewrite at_oob by lia. reflexivity.
  Qed.

  Lemma run_safe (P : A -> Prop) N W xs : 1 <= N -> length xs <= W -> Forall P xs ->
    (forall x y, P x -> P y -> definitelyLessThan (y -. x)%num dbl_max default_eps = true) ->
    exists h, update_all hist_update (hist_new N W true) xs = Ret h.
  Proof.
    intros HN. induction xs as [|x xs IH] using rev_ind; intros L F G; [simpl; eauto|].
    rewrite app_length in L. simpl in L. apply Forall_app in F as [F Fx]. inversion_clear Fx as [|? ? Px _].
    destruct IH as (t & Et); auto; [lia|]. rewrite update_all_snoc, Et. cbn [bind].
    pose proof Et as Ec. rewrite <- calls_updates in Ec.
    destruct (run_basic _ _ _ _ Ec) as ((w & Lv & _) & T & Lb & _). rewrite hist_items_updates in T.
    pose proof (run_edges _ _ _ _ Ec) as Ed. rewrite since_reset_updates in Ed. simpl in Ed.
    assert (Ep : edges_in P (h_bins t)).
    { rewrite Forall_forall in F. eapply Forall_impl; [|exact Ed]. cbn. intros b []; auto. }
    destruct Lv as (HNt & HWt & Hd & Hw). unfold hist_update.
    destruct (hist_add_eq t x w Hw) as (i & bins1 & f & Es & Ff & Ha & Eq). rewrite Eq. clear Eq.
    set (h0 := Hist _ _ _ _ _ _ _ _ _).
    destruct (decay_eq h0 (w ++ [i]) Hd eq_refl) as [-> _]; [|cbn; lia]. cbn [bind].
    unfold h0. cbn [h_numBins h_bins h_decay h_window]. rewrite HNt, Hd.
    destruct (Nat.ltb_spec N (length bins1)); [|eauto].
    assert (E1 : edges_in P bins1).
    { unfold edges_in in * . destruct Ha as [C|l b r _ E _ _|l b r _ E _ _]; rewrite ?E in Ep.
      - apply Forall_app; split; auto.
      - apply Forall_app in Ep as [Hl Hr]. inversion_clear Hr. apply Forall_app; split; auto.
      - apply Forall_app in Ep as [Hl Hr]. apply Forall_app; split; auto. }
    destruct (merge_ok bins1) as (l & a & c & r & _ & ->); [lia| |cbn [bind]; eauto].
    intros b c Ib Ic. unfold edges_in in E1. rewrite Forall_forall in E1. apply G; apply E1; auto.
  Qed.

  Lemma zero_bins_undefined W x : 1 <= W -> hist_update (hist_new 0 W true) x = Undef OutOfBounds.
  Proof.
    intros HW. unfold hist_update, hist_add. cbn [hist_binSearch_bin h_bins hist_new length bsearch Nat.ltb Nat.leb bind h_total Nat.eqb].
    cbn. destruct W as [|W]; [lia|]. reflexivity.
  Qed.
End Gen.
