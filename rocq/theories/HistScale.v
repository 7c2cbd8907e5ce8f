(** Multiplying all observations by a positive constant multiplies the bin edges,
    in exact arithmetic. *)

From Coq Require Import List Reals ZArith Lra Lia Bool Arith.
From Flocq Require Import Core.Core.
From Verif Require Import Outcome Arith Utils UtilsFacts IBin Histogram Entropy Spec ListFacts HistOrder HistStreams HistWitness EntropySpec EntropyFacts EntropyFull EntropyDrift HistMax AskSpec ScaleSpec P2Affine.
Import ListNotations.
Open Scope R_scope.

Section Scale.
  Variables (a : R) (Ha : 0 < a).
  Local Notation sb := (scale_bin a).
  Local Notation sh := (scale_hist a).

  Lemma scale_ltb x y : Rltb (a * x) (a * y) = Rltb x y.
  Proof.
    unfold Rltb. destruct (Rlt_dec (a * x) (a * y)) as [H|H], (Rlt_dec x y) as [K|K]; auto; exfalso; nra.
  Qed.
  Lemma scale_leb x y : Rleb (a * x) (a * y) = Rleb x y.
  Proof.
    unfold Rleb. destruct (Rle_dec (a * x) (a * y)) as [H|H], (Rle_dec x y) as [K|K]; auto; exfalso; nra.
  Qed.
  Lemma scale_abs x : Rabs (a * x) = a * Rabs x.
  Proof. rewrite Rabs_mult. f_equal. apply Rabs_right. lra. Qed.

  Lemma scale_less x y e : definitelyLessThan (A := RA) (a * x) (a * y) e = definitelyLessThan (A := RA) x y e.
  Proof.
    unfold definitelyLessThan. cbn [RA ltb mul sub fabs]. rewrite !scale_abs, scale_ltb.
    rewrite <- (scale_ltb _ (y - x)). destruct (Rltb (Rabs x) (Rabs y)); f_equal; ring.
  Qed.
  Lemma scale_greater x y e : definitelyGreaterThan (A := RA) (a * x) (a * y) e = definitelyGreaterThan (A := RA) x y e.
  Proof.
    unfold definitelyGreaterThan. cbn [RA ltb mul sub fabs]. rewrite !scale_abs, scale_ltb.
    rewrite <- (scale_ltb _ (x - y)). destruct (Rltb (Rabs x) (Rabs y)); f_equal; ring.
  Qed.

  Lemma scale_lt b c : bin_lt (sb b) (sb c) = bin_lt b c.
  Proof. apply scale_less. Qed.
  Lemma scale_add b c : bin_add (sb b) (sb c) = sb (bin_add b c).
  Proof.
    unfold bin_add, scale_bin. cbn [b_left b_right b_count].
    pose proof (scale_less (b_left c) (b_left b) (@bin_eps RA)) as E1.
    pose proof (scale_greater (b_right c) (b_right b) (@bin_eps RA)) as E2.
    apply (f_equal2 (fun l r => Bin (A := RA) l r _)).
    - transitivity (if definitelyLessThan (A := RA) (b_left c) (b_left b) bin_eps then a * b_left c else a * b_left b).
      + exact (f_equal (fun t : bool => if t then _ else _) E1).
      + destruct (definitelyLessThan (A := RA) (b_left c) (b_left b) bin_eps); reflexivity.
    - transitivity (if definitelyGreaterThan (A := RA) (b_right c) (b_right b) bin_eps then a * b_right c else a * b_right b).
      + exact (f_equal (fun t : bool => if t then _ else _) E2).
      + destruct (definitelyGreaterThan (A := RA) (b_right c) (b_right b) bin_eps); reflexivity.
  Qed.

  Lemma at_sb (l : list (bin RA)) i : at_ (map sb l) i = omap sb (at_ l i).
  Proof. unfold at_. rewrite nth_error_map. destruct (nth_error l i); reflexivity. Qed.
  Lemma set_sb (l : list (bin RA)) : forall i x, set_nth (map sb l) i (sb x) = map sb (set_nth l i x).
  Proof. induction l as [|y l IH]; intros [|i] x; cbn; auto. f_equal. apply IH. Qed.
  Lemma erase_sb (l : list (bin RA)) i : erase_nth (map sb l) i = map sb (erase_nth l i).
  Proof. revert i. induction l as [|y l IH]; intros [|i]; cbn; auto. f_equal. apply IH. Qed.
  Lemma insert_sb (l : list (bin RA)) i x : insert_nth (map sb l) i (sb x) = map sb (insert_nth l i x).
  Proof. revert i. induction l as [|y l IH]; intros [|i]; cbn; auto. f_equal. apply IH. Qed.

  Lemma bsearch_sb fuel : forall (l : list (bin RA)) b low high i,
    bsearch fuel (map sb l) (sb b) low high i = bsearch fuel l b low high i.
  Proof.
    induction fuel as [|f IH]; intros l b low high i; cbn [bsearch]; destruct (Nat.ltb low high); auto.
    rewrite at_sb, bind_omap. apply bind_ext. intros c _. rewrite scale_lt. apply IH.
  Qed.

  (** Bins whose edges stay modest in both units. *)
  Definition tame (x : R) : Prop := modest x /\ modest (a * x).
  Definition tame_bins (l : list (bin RA)) : Prop := Forall (fun b => tame (b_left b) /\ tame (b_right b)) l.

  Lemma big_pos : 0 < dbl_max (a := RA).
  Proof.
    cbn [RA dbl_max]. apply Rmult_lt_0_compat; [|apply bpow_gt_0].
    assert (H : bpow radix2 (-53) < 1) by (apply (bpow_lt radix2 (-53) 0); lia). lra.
  Qed.

  Lemma eps_val : @default_eps RA = 1 / 10000.
  Proof. reflexivity. Qed.

  (** Any gap between modest numbers beats the initial value of the minimum. *)
  Lemma first_gap x y : modest x -> modest y ->
    definitelyLessThan (A := RA) (x - y) (dbl_max (a := RA)) (@default_eps RA) = true.
  Proof.
    unfold modest. intros Hx Hy. pose proof big_pos as B. unfold definitelyLessThan. rewrite eps_val.
    set (M := dbl_max (a := RA)) in * . cbn [RA ltb mul sub fabs]. apply Rltb_true.
    assert (D : Rabs (x - y) <= M / 2) by (unfold Rminus; pose proof (Rabs_triang x (- y)); rewrite Rabs_Ropp in H; lra).
    pose proof (Rle_abs (x - y)). rewrite (Rabs_right M) by lra.
    destruct (Rltb (Rabs (x - y)) M); lra.
  Qed.

  Lemma min_gap_sb (l : list (bin RA)) : forall i m k,
    min_gap (A := RA) (map sb l) i (a * m) k = (a * fst (min_gap (A := RA) l i m k), snd (min_gap (A := RA) l i m k)).
  Proof.
    induction l as [|b0 l IH]; intros i m k; [reflexivity|].
    destruct l as [|b1 l]; [reflexivity|].
    cbn [map min_gap] in IH |- * . cbn [scale_bin b_right]. cbn [RA sub].
    replace (a * b_right b1 - a * b_right b0) with (a * (b_right b1 - b_right b0)) by ring.
    pose proof (scale_less (b_right b1 - b_right b0) m (@default_eps RA)) as E.
    match goal with |- (if ?c then _ else _) = _ => change c with (definitelyLessThan (A := RA) (a * (b_right b1 - b_right b0)) (a * m) (@default_eps RA)) end.
    rewrite E. destruct (definitelyLessThan _ m _); apply IH.
  Qed.

  Lemma min_gap_big (l : list (bin RA)) k : tame_bins l ->
    snd (min_gap (A := RA) (map sb l) 0 (dbl_max (a := RA)) k) = snd (min_gap (A := RA) l 0 (dbl_max (a := RA)) k).
  Proof.
    intros T. destruct l as [|b0 [|b1 l]]; [reflexivity|reflexivity|].
    inversion T as [|? ? [_ T0] T']. inversion T' as [|? ? [_ T1] _]. subst.
    cbn [map min_gap].
    replace (definitelyLessThan (A := RA) (sub (a := RA) (b_right (sb b1)) (b_right (sb b0))) _ _) with true
      by (symmetry; apply first_gap; [apply T1|apply T0]).
    replace (definitelyLessThan (A := RA) (sub (a := RA) (b_right b1) (b_right b0)) _ _) with true
      by (symmetry; apply first_gap; [apply T1|apply T0]).
    change (sub (a := RA) (b_right (sb b1)) (b_right (sb b0))) with (a * b_right b1 - a * b_right b0).
    replace (a * b_right b1 - a * b_right b0) with (a * (b_right b1 - b_right b0)) by ring.
    exact (f_equal snd (min_gap_sb (b1 :: l) 1 (b_right b1 - b_right b0) 0%nat)).
  Qed.

  Lemma merge_sb (l : list (bin RA)) : tame_bins l ->
    hist_merge (A := RA) (map sb l) = omap (fun '(m, i) => (map sb m, i)) (hist_merge (A := RA) l).
  Proof.
    intros T. pose proof (min_gap_big l (length l) T) as E. unfold hist_merge.
    rewrite map_length.
    destruct (min_gap (A := RA) (map sb l) 0 (dbl_max (a := RA)) (length l)) as [g i'].
    destruct (min_gap (A := RA) l 0 (dbl_max (a := RA)) (length l)) as [g2 i]. cbn [snd] in E. subst i'.
    unfold mergeBins. rewrite at_sb, !bind_assoc, bind_omap, omap_bind. apply bind_ext. intros b _.
    rewrite erase_sb, at_sb, !bind_assoc, bind_omap, omap_bind. apply bind_ext. intros c _.
    cbn [bind omap bin_add_assign fst]. rewrite scale_add, set_sb. reflexivity.
  Qed.

  Lemma decay_sb (h : hist RA) : hist_decayCounts (sh h) = omap sh (hist_decayCounts h).
  Proof.
    destruct h as [N W d l w t hs nw dl]. unfold hist_decayCounts, scale_hist.
    cbn [h_numBins h_windowSize h_decay h_bins h_window h_total h_history h_news h_deletes].
    destruct d; [|reflexivity]. destruct (Nat.ltb W t); [|reflexivity].
    destruct w as [[|del w]|]; [reflexivity| |reflexivity].
    rewrite at_sb, bind_omap, omap_bind. apply bind_ext. intros b _. cbn [omap bind]. f_equal.
    cbn [h_numBins h_windowSize h_decay h_bins h_window h_total h_history h_news h_deletes].
    cbn [scale_bin b_count b_left b_right].
    set (b' := if Nat.ltb 0 (b_count b) then Bin (A := RA) (b_left b) (b_right b) (b_count b - 1) else b).
    assert (EB : (if Nat.ltb 0 (b_count b) then Bin (A := RA) (a * b_left b) (a * b_right b) (b_count b - 1) else sb b) = sb b').
    { unfold b'. destruct (Nat.ltb 0 (b_count b)); reflexivity. }
    change (Hist N W true
      (if Nat.ltb N (length (set_nth (map sb l) del (if Nat.ltb 0 (b_count b) then Bin (A := RA) (a * b_left b) (a * b_right b) (b_count b - 1) else sb b)))
       then if Nat.eqb (b_count (if Nat.ltb 0 (b_count b) then Bin (A := RA) (a * b_left b) (a * b_right b) (b_count b - 1) else sb b)) 0
            then erase_nth (set_nth (map sb l) del (if Nat.ltb 0 (b_count b) then Bin (A := RA) (a * b_left b) (a * b_right b) (b_count b - 1) else sb b)) del
            else set_nth (map sb l) del (if Nat.ltb 0 (b_count b) then Bin (A := RA) (a * b_left b) (a * b_right b) (b_count b - 1) else sb b)
       else set_nth (map sb l) del (if Nat.ltb 0 (b_count b) then Bin (A := RA) (a * b_left b) (a * b_right b) (b_count b - 1) else sb b))
      (Some w) (t - 1) hs nw dl =
      Hist N W true (map sb (if Nat.ltb N (length (set_nth l del b')) then if Nat.eqb (b_count b') 0 then erase_nth (set_nth l del b') del else set_nth l del b' else set_nth l del b'))
      (Some w) (t - 1) hs nw dl).
    rewrite EB, set_sb, map_length. cbn [scale_bin b_count]. f_equal.
    destruct (Nat.ltb N _); [|reflexivity]. destruct (Nat.eqb _ 0); [|reflexivity]. apply erase_sb.
  Qed.

  Lemma add_sb (h : hist RA) x : hist_add (sh h) (a * x) = omap sh (hist_add h x).
  Proof.
    destruct h as [N W d l w t hs nw dl]. unfold hist_add, hist_binSearch_bin, scale_hist.
    cbn [h_numBins h_windowSize h_decay h_bins h_window h_total h_history h_news h_deletes].
    change (Bin (A := RA) (a * x) (a * x) 1) with (sb (Bin (A := RA) x x 1)).
    rewrite map_length, bsearch_sb, omap_bind. apply bind_ext. intros i _.
    match goal with |- bind ?o _ = omap _ (bind ?o' _) => assert (EO : o = omap (fun '(m, k) => (map sb m, k)) o') end.
    { destruct (Nat.eqb 0 t); [cbn; now rewrite map_app|].
      destruct (Nat.eqb i (length l)); [cbn; now rewrite map_app|].
      rewrite at_sb, bind_omap, omap_bind. apply bind_ext. intros b _. cbn [RA leb scale_bin b_left].
      rewrite scale_leb. destruct (Rleb (b_left b) x).
      - cbn [omap bind]. do 2 f_equal. apply (set_sb l i (Bin (A := RA) (b_left b) (b_right b) (b_count b + 1))).
      - cbn [omap bind]. do 2 f_equal. apply (insert_sb l i (Bin (A := RA) x x 1)). }
    rewrite EO, bind_omap, omap_bind. apply bind_ext. intros [m k] _.
    destruct w as [w|]; [|reflexivity]. apply (decay_sb (Hist N W d m (Some (w ++ [i])) (t + 1) (hs + 1) (nw + 1) (dl + k))).
  Qed.

  Lemma update_sb (h : hist RA) x : (forall h', hist_add h x = Ret h' -> tame_bins (h_bins h')) ->
    hist_update (sh h) (a * x) = omap sh (hist_update h x).
  Proof.
    intros T. unfold hist_update. rewrite add_sb, bind_omap, omap_bind. apply bind_ext. intros h1 E1.
    specialize (T h1 E1). destruct h1 as [N W d l w t hs nw dl]. unfold scale_hist.
    cbn [h_numBins h_windowSize h_decay h_bins h_window h_total h_history h_news h_deletes] in T |- * .
    rewrite map_length. destruct (Nat.ltb N (length l)); [|reflexivity].
    rewrite (merge_sb l T), bind_omap, omap_bind. apply bind_ext. intros [m i] _.
    destruct d; [|reflexivity]. destruct w as [w|]; reflexivity.
  Qed.

  (** Edges never leave the set of observations. *)
  Lemma Forall_set {X} (P : X -> Prop) (l : list X) : forall i x, Forall P l -> P x -> Forall P (set_nth l i x).
  Proof. induction l as [|y l IH]; intros [|i] x F Px; cbn; auto; inversion F; subst; constructor; auto. Qed.
  Lemma Forall_erase {X} (P : X -> Prop) (l : list X) : forall i, Forall P l -> Forall P (erase_nth l i).
  Proof. induction l as [|y l IH]; intros [|i] F; cbn; auto; inversion F; subst; auto. Qed.
  Lemma Forall_insert {X} (P : X -> Prop) (l : list X) : forall i x, Forall P l -> P x -> Forall P (insert_nth l i x).
  Proof. induction l as [|y l IH]; intros [|i] x F Px; cbn; auto; inversion F; subst; constructor; auto. Qed.
  Lemma Forall_at {X} (P : X -> Prop) (l : list X) i x : Forall P l -> at_ l i = Ret x -> P x.
  Proof. intros F E. apply at_Ret in E. apply nth_error_In in E. rewrite Forall_forall in F. auto. Qed.

  Lemma decay_tame (h h' : hist RA) : tame_bins (h_bins h) -> hist_decayCounts h = Ret h' -> tame_bins (h_bins h').
  Proof.
    intros T. unfold hist_decayCounts. destruct (h_decay h); [|now intros [= <-]].
    destruct (Nat.ltb _ _); [|now intros [= <-]]. destruct (h_window h) as [[|del w]|]; try discriminate.
    intros E. apply bind_Ret in E as (b & Eb & E). injection E as <-. cbn [h_bins].
    pose proof (Forall_at _ _ _ _ T Eb) as Tb.
    assert (K : tame_bins (set_nth (h_bins h) del (if Nat.ltb 0 (b_count b) then Bin (b_left b) (b_right b) (b_count b - 1) else b))).
    { apply Forall_set; auto. destruct (Nat.ltb 0 (b_count b)); exact Tb. }
    revert K. generalize (if Nat.ltb 0 (b_count b) then Bin (b_left b) (b_right b) (b_count b - 1) else b). intros b' K.
    destruct (Nat.ltb _ _); auto. destruct (Nat.eqb _ _); auto. apply Forall_erase. exact K.
  Qed.

  Lemma add_tame (h h' : hist RA) x : tame_bins (h_bins h) -> tame x -> hist_add h x = Ret h' -> tame_bins (h_bins h').
  Proof.
    intros T Tx E. unfold hist_add in E. apply bind_Ret in E as (i & _ & E). apply bind_Ret in E as ([m k] & Em & E).
    destruct (h_window h) as [w|]; [|discriminate]. apply decay_tame in E; auto. cbn [h_bins].
    assert (Tn : tame_bins [Bin (A := RA) x x 1]) by (constructor; [split; exact Tx|constructor]).
    destruct (Nat.eqb 0 _); [injection Em as <- _; apply Forall_app; split; auto|].
    destruct (Nat.eqb _ _); [injection Em as <- _; apply Forall_app; split; auto|].
    apply bind_Ret in Em as (b & Eb & Em). pose proof (Forall_at _ _ _ _ T Eb) as Tb. destruct (leb _ _).
    - injection Em as <- _. apply Forall_set; auto.
    - injection Em as <- _. apply Forall_insert; auto.
  Qed.

  Lemma update_tame (h h' : hist RA) x : tame_bins (h_bins h) -> tame x -> hist_update h x = Ret h' -> tame_bins (h_bins h').
  Proof.
    intros T Tx E. unfold hist_update in E. apply bind_Ret in E as (h1 & E1 & E). apply add_tame in E1; auto.
    destruct (Nat.ltb _ _); [|injection E as <-; exact E1].
    apply bind_Ret in E as ([m i] & Em & E). apply bind_Ret in E as (w & _ & E). injection E as <-. cbn [h_bins].
    unfold hist_merge in Em. destruct (min_gap _ _ _ _) as [g j]. apply bind_Ret in Em as (m' & Em' & Em). injection Em as <- _.
    unfold mergeBins in Em'. apply bind_Ret in Em' as (b & Eb & Em'). apply bind_Ret in Em' as (c & Ec & Em').
    injection Em' as <-. pose proof (Forall_at _ _ _ _ E1 Eb) as Tb.
    assert (F : tame_bins (erase_nth (h_bins h1) (j + 1))) by (apply Forall_erase; exact E1).
    pose proof (Forall_at _ _ _ _ F Ec) as Tc. apply Forall_set; auto.
    unfold bin_add_assign, bin_add. cbn [fst b_left b_right]. destruct Tb, Tc.
    split; [destruct (definitelyLessThan _ _ _)|destruct (definitelyGreaterThan _ _ _)]; auto.
  Qed.

  Lemma hist_scale N W d xs : Forall tame xs ->
    update_all hist_update (hist_new (A := RA) N W d) (map (Rmult a) xs) =
    omap sh (update_all hist_update (hist_new (A := RA) N W d) xs) /\
    (forall h, update_all hist_update (hist_new (A := RA) N W d) xs = Ret h -> tame_bins (h_bins h)).
  Proof.
    induction xs as [|x xs IH] using rev_ind; intros F.
    - split; [reflexivity|]. intros h E. injection E as <-. constructor.
    - apply Forall_app in F as (F & Fx). inversion Fx as [|? ? Tx _]; subst. destruct (IH F) as (E & T).
      rewrite map_app. cbn [map]. rewrite !update_all_snoc. split.
      + etransitivity; [eapply (f_equal (fun o => bind o _) E)|]. rewrite bind_omap, omap_bind. apply bind_ext. intros h Eh.
        apply update_sb. intros h' Eh'. eapply add_tame; eauto.
      + intros h Eh. apply bind_Ret in Eh as (h1 & E1 & Eh). eapply update_tame; eauto.
  Qed.

  (** What does not look at the edges. *)
  Lemma pdf_sb (h : hist RA) n : hist_pdf (sh h) n false = hist_pdf h n false.
  Proof. unfold hist_pdf. destruct h as [N W d l w t hs nw dl]; cbn. rewrite map_map. reflexivity. Qed.
  Lemma cdf_sb (h : hist RA) n : hist_cdf (sh h) n = hist_cdf h n.
  Proof. unfold hist_cdf. now rewrite pdf_sb. Qed.
  Lemma counts_sb (h : hist RA) : hist_binCounts (sh h) = hist_binCounts h.
  Proof. unfold hist_binCounts. destruct h as [N W d l w t hs nw dl]; cbn. rewrite map_map. reflexivity. Qed.
  Lemma getBin_sb (h : hist RA) i : hist_getBin (sh h) i = omap sb (hist_getBin h i).
  Proof.
    unfold hist_getBin. destruct h as [N W d l w t hs nw dl]; unfold scale_hist. cbn [h_bins]. rewrite map_length.
    destruct (Nat.ltb _ _); [reflexivity|apply at_sb].
  Qed.

  Lemma hist_scale_counts N W d xs n : Forall tame xs ->
    let run ys := update_all hist_update (hist_new (A := RA) N W d) ys in
    bind (run (map (Rmult a) xs)) hist_binCounts = bind (run xs) hist_binCounts /\
    omap (fun h => hist_cdf h n) (run (map (Rmult a) xs)) = omap (fun h => hist_cdf h n) (run xs).
  Proof.
    intros F run. unfold run. rewrite (proj1 (hist_scale N W d xs F)).
    split; [|unfold omap at 1]; rewrite bind_omap; apply bind_ext; intros h _; [apply counts_sb|f_equal; apply cdf_sb].
  Qed.

  Definition se (s : entropy RA) : entropy RA :=
    Entropy (A := RA) (e_window s) (e_wsize s) (e_history s) (sh (e_hist s)) (e_value s).

  Lemma search_sb (h : hist RA) x : hist_binSearch (sh h) (a * x) = hist_binSearch h x.
  Proof.
    unfold hist_binSearch, hist_binSearch_bin. destruct h as [N W d l w t hs nw dl]; unfold scale_hist; cbn [h_bins]. rewrite map_length.
    apply (bsearch_sb _ _ (Bin (A := RA) x x 1)).
  Qed.

  Lemma decrement_sb lg (h : hist RA) v i : entropy_decrement (A := RA) lg (sh h) v i = entropy_decrement (A := RA) lg h v i.
  Proof.
    unfold entropy_decrement. rewrite getBin_sb, bind_omap. apply bind_ext. intros b _. destruct h as [N W d l w t hs nw dl]; reflexivity.
  Qed.
  Lemma increment_sb lg (h : hist RA) v i : entropy_increment (A := RA) lg (sh h) v i = entropy_increment (A := RA) lg h v i.
  Proof.
    unfold entropy_increment. rewrite getBin_sb, bind_omap. apply bind_ext. intros b _. destruct h as [N W d l w t hs nw dl]; reflexivity.
  Qed.

  Lemma eupdate_sb lg (s : entropy RA) x : tame_bins (h_bins (e_hist s)) -> tame x ->
    entropy_update lg (se s) (a * x) = omap se (entropy_update lg s x) /\
    (forall s', entropy_update lg s x = Ret s' -> tame_bins (h_bins (e_hist s'))).
  Proof.
    destruct s as [w W hs h v]. cbn [e_hist]. intros T Tx. split.
    - unfold entropy_update, se. cbn [e_window e_wsize e_history e_hist e_value].
      rewrite search_sb, omap_bind. apply bind_ext. intros i _. destruct w as [w|]; [|reflexivity].
      match goal with |- bind ?o _ = omap _ (bind ?o' _) => assert (EO : o = o') end.
      { destruct (Nat.ltb _ _); [|reflexivity]. destruct (w ++ [i]); [reflexivity|]. now rewrite decrement_sb. }
      rewrite EO, omap_bind. apply bind_ext. intros [w2 v2] _.
      rewrite update_sb, bind_omap, omap_bind by (intros h' E'; eapply add_tame; eauto).
      apply bind_ext. intros h' _. rewrite increment_sb, omap_bind. reflexivity.
    - intros s' E. unfold entropy_update in E. cbn [e_window e_wsize e_history e_hist e_value] in E.
      apply bind_Ret in E as (i & _ & E). destruct w as [w|]; [|discriminate].
      apply bind_Ret in E as ([w2 v2] & _ & E). apply bind_Ret in E as (h' & Eh & E). apply bind_Ret in E as (v3 & _ & E).
      injection E as <-. cbn [e_hist]. eapply update_tame; eauto.
  Qed.

  Lemma entropy_scale lg W N (s0 : entropy RA) xs : entropy_new (A := RA) W N = Ret s0 -> Forall tame xs ->
    update_all (entropy_update lg) s0 (map (Rmult a) xs) = omap se (update_all (entropy_update lg) s0 xs) /\
    (forall s, update_all (entropy_update lg) s0 xs = Ret s -> tame_bins (h_bins (e_hist s))).
  Proof.
    intros E0. unfold entropy_new in E0. apply bind_Ret in E0 as (n & _ & E0). injection E0 as <-.
    induction xs as [|x xs IH] using rev_ind; intros F.
    - split; [reflexivity|]. intros h E. injection E as <-. constructor.
    - apply Forall_app in F as (F & Fx). inversion Fx as [|? ? Tx _]; subst. destruct (IH F) as (E & T).
      rewrite map_app. cbn [map]. rewrite !update_all_snoc. split.
      + etransitivity; [eapply (f_equal (fun o => bind o _) E)|]. rewrite bind_omap, omap_bind. apply bind_ext. intros h Eh.
        apply eupdate_sb; auto.
      + intros h Eh. apply bind_Ret in Eh as (h1 & E1 & Eh). eapply eupdate_sb; eauto.
  Qed.

  Lemma entropy_scale_answer lg W N xs : Forall tame xs ->
    let answer ys := let* s0 := entropy_new (A := RA) W N in omap entropy_evaluate (update_all (entropy_update lg) s0 ys) in
    answer (map (Rmult a) xs) = answer xs.
  Proof.
    intros F answer. unfold answer. apply bind_ext. intros s0 E0. rewrite (proj1 (entropy_scale lg W N s0 xs E0 F)).
    unfold omap at 1. rewrite bind_omap. reflexivity.
  Qed.

  (** The quantile uses the bin edges, except that a bin of width zero gets the
      width 1 / numBins. *)
  Lemma quantile_sb (h : hist RA) q : Forall (fun b => b_left b <> b_right b) (h_bins h) ->
    hist_quantile (sh h) q = omap (Rmult a) (hist_quantile h q).
  Proof.
    intros F. unfold hist_quantile. rewrite cdf_sb. destruct (_ || _)%bool; [reflexivity|].
    rewrite omap_bind. apply bind_ext. intros it0 _. rewrite omap_bind. apply bind_ext. intros it _.
    rewrite omap_bind. apply bind_ext. intros c Ec. destruct (essentiallyEqual _ _ _).
    - destruct h as [N W d l w t hs nw dl]; unfold scale_hist; cbn [h_bins].
      rewrite at_sb, bind_omap, omap_bind. reflexivity.
    - destruct h as [N W d l w t hs nw dl]; unfold scale_hist; cbn [h_bins h_total h_numBins] in F |- * .
      destruct (Nat.leb _ it) eqn:L.
      + exfalso. apply Nat.leb_le in L. apply at_Ret in Ec. apply nth_error_None in L. congruence.
      + rewrite !bind_assoc, omap_bind. apply bind_ext. intros c1 _.
        rewrite at_sb, !bind_assoc, bind_omap, omap_bind. apply bind_ext. intros b Eb. cbn [bind].
        rewrite at_sb, bind_omap, Eb. cbn [bind omap]. f_equal. pose proof (Forall_at _ _ _ _ F Eb) as Fb. cbn in Fb.
        cbn [RA eqb sub of_Z scale_bin b_left b_right b_count].
        unfold Reqb. destruct (Req_EM_T _ _) as [Z|Z]; [exfalso; apply Fb; nra|].
        destruct (Req_EM_T _ _) as [Z'|Z']; [exfalso; apply Fb; lra|].
        cbn [RA add mul div]. match goal with |- ?x = ?y => change (@eq R x y) end. unfold Rdiv. ring.
  Qed.
End Scale.

Lemma quantile_not_scaled (c x y q : R) N W n : 0 < c -> c <> 1 ->
  definitelyLessThan (A := RA) x y (@default_eps RA) = true -> (2 <= N)%nat -> (1 <= n)%nat -> (S n <= W)%nat ->
  1.001 / INR (S n) <= q < 1 ->
  exists h h' v v',
    update_all hist_update (hist_new (A := RA) N W true) (x :: repeat y n) = Ret h /\
    update_all hist_update (hist_new (A := RA) N W true) (map (Rmult c) (x :: repeat y n)) = Ret h' /\
    hist_quantile h q = Ret v /\ hist_quantile h' q = Ret v' /\ v' <> c * v.
Proof.
  intros Hc Hc1 Hxy HN Hn HW Hq. destruct (quantile_skewed x y q N W n) as (h & E & Q); auto.
  assert (Hxy' : definitelyLessThan (A := RA) (c * x) (c * y) (@default_eps RA) = true) by (rewrite scale_less; auto).
  destruct (quantile_skewed (c * x) (c * y) q N W n) as (h' & E' & Q'); auto.
  exists h, h', (x + INR n / INR N), (c * x + INR n / INR N).
  split; [exact E|]. split.
  { cbn [map]. replace (map (Rmult c) (repeat y n)) with (repeat (c * y) n); [exact E'|].
    clear. induction n as [|n IH]; cbn; [reflexivity|]. now rewrite IH. }
  split; [exact Q|]. split; [exact Q'|]. intros K.
  assert (P : 0 < INR n / INR N).
  { apply Rdiv_lt_0_compat; [apply (lt_INR 0)|apply (lt_INR 0)]; lia. }
  assert (K2 : (1 - c) * (INR n / INR N) = 0) by lra.
  apply Rmult_integral in K2 as [K2|K2]; lra.
Qed.

Lemma modest_small x : Rabs x <= 2 ^ 64 -> modest x.
Proof.
  intros H. unfold modest. cbn [RA dbl_max].
  assert (H1 : bpow radix2 (-53) <= / 2) by (change (/ 2) with (bpow radix2 (-1)); apply bpow_le; lia).
  assert (H2 : bpow radix2 67 <= bpow radix2 1024) by (apply bpow_le; lia).
  assert (H3 : bpow radix2 67 = 2 ^ 67) by (cbn; lra). rewrite H3 in H2. set (B := bpow radix2 1024) in * .
  set (E := bpow radix2 (-53)) in * . clearbody B E. nra.
Qed.

(** A shift of two well separated observations that puts them into one bin. *)
Lemma two_bins (x y : R) N W : definitelyLessThan (A := RA) x y (@default_eps RA) = true -> (2 <= N)%nat -> (2 <= W)%nat ->
  omap hist_size (update_all hist_update (hist_new (A := RA) N W true) [x; y]) = Ret 2%nat.
Proof.
  intros H HN HW. destruct (drift_run (A := RA) x y N W 1) as (h & E & _ & B & _); auto; try lia.
  { destruct (definitelyLessThan (A := RA) y y default_eps) eqn:K; auto. apply RA_less_lt in K; [lra|]. unfold default_eps, lit. cbn. lra. }
  { cbn. apply Rleb_true. lra. }
  cbn [repeat] in E. etransitivity; [eapply (f_equal (fun o => omap _ o) E)|]. cbn [omap bind]. unfold hist_size. rewrite B. reflexivity.
Qed.

Lemma one_bin (x y : R) : definitelyLessThan (A := RA) x y (@default_eps RA) = false -> x <= y ->
  omap hist_size (update_all hist_update (hist_new (A := RA) 2 2 true) [x; y]) = Ret 1%nat.
Proof.
  intros H L.
  set (s1 := Hist (A := RA) 2 2 true [Bin (A := RA) x x 1] (Some [0; 0; 0]%nat) 1 1 1 0).
  assert (E1 : hist_update (hist_new (A := RA) 2 2 true) x = Ret s1) by reflexivity.
  assert (E2 : hist_update s1 y = Ret (Hist (A := RA) 2 2 true [Bin (A := RA) x x 2] (Some [0; 0; 0; 0]%nat) 2 2 2 1)).
  { assert (Es : hist_binSearch_bin s1 (Bin (A := RA) y y 1) = Ret 0%nat).
    { unfold hist_binSearch_bin, s1. cbn [h_bins length bsearch]. change ((0 + 1) / 2)%nat with 0%nat.
      cbn [Nat.ltb Nat.leb at_ nth_error bind]. unfold bin_lt. cbn [b_left]. rewrite H. reflexivity. }
    unfold hist_update, hist_add. rewrite Es. cbn [bind]. unfold s1.
    cbn [h_numBins h_windowSize h_decay h_bins h_window h_total h_history h_news h_deletes length Nat.eqb at_ nth_error bind b_left].
    replace (leb (a := RA) x y) with true by (symmetry; cbn; now apply Rleb_true). reflexivity. }
  cbn [update_all]. rewrite E1. cbn [bind]. rewrite E2. reflexivity.
Qed.

Lemma eps_less x y : 0 <= x <= y -> y * / 10000 < y - x -> definitelyLessThan (A := RA) x y (@default_eps RA) = true.
Proof. intros H K. apply RA_less. rewrite eps_val. rewrite !Rabs_pos_eq, Rmax_right by lra. lra. Qed.
Lemma eps_not_less x y : 0 <= x <= y -> y - x <= y * / 10000 -> definitelyLessThan (A := RA) x y (@default_eps RA) = false.
Proof.
  intros H K. destruct (definitelyLessThan _ _ _) eqn:E; auto. apply RA_less in E. rewrite eps_val in E.
  rewrite !Rabs_pos_eq, Rmax_right in E by lra. lra.
Qed.

Lemma shift_merges :
  omap hist_size (update_all hist_update (hist_new (A := RA) 2 2 true) [1; 2]) = Ret 2%nat /\
  omap hist_size (update_all hist_update (hist_new (A := RA) 2 2 true) (map (Rplus 100000) [1; 2])) = Ret 1%nat.
Proof.
  split.
  - apply two_bins; auto. apply eps_less; lra.
  - cbn [map]. apply one_bin; [apply eps_not_less|]; lra.
Qed.

(** A histogram all of whose bins have a width. *)
Ltac hcbn := cbn [h_numBins h_windowSize h_decay h_bins h_window h_total h_history h_news h_deletes length Nat.eqb at_ nth_error
  bind b_left b_right b_count bsearch Nat.ltb Nat.leb Nat.div Nat.divmod fst snd Nat.add app min_gap set_nth erase_nth map].

Lemma search_two (b c : bin RA) x : bin_lt c (Bin (A := RA) x x 1) = true -> forall h : hist RA, h_bins h = [b; c] ->
  hist_binSearch_bin h (Bin (A := RA) x x 1) = Ret 2%nat.
Proof. intros H h E. unfold hist_binSearch_bin. rewrite E. hcbn. rewrite H. reflexivity. Qed.

Lemma search_one (b : bin RA) x : bin_lt b (Bin (A := RA) x x 1) = true -> forall h : hist RA, h_bins h = [b] ->
  hist_binSearch_bin h (Bin (A := RA) x x 1) = Ret 1%nat.
Proof. intros H h E. unfold hist_binSearch_bin. rewrite E. hcbn. rewrite H. reflexivity. Qed.

Lemma merge_add (x y z w : R) m n : 0 < x -> y < w -> x < z -> w <= 16 -> 1 <= y -> 1 <= w - y ->
  bin_add (Bin (A := RA) x y m) (Bin (A := RA) z w n) = Bin (A := RA) x w (m + n).
Proof.
  intros. unfold bin_add. cbn [b_left b_right b_count].
  assert (E1 : definitelyLessThan (A := RA) z x (@bin_eps RA) = false).
  { destruct (definitelyLessThan _ _ _) eqn:E; auto. apply RA_less_lt in E; [lra|]. unfold bin_eps, lit. cbn. lra. }
  assert (E2 : definitelyGreaterThan (A := RA) w y (@bin_eps RA) = true).
  { apply RA_greater. unfold bin_eps, lit. cbn [RA div of_Z]. rewrite !Rabs_pos_eq, Rmax_left by lra. lra. }
  rewrite E1, E2. reflexivity.
Qed.

Lemma wide_example : exists h, update_all hist_update (hist_new (A := RA) 2 9 true) [1; 2; 10; 11] = Ret h /\
  h_bins h = [Bin (A := RA) 1 2 2; Bin (A := RA) 10 11 2].
Proof.
  set (s1 := Hist (A := RA) 2 9 true [Bin (A := RA) 1 1 1] (Some (repeat 0 9 ++ [0])%nat) 1 1 1 0).
  set (s2 := Hist (A := RA) 2 9 true [Bin (A := RA) 1 1 1; Bin (A := RA) 2 2 1] (Some (repeat 0 9 ++ [0; 1])%nat) 2 2 2 0).
  set (s3 := Hist (A := RA) 2 9 true [Bin (A := RA) 1 2 2; Bin (A := RA) 10 10 1] (Some (repeat 0 9 ++ [0; 0; 2])%nat) 3 3 3 0).
  set (s4 := Hist (A := RA) 2 9 true [Bin (A := RA) 1 2 2; Bin (A := RA) 10 11 2] (Some (repeat 0 9 ++ [0; 0; 1; 1])%nat) 4 4 4 0).
  assert (E1 : hist_update (hist_new (A := RA) 2 9 true) 1 = Ret s1) by reflexivity.
  assert (E2 : hist_update s1 2 = Ret s2).
  { unfold hist_update, hist_add. rewrite (search_one (Bin (A := RA) 1 1 1)); [reflexivity| |reflexivity]. apply eps_less; cbn [b_left]; lra. }
  assert (M : forall x y, Rabs x <= 16 -> Rabs y <= 16 -> definitelyLessThan (A := RA) (x - y) (dbl_max (a := RA)) (@default_eps RA) = true).
  { intros x y Hx Hy. apply first_gap; apply modest_small; lra. }
  assert (E3 : hist_update s2 10 = Ret s3).
  { unfold hist_update, hist_add. rewrite (search_two (Bin (A := RA) 1 1 1) (Bin (A := RA) 2 2 1)); [| |reflexivity]; [|apply eps_less; cbn [b_left]; lra].
    unfold s2. hcbn. unfold hist_decayCounts. hcbn. unfold hist_merge. hcbn. cbn [RA sub].
    rewrite (M 2 1) by (rewrite Rabs_pos_eq; lra).
    assert (K : definitelyLessThan (A := RA) (10 - 2) (2 - 1) (@default_eps RA) = false).
    { destruct (definitelyLessThan _ _ _) eqn:K; auto. apply RA_less_lt in K; [lra|]. rewrite eps_val. lra. }
    rewrite K. unfold mergeBins. hcbn. unfold bin_add_assign. cbn [fst]. rewrite merge_add by lra. reflexivity. }
  assert (E4 : hist_update s3 11 = Ret s4).
  { unfold hist_update, hist_add. rewrite (search_two (Bin (A := RA) 1 2 2) (Bin (A := RA) 10 10 1)); [| |reflexivity]; [|apply eps_less; cbn [b_left]; lra].
    unfold s3. hcbn. unfold hist_decayCounts. hcbn. unfold hist_merge. hcbn. cbn [RA sub].
    rewrite (M 10 2) by (rewrite Rabs_pos_eq; lra).
    assert (K : definitelyLessThan (A := RA) (11 - 10) (10 - 2) (@default_eps RA) = true) by (apply eps_less; cbn [b_left]; lra).
    rewrite K. unfold mergeBins. hcbn. unfold bin_add_assign. cbn [fst]. rewrite merge_add by lra. reflexivity. }
  exists s4. cbn [update_all]. rewrite E1. cbn [bind]. rewrite E2. cbn [bind]. rewrite E3. cbn [bind]. rewrite E4.
  split; reflexivity.
Qed.

Lemma entropy_case : exists v,
  (let* s0 := entropy_new (A := RA) 4 2 in
   omap entropy_evaluate (update_all (entropy_update (A := RA) log2R) s0 [2; 1; 2])) = Ret v.
Proof.
  destruct separated_example as (S & F).
  destruct (entropy_exact 4 2 2 [2; 1; 2]) as (e0 & e & E0 & E & _); auto; try (cbn; lia).
  exists (entropy_evaluate e). rewrite E0. cbn [bind]. etransitivity; [eapply (f_equal (fun o => omap _ o) E)|]. reflexivity.
Qed.
