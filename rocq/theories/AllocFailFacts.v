(** Proofs about failing allocations. *)

From Coq Require Import List Reals ZArith Lra Lia Bool Arith.
From Flocq Require Import Core.Core IEEE754.BinarySingleNaN.
From Verif Require Import Outcome Arith IBin Histogram Mean Spec MeanSpec ListFacts MeanFacts
  HistSpec HistFacts FloatFacts AllocFail AllocFailSpec.
Import ListNotations.
Local Open Scope nat_scope.

(** ** Mean *)
Section MeanAny.
  Context {A : arith}.

  Record mst (W : nat) (q : list A) (s : mean A) : Prop := {
    ms_window : mn_window s = Some q;
    ms_wsize : mn_wsize s = W;
    ms_length : length q <= W
  }.

  Lemma mst_new W : 1 <= W -> mst W [] (mean_new W).
  Proof. intros H. unfold mean_new, new_window. destruct W; [lia|]. split; simpl; auto; lia. Qed.

  Definition sum_react (q : list A) (W : nat) (sum : A) (e : mean_event A) : A :=
    let sum1 := if Nat.ltb W (length q + 1) then match q with [] => sum | f :: _ => sum -. f end else sum in
    match e with MeanOk x => sum1 +. x | MeanFail _ => sum1 end.

  Definition okn (e : mean_event A) : nat := match e with MeanOk _ => 1 | MeanFail _ => 0 end.

  Lemma mst_step W q s e : 1 <= W -> mst W q s ->
    exists s', mean_react s e = Ret s' /\ mst W (win_react W q e) s' /\
      mn_history s' = mn_history s + okn e /\ mn_sum s' = sum_react q W (mn_sum s) e.
  Proof.
    intros HW [Hw Hs Hl]. unfold mean_react, mean_update, mean_update_failing, sum_react, okn.
    rewrite Hw, Hs.
    destruct e as [x|x]; cbn [win_react];
    (destruct (Nat.ltb_spec W (length q + 1)) as [C|C];
     [destruct q as [|f w]; [simpl in C; lia|]|]).
    - assert (E : lastn W ((f :: w) ++ [x]) = w ++ [x]).
      { rewrite lastn_snoc_full; [reflexivity| |lia]. cbn [length] in *; lia. }
      cbn [bind]. eexists. split; [reflexivity|]. rewrite E. simpl in Hl.
      split; [split; cbn; auto; rewrite app_length; cbn; lia|]. cbn. auto.
    - assert (E : lastn W (q ++ [x]) = q ++ [x]) by (apply lastn_snoc_short; lia).
      cbn [bind]. eexists. split; [reflexivity|]. rewrite E.
      split; [split; cbn; auto; rewrite app_length; cbn; lia|]. cbn. auto.
    - assert (E : lastn (W - 1) (f :: w) = w).
      { unfold lastn. cbn [length] in * .
        replace (S (length w) - (W - 1)) with 1 by lia. reflexivity. }
      eexists. split; [reflexivity|]. rewrite E. simpl in Hl.
      split; [split; cbn; auto; lia|]. cbn. split; [lia|reflexivity].
    - assert (E : lastn (W - 1) q = q) by (apply lastn_all; lia).
      eexists. split; [reflexivity|]. rewrite E.
      split; [split; cbn; auto|]. split; [lia|reflexivity].
  Qed.

  Lemma win_run_snoc W (es : list (mean_event A)) e : win_run W (es ++ [e]) = win_react W (win_run W es) e.
  Proof. unfold win_run. rewrite fold_left_app. reflexivity. Qed.

  Lemma mean_events W (es : list (mean_event A)) : 1 <= W ->
    exists s, update_all mean_react (mean_new W) es = Ret s /\ mst W (win_run W es) s /\
      mn_history s = list_sum (map okn es).
  Proof.
    intros HW. apply (update_all_total mean_react
      (fun es s => mst W (win_run W es) s /\ mn_history s = list_sum (map okn es))).
    - split; [apply mst_new; auto|reflexivity].
    - intros es' s e [H Hh]. destruct (mst_step W _ s e HW H) as (s' & E & H' & Hh' & _).
      exists s'. split; [auto|]. rewrite win_run_snoc, map_app, list_sum_app. split; [auto|].
      rewrite Hh', Hh. simpl. lia.
  Qed.

  Lemma win_run_ok W (es : list (mean_event A)) xs : 1 <= W ->
    win_run W (es ++ map MeanOk xs) = lastn W (win_run W es ++ xs).
  Proof.
    intros HW. induction xs as [|x xs IH] using rev_ind.
    - rewrite !app_nil_r. symmetry. apply lastn_all.
      destruct (mean_events W es HW) as (s & _ & H & _). apply (ms_length _ _ _ H).
    - rewrite map_app, app_assoc. cbn [map]. rewrite win_run_snoc, IH. cbn [win_react].
      rewrite lastn_lastn_snoc, app_assoc. reflexivity.
  Qed.

  Lemma lastn_app_long {X} W (l xs : list X) : W <= length xs -> lastn W (l ++ xs) = lastn W xs.
  Proof.
    intros H. unfold lastn. rewrite app_length, skipn_app.
    replace (length l + length xs - W - length l) with (length xs - W) by lia.
    rewrite skipn_all2 by lia. reflexivity.
  Qed.

  Lemma win_run_recovers W (es : list (mean_event A)) xs : 1 <= W -> W <= length xs ->
    win_run W (es ++ map MeanOk xs) = lastn W xs.
  Proof. intros HW H. rewrite win_run_ok by auto. apply lastn_app_long; auto. Qed.

  Lemma okn_pos (es : list (mean_event A)) xs : xs <> [] ->
    1 <= list_sum (map okn (es ++ map MeanOk xs)).
  Proof.
    intros H. destruct xs; [congruence|]. rewrite map_app, list_sum_app. simpl. lia.
  Qed.
End MeanAny.

(** ** Exact arithmetic *)
Section MeanExact.
  Notation RE := (mean_event RA).

  Lemma sum_react_exact W (q : list R) (e : RE) : 1 <= W -> length q <= W ->
    sum_react (A := RA) q W (rsum q) e = rsum (win_react (A := RA) W q e).
  Proof.
    intros HW Hl. unfold sum_react, win_react. change (num RA) with R.
    destruct (Nat.ltb_spec W (length q + 1)) as [C|C].
    - destruct q as [|f w]; [simpl in C; lia|]. cbn [length] in * .
      destruct e as [x|x].
      + change (lastn W ((f :: w) ++ [x])) with (lastn W ((f :: w) ++ [x : R])).
        rewrite (lastn_snoc_full W (f :: w) (x : R)) by (cbn [length]; lia). cbn [tl].
        rewrite rsum_app. cbn. lra.
      + assert (E : lastn (W - 1) (f :: w) = w).
        { unfold lastn. cbn [length]. replace (S (length w) - (W - 1)) with 1 by lia. reflexivity. }
        transitivity (rsum w); [cbn; lra|]. f_equal. symmetry. exact E.
    - destruct e as [x|x].
      + rewrite (lastn_snoc_short W q (x : R)) by lia. rewrite rsum_app. cbn. lra.
      + f_equal. symmetry. apply (lastn_all (W - 1) q). lia.
  Qed.

  Lemma mean_events_exact W (es : list RE) : 1 <= W ->
    exists s, update_all mean_react (mean_new W) es = Ret s /\ mst W (win_run W es) s /\
      mn_history s = list_sum (map okn es) /\ mn_sum s = rsum (win_run W es).
  Proof.
    intros HW. apply (update_all_total mean_react (fun es s => mst W (win_run W es) s /\
      mn_history s = list_sum (map okn es) /\ mn_sum s = rsum (win_run W es))).
    - split; [apply mst_new; auto|]. split; reflexivity.
    - intros es' s e (H & Hh & Hsum). destruct (mst_step W _ s e HW H) as (s' & E & H' & Hh' & Hs').
      exists s'. split; [auto|]. rewrite win_run_snoc, map_app, list_sum_app. split; [auto|]. split.
      + rewrite Hh', Hh. simpl. lia.
      + rewrite Hs', Hsum. apply sum_react_exact; auto. apply (ms_length _ _ _ H).
  Qed.

  Lemma avg_div (q : list R) : q <> [] -> (rsum q / IZR (Z.of_nat (length q)))%R = avg q.
  Proof. intros H. destruct q; [congruence|]. unfold avg. rewrite INR_IZR_INZ. reflexivity. Qed.

  Lemma mean_events_value W (es : list RE) s : 1 <= W ->
    update_all mean_react (mean_new W) es = Ret s ->
    mn_window s = Some (win_run W es) /\
    ((0 < mn_history s) -> win_run W es <> [] -> mean_evaluate s = avg (win_run W es)).
  Proof.
    intros HW E. destruct (mean_events_exact W es HW) as (s' & E' & [Hw Hs Hl] & Hh & Hsum).
    rewrite E in E'. injection E' as <-. split; [exact Hw|]. intros Hp Hn.
    unfold mean_evaluate. rewrite Hw, Hsum. destruct (Nat.eqb_spec (mn_history s) 0); [lia|].
    exact (avg_div _ Hn).
  Qed.

  Lemma nil_or {X} (l : list X) : 1 <= length l -> l <> [].
  Proof. intros H ->. simpl in H. lia. Qed.

  Lemma mean_recovers W (es : list RE) (xs : list R) : 1 <= W -> W <= length xs ->
    exists s, update_all mean_react (mean_new W) (es ++ map MeanOk xs) = Ret s /\
      mn_window s = Some (lastn W xs) /\ mean_evaluate s = avg (lastn W xs).
  Proof.
    intros HW Hx. assert (L : 1 <= length (lastn W xs)) by (rewrite lastn_length; lia).
    destruct (mean_events W (es ++ map MeanOk xs) HW) as (s & E & [Hw _ _] & Hh).
    exists s. split; [exact E|].
    destruct (mean_events_value W _ s HW E) as [_ V].
    pose proof (win_run_recovers (A := RA) W es xs HW Hx) as Er.
    split; [rewrite Hw; f_equal; exact Er|].
    transitivity (avg (win_run W (es ++ map MeanOk xs))).
    - apply V.
      + rewrite Hh. pose proof (okn_pos (A := RA) es xs). apply H. apply nil_or.
        exact (Nat.le_trans _ _ _ HW Hx).
      + rewrite Er. apply nil_or. exact L.
    - f_equal. exact Er.
  Qed.

  (** Variance: each of the two means sees its own events. *)
  Definition mean_part (e : var_event RA) : list RE :=
    match e with VarOk x => [MeanOk x] | VarFailMean x => [MeanFail x] | VarFailSquare x => [MeanOk x] end.
  Definition square_part (e : var_event RA) : list RE :=
    match e with
    | VarOk x => [MeanOk (x *. x)] | VarFailMean x => [] | VarFailSquare x => [MeanFail (x *. x)]
    end.

  Lemma var_events W (es : list (var_event RA)) : 1 <= W ->
    exists s, update_all var_react (variance_new W) es = Ret s /\
      (update_all mean_react (mean_new W) (flat_map mean_part es) = Ret (va_mean s) /\
       update_all mean_react (mean_new W) (flat_map square_part es) = Ret (va_sq s)).
  Proof.
    intros HW. apply (update_all_total var_react (fun es s =>
      update_all mean_react (mean_new W) (flat_map mean_part es) = Ret (va_mean s) /\
      update_all mean_react (mean_new W) (flat_map square_part es) = Ret (va_sq s))).
    - split; reflexivity.
    - intros es' s e [Hm Hq].
      destruct (mean_events W (flat_map mean_part es') HW) as (m & Em & Im & _).
      rewrite Hm in Em. injection Em as <-.
      destruct (mean_events W (flat_map square_part es') HW) as (q & Eq & Iq & _).
      rewrite Hq in Eq. injection Eq as <-.
      rewrite !flat_map_app, !update_all_app, Hm, Hq. cbn [bind flat_map].
      destruct e as [x|x|x]; cbn [mean_part square_part app update_all].
      + destruct (mst_step W _ _ (MeanOk x) HW Im) as (m' & Em & _).
        destruct (mst_step W _ _ (MeanOk (x *. x)) HW Iq) as (q' & Eq & _).
        cbn [mean_react] in Em, Eq. cbn [var_react mean_react]. unfold variance_update.
        rewrite Em, Eq. cbn [bind]. eexists. split; [reflexivity|]. split; reflexivity.
      + destruct (mst_step W _ _ (MeanFail x) HW Im) as (m' & Em & _).
        cbn [mean_react] in Em. cbn [var_react mean_react].
        rewrite Em, (ms_window _ _ _ Im). cbn [bind]. eexists. split; [reflexivity|]. split; reflexivity.
      + destruct (mst_step W _ _ (MeanOk x) HW Im) as (m' & Em & _).
        destruct (mst_step W _ _ (MeanFail (x *. x)) HW Iq) as (q' & Eq & _).
        cbn [mean_react] in Em, Eq. cbn [var_react mean_react].
        rewrite Em, Eq. cbn [bind]. eexists. split; [reflexivity|]. split; reflexivity.
  Qed.

  Lemma mean_part_ok (xs : list R) : flat_map mean_part (map VarOk xs) = map MeanOk xs.
  Proof. induction xs as [|x xs IH]; [reflexivity|]. exact (f_equal (cons (MeanOk (x : num RA))) IH). Qed.
  Lemma square_part_ok (xs : list R) :
    flat_map square_part (map VarOk xs) = map MeanOk (map (fun x => x * x)%R xs).
  Proof.
    induction xs as [|x xs IH]; [reflexivity|].
    exact (f_equal (cons (MeanOk (x * x : num RA)%R)) IH).
  Qed.

  Lemma variance_recovers W (es : list (var_event RA)) (xs : list R) : 1 <= W -> W <= length xs ->
    exists s, update_all var_react (variance_new W) (es ++ map VarOk xs) = Ret s /\
      variance_evaluate s = pvar (lastn W xs).
  Proof.
    intros HW Hx.
    destruct (var_events W (es ++ map VarOk xs) HW) as (s & E & Hm & Hq).
    exists s. split; [exact E|].
    rewrite flat_map_app in Hm, Hq.
    destruct (mean_recovers W (flat_map mean_part es) xs HW Hx) as (m & Em & _ & Vm).
    assert (HxS : W <= length (map (fun x => x * x)%R xs)) by (rewrite map_length; auto).
    destruct (mean_recovers W (flat_map square_part es) _ HW HxS) as (q & Eq & _ & Vq).
    assert (E1 : Ret (va_mean s) = Ret m).
    { rewrite <- Hm, <- Em. do 2 f_equal. apply mean_part_ok. }
    assert (E2 : Ret (va_sq s) = Ret q).
    { rewrite <- Hq, <- Eq. do 2 f_equal. apply square_part_ok. }
    injection E1 as E1. injection E2 as E2. unfold variance_evaluate. rewrite E1, E2, Vm, Vq.
    rewrite pvar_moments. pose proof (map_window (fun x => x * x)%R W xs) as Hmap.
    destruct W; [lia|]. unfold window_of in Hmap. rewrite Hmap. reflexivity.
  Qed.
End MeanExact.

(** ** Histogram *)
Section HistAny.
  Context {A : arith}.

  Lemma updating_length_any N W total bins w x i bins' w' total' :
    updating (A := A) N W total bins w x i bins' w' total' ->
    length bins' <= Nat.max N (length bins).
  Proof.
    intros [i0 bins1 f bins2 w2 bins3 w3 tot Ff Ha Hd Hm]. apply adding_length in Ha as [La Lf].
    assert (length bins2 <= length bins1) as B1.
    { destruct Hd as [(_ & -> & _)|(_ & (del & _ & D) & _)]; [lia|]. apply decaying_length in D. lia. }
    destruct Hm as [(H & -> & _)|(H & l & a & c & r & -> & E & -> & _)]; [lia|].
    rewrite !app_length in *; simpl in *; lia.
  Qed.

  (** The failing call up to the failing push_back. *)
  Lemma fail_window_eq (h : hist A) x w : h_window h = Some w ->
    exists i bins freed, adding (h_total h) x (h_bins h) i bins freed /\
      hist_react h (HistFailWindow x) =
        Ret (Hist (h_numBins h) (h_windowSize h) (h_decay h) bins (h_window h)
              (h_total h + 1) (h_history h + 1) (h_news h + 1) (h_deletes h + freed)).
  Proof.
    intros Hw. cbn [hist_react]. unfold hist_binSearch.
    destruct (search_found h (Bin x x 1)) as (i & Ei & Li & Fi). rewrite Ei. cbn [bind]. exists i.
    destruct (Nat.eqb_spec 0 (h_total h)) as [T|T].
    { do 2 eexists. cbn [bind]. split; [constructor; auto|reflexivity]. }
    destruct (Nat.eqb_spec i (length (h_bins h))) as [L|L].
    { do 2 eexists. cbn [bind]. split; [constructor; auto|reflexivity]. }
    destruct (nth_error (h_bins h) i) as [b|] eqn:E.
    2:{ apply nth_error_None in E. lia. }
    unfold at_. rewrite E. cbn [bind]. destruct (split_at_elem _ _ _ E) as (l & r & E1 & E2).
    rewrite E1, <- E2.
    destruct (leb (b_left b) x) eqn:B; cbn [bind].
    - rewrite set_nth_split. do 2 eexists. split; [eapply AddHit; eauto|reflexivity].
    - rewrite insert_nth_split. do 2 eexists. split; [eapply AddNew; eauto|reflexivity].
  Qed.

  Record grows (N W : nat) (h h' : hist A) (lost : nat) : Prop := {
    gr_live : exists w', live h' N W w';
    gr_low : h_total h + lost <= h_total h';
    gr_high : h_total h' <= Nat.max W (h_total h) + lost;
    gr_bins : length (h_bins h') <= Nat.max N (length (h_bins h)) + lost;
    gr_counts : h_total h <= counts_sum h -> h_total h' <= counts_sum h'
  }.

  Lemma update_grows N W w h x h' : live h N W w -> hist_update h x = Ret h' -> grows N W h h' 0.
  Proof.
    intros L E. destruct (update_inv _ _ _ _ _ _ L E) as (i & bins & w' & f & _ & L' & Eb & U & _).
    pose proof (updating_total _ _ _ _ _ _ _ _ _ _ U) as Ht.
    pose proof (updating_length_any _ _ _ _ _ _ _ _ _ _ U) as Hl.
    destruct (updating_sum _ _ _ _ _ _ _ _ _ _ U) as [U1 U2].
    split; [eauto|lia|lia|rewrite Eb; lia|].
    intros Hc. unfold counts_sum in * . rewrite Eb.
    destruct (le_lt_dec W (h_total h)) as [C|C]; [specialize (U2 C)|specialize (U1 C)]; lia.
  Qed.

  Lemma react_grows N W w h e h' : live h N W w -> hist_react h e = Ret h' ->
    grows N W h h' (lost_index e).
  Proof.
    intros L. destruct e as [x|x|x|x].
    - cbn [hist_react lost_index]. apply (update_grows N W w); auto.
    - cbn [hist_react lost_index]. intros E. injection E as <-. split; [eauto|lia|lia|lia|auto].
    - assert (Glost : grows N W h (Hist (h_numBins h) (h_windowSize h) (h_decay h) (h_bins h)
                 (h_window h) (h_total h) (h_history h) (h_news h + 1) (h_deletes h)) 0).
      { split; [exists w; exact L|cbn; lia|cbn; lia|cbn; lia|cbn; auto]. }
      cbn [hist_react lost_index]. unfold hist_binSearch.
      destruct (search_found h (Bin x x 1)) as (i & Ei & Li & Fi). rewrite Ei. cbn [bind].
      destruct (Nat.eqb 0 (h_total h)); [intros E; injection E as <-; exact Glost|].
      destruct (Nat.eqb_spec i (length (h_bins h))); [intros E; injection E as <-; exact Glost|].
      destruct (at_ (h_bins h) i) as [b| |]; cbn [bind]; [|intros E; discriminate E|intros E; discriminate E].
      destruct (leb (b_left b) x); [apply (update_grows N W w); auto|].
      intros E; injection E as <-; exact Glost.
    - destruct L as (HN & HW & Hd & Hw).
      destruct (fail_window_eq h x w Hw) as (i & bins & freed & Ha & E). rewrite E.
      intros E'. injection E' as <-. pose proof (adding_length _ _ _ _ _ _ Ha) as [La Lf].
      pose proof (adding_sum _ _ _ _ _ _ Ha) as Ls. cbn [lost_index].
      split; [exists w; repeat split; auto|cbn; lia|cbn; lia|cbn; lia|].
      unfold counts_sum. cbn [h_total h_bins]. lia.
  Qed.

  Lemma run_grows N W (es : list (hist_event A)) : forall (h : hist A) w (h' : hist A), live h N W w ->
    update_all hist_react h es = Ret h' ->
    (exists w', live h' N W w') /\ h_total h + lost_indices es <= h_total h' /\
    h_total h' <= Nat.max W (h_total h) + lost_indices es /\
    length (h_bins h') <= Nat.max N (length (h_bins h)) + lost_indices es /\
    (h_total h <= counts_sum h -> h_total h' <= counts_sum h').
  Proof.
    unfold lost_indices. induction es as [|e es IH]; intros h w h' L E; cbn [update_all] in E.
    - injection E as <-. split; [eauto|]. simpl. split; [lia|]. split; [lia|]. split; [lia|auto].
    - apply bind_Ret in E as (h1 & E1 & E). destruct (react_grows N W w h e h1 L E1) as [(w1 & L1) G1 G2 G3 G4].
      destruct (IH h1 w1 h' L1 E) as (H0 & H1 & H2 & H3 & H4). cbn [map list_sum].
      change (list_sum (lost_index e :: map lost_index es)) with (lost_index e + list_sum (map lost_index es)).
      split; [auto|]. split; [lia|]. split; [lia|]. split; [lia|auto].
  Qed.

  Lemma hist_bounds N W (es : list (hist_event A)) h :
    update_all hist_react (hist_new N W true) es = Ret h ->
    lost_indices es <= hist_totalCount h <= W + lost_indices es /\
    hist_size h <= N + lost_indices es /\ hist_totalCount h <= counts_sum h.
  Proof.
    intros E. destruct (run_grows N W es _ _ _ (new_live N W) E) as (_ & H1 & H2 & H3 & H4).
    cbn in H1, H2, H3. unfold hist_totalCount, hist_size. rewrite Nat.max_0_r in H2, H3.
    split; [lia|]. split; [lia|]. apply H4. cbn. lia.
  Qed.

  Lemma hist_never_recovers N W (es1 es2 : list (hist_event A)) x h1 h2 h3 :
    update_all hist_react (hist_new N W true) es1 = Ret h1 ->
    hist_react h1 (HistFailWindow x) = Ret h2 ->
    update_all hist_react h2 es2 = Ret h3 ->
    hist_totalCount h2 = hist_totalCount h1 + 1 /\ hist_totalCount h2 <= hist_totalCount h3.
  Proof.
    intros E1 E2 E3. destruct (run_grows N W es1 _ _ _ (new_live N W) E1) as ((w1 & L1) & _).
    destruct (react_grows N W w1 h1 _ h2 L1 E2) as [(w2 & L2) _ _ _ _].
    destruct (run_grows N W es2 _ _ _ L2 E3) as (_ & H & _). unfold hist_totalCount. split; [|lia].
    destruct L1 as (_ & _ & _ & Hw).
    destruct (fail_window_eq h1 x w1 Hw) as (i & bins & freed & _ & E). rewrite E in E2.
    injection E2 as <-. reflexivity.
  Qed.
End HistAny.

(** ** Witnesses *)

(** Two failures of the second mean: exact variance -9. *)
Lemma variance_out_of_step :
  exists s, update_all var_react (variance_new (A := RA) 2)
      [VarOk 0; VarOk 0; VarFailSquare 3; VarFailSquare 3]%R = Ret s /\
    variance_evaluate s = (-9)%R.
Proof.
  eexists. split; [reflexivity|]. unfold variance_evaluate, mean_evaluate, of_nat. cbn. lra.
Qed.

(** A window of one observation: 0/0 after a failure. *)
Lemma X_zero (z : double) : nan z = false -> X z = 0%R -> exists sg, z = B754_zero sg.
Proof.
  pose proof big_pos. destruct z as [sg|sg| |sg m e B]; simpl; intros Hn Hz; [eauto| |discriminate|].
  - destruct sg; lra.
  - apply eq_0_F2R in Hz. destruct sg; discriminate Hz.
Qed.

Lemma mean_failed_nan (x y : double) : finite64 x = true ->
  exists s, update_all mean_react (mean_new (A := B64) 1) [MeanOk x; MeanFail y] = Ret s /\
    mn_window s = Some [] /\ nan (mean_evaluate s) = true.
Proof.
  intros Hx. eexists. split; [reflexivity|]. split; [reflexivity|].
  change (nan (Bquot (Bsub (Badd (Bz 0) x) x) (Bz 0)) = true).
  assert (H0 : Bz 0 = B754_zero false) by reflexivity. rewrite H0.
  assert (Hs : exists sg, Bsub (Badd (B754_zero false) x) x = B754_zero sg).
  { destruct (X_add (B754_zero false) x eq_refl Hx) as [Ha Na].
    assert (Fa : finite64 (Badd (B754_zero false) x) = true /\ B2R (Badd (B754_zero false) x) = B2R x).
    { destruct x as [sg|sg| |sg m e B]; try discriminate Hx; [destruct sg|]; split; reflexivity. }
    destruct Fa as [Fa Ea]. destruct (X_sub _ x Fa Hx) as [Hs Ns].
    apply X_zero; [exact Ns|]. rewrite Hs, Ea, Rminus_diag_eq by reflexivity. apply R64_0. }
  destruct Hs as [sg ->]. destruct sg; reflexivity.
Qed.

Lemma win_run_no_ok {A : arith} W (es : list (mean_event A)) :
  list_sum (map okn es) = 0 -> win_run W es = [].
Proof.
  induction es as [|e es IH] using rev_ind; intros H; [reflexivity|].
  rewrite map_app, list_sum_app in H. rewrite win_run_snoc, IH by lia.
  destruct e as [x|x]; [simpl in H; lia|]. cbn [win_react]. unfold lastn. apply skipn_nil.
Qed.

Lemma mean_failing_exact W (es : list (mean_event RA)) : 1 <= W ->
  exists s, update_all mean_react (mean_new W) es = Ret s /\
    (win_run W es <> [] -> mean_evaluate s = avg (win_run W es)).
Proof.
  intros HW. destruct (mean_events W es HW) as (s & E & _ & Hh). exists s. split; [exact E|].
  intros Hn. destruct (mean_events_value W es s HW E) as [_ V]. apply V; [|exact Hn].
  destruct (Nat.eq_dec (mn_history s) 0) as [H0|H0]; [|lia]. destruct Hn. apply win_run_no_ok. congruence.
Qed.

Lemma mean_failing_window {A : arith} W (es : list (mean_event A)) : 1 <= W ->
  exists s, update_all mean_react (mean_new W) es = Ret s /\
    mn_window s = Some (win_run W es) /\ length (win_run W es) <= W.
Proof. intros HW. destruct (mean_events W es HW) as (s & E & [H1 _ H2] & _). eauto. Qed.

Lemma variance_negative :
  exists (es : list (var_event RA)) s,
    update_all var_react (variance_new 2) es = Ret s /\ (variance_evaluate s < 0)%R.
Proof.
  destruct variance_out_of_step as (s & E & V). eexists; exists s. split; [exact E|].
  assert (H : (-9 < 0)%R) by lra. exact (eq_ind_r (fun v : R => (v < 0)%R) H V).
Qed.
