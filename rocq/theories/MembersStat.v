(** Proofs: histogram and mean with public members assigned to. *)

From Coq Require Import List Reals Lra Lia Bool Arith.
From Verif Require Import Outcome Arith IBin Histogram Mean Spec ListFacts MeanSpec MeanFacts Members.
Import ListNotations.
Local Open Scope nat_scope.

Section Hist.
  Context {A : arith}.

  Lemma decay_total (h h' : hist A) : h_decay h = true -> hist_decayCounts h = Ret h' ->
    h_windowSize h' = h_windowSize h /\ h_decay h' = true /\
    h_total h' = if Nat.ltb (h_windowSize h) (h_total h) then h_total h - 1 else h_total h.
  Proof.
    intros D E. unfold hist_decayCounts in E. rewrite D in E.
    destruct (Nat.ltb (h_windowSize h) (h_total h)); [|injection E as <-; auto].
    destruct (h_window h) as [[|d w]|]; try discriminate E.
    destruct (at_ _ _) as [b| |]; try discriminate E. cbn [bind] in E. injection E as <-. auto.
  Qed.

  Lemma update_total (h h' : hist A) x : h_decay h = true -> hist_update h x = Ret h' ->
    h_windowSize h' = h_windowSize h /\ h_decay h' = true /\
    h_total h' = if Nat.ltb (h_total h) (h_windowSize h) then h_total h + 1 else h_total h.
  Proof.
    intros D E. unfold hist_update in E.
    destruct (hist_add h x) as [h1| |] eqn:E1; try discriminate E. cbn [bind] in E.
    assert (H1 : h_windowSize h1 = h_windowSize h /\ h_decay h1 = true /\
      h_total h1 = if Nat.ltb (h_total h) (h_windowSize h) then h_total h + 1 else h_total h).
    { unfold hist_add in E1. destruct (hist_binSearch_bin _ _) as [i| |]; try discriminate E1. cbn [bind] in E1.
      destruct (if Nat.eqb 0 _ then _ else _) as [[bins f]| |]; try discriminate E1. cbn [bind] in E1.
      destruct (h_window h) as [w|]; try discriminate E1.
      apply decay_total in E1; [|exact D]. cbn [h_windowSize h_decay h_total] in E1. destruct E1 as (E1 & E2 & E3).
      split; [auto|]. split; [auto|]. rewrite E3.
      destruct (Nat.ltb_spec (h_windowSize h) (h_total h + 1)), (Nat.ltb_spec (h_total h) (h_windowSize h)); lia. }
    destruct (Nat.ltb _ _); [|injection E as <-; exact H1].
    destruct (hist_merge _) as [[b m]| |]; try discriminate E. cbn [bind] in E.
    destruct (if h_decay h1 then _ else _) as [w| |]; try discriminate E. cbn [bind] in E. injection E as <-. exact H1.
  Qed.

  Lemma hist_total_after (h : hist A) w xs : forall h', h_decay h = true ->
    update_all hist_update (hist_set_window h w) xs = Ret h' ->
    hist_totalCount h' = Nat.max (hist_totalCount h) (Nat.min (hist_totalCount h + length xs) w).
  Proof.
    intros h' D. unfold hist_totalCount.
    assert (G : forall s, h_decay s = true -> h_windowSize s = w -> update_all hist_update s xs = Ret h' ->
      h_total h' = Nat.max (h_total s) (Nat.min (h_total s + length xs) w)).
    { clear. induction xs as [|x xs IH]; intros s D Ew E; [injection E as <-; cbn; lia|].
      cbn [update_all] in E. destruct (hist_update s x) as [s1| |] eqn:E1; try discriminate E. cbn [bind] in E.
      destruct (update_total s s1 x D E1) as (W1 & D1 & T1). rewrite (IH s1 D1 ltac:(lia) E), T1, Ew. cbn [length].
      destruct (Nat.ltb_spec (h_total s) w); lia. }
    intros E. apply (G (hist_set_window h w)); auto.
  Qed.
End Hist.

Section Mean.
  Local Open Scope R_scope.

  (** The sum is off by a constant. *)
  Lemma edited_run W xs : forall (s : mean RA) (w : list R), mn_wsize s = W -> mn_window s = Some w ->
    (1 <= W + length w)%nat ->
    exists s', update_all (mean_update (A := RA)) s xs = Ret s' /\
      mn_window s' = Some (lastn (Nat.max (length w) (Nat.min (length w + length xs) W)) (w ++ xs)) /\
      mn_sum s' = mn_sum s - rsum w + rsum (lastn (Nat.max (length w) (Nat.min (length w + length xs) W)) (w ++ xs)) /\
      mn_history s' = (mn_history s + length xs)%nat.
  Proof.
    induction xs as [|x xs IH]; intros s w Ew Ewin L.
    - exists s. cbn [update_all length]. split; [reflexivity|]. rewrite app_nil_r, Nat.add_0_r.
      rewrite lastn_all by lia. split; [exact Ewin|]. change (num RA) with R. split; [lra|lia].
    - cbn [update_all]. unfold mean_update at 1. rewrite Ewin, Ew. cbn [length]. change (num RA) with R in * .
      destruct (Nat.ltb_spec W (length w + 1)) as [C|C].
      + destruct w as [|f w0]; [cbn in L, C; lia|]. cbn [bind].
        destruct (IH (Mean (A := RA) (Some (w0 ++ [x])) W (mn_history s + 1) ((mn_sum s -. f) +. x)) (w0 ++ [x]))
          as (s' & E & E1 & E2 & E3); auto.
        { rewrite app_length. cbn. lia. }
        exists s'. split; [exact E|]. rewrite app_length in E1, E2. cbn [length] in E1, E2, C |- * .
        rewrite <- app_assoc in E1, E2. cbn [app] in E1, E2 |- * .
        set (k := Nat.max (S (length w0)) (Nat.min (S (length w0) + S (length xs)) W)).
        assert (K : Nat.max (length w0 + 1) (Nat.min (length w0 + 1 + length xs) W) = k) by (unfold k; lia).
        rewrite K in E1, E2. assert (Kk : k = S (length w0)) by (unfold k; lia).
        assert (Cut : lastn k (f :: w0 ++ x :: xs) = lastn k (w0 ++ x :: xs)).
        { unfold lastn. cbn [length]. rewrite app_length. cbn [length].
          replace (S (length w0 + S (length xs)) - k)%nat with (S (length w0 + S (length xs) - k)) by lia. reflexivity. }
        rewrite Cut. split; [exact E1|]. split; [|cbn in E3; lia].
        rewrite E2. cbn [mn_sum]. rewrite rsum_app. cbn. change (num RA) with R. lra.
      + cbn [bind].
        destruct (IH (Mean (A := RA) (Some (w ++ [x])) W (mn_history s + 1) (mn_sum s +. x)) (w ++ [x]))
          as (s' & E & E1 & E2 & E3); auto.
        { rewrite app_length. cbn. lia. }
        exists s'. split; [exact E|]. rewrite app_length in E1, E2. cbn [length] in E1, E2.
        rewrite <- app_assoc in E1, E2. cbn [app] in E1, E2.
        replace (Nat.max (length w) (Nat.min (length w + S (length xs)) W))
          with (Nat.max (length w + 1) (Nat.min (length w + 1 + length xs) W)) by lia.
        split; [exact E1|]. split; [|cbn in E3; lia].
        rewrite E2. cbn [mn_sum]. rewrite rsum_app. cbn. change (num RA) with R. lra.
  Qed.

  Lemma mean_edited W (xs ys w : list R) s : (1 <= W)%nat -> ys <> [] ->
    update_all (mean_update (A := RA)) (mean_new W) xs = Ret s ->
    exists s', update_all (mean_update (A := RA)) (mean_set_window s (Some w)) ys = Ret s' /\
      let k := Nat.max (length w) (Nat.min (length w + length ys) W) in
      mean_evaluate s' = avg (lastn k (w ++ ys)) + (rsum (lastn W xs) - rsum w) / INR k.
  Proof.
    intros L Ny E. destruct (mean_exact_state W xs) as (s1 & E1 & [Hw Hs Hh] & Hsum).
    assert (s1 = s) by congruence. subst s1.
    destruct (edited_run W ys (mean_set_window s (Some w)) w) as (s' & E' & Ew & Es & Eh); auto; [lia|].
    exists s'. split; [exact E'|]. intros k. fold k in Ew, Es. cbn in Es, Eh.
    unfold mean_evaluate. rewrite Ew, Es, Eh, Hsum.
    replace (Nat.eqb _ 0) with false by (symmetry; apply Nat.eqb_neq; destruct ys; [contradiction|cbn; lia]).
    destruct W as [|W']; [lia|]. cbn [window_of]. set (W := S W') in * .
    assert (Lk : length (lastn k (w ++ ys)) = k).
    { rewrite lastn_length, app_length. unfold k. lia. }
    assert (K0 : (k <> 0)%nat). { unfold k. destruct ys; [contradiction|]. cbn. lia. }
    assert (Av : avg (lastn k (w ++ ys)) = rsum (lastn k (w ++ ys)) / INR k).
    { unfold avg. rewrite Lk. destruct (lastn k (w ++ ys)) eqn:El; [cbn in Lk; lia|reflexivity]. }
    rewrite Av. match goal with |- context [of_nat ?l] => replace l with k by (symmetry; exact Lk) end. unfold of_nat. cbn. rewrite <- INR_IZR_INZ.
    apply not_0_INR in K0. set (a := rsum (lastn k (w ++ ys))). set (b := rsum (lastn W xs)).
    change ((b - rsum w + a) / INR k = a / INR k + (b - rsum w) / INR k). field. exact K0.
  Qed.

  Lemma null_run xs : forall (s : mean RA), mn_window s = None ->
    exists s', update_all (mean_update (A := RA)) s xs = Ret s' /\ mn_window s' = None /\
      mn_sum s' = mn_sum s + rsum xs /\ mn_history s' = (mn_history s + length xs)%nat.
  Proof.
    induction xs as [|x xs IH]; intros s Ew.
    - exists s. cbn. change (num RA) with R. split; [auto|]. split; [auto|]. split; [lra|lia].
    - cbn [update_all]. unfold mean_update at 1. rewrite Ew. cbn [bind].
      destruct (IH (Mean (A := RA) None (mn_wsize s) (mn_history s + 1) (mn_sum s +. x))) as (s' & E & E1 & E2 & E3); auto.
      exists s'. split; [exact E|]. split; [auto|]. cbn in E2, E3. rewrite E2, E3. cbn. change (num RA) with R. split; [lra|lia].
  Qed.

  Lemma mean_nulled W (xs ys : list R) s : (1 <= W)%nat -> xs <> [] ->
    update_all (mean_update (A := RA)) (mean_new W) xs = Ret s ->
    exists s', update_all (mean_update (A := RA)) (mean_set_window s None) ys = Ret s' /\
      mean_evaluate s' = (rsum (lastn W xs) + rsum ys) / INR (length xs + length ys).
  Proof.
    intros L Nx E. destruct (mean_exact_state W xs) as (s1 & E1 & [Hw Hs Hh] & Hsum).
    assert (s1 = s) by congruence. subst s1.
    destruct (null_run ys (mean_set_window s None)) as (s' & E' & Ew & Es & Eh); auto.
    exists s'. split; [exact E'|]. cbn in Es, Eh. unfold mean_evaluate. rewrite Ew, Es, Eh, Hsum, Hh.
    replace (Nat.eqb _ 0) with false by (symmetry; apply Nat.eqb_neq; destruct xs; [contradiction|cbn; lia]).
    destruct W as [|W']; [lia|]. cbn [window_of]. unfold of_nat. cbn. now rewrite <- INR_IZR_INZ.
  Qed.
End Mean.

Section Any.
  Context {A : arith}.

  (** Doubles too: without a window the constructor leaves 0 as the window size. *)
  Lemma mean_given_window (xs : list A) s x : update_all mean_update (mean_new 0) xs = Ret s ->
    mean_update (mean_set_window s (Some [])) x = Undef OutOfBounds.
  Proof.
    intros E. destruct (mean_run (A := A) 0 xs) as (s1 & E1 & [_ Hs _]). rewrite E in E1. injection E1 as <-.
    unfold mean_update. cbn. now rewrite Hs.
  Qed.

  Lemma counter_run (ys : list A) : forall n (s s' : mean A), update_all mean_update s ys = Ret s' ->
    update_all mean_update (mean_set_history s n) ys = Ret (mean_set_history s' (n + length ys)) /\
    mn_history s' = mn_history s + length ys.
  Proof.
    induction ys as [|y ys IH]; intros n s s' E.
    - injection E as <-. cbn. rewrite !Nat.add_0_r. auto.
    - cbn [update_all] in E. destruct (mean_update s y) as [s1| |] eqn:E1; try discriminate E. cbn [bind] in E.
      assert (E2 : mean_update (mean_set_history s n) y = Ret (mean_set_history s1 (n + 1)) /\ mn_history s1 = mn_history s + 1).
      { unfold mean_update in * . cbn [mean_set_history mn_window mn_wsize mn_history mn_sum].
        match type of E1 with (let* _ := ?m in _) = _ => destruct m as [[w sum]| |] end; try discriminate E1.
        cbn [bind] in * . injection E1 as <-. auto. }
      destruct E2 as [E2 E3]. cbn [update_all]. rewrite E2. cbn [bind].
      destruct (IH (n + 1) s1 s' E) as [-> ->]. cbn [length]. split; [do 2 f_equal; lia|lia].
  Qed.

  (** With a window the counter matters only when it is 0. *)
  Lemma mean_counter W (xs ys : list A) s s' n : 1 <= W -> n <> 0 -> update_all mean_update (mean_new W) xs = Ret s ->
    update_all mean_update s ys = Ret s' -> xs ++ ys <> [] ->
    exists s2, update_all mean_update (mean_set_history s n) ys = Ret s2 /\ mean_evaluate s2 = mean_evaluate s'.
  Proof.
    intros L Hn E E' Ne.
    pose proof (counter_run ys) as G.
    destruct (G n s s' E') as [E2 Eh]. exists (mean_set_history s' (n + length ys)). split; [exact E2|].
    destruct (mean_run (A := A) W xs) as (s1 & E1 & [Hw Hs Hh]). rewrite E in E1. injection E1 as <-.
    assert (W2 : exists w, mn_window s' = Some w).
    { pose proof (update_all_app mean_update (mean_new W) xs ys) as Ap. rewrite E in Ap. cbn [bind] in Ap. rewrite E' in Ap.
      destruct (mean_run (A := A) W (xs ++ ys)) as (s3 & E3 & [Hw3 _ _]). rewrite Ap in E3. injection E3 as <-.
      rewrite Hw3. destruct (Nat.ltb_spec 0 W); [eauto|lia]. }
    destruct W2 as [w2 W2]. unfold mean_evaluate. cbn [mean_set_history mn_window mn_history mn_sum].
    rewrite Eh, Hh, W2.
    destruct (Nat.eqb_spec (n + length ys) 0); [lia|].
    destruct (Nat.eqb_spec (length xs + length ys) 0) as [Z|Z]; [|reflexivity].
    destruct xs, ys; cbn in Z; try lia. now destruct Ne.
  Qed.
End Any.
