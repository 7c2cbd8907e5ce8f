(** Proofs: StreamingEntropy after failing allocations. *)

From Coq Require Import List Reals ZArith Bool Arith Lia Lra.
From Flocq Require Import Core.Core IEEE754.BinarySingleNaN.
From Verif Require Import Outcome Arith Utils IBin Histogram Entropy Mean Spec HistSpec ListFacts HistFacts HistOrder HistWitness EntropySpec EntropyFacts EntropyDrift
  FloatSpec FloatFacts P2Witness P2Float NanFacts AllocFail AllocFailSpec AllocFailFacts EntropyFail EntropyFailSpec.
Import ListNotations.
Local Open Scope nat_scope.

Section Generic.
  Context {A : arith} (log2 : A -> A).
  Implicit Types (h : hist A) (s : entropy A).

  Lemma react_ok s x : ent_react log2 s (EntHist (HistOk x)) = entropy_update log2 s x.
  Proof. unfold ent_react, entropy_update. cbn [event_item hist_react throws bind]. reflexivity. Qed.

  Definition renew h (k : nat) : hist A :=
    Hist (h_numBins h) (h_windowSize h) (h_decay h) (h_bins h) (h_window h) (h_total h) (h_history h) (h_news h + k) (h_deletes h).

  Lemma search_renew h k x : hist_binSearch (renew h k) x = hist_binSearch h x.
  Proof. reflexivity. Qed.

  Lemma update_renew h k x : hist_update (renew h k) x = let* h' := hist_update h x in Ret (renew h' k).
  Proof.
    unfold hist_update, hist_add. destruct h as [N W d bins w T hc nw dl]. cbn [renew h_numBins h_windowSize h_decay h_bins h_window h_total h_history h_news h_deletes].
    unfold hist_binSearch_bin. cbn [h_bins]. destruct (bsearch _ _ _ _ _ _) as [i|e|u]; [|reflexivity|reflexivity]. cbn [bind].
    match goal with |- context [let* (_, _) := ?m in _] => destruct m as [[b1 f]|e|u]; [|reflexivity|reflexivity] end. cbn [bind].
    destruct w as [w|]; [|reflexivity]. unfold hist_decayCounts. cbn [h_numBins h_windowSize h_decay h_bins h_window h_total h_history h_news h_deletes].
    assert (G : forall (o : outcome (hist A)) (o' : outcome (hist A)), o' = (let* h' := o in Ret (renew h' k)) ->
      (let* h1 := o' in
       if Nat.ltb (h_numBins h1) (length (h_bins h1)) then
         let* (bins', l_mergedIndex) := hist_merge (h_bins h1) in
         let* window' := (if h_decay h1 then match h_window h1 with None => Undef NullDeref
             | Some w => Ret (Some (map (fun i => if Nat.eqb i (l_mergedIndex + 1) then l_mergedIndex else i) w)) end
           else Ret (h_window h1)) in
         Ret (Hist (h_numBins h1) (h_windowSize h1) (h_decay h1) bins' window' (h_total h1) (h_history h1) (h_news h1) (h_deletes h1))
       else Ret h1) =
      (let* h' := (let* h1 := o in
       if Nat.ltb (h_numBins h1) (length (h_bins h1)) then
         let* (bins', l_mergedIndex) := hist_merge (h_bins h1) in
         let* window' := (if h_decay h1 then match h_window h1 with None => Undef NullDeref
             | Some w => Ret (Some (map (fun i => if Nat.eqb i (l_mergedIndex + 1) then l_mergedIndex else i) w)) end
           else Ret (h_window h1)) in
         Ret (Hist (h_numBins h1) (h_windowSize h1) (h_decay h1) bins' window' (h_total h1) (h_history h1) (h_news h1) (h_deletes h1))
       else Ret h1) in Ret (renew h' k))).
    { intros o o' ->. destruct o as [h1|e|u]; [|reflexivity|reflexivity]. cbn [bind renew h_numBins h_windowSize h_decay h_bins h_window h_total h_history h_news h_deletes].
      destruct (Nat.ltb _ _); [|reflexivity]. destruct (hist_merge _) as [[b m]|e|u]; [|reflexivity|reflexivity]. cbn [bind].
      destruct (h_decay h1); [destruct (h_window h1)|]; reflexivity. }
    apply G. clear G. destruct d.
    - destruct (Nat.ltb W (T + 1)).
      + destruct (w ++ [i]) as [|del w']; [reflexivity|]. destruct (at_ b1 del) as [b|e|u]; [|reflexivity|reflexivity].
        cbn [bind renew h_numBins h_windowSize h_decay h_bins h_window h_total h_history h_news h_deletes]. replace (nw + k + 1) with (nw + 1 + k) by lia; reflexivity.
      + cbn [bind renew h_numBins h_windowSize h_decay h_bins h_window h_total h_history h_news h_deletes]. replace (nw + k + 1) with (nw + 1 + k) by lia; reflexivity.
    - cbn [bind renew h_numBins h_windowSize h_decay h_bins h_window h_total h_history h_news h_deletes]. replace (nw + k + 1) with (nw + 1 + k) by lia; reflexivity.
  Qed.

  Lemma increment_renew h k ent i : entropy_increment log2 (renew h k) ent i = entropy_increment log2 h ent i.
  Proof. reflexivity. Qed.

  (** The state [s] with failures behind it, and [t] without. *)
  Record same (s t : entropy A) : Prop := {
    sa_hist : exists k, e_hist s = renew (e_hist t) k;
    sa_value : e_value s = e_value t;
    sa_wsize : e_wsize s = e_wsize t;
    sa_history : e_history s = e_history t;
    sa_window : exists w v, e_window s = Some w /\ e_window t = Some v /\ length v <= length w
  }.
  Definition room s (k : nat) : Prop := exists w, e_window s = Some w /\ length w + k <= e_wsize s.

  Lemma same_ok s t x s' : same s t -> room s 1 -> entropy_update log2 s x = Ret s' ->
    exists t', entropy_update log2 t x = Ret t' /\ same s' t' /\
      (exists w w', e_window s = Some w /\ e_window s' = Some w' /\ length w' = S (length w)) /\ e_wsize s' = e_wsize s.
  Proof.
    intros [[k Hh] Hv Hs Hc (w & v & Hw & Hv' & L)] (w1 & Hw1 & R) E. rewrite Hw in Hw1. injection Hw1 as <-.
    destruct (search_found (e_hist t) (Bin x x 1)) as (i & Ei & _ & _).
    assert (Eis : hist_binSearch (e_hist s) x = Ret i) by (rewrite Hh; exact Ei).
    rewrite (update_inside log2 s x w i Hw ltac:(lia) Eis) in E. rewrite (update_inside log2 t x v i Hv' ltac:(lia) Ei).
    rewrite Hh, update_renew in E. destruct (hist_update (e_hist t) x) as [h'| |]; [|discriminate E|discriminate E].
    cbn [bind] in E |- * . rewrite increment_renew, Hv in E.
    destruct (entropy_increment log2 h' (e_value t) i) as [ent| |]; [|discriminate E|discriminate E]. cbn [bind] in E |- * .
    injection E as <-. eexists. split; [reflexivity|]. split; [split; cbn; [eauto|auto|auto|auto|]|].
    - do 2 eexists. split; [reflexivity|]. split; [reflexivity|]. rewrite !app_length. cbn. lia.
    - cbn. split; [|reflexivity]. do 2 eexists. split; [exact Hw|]. split; [reflexivity|]. rewrite app_length. cbn. lia.
  Qed.

  (** A failing call of the histogram with room in the window. *)
  Lemma react_inside s e w i : e_window s = Some w -> length w < e_wsize s -> hist_binSearch (e_hist s) (event_item e) = Ret i ->
    ent_react log2 s (EntHist e) =
    let* h' := hist_react (e_hist s) e in
    let* t := throws (e_hist s) e in
    if t then Ret (Entropy (Some (w ++ [i])) (e_wsize s) (e_history s) h' (e_value s))
    else let* ent2 := entropy_increment log2 h' (e_value s) i in
         Ret (Entropy (Some (w ++ [i])) (e_wsize s) (S (e_history s)) h' ent2).
  Proof.
    intros Hw L Hi. unfold ent_react. rewrite Hi, Hw. cbn [bind].
    destruct (Nat.ltb_spec (e_wsize s) (length (w ++ [i]))) as [H|H]; [rewrite app_length in H; simpl in H; lia|]. reflexivity.
  Qed.

  (** Growing m_bins fails, or does not take place. *)
  Lemma bins_cases h x : (needs_bin h x = Ret true /\ hist_react h (HistFailBins x) = Ret (renew h 1)) \/
    (needs_bin h x = Ret false /\ hist_react h (HistFailBins x) = hist_update h x).
  Proof.
    unfold needs_bin. cbn [hist_react]. unfold hist_binSearch. destruct (search_found h (Bin x x 1)) as (i & -> & Li & _). cbn [bind].
    destruct (Nat.eqb 0 (h_total h)); [left; split; reflexivity|].
    destruct (Nat.eqb_spec i (length (h_bins h))); [left; split; reflexivity|].
    destruct (nth_error (h_bins h) i) as [b|] eqn:Eb; [|apply nth_error_None in Eb; lia].
    unfold at_. rewrite Eb. cbn [bind]. destruct (leb (b_left b) x); [right|left]; split; reflexivity.
  Qed.

  Lemma renew_renew h a b : renew (renew h a) b = renew h (a + b).
  Proof. unfold renew. cbn. f_equal. lia. Qed.
  Lemma renew_0 h : renew h 0 = h.
  Proof. destruct h. unfold renew. cbn. now rewrite Nat.add_0_r. Qed.

  Lemma same_run es : forall s t s', same s t -> room s (pushes es) -> indices_recorded es ->
    update_all (ent_react log2) s es = Ret s' ->
    exists xs t', kept es xs /\ update_all (entropy_update log2) t xs = Ret t' /\ same s' t'.
  Proof.
    induction es as [|e es IH]; intros s t s' Sm Rm Ir E.
    { injection E as <-. exists [], t. split; [constructor|]. split; [reflexivity|exact Sm]. }
    inversion Ir as [|? ? Ie Ies]; subst. cbn [update_all] in E. apply bind_Ret in E as (s1 & E1 & E).
    destruct e as [x|e].
    { unfold ent_react in E1. apply bind_Ret in E1 as (j & _ & E1). destruct (e_window s) eqn:Hw; [|discriminate E1]. injection E1 as <-.
      destruct (IH s t s' Sm Rm Ies E) as (xs & t' & K & Et & Sm'). exists xs, t'. split; [now constructor|]. auto. }
    change (pushes (EntHist e :: es)) with (S (pushes es)) in Rm.
    assert (Step : forall s2, room s (S (pushes es)) ->
      (exists w w', e_window s = Some w /\ e_window s2 = Some w' /\ length w' = S (length w)) -> e_wsize s2 = e_wsize s -> room s2 (pushes es)).
    { intros s2 (w & Hw & R) (w0 & w' & Hw0 & Hw' & L) Hs. rewrite Hw in Hw0. injection Hw0 as <-. exists w'. split; [exact Hw'|]. lia. }
    assert (OK : forall x, entropy_update log2 s x = Ret s1 -> exists xs t', kept es xs /\ update_all (entropy_update log2) t (x :: xs) = Ret t' /\ same s' t').
    { intros x Eu. destruct (same_ok s t x s1 Sm) as (t1 & Et & Sm1 & Hw & Hs); [destruct Rm as (w & Hw & R); exists w; split; [auto|lia]|exact Eu|].
      destruct (IH s1 t1 s' Sm1 (Step s1 Rm Hw Hs) Ies E) as (xs & t' & K & Et' & Sm'). exists xs, t'. split; [exact K|].
      split; [cbn [update_all]; rewrite Et; exact Et'|exact Sm']. }
    assert (LOST : forall x k, (exists i w, e_window s = Some w /\ s1 = Entropy (Some (w ++ [i])) (e_wsize s) (e_history s) (renew (e_hist s) k) (e_value s)) ->
      kept (A := A) [EntHist e] [] -> event_item e = x -> exists xs t', kept es xs /\ update_all (entropy_update log2) t xs = Ret t' /\ same s' t').
    { intros x k (i & w & Hw & ->) _ _. refine (IH _ t s' _ _ Ies E).
      - destruct Sm as [[k0 Hh] Hv Hs Hc (w0 & v & Hw0 & Hv' & L)]. rewrite Hw in Hw0. injection Hw0 as <-. split; cbn; auto.
        + exists (k0 + k). now rewrite Hh, renew_renew.
        + do 2 eexists. split; [reflexivity|]. split; [exact Hv'|]. rewrite app_length. cbn. lia.
      - destruct Rm as (w0 & Hw0 & R). rewrite Hw in Hw0. injection Hw0 as <-. eexists. cbn. split; [reflexivity|]. rewrite app_length. cbn. lia. }
    destruct Rm as (w & Hw & R). assert (Rm : room s (S (pushes es))) by (exists w; auto).
    destruct (search_found (e_hist s) (Bin (event_item e) (event_item e) 1)) as (i & Ei & _ & _).
    rewrite (react_inside s e w i Hw ltac:(lia) Ei) in E1.
    destruct e as [x|x|x|x]; cbn [event_item] in * .
    - assert (Eu : entropy_update log2 s x = Ret s1).
      { rewrite <- react_ok. rewrite (react_inside s (HistOk x) w i Hw ltac:(lia) Ei). exact E1. }
      destruct (OK x Eu) as (xs & t' & K & Et & Sm'). exists (x :: xs), t'. split; [now constructor|auto].
    - cbn [hist_react throws bind] in E1. injection E1 as <-.
      destruct (LOST x 0) as (xs & t' & K & Et & Sm'); [exists i, w; rewrite renew_0; auto|repeat constructor|reflexivity|].
      exists xs, t'. split; [now constructor|auto].
    - cbn [throws] in E1. destruct (bins_cases (e_hist s) x) as [[Hn Hr]|[Hn Hr]]; rewrite Hn, Hr in E1; cbn [bind] in E1.
      + injection E1 as <-. destruct (LOST x 1) as (xs & t' & K & Et & Sm'); [exists i, w; auto|repeat constructor|reflexivity|].
        exists xs, t'. split; [now constructor|auto].
      + destruct (OK x) as (xs & t' & K & Et & Sm').
        { rewrite (update_inside log2 s x w i Hw ltac:(lia) Ei). destruct (hist_update (e_hist s) x) as [h'| |]; exact E1. }
        exists (x :: xs), t'. split; [now apply KHit|auto].
    - destruct Ie.
  Qed.

  Lemma same_new W N e0 : 1 <= W -> entropy_new (A := A) W N = Ret e0 -> same e0 e0 /\ e_window e0 = Some [] /\ e_wsize e0 = W.
  Proof.
    intros HW E. unfold entropy_new in E. apply bind_Ret in E as (B & _ & E). injection E as <-.
    assert (Wn : new_window (X := nat) W = Some []) by (unfold new_window; destruct (Nat.ltb_spec 0 W); [reflexivity|lia]).
    cbn [e_window e_wsize]. rewrite Wn. split; [|auto]. split; cbn; auto.
    - exists 0. now rewrite renew_0.
    - exists [], []. auto.
  Qed.

  Lemma failures_inside W N e0 es s : 1 <= W -> entropy_new (A := A) W N = Ret e0 -> pushes es <= W -> indices_recorded es ->
    update_all (ent_react log2) e0 es = Ret s ->
    exists xs t, kept es xs /\ update_all (entropy_update log2) e0 xs = Ret t /\
      entropy_evaluate s = entropy_evaluate t /\ h_bins (e_hist s) = h_bins (e_hist t) /\ h_total (e_hist s) = h_total (e_hist t) /\
      e_history s = e_history t.
  Proof.
    intros HW E0 P I E. destruct (same_new W N e0 HW E0) as (Sm & Hw & Hs).
    destruct (same_run es e0 e0 s Sm) as (xs & t & K & Et & [[k Hh] Hv _ Hc _]); auto; [exists []; rewrite Hw, Hs; cbn; auto|].
    exists xs, t. rewrite Hh. auto 10.
  Qed.

  (** Only push_back on the own window fails: nothing happened. *)
  Lemma push_failures e0 es : (exists w, e_window e0 = Some w) ->
    Forall (fun e => match e with EntFailPush _ | EntHist (HistOk _) => True | _ => False end) es ->
    update_all (ent_react log2) e0 es =
    update_all (entropy_update log2) e0 (flat_map (fun e => match e with EntHist e => [event_item e] | EntFailPush _ => [] end) es).
  Proof.
    intros Hw F. revert e0 Hw. induction F as [|e es He F IH]; intros e0 (w & Hw); [reflexivity|].
    destruct e as [x|[x|x|x|x]]; try destruct He.
    - cbn [update_all flat_map app]. unfold ent_react at 1. unfold hist_binSearch.
      destruct (search_found (e_hist e0) (Bin x x 1)) as (i & -> & _). cbn [bind]. rewrite Hw. cbn [bind]. apply IH. eauto.
    - cbn [update_all flat_map app event_item]. rewrite react_ok.
      destruct (entropy_update log2 e0 x) as [e1|u|u] eqn:E; [|reflexivity|reflexivity]. cbn [bind]. apply IH.
      unfold entropy_update in E. apply bind_Ret in E as (i & _ & E). rewrite Hw in E. apply bind_Ret in E as ((w2, ent1) & _ & E).
      apply bind_Ret in E as (h' & _ & E). apply bind_Ret in E as (ent2 & _ & E). injection E as <-. cbn. eauto.
  Qed.

  (** The histogram only sees its own events. *)
  Lemma hist_events es : forall s s', update_all (ent_react log2) s es = Ret s' ->
    update_all hist_react (e_hist s) (hist_part es) = Ret (e_hist s').
  Proof.
    induction es as [|e es IH]; intros s s' E; [injection E as <-; reflexivity|].
    cbn [update_all] in E. apply bind_Ret in E as (s1 & E1 & E). destruct e as [x|e].
    - cbn [hist_part flat_map app]. unfold ent_react in E1. apply bind_Ret in E1 as (j & _ & E1).
      destruct (e_window s); [|discriminate E1]. injection E1 as <-. now apply IH.
    - change (hist_part (EntHist e :: es)) with (e :: hist_part es). cbn [update_all].
      unfold ent_react in E1. apply bind_Ret in E1 as (j & _ & E1). destruct (e_window s) as [w|]; [|discriminate E1].
      apply bind_Ret in E1 as ((w2, ent1) & _ & E1). apply bind_Ret in E1 as (h' & Eh & E1). rewrite Eh. cbn [bind].
      apply bind_Ret in E1 as ([] & _ & E1).
      + injection E1 as <-. exact (IH _ _ E).
      + apply bind_Ret in E1 as (ent2 & _ & E1). injection E1 as <-. exact (IH _ _ E).
  Qed.
End Generic.

(** ** Forward *)

Section Forward.
  Context {A : arith} (log2 : A -> A).

  Lemma kept_exists (es : list (ent_event A)) : indices_recorded es -> exists xs, kept es xs.
  Proof.
    induction es as [|e es IH]; intros I; [exists []; constructor|]. inversion I as [|? ? Ie Ies]; subst.
    destruct (IH Ies) as (xs & K). destruct e as [x|[x|x|x|x]]; [exists xs|exists (x :: xs)|exists xs|exists xs|destruct Ie]; now constructor.
  Qed.

  Lemma kept_length (es : list (ent_event A)) xs : kept es xs -> length xs <= pushes es.
  Proof. unfold pushes. intros K. induction K; cbn [filter length] in *; lia. Qed.

  Lemma kept_incl (es : list (ent_event A)) xs : kept es xs -> incl xs (items es).
  Proof.
    intros K. induction K; cbn [items map event_item]; try (apply incl_tl; assumption); [apply incl_nil_l| |].
    - apply incl_cons; [now left|now apply incl_tl].
    - apply incl_cons; [now left|now apply incl_tl].
  Qed.

  Lemma same_ok_fwd (s t : entropy A) x t' : same s t -> room s 1 -> entropy_update log2 t x = Ret t' ->
    exists s', entropy_update log2 s x = Ret s'.
  Proof.
    intros [[k Hh] Hv Hs Hc (w & v & Hw & Hv' & L)] (w1 & Hw1 & R) E. rewrite Hw in Hw1. injection Hw1 as <-.
    destruct (search_found (e_hist t) (Bin x x 1)) as (i & Ei & _ & _).
    assert (Eis : hist_binSearch (e_hist s) x = Ret i) by (rewrite Hh; exact Ei).
    rewrite (update_inside log2 s x w i Hw ltac:(lia) Eis). rewrite (update_inside log2 t x v i Hv' ltac:(lia) Ei) in E.
    rewrite Hh, update_renew. destruct (hist_update (e_hist t) x) as [h'| |]; [|discriminate E|discriminate E].
    cbn [bind] in E |- * . rewrite increment_renew, Hv.
    destruct (entropy_increment log2 h' (e_value t) i) as [ent| |]; [|discriminate E|discriminate E]. cbn [bind]. eauto.
  Qed.

  Lemma fwd_run (es : list (ent_event A)) : forall s t, same s t -> room s (pushes es) -> indices_recorded es ->
    (forall xs, kept es xs -> exists t', update_all (entropy_update log2) t xs = Ret t') ->
    exists s', update_all (ent_react log2) s es = Ret s'.
  Proof.
    induction es as [|e es IH]; intros s t Sm Rm Ir H; [exists s; reflexivity|].
    inversion Ir as [|? ? Ie Ies]; subst. cbn [update_all]. destruct (kept_exists es Ies) as (xs0 & K0).
    destruct e as [x|e].
    { unfold ent_react at 1. unfold hist_binSearch. destruct (search_found (e_hist s) (Bin x x 1)) as (i & -> & _). cbn [bind].
      destruct Rm as (w & Hw & R). rewrite Hw. cbn [bind]. apply (IH s t Sm); [exists w; auto|exact Ies|].
      intros xs K. apply H. now constructor. }
    change (pushes (EntHist e :: es)) with (S (pushes es)) in Rm.
    assert (OK : forall x, (forall xs, kept es xs -> kept (EntHist e :: es) (x :: xs)) -> event_item e = x ->
      (forall s', entropy_update log2 s x = Ret s' -> ent_react log2 s (EntHist e) = Ret s') ->
      exists s', (let* s1 := ent_react log2 s (EntHist e) in update_all (ent_react log2) s1 es) = Ret s').
    { intros x HK _ HE. destruct (H _ (HK _ K0)) as (t' & Et). cbn [update_all] in Et. apply bind_Ret in Et as (t1 & Et1 & Et).
      assert (R1 : room s 1) by (destruct Rm as (w & Hw & R); exists w; split; [auto|lia]).
      destruct (same_ok_fwd s t x t1 Sm R1 Et1) as (s1 & Es1). rewrite (HE _ Es1). cbn [bind].
      destruct (same_ok log2 s t x s1 Sm R1 Es1) as (t1' & Et1' & Sm1 & (w & w' & Hw & Hw' & L) & Hs).
      rewrite Et1 in Et1'. injection Et1' as <-. apply (IH s1 t1 Sm1); [|exact Ies|].
      - destruct Rm as (w0 & Hw0 & R). rewrite Hw in Hw0. injection Hw0 as <-. exists w'. split; [exact Hw'|]. lia.
      - intros xs K. destruct (H _ (HK _ K)) as (t2 & Et2). cbn [update_all] in Et2. rewrite Et1 in Et2. eauto. }
    assert (LOST : forall k, (exists i w, e_window s = Some w /\ ent_react log2 s (EntHist e) =
        Ret (Entropy (Some (w ++ [i])) (e_wsize s) (e_history s) (renew (e_hist s) k) (e_value s))) ->
      (forall xs, kept es xs -> kept (EntHist e :: es) xs) ->
      exists s', (let* s1 := ent_react log2 s (EntHist e) in update_all (ent_react log2) s1 es) = Ret s').
    { intros k (i & w & Hw & ->) HK. cbn [bind]. apply (IH _ t); [| |exact Ies|intros xs K; exact (H _ (HK _ K))].
      - destruct Sm as [[k0 Hh] Hv Hs Hc (w0 & v & Hw0 & Hv' & L)]. rewrite Hw in Hw0. injection Hw0 as <-. split; cbn; auto.
        + exists (k0 + k). now rewrite Hh, renew_renew.
        + do 2 eexists. split; [reflexivity|]. split; [exact Hv'|]. rewrite app_length. cbn. lia.
      - destruct Rm as (w0 & Hw0 & R). rewrite Hw in Hw0. injection Hw0 as <-. eexists. cbn. split; [reflexivity|]. rewrite app_length. cbn. lia. }
    pose proof Rm as (w & Hw & R).
    destruct (search_found (e_hist s) (Bin (event_item e) (event_item e) 1)) as (i & Ei & _ & _).
    pose proof (react_inside log2 s e w i Hw ltac:(lia) Ei) as RI.
    destruct e as [x|x|x|x]; cbn [event_item] in * .
    - apply (OK x); [intros; now constructor|reflexivity|]. intros s' E. now rewrite react_ok.
    - apply (LOST 0); [|intros; now constructor]. exists i, w. split; [exact Hw|]. rewrite RI, renew_0. reflexivity.
    - cbn [throws] in RI. destruct (bins_cases (e_hist s) x) as [[Hn Hr]|[Hn Hr]]; rewrite Hn, Hr in RI; cbn [bind] in RI.
      + apply (LOST 1); [|intros; now constructor]. exists i, w. auto.
      + apply (OK x); [intros; now apply KHit|reflexivity|]. intros s' E. rewrite RI.
        rewrite (update_inside log2 s x w i Hw ltac:(lia) Ei) in E. destruct (hist_update (e_hist s) x) as [h'| |]; exact E.
    - destruct Ie.
  Qed.
End Forward.

(** ** Exact arithmetic *)

Lemma failures_shannon (W N B : nat) (es : list (ent_event RA)) :
  1 <= N /\ B = N \/ N = 0 /\ 1 <= W /\ B = Nat.log2_up W + 1 -> 1 <= W ->
  pushes es <= W -> indices_recorded es -> separated (A := RA) (items es) -> few (A := RA) B (items es) ->
  exists e0 s xs, entropy_new (A := RA) W N = Ret e0 /\ update_all (ent_react log2R) e0 es = Ret s /\ kept es xs /\
    forall vs, NoDup vs -> (forall v, In v vs <-> In v xs) -> entropy_evaluate s = shannon xs vs.
Proof.
  intros HB HW P I Sep Few.
  assert (Sub : forall xs, kept es xs -> length xs <= W /\ separated (A := RA) xs /\ few (A := RA) B xs).
  { intros xs K. pose proof (kept_incl _ _ K) as Hi. pose proof (kept_length _ _ K). split; [lia|]. split.
    - intros x y Hx Hy. apply Sep; now apply Hi.
    - intros vs Hs Hv. apply (Few vs Hs). eapply incl_tran; eauto. }
  assert (Run : forall xs, kept es xs -> exists e0 e, entropy_new (A := RA) W N = Ret e0 /\
      update_all (entropy_update log2R) e0 xs = Ret e /\
      forall vs, NoDup vs -> (forall v, In v vs <-> In v xs) -> entropy_evaluate e = shannon xs vs).
  { intros xs K. destruct (Sub xs K) as (L & Sx & Fx). destruct (entropy_exact W N B xs HB L Sx Fx) as (e0 & e & E0 & E & V).
    exists e0, e. split; [exact E0|]. split; [exact E|]. intros vs H1 H2. now destruct (V vs H1 H2). }
  destruct (kept_exists es I) as (xs0 & K0). destruct (Run xs0 K0) as (e0 & _ & E0 & _).
  destruct (same_new W N e0 HW E0) as (Sm & Hw & Hs).
  assert (Rm : room e0 (pushes es)) by (exists []; rewrite Hw, Hs; cbn; auto).
  destruct (fwd_run log2R es e0 e0 Sm Rm I) as (s & Es).
  { intros xs K. destruct (Run xs K) as (e1 & e & E1 & E & _). rewrite E0 in E1. injection E1 as <-. eauto. }
  destruct (failures_inside log2R W N e0 es s HW E0 P I Es) as (xs & t & K & Et & V & _).
  destruct (Run xs K) as (e1 & e & E1 & E & V1). rewrite E0 in E1. injection E1 as <-. rewrite Et in E. injection E as <-.
  exists e0, s, xs. split; [exact E0|]. split; [exact Es|]. split; [exact K|]. intros vs H1 H2. rewrite V. now apply V1.
Qed.

(** An index the histogram could not record: the observation is counted, its share
    of the entropy is not. *)
Section Lost.
  Context {A : arith} (log2 : A -> A) {D : A -> Prop} (O : ordered A D).

  Definition counted (N W : nat) (xs : list A) (e : entropy A) : Prop :=
    exists vs hw w, exact_bins xs vs (h_bins (e_hist e)) /\ live (e_hist e) N W hw /\
      h_total (e_hist e) = length xs /\ e_wsize e = W /\ e_window e = Some w /\ length w = length xs.

  Lemma counted_ok N W xs e x : counted N W xs e -> length xs < W -> Forall D (xs ++ [x]) ->
    separated (xs ++ [x]) -> few N (xs ++ [x]) ->
    exists e0, counted N W (xs ++ [x]) e0 /\
      ent_react log2 e (EntHist (HistOk x)) =
      let* ent := ent_value log2 (S (length xs)) (S (occurrences x xs)) (e_value e) in
      Ret (Entropy (e_window e0) (e_wsize e0) (e_history e0) (e_hist e0) ent).
  Proof.
    intros (vs & hw & w & X & L & T & Ws & Hw & Lw) Lx FD Sep Few.
    destruct (separated_update O N W (e_hist e) xs vs x hw L T Lx FD Sep Few X)
      as (h' & vs' & i & v & Eu & X' & Es & En & _ & (w' & L') & T').
    exists (Entropy (Some (w ++ [i])) W (S (e_history e)) h' (e_value e)). split.
    - exists vs', w', (w ++ [i]). cbn. repeat (split; [first [assumption|reflexivity]|]). now rewrite !app_length, Lw.
    - rewrite react_ok. rewrite (update_inside log2 e x w i) by (auto; lia). rewrite Eu. cbn [bind].
      rewrite (increment_at log2 h' (e_value e) i _ En). cbn [b_count].
      rewrite T', app_length, Nat.add_1_r. cbn [length Nat.add]. rewrite Nat.add_1_r. cbn. rewrite Ws. reflexivity.
  Qed.

  (** Room for one more bin changes nothing. *)
  Definition widen (h : hist A) : hist A :=
    Hist (S (h_numBins h)) (h_windowSize h) (h_decay h) (h_bins h) (h_window h) (h_total h) (h_history h) (h_news h) (h_deletes h).

  Lemma widen_bins h x w h1 h' : h_window h = Some w -> h_decay h = true -> h_total h < h_windowSize h ->
    length (h_bins h) <= h_numBins h ->
    hist_react h (HistFailWindow x) = Ret h1 -> hist_update (widen h) x = Ret h' ->
    h_bins h1 = h_bins h' /\ h_total h1 = h_total h' /\ live h1 (h_numBins h) (h_windowSize h) w.
  Proof.
    intros Hw Hd T L E1 E2.
    destruct (fail_window_eq h x w Hw) as (i0 & b0 & f0 & Ha0 & Er0). rewrite E1 in Er0. injection Er0 as Er0.
    apply adding_length in Ha0 as [La _].
    cbn [hist_react] in E1. apply bind_Ret in E1 as (i & Ei & E1). apply bind_Ret in E1 as ((bins & f) & Eb & E1).
    injection E1 as E1. assert (bins = b0) by (rewrite Er0 in E1; congruence). subst b0 h1. clear Er0.
    unfold hist_update, hist_add in E2. change (hist_binSearch_bin (widen h)) with (hist_binSearch_bin h) in E2.
    unfold hist_binSearch in Ei. rewrite Ei in E2. cbn [bind] in E2.
    change (h_total (widen h)) with (h_total h) in E2. change (h_bins (widen h)) with (h_bins h) in E2.
    change (h_window (widen h)) with (h_window h) in E2. rewrite Eb in E2. cbn [bind] in E2. rewrite Hw in E2. cbn [bind] in E2.
    match type of E2 with context [hist_decayCounts ?h0] => destruct (decay_eq h0 (w ++ [i]) Hd eq_refl) as [Dc _] end.
    rewrite Dc in E2 by (cbn; lia). cbn [bind h_numBins h_bins widen] in E2.
    destruct (Nat.ltb_spec (S (h_numBins h)) (length bins)) as [K|K]; [exfalso; lia|]. injection E2 as <-.
    cbn. split; [reflexivity|]. split; [reflexivity|]. repeat split; auto.
  Qed.

  Lemma counted_lost N W xs e x : counted N W xs e -> length xs < W -> Forall D (xs ++ [x]) ->
    separated (xs ++ [x]) -> few N (xs ++ [x]) ->
    exists e1, ent_react log2 e (EntHist (HistFailWindow x)) = Ret e1 /\ counted N W (xs ++ [x]) e1 /\ e_value e1 = e_value e.
  Proof.
    intros (vs & hw & w & X & L & T & Ws & Hw & Lw) Lx FD Sep Few. pose proof L as (HN & HW & Hd & Hwh).
    assert (Lb : length (h_bins (e_hist e)) <= N).
    { destruct X as (Sv & Iv & _ & ->). rewrite map_length. apply Few; [exact Sv|]. now apply incl_appl. }
    assert (Lwd : live (widen (e_hist e)) (S N) W hw) by (cbn; repeat split; cbn; auto).
    assert (Few' : few (S N) (xs ++ [x])) by (intros us Su Iu; specialize (Few us Su Iu); lia).
    destruct (separated_update O (S N) W (widen (e_hist e)) xs vs x hw Lwd T Lx FD Sep Few' X)
      as (h' & vs' & i & v & Eu & X' & Es & En & _ & _ & T').
    change (hist_binSearch (widen (e_hist e)) x) with (hist_binSearch (e_hist e) x) in Es.
    destruct (fail_window_eq (e_hist e) x hw Hwh) as (i0 & b0 & f0 & _ & Er). set (h1 := Hist _ _ _ b0 _ _ _ _ _) in Er.
    destruct (widen_bins (e_hist e) x hw h1 h' Hwh Hd ltac:(lia) ltac:(lia) Er Eu) as (B1 & B2 & B3).
    rewrite (react_inside log2 e (HistFailWindow x) w i Hw ltac:(lia) Es). rewrite Er. cbn [bind throws].
    eexists. split; [reflexivity|]. split; [|reflexivity]. exists vs', hw, (w ++ [i]). cbn [e_hist e_wsize e_window].
    rewrite B1, B2. split; [exact X'|]. split; [rewrite <- HN, <- HW; exact B3|]. split; [exact T'|]. split; [exact Ws|]. split; [reflexivity|].
    now rewrite !app_length, Lw.
  Qed.
End Lost.

Lemma entropy_of_eq xs : entropy_of xs = shannon xs (distinct xs).
Proof. reflexivity. Qed.

Lemma entropy_of_one x : entropy_of [x] = 0%R.
Proof.
  unfold entropy_of, shannon, share. cbn -[INR Req_EM_T]. destruct (Req_EM_T x x); [|congruence].
  cbn. unfold Rdiv. rewrite Rinv_1, !Rmult_1_r, log2R_1. ring.
Qed.

Lemma scaled (m n H v l r : R) : (0 < m)%R -> n = (m + 1)%R ->
  ((n - 1) / n * (v - l) + r = (n - 1) / n * (H - l) + r - m / n * (H - v))%R.
Proof. intros P ->. field. lra. Qed.

Lemma sub_sub (u v : R) : (u - (u - v) = v)%R.
Proof. ring. Qed.
Lemma shift (u v w : R) : (u - v = w - v + (u - w))%R.
Proof. ring. Qed.

Lemma lost_run N W es : only_indices_lost es -> forall ps e, counted (A := RA) N W ps e -> length ps + length es <= W ->
  separated (A := RA) (ps ++ items es) -> few (A := RA) N (ps ++ items es) -> (ps = [] -> e_value e = 0%R) ->
  exists s, update_all (ent_react log2R) e es = Ret s /\
    e_value s = (entropy_of (ps ++ items es) - missed ps (entropy_of ps - e_value e) es)%R.
Proof.
  induction 1 as [|ev es K F IH]; intros ps e C L Sep Few Z.
  { exists e. split; [reflexivity|]. cbn [items map missed]. rewrite app_nil_r. symmetry. apply sub_sub. }
  destruct ev as [z|ev]; [destruct K|].
  assert (App : forall x, ps ++ x :: items es = (ps ++ [x]) ++ items es) by (intros; now rewrite <- app_assoc).
  cbn [length] in L. assert (Lp : length ps < W) by lia.
  destruct ev as [x|x|x|x]; try destruct K; change (items (EntHist _ :: es)) with (x :: items es) in *; rewrite App in *;
    pose proof (separated_prefix _ _ Sep) as Sx; pose proof (few_prefix _ _ _ Few) as Fx;
    assert (FD : Forall (fun _ : R => True) (ps ++ [x])) by (apply Forall_forall; intros; exact I).
  - destruct (counted_ok log2R ordered_RA N W ps e x C Lp FD Sx Fx) as (e0 & C0 & E).
    cbn [update_all]. rewrite E, ent_value_RA by lia. cbn [bind].
    match goal with |- context [update_all _ ?s1 es] => destruct (IH (ps ++ [x]) s1) as (s & Es & V) end.
    + destruct C0 as (vs & hw & w & C0). exists vs, hw, w. exact C0.
    + rewrite app_length. cbn [length]. lia.
    + exact Sep.
    + exact Few.
    + intros H. destruct ps; discriminate H.
    + exists s. split; [exact Es|]. cbn [missed]. cbn [event_item]. rewrite V. cbn [e_value]. rewrite occurrences_RA. f_equal. f_equal.
      destruct ps as [|p ps].
      * cbn [length app]. rewrite entropy_of_one. cbn [Nat.eqb]. unfold cnt. cbn [count_occ]. cbn [INR].
        unfold Rdiv. rewrite Rinv_1, !Rmult_1_r, log2R_1. ring.
      * set (qs := p :: ps) in * . assert (Lq : 1 <= length qs) by (cbn; lia).
        rewrite !entropy_of_eq, shannon_snoc by exact Lq. cbv zeta.
        destruct (Nat.eqb_spec (S (length qs)) 1) as [K1|K1]; [lia|].
        assert (Pq : (0 < INR (length qs))%R) by (apply lt_0_INR; lia).
        match goal with |- (_ - (_ / _ * (e_value e - ?l) + ?r))%R = _ =>
          rewrite (scaled (INR (length qs)) (INR (S (length qs))) (shannon qs (distinct qs)) (e_value e) l r Pq (S_INR _)) end.
        apply sub_sub.
  - destruct (counted_lost log2R ordered_RA N W ps e x C Lp FD Sx Fx) as (e1 & E & C1 & V1).
    cbn [update_all]. rewrite E. cbn [bind]. destruct (IH (ps ++ [x]) e1 C1) as (s & Es & V); auto.
    + rewrite app_length. cbn [length]. lia.
    + intros H. destruct ps; discriminate H.
    + exists s. split; [exact Es|]. rewrite V, V1. cbn [missed]. f_equal. f_equal. apply shift.
Qed.

Lemma lost_indices (W N B : nat) (es : list (ent_event RA)) :
  1 <= N /\ B = N \/ N = 0 /\ 1 <= W /\ B = Nat.log2_up W + 1 -> 1 <= W ->
  only_indices_lost es -> length es <= W -> separated (A := RA) (items es) -> few (A := RA) B (items es) ->
  exists e0 s, entropy_new (A := RA) W N = Ret e0 /\ update_all (ent_react log2R) e0 es = Ret s /\
    entropy_evaluate s = (entropy_of (items es) - missed [] 0 es)%R.
Proof.
  intros HB HW K L Sep Few.
  assert (E0 : entropy_new (A := RA) W N = Ret (Entropy (new_window W) W 0 (hist_new (A := RA) B W true) 0%R)).
  { unfold entropy_new, entropy_bins. destruct HB as [[H ->]|(-> & _ & ->)].
    - destruct (Nat.eqb_spec N 0); [lia|]. reflexivity.
    - cbn [Nat.eqb]. destruct (Nat.eqb_spec W 0); [lia|]. reflexivity. }
  destruct (exact_new (A := RA) B W 0%R HW) as (vs & hw & w & X1 & X2 & X3 & X4 & X5 & X6 & _).
  destruct (lost_run B W es K [] _ (ex_intro _ vs (ex_intro _ hw (ex_intro _ w (conj X1 (conj X2 (conj X3 (conj X4 (conj X5 X6)))))))))
    as (s & Es & V); auto.
  do 2 eexists. split; [exact E0|]. split; [exact Es|]. cbn [app e_value] in V.
  unfold entropy_evaluate. rewrite V. f_equal. f_equal. unfold entropy_of, shannon. cbn. ring.
Qed.

Lemma missed_ok zs : forall ps d, 1 <= length ps ->
  missed ps d (map (fun z => EntHist (HistOk (A := RA) z)) zs) = (INR (length ps) / INR (length ps + length zs) * d)%R.
Proof.
  induction zs as [|z zs IH]; intros ps d L; cbn [map missed length].
  - rewrite Nat.add_0_r. assert (0 < INR (length ps))%R by (apply lt_0_INR; lia). field. lra.
  - cbn [event_item]. rewrite IH by (rewrite app_length; lia). rewrite app_length. cbn [length].
    replace (length ps + 1 + length zs) with (length ps + S (length zs)) by lia. rewrite Nat.add_1_r.
    assert (0 < INR (length ps + S (length zs)))%R by (apply lt_0_INR; lia).
    assert (0 < INR (S (length ps)))%R by (apply lt_0_INR; lia). field. lra.
Qed.

Lemma missed_zero xs : forall ps es, missed ps 0 (map (fun z => EntHist (HistOk (A := RA) z)) xs ++ es) = missed (ps ++ xs) 0 es.
Proof.
  induction xs as [|x xs IH]; intros ps es; [now rewrite app_nil_r|]. cbn [map app missed]. rewrite Rmult_0_r. cbn [event_item].
  rewrite IH, <- app_assoc. reflexivity.
Qed.

Lemma items_ok (A : arith) (xs : list A) : items (map (fun z => EntHist (HistOk z)) xs) = xs.
Proof. induction xs as [|x xs IH]; [reflexivity|]. cbn [map items]. cbn [event_item]. f_equal. exact IH. Qed.

(** One index lost. *)
Lemma one_lost (W N B : nat) (xs : list R) (y : R) (zs : list R) :
  1 <= N /\ B = N \/ N = 0 /\ 1 <= W /\ B = Nat.log2_up W + 1 ->
  length xs + S (length zs) <= W -> separated (A := RA) (xs ++ y :: zs) -> few (A := RA) B (xs ++ y :: zs) ->
  exists e0 s, entropy_new (A := RA) W N = Ret e0 /\
    update_all (ent_react log2R) e0 (map (fun z => EntHist (HistOk (A := RA) z)) xs ++ EntHist (HistFailWindow (A := RA) y) ::
      map (fun z => EntHist (HistOk (A := RA) z)) zs) = Ret s /\
    entropy_evaluate s = (entropy_of (xs ++ y :: zs) -
      INR (length xs + 1) / INR (length (xs ++ y :: zs)) * (entropy_of (xs ++ [y]) - entropy_of xs))%R.
Proof.
  intros HB L Sep Few. set (es := (map (fun z => EntHist (HistOk (A := RA) z)) xs ++ EntHist (HistFailWindow (A := RA) y) ::
      map (fun z => EntHist (HistOk (A := RA) z)) zs) : list (ent_event RA)).
  assert (Hi : items es = xs ++ y :: zs).
  { unfold es, items. rewrite map_app. cbn [map event_item]. f_equal; [exact (items_ok RA xs)|]. f_equal. exact (items_ok RA zs). }
  assert (Le : length es <= W) by (unfold es; rewrite app_length; cbn [length]; rewrite !map_length; exact L).
  assert (K : only_indices_lost es).
  { unfold es. apply Forall_app. split; [|constructor; [exact I|]]; apply Forall_map, Forall_forall; intros; exact I. }
  destruct (lost_indices W N B es HB ltac:(lia) K Le) as (e0 & s & E0 & Es & V); [now rewrite Hi|now rewrite Hi|].
  exists e0, s. split; [exact E0|]. split; [exact Es|]. rewrite V, Hi. f_equal. f_equal. unfold es.
  rewrite missed_zero. cbn [app missed]. rewrite missed_ok by (rewrite app_length; cbn [length]; lia).
  rewrite Rplus_0_l, !app_length. cbn [length]. assert (R1 : length xs + S (length zs) = length xs + 1 + length zs) by lia. rewrite R1. reflexivity.
Qed.

Lemma share_of (a b : nat) : 1 <= a -> 1 <= b -> (INR a / INR b * log2R (INR a / INR b) = INR a / INR b * (log2R (INR a) - log2R (INR b)))%R.
Proof. intros Ha Hb. rewrite log2R_div; [reflexivity|apply lt_0_INR; lia|apply lt_0_INR; lia]. Qed.

Lemma log2R_2 : log2R 2 = 1%R.
Proof. unfold log2R. apply Rinv_r. apply Rgt_not_eq. rewrite <- ln_1. apply ln_increasing; lra. Qed.

Lemma example_entropies : entropy_of [2; 1; 2]%R = (log2R 3 - 2 / 3)%R /\ entropy_of [2; 1]%R = 1%R /\ entropy_of [2; 2]%R = 0%R.
Proof.
  unfold entropy_of, shannon, share.
  assert (D21 : (2 <> 1)%R) by lra. assert (D12 : (1 <> 2)%R) by lra.
  split; [|split]; cbn -[INR Req_EM_T];
    repeat (match goal with |- context [Req_EM_T ?a ?b] => destruct (Req_EM_T a b); [|] end; try (exfalso; lra); cbn -[INR Req_EM_T]);
    try (exfalso; tauto).
  - rewrite !share_of by lia. cbn [INR]. rewrite log2R_1. replace (1 + 1)%R with 2%R by ring. rewrite log2R_2. replace (2 + 1)%R with 3%R by ring. field.
  - rewrite !share_of by lia. cbn [INR]. rewrite log2R_1. replace (1 + 1)%R with 2%R by ring. rewrite log2R_2. field.
  - cbn [INR]. replace (1 + 1)%R with 2%R by ring. unfold Rdiv. rewrite Rinv_r by lra. rewrite log2R_1. ring.
Qed.

Lemma log2R_3 : log2R 3 <> (4 / 3)%R.
Proof.
  intros H. assert (L2 : (0 < ln 2)%R) by (rewrite <- ln_1; apply ln_increasing; lra).
  assert (E : (3 * ln 3 = 4 * ln 2)%R).
  { unfold log2R in H. apply (f_equal (fun z => z * (3 * ln 2))%R) in H. field_simplify in H; lra. }
  assert (E' : ln (3 ^ 3) = ln (2 ^ 4)).
  { rewrite !ln_pow by lra. replace (INR 3) with 3%R by (cbn; ring). replace (INR 4) with 4%R by (cbn; ring). exact E. }
  apply ln_inv in E'; lra.
Qed.

Lemma lost_refuted : exists W N (es : list (ent_event RA)) e0 s,
  only_indices_lost es /\ length es <= W /\ separated (A := RA) (items es) /\ few (A := RA) N (items es) /\
  entropy_new (A := RA) W N = Ret e0 /\ update_all (ent_react log2R) e0 es = Ret s /\
  items es = [2; 1; 2]%R /\
  entropy_evaluate s = (log2R 3 - 4 / 3)%R /\ entropy_evaluate s <> entropy_of [2; 1; 2]%R /\ entropy_evaluate s <> entropy_of [2; 2]%R.
Proof.
  destruct separated_example as (Sp & Fw). destruct example_entropies as (H1 & H2 & H3).
  destruct (one_lost 3 2 2 [2]%R 1%R [2]%R ltac:(left; lia) ltac:(cbn; lia) Sp Fw) as (e0 & s & E0 & Es & V).
  exists 3, 2. eexists. exists e0, s. split; [|split; [|split; [|split; [|split; [exact E0|split; [exact Es|]]]]]].
  - cbn. repeat constructor.
  - cbn. lia.
  - exact Sp.
  - exact Fw.
  - cbn [app] in V. rewrite entropy_of_one, H1, H2 in V. cbn [length Nat.add INR] in V.
    assert (V' : entropy_evaluate s = (log2R 3 - 4 / 3)%R) by (refine (eq_trans V _); change (num RA) with R; field). split; [reflexivity|]. split; [exact V'|]. rewrite V', H1, H3. split; [lra|].
    pose proof log2R_3. lra.
Qed.

(** ** Doubles: division by zero *)

Local Notation E64 := (ent_event B64).
Local Notation ent := (entropy B64).

Lemma one_quot : Bquot (Bz 1) (Bz 1) = Bz 1.
Proof. apply B2SF_inj. vm_compute. reflexivity. Qed.
Lemma max_zero : max_ (A := B64) (Bz 0) (Bsub (Bz 1) (Bz 1)) = Bz 0.
Proof. apply B2SF_inj. vm_compute. reflexivity. Qed.

Lemma zero_eq (z : double) : Beqb z (Bz 0) = true -> exists sg, z = B754_zero sg.
Proof.
  intros H. destruct z as [s|[]| |[] m e B]; try discriminate H; eauto.
Qed.

Lemma xlogx_one (log2 : double -> double) : xlogx (A := B64) log2 (Bz 1) = Ret (Bmul (Bz 1) (log2 (Bz 1))).
Proof. reflexivity. Qed.
Lemma xlogx_zero (log2 : double -> double) : xlogx (A := B64) log2 (Bquot (Bz 0) (Bz 1)) = Ret (Bz 0).
Proof. reflexivity. Qed.

(** The first observation. *)
Lemma first_value (log2 : double -> double) : Beqb (log2 (Bz 1)) (Bz 0) = true ->
  exists v : double, (forall e, ent_value (A := B64) log2 1 1 e = Ret v) /\ Beqb v (Bz 0) = true.
Proof.
  intros H. apply zero_eq in H as (sg & H).
  exists (Badd (Bsub (Bz 0) (Bmul (Bz 1) (B754_zero sg))) (Bz 0)). split.
  - intros e. unfold ent_value. change (of_nat (A := B64) 1) with (Bz 1). change (of_Z (a := B64) 1) with (Bz 1). change (of_Z (a := B64) 0) with (Bz 0).
    change (div (a := B64)) with Bquot. change (sub (a := B64)) with Bsub. rewrite max_zero, one_quot, xlogx_one. cbn [bind]. rewrite xlogx_zero. cbn [bind].
    rewrite H. reflexivity.
  - destruct sg; vm_compute; reflexivity.
Qed.

Lemma decrement_nan (log2 : double -> double) (h : hist B64) (v : double) b i : Beqb (log2 (Bz 1)) (Bz 0) = true ->
  nth_error (h_bins h) i = Some b -> b_count b = 1 -> h_total h = 1 -> Beqb v (Bz 0) = true ->
  exists r, entropy_decrement (A := B64) log2 h v i = Ret r /\ nan r = true.
Proof.
  intros H Hb Hc T Hv. apply zero_eq in H as (sg & H). apply zero_eq in Hv as (sv & ->).
  unfold entropy_decrement, hist_getBin, at_.
  assert (i < length (h_bins h)) by (apply nth_error_Some; congruence).
  destruct (Nat.ltb_spec (length (h_bins h)) i); [lia|]. rewrite Hb. cbn [bind]. rewrite Hc, T.
  change (of_nat (A := B64) 1) with (Bz 1). change (of_Z (a := B64) 1) with (Bz 1). change (of_Z (a := B64) 0) with (Bz 0).
  change (div (a := B64)) with Bquot. change (sub (a := B64)) with Bsub. change (add (a := B64)) with Badd. change (mul (a := B64)) with Bmul.
  rewrite max_zero.
  assert (Z0 : Badd (Bsub (Bz 1) (Bz 1)) (Bz 1) = Bz 1) by (apply B2SF_inj; vm_compute; reflexivity).
  assert (Z1 : Badd (Bz 0) (Bz 1) = Bz 1) by (apply B2SF_inj; vm_compute; reflexivity).
  rewrite Z0, Z1, one_quot, xlogx_one. cbn [bind]. rewrite xlogx_zero. cbn [bind]. rewrite H.
  eexists. split; [reflexivity|]. apply nan_add_l. destruct sg, sv; vm_compute; reflexivity.
Qed.

(** NaN stays. *)
Lemma decrement_stays (log2 : double -> double) (h : hist B64) (v r : double) i : nan v = true ->
  entropy_decrement (A := B64) log2 h v i = Ret r -> nan r = true.
Proof.
  intros N E. unfold entropy_decrement in E. apply bind_Ret in E as (b & _ & E). apply bind_Ret in E as (x1 & _ & E).
  apply bind_Ret in E as (x2 & _ & E). injection E as <-. apply nan_add_l.
  match goal with |- nan (?f ?a ?b) = true => change (nan (Bmul a b) = true) end.
  rewrite nan_mul_r; [reflexivity|]. apply nan_sub_l. now apply nan_add_l.
Qed.

Lemma two_nat n : 2 <= n -> eqb (a := B64) (of_Z 1) (of_nat n) = false.
Proof.
  intros H. change (Beqb (Bz 1) (Bz (Z.of_nat n)) = false).
  destruct (Bz_X 1) as [_ N1]. destruct (Bz_exact 1) as [E1 F1]; [lia|]. destruct (Bz_exact 2) as [E2 F2]; [lia|].
  destruct (Bz_X (Z.of_nat n)) as [En Nn].
  destruct (Beqb (Bz 1) (Bz (Z.of_nat n))) eqn:E; auto. exfalso. apply (X_eqb _ _ N1 Nn) in E.
  rewrite En, (X_fin _ F1), E1 in E. assert (L : (2 <= R64 (IZR (Z.of_nat n)))%R).
  { replace 2%R with (R64 (B2R (Bz 2))) by (rewrite R64_B2R; exact E2). apply R64_le. rewrite E2. apply IZR_le. lia. }
  lra.
Qed.

Lemma increment_stays (log2 : double -> double) (h : hist B64) (v r : double) i : nan v = true -> 2 <= h_total h ->
  entropy_increment (A := B64) log2 h v i = Ret r -> nan r = true.
Proof.
  intros N T E. unfold entropy_increment in E. apply bind_Ret in E as (b & _ & E). apply bind_Ret in E as (x1 & _ & E).
  apply bind_Ret in E as (x2 & _ & E). rewrite (two_nat _ T) in E. injection E as <-. apply nan_add_l.
  match goal with |- nan ?t = true => change t with (Bmul (div (a := B64) (sub (of_nat (h_total h)) (of_Z 1)) (of_nat (h_total h)))
    (Bsub v (log2 (div (a := B64) (sub (of_nat (h_total h)) (of_Z 1)) (of_nat (h_total h)))))) end.
  rewrite nan_mul_r; [reflexivity|]. now apply nan_sub_l.
Qed.

Lemma react_stays (log2 : double -> double) (s s' : ent) (e : E64) N W w : live (e_hist s) N W w -> 2 <= h_total (e_hist s) ->
  nan (e_value s) = true -> ent_react log2 s e = Ret s' ->
  (exists w', live (e_hist s') N W w') /\ 2 <= h_total (e_hist s') /\ nan (e_value s') = true.
Proof.
  intros L T Nv E. destruct e as [x|e].
  { unfold ent_react in E. apply bind_Ret in E as (j & _ & E). destruct (e_window s); [|discriminate E]. injection E as <-. eauto. }
  unfold ent_react in E. apply bind_Ret in E as (i & _ & E). destruct (e_window s) as [w0|]; [|discriminate E].
  apply bind_Ret in E as ((w2, ent1) & E1 & E). apply bind_Ret in E as (h' & Eh & E). apply bind_Ret in E as (t & _ & E).
  assert (N1 : nan ent1 = true).
  { destruct (Nat.ltb _ _); [|injection E1 as <- <-; exact Nv]. destruct (w0 ++ [i]) as [|f w']; [discriminate E1|].
    apply bind_Ret in E1 as (v & Ev & E1). injection E1 as <- <-. exact (decrement_stays _ _ _ _ _ Nv Ev). }
  destruct (react_grows N W w (e_hist s) e h' L Eh) as [Lv Lo _ _ _]. assert (T' : 2 <= h_total h') by lia.
  destruct t; [injection E as <-; auto|]. apply bind_Ret in E as (v & Ev & E). injection E as <-. cbn. split; [exact Lv|]. split; [exact T'|].
  exact (increment_stays _ _ _ _ _ N1 T' Ev).
Qed.

Lemma run_stays (log2 : double -> double) (es : list E64) : forall (s s' : ent) N W w, live (e_hist s) N W w -> 2 <= h_total (e_hist s) ->
  nan (e_value s) = true -> update_all (ent_react log2) s es = Ret s' -> nan (e_value s') = true.
Proof.
  induction es as [|e es IH]; intros s s' N W w L T Nv E; [injection E as <-; exact Nv|].
  cbn [update_all] in E. apply bind_Ret in E as (s1 & E1 & E). destruct (react_stays _ _ _ _ _ _ _ L T Nv E1) as ((w1 & L1) & T1 & N1).
  exact (IH s1 s' N W w1 L1 T1 N1 E).
Qed.

(** Failing calls only fill the window. *)
Lemma fill (log2 : double -> double) (zs : list double) : forall (s : ent) w, e_window s = Some w -> length w + length zs <= e_wsize s ->
  exists w', update_all (ent_react (A := B64) log2) s (map (fun z => EntHist (HistFailNew (A := B64) z)) zs) =
    Ret (Entropy (Some (w ++ w')) (e_wsize s) (e_history s) (e_hist s) (e_value s)) /\ length w' = length zs.
Proof.
  induction zs as [|z zs IH]; intros s w Hw L.
  { exists []. rewrite app_nil_r. split; [|reflexivity]. destruct s. cbn in Hw. subst. reflexivity. }
  cbn [map update_all]. cbn [length] in L. destruct (search_found (e_hist s) (Bin z z 1)) as (i & Ei & _ & _).
  rewrite (react_inside log2 s (HistFailNew (A := B64) z) w i Hw ltac:(lia) Ei). cbn [hist_react throws bind].
  match goal with |- context [update_all _ ?s1 _] => destruct (IH s1 (w ++ [i]) eq_refl) as (w' & E & L') end.
  { cbn [e_wsize]. rewrite app_length. cbn [length]. lia. }
  exists (i :: w'). cbn [e_wsize e_history e_hist e_value] in E. rewrite E, <- app_assoc. split; [reflexivity|]. cbn [length]. now rewrite L'.
Qed.

Lemma first_obs (log2 : double -> double) W N (e0 s1 : ent) (x : double) :
  Beqb (log2 (Bz 1)) (Bz 0) = true -> entropy_new (A := B64) W N = Ret e0 -> 1 <= W ->
  entropy_update (A := B64) log2 e0 x = Ret s1 ->
  exists B, 1 <= B /\ e_window s1 = Some [0] /\ e_wsize s1 = W /\ h_bins (e_hist s1) = [Bin x x 1] /\ h_total (e_hist s1) = 1 /\
    Beqb (e_value s1) (Bz 0) = true /\ exists w, live (e_hist s1) B W w.
Proof.
  intros Hl E0 HW E1. destruct (same_new W N e0 ltac:(lia) E0) as (_ & Hw & Hs).
  assert (Hh : exists B, e_hist e0 = hist_new (A := B64) B W true /\ 1 <= B).
  { unfold entropy_new, entropy_bins in E0. destruct (Nat.eqb_spec N 0).
    - destruct (Nat.eqb_spec W 0); [lia|]. injection E0 as <-. eexists. split; [reflexivity|]. cbn. lia.
    - injection E0 as <-. eexists. split; [reflexivity|]. lia. }
  destruct Hh as (B & Hh & HB). exists B. split; [exact HB|].
  assert (Ei : hist_binSearch (e_hist e0) x = Ret 0) by (rewrite Hh; reflexivity).
    rewrite (update_inside log2 e0 x [] 0 Hw ltac:(cbn; lia) Ei) in E1.
    assert (Lw : length (@nil double) < W) by (cbn; lia).
    destruct (hist_add_eq (hist_new (A := B64) B W true) x (repeat 0 W) eq_refl) as (i & bins & f & _ & _ & Ha & Eq).
    assert (Hb : bins = [Bin x x 1]).
    { destruct Ha as [_|l c rr _ X1 _ _|l c rr _ X1 _ _]; [reflexivity|destruct l; discriminate X1|destruct l; discriminate X1]. }
    apply bind_Ret in E1 as (h' & Eh & E1). rewrite Hh in Eh. pose proof Eh as Eh'.
    unfold hist_update in Eh. rewrite Eq in Eh. subst bins.
    match type of Eh with context [hist_decayCounts ?h0] => destruct (decay_eq h0 (repeat 0 W ++ [i]) eq_refl eq_refl) as [D _] end.
    rewrite D in Eh by (cbn [h_total h_windowSize hist_new]; lia). cbn [bind h_numBins h_bins hist_new length] in Eh.
    destruct (Nat.ltb_spec B 1); [lia|]. injection Eh as <-.
    apply bind_Ret in E1 as (v & Ev & E1). injection E1 as <-. rewrite (increment_at log2 _ _ 0 (Bin x x 1)) in Ev by reflexivity.
    cbn [h_total b_count hist_new] in Ev. destruct (first_value log2 Hl) as (v0 & V1 & V2). change (0 + 1) with 1 in Ev. rewrite V1 in Ev. injection Ev as <-.
    cbn [e_window e_wsize e_hist e_value h_bins h_total]. split; [reflexivity|]. split; [exact Hs|]. split; [reflexivity|]. split; [reflexivity|].
    split; [exact V2|]. eexists. split; [reflexivity|]. split; [reflexivity|]. split; reflexivity.
Qed.

Lemma entropy_poisoned (log2 : double -> double) W N e0 (x y : double) (zs : list double) (es : list E64) s :
  Beqb (log2 (Bz 1)) (Bz 0) = true -> entropy_new (A := B64) W N = Ret e0 -> 2 <= W -> S (length zs) = W ->
  update_all (ent_react (A := B64) log2) e0
    (EntHist (HistOk (A := B64) x) :: map (fun z => EntHist (HistFailNew (A := B64) z)) zs ++ EntHist (HistOk (A := B64) y) :: es) = Ret s ->
  nan (entropy_evaluate s) = true.
Proof.
  intros Hl E0 HW Lz E. cbn [update_all] in E. apply bind_Ret in E as (s1 & E1 & E). rewrite react_ok in E1.
  destruct (first_obs log2 W N e0 s1 x Hl E0 ltac:(lia) E1) as (B & HB & Hw1 & Hs1 & Hb1 & Ht1 & Hv1 & (w1 & L1)).
  (* the failures *)
  rewrite update_all_app in E. destruct (fill log2 zs s1 [0] Hw1) as (w' & Ef & Lf); [rewrite Hs1; cbn [length]; lia|].
  rewrite Ef in E. cbn [bind app] in E. cbn [update_all] in E. apply bind_Ret in E as (s3 & E3 & E). rewrite react_ok in E3.
  (* the division *)
  assert (S3 : (exists w, live (e_hist s3) B W w) /\ 2 <= h_total (e_hist s3) /\ nan (e_value s3) = true).
  { unfold entropy_update in E3. cbn [e_hist e_window e_wsize e_value e_history] in E3. apply bind_Ret in E3 as (i & _ & E3).
    apply bind_Ret in E3 as ((w2, v1) & Ed & E3).
    destruct (Nat.ltb_spec (e_wsize s1) (length ((0 :: w') ++ [i]))) as [Lt|Lt].
    2:{ rewrite app_length in Lt. cbn [length] in Lt. lia. }
    cbn [app] in Ed. apply bind_Ret in Ed as (v2 & Ed & Ed'). injection Ed' as <- <-.
    assert (Z0 : nth_error (h_bins (e_hist s1)) 0 = Some (Bin x x 1)) by (rewrite Hb1; reflexivity).
    destruct (decrement_nan log2 (e_hist s1) (e_value s1) _ 0 Hl Z0 eq_refl Ht1 Hv1) as (r & Er & Nr).
    rewrite Er in Ed. injection Ed as <-. apply bind_Ret in E3 as (h3 & Eh & E3). apply bind_Ret in E3 as (v3 & Ev & E3). injection E3 as <-.
    cbn [e_hist e_value]. destruct (update_inv _ _ _ _ _ _ L1 Eh) as (i3 & bins3 & w3 & f3 & _ & L3 & _ & U & _).
    assert (T3 : h_total h3 = 2).
    { pose proof (updating_total _ _ _ _ _ _ _ _ _ _ U) as Tt. rewrite Ht1 in Tt. lia. }
    assert (T4 : 2 <= h_total h3) by (rewrite T3; auto). split; [eauto|]. split; [exact T4|]. exact (increment_stays _ _ _ _ _ Nr T4 Ev). }
  destruct S3 as ((w3 & L3) & T3 & N3). exact (run_stays log2 es s3 s B W w3 L3 T3 N3 E).
Qed.

(** ** Indices past the bins *)

Lemma search_one (h : hist B64) (b : bin B64) (z : double) : h_bins h = [b] ->
  hist_binSearch h z = Ret (if bin_lt b (Bin (A := B64) z z 1) then 1 else 0).
Proof.
  intros Hb. unfold hist_binSearch. destruct (search_found h (Bin (A := B64) z z 1)) as (i & -> & _ & (l & r & E & Li & Hl & Hr)).
  rewrite Hb in E. f_equal. destruct l as [|b1 l].
  - cbn in E. subst r i. destruct Hr as [Hr|(c & r' & E & Hr)]; [discriminate Hr|]. injection E as <- <-. now rewrite Hr.
  - destruct l; [|destruct l; discriminate E]. cbn in E. injection E as <- <-. destruct Hl as [Hl|(l' & c & E & Hl)]; [discriminate Hl|].
    destruct l' as [|? [|? ?]]; try discriminate E. injection E as <-. rewrite Hl. now subst i.
Qed.

Lemma decrement_past (log2 : double -> double) (h : hist B64) v : entropy_decrement (A := B64) log2 h v (length (h_bins h)) = Undef OutOfBounds.
Proof.
  unfold entropy_decrement, hist_getBin, at_. rewrite Nat.ltb_irrefl.
  replace (nth_error (h_bins h) (length (h_bins h))) with (@None (bin B64)); auto.
  symmetry. now apply nth_error_None.
Qed.

Lemma entropy_dangling (log2 : double -> double) W N e0 (x z : double) (zs : list double) s :
  Beqb (log2 (Bz 1)) (Bz 0) = true -> entropy_new (A := B64) W N = Ret e0 -> S (S (length zs)) = W ->
  finite64 x = true -> definitelyLessThan (A := B64) x z default_eps = true ->
  update_all (ent_react (A := B64) log2) e0
    (EntHist (HistOk (A := B64) x) :: map (fun z => EntHist (HistFailNew (A := B64) z)) (z :: zs) ++ [EntHist (HistOk (A := B64) x)]) = Ret s ->
  forall e, ent_react (A := B64) log2 s (EntHist e) = Undef OutOfBounds.
Proof.
  intros Hl E0 Lz Fx Lt E e. cbn [update_all] in E. apply bind_Ret in E as (s1 & E1 & E). rewrite react_ok in E1.
  destruct (first_obs log2 W N e0 s1 x Hl E0 ltac:(lia) E1) as (B & HB & Hw1 & Hs1 & Hb1 & Ht1 & Hv1 & (w1 & L1)).
  assert (Lxx : definitelyLessThan (A := B64) x x default_eps = false).
  { destruct (definitelyLessThan (A := B64) x x default_eps) eqn:D; [|reflexivity]. exfalso.
    apply (o_less _ _ ordered_B64 x x Fx Fx) in D. rewrite (o_irrefl _ _ ordered_B64 x Fx) in D. discriminate D. }
  cbn [map app update_all] in E.
  assert (Ez : hist_binSearch (e_hist s1) z = Ret 1).
  { rewrite (search_one _ _ z Hb1). change (bin_lt _ _) with (definitelyLessThan (A := B64) x z default_eps). now rewrite Lt. }
  rewrite (react_inside log2 s1 (HistFailNew (A := B64) z) [0] 1 Hw1 ltac:(rewrite Hs1; cbn [length]; lia) Ez) in E. cbn [hist_react throws bind app] in E.
  rewrite update_all_app in E.
  match type of E with context [update_all _ ?s2 (map _ zs)] => destruct (fill log2 zs s2 [0; 1] eq_refl) as (w' & Ef & Lf) end.
  { cbn [e_wsize length]. lia. }
  rewrite Ef in E. cbn [bind app e_wsize e_history e_hist e_value update_all] in E. clear Ef. apply bind_Ret in E as (s3 & E & E3). injection E3 as ->. rewrite react_ok in E.
  unfold entropy_update in E. cbn [e_hist e_window e_wsize e_value e_history] in E.
  assert (Ex : hist_binSearch (e_hist s1) x = Ret 0).
  { rewrite (search_one _ _ x Hb1). change (bin_lt _ _) with (definitelyLessThan (A := B64) x x default_eps). now rewrite Lxx. }
  rewrite Ex in E. cbn [bind] in E.
  destruct (Nat.ltb_spec (e_wsize s1) (length ((0 :: 1 :: w') ++ [0]))) as [Q|Q].
  2:{ rewrite app_length in Q. cbn [length] in Q. lia. }
  cbn [app] in E. apply bind_Ret in E as ((w2, v1) & Ed & E). apply bind_Ret in Ed as (v2 & _ & Ed). injection Ed as <- <-.
  apply bind_Ret in E as (h3 & Eh & E). apply bind_Ret in E as (v3 & _ & E). injection E as <-.
  assert (B3 : length (h_bins h3) = 1).
  { pose proof L1 as (LN & LW & Ld & Lh). destruct (hist_add_eq (e_hist s1) x w1 Lh) as (i & bins & f & Ei & _ & Ha & Eq).
    rewrite Ex in Ei. injection Ei as <-. rewrite Hb1, Ht1 in Ha.
    assert (Hbn : length bins = 1).
    { inversion Ha as [[C|C]|l b r _ X1 X2 X3|l b r _ X1 X2 X3]; subst.
      - discriminate C.
      - discriminate C.
      - destruct l; [|discriminate X2]. injection X1 as <- <-. reflexivity.
      - destruct l; [|discriminate X2]. injection X1 as <- <-. cbn [b_left] in X3.
        rewrite (o_leb _ _ ordered_B64 x x Fx Fx), (o_irrefl _ _ ordered_B64 x Fx) in X3. discriminate X3. }
    unfold hist_update in Eh. rewrite Eq in Eh.
    match type of Eh with context [hist_decayCounts ?h0] => destruct (decay_eq h0 (w1 ++ [0]) Ld eq_refl) as [D _] end.
    rewrite D in Eh by (cbn [h_total h_windowSize]; lia). cbn [bind h_numBins h_bins] in Eh.
    destruct (Nat.ltb_spec (h_numBins (e_hist s1)) (length bins)); [lia|]. injection Eh as <-. exact Hbn. }
  unfold ent_react. cbn [e_hist e_window e_wsize e_value e_history]. unfold hist_binSearch.
  destruct (search_found h3 (Bin (event_item e) (event_item e) 1)) as (i3 & -> & _). cbn [bind].
  destruct (Nat.ltb_spec (e_wsize s1) (length ((1 :: w' ++ [0]) ++ [i3]))) as [Q2|Q2].
  2:{ rewrite app_length in Q2. cbn [length] in Q2. rewrite app_length in Q2. cbn [length] in Q2. lia. }
  cbn [app]. rewrite <- B3 at 1. rewrite decrement_past. reflexivity.
Qed.
