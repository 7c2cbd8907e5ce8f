(** Proofs: what an infinite observation does. *)

From Coq Require Import List Reals ZArith Bool Arith Lia Lra.
From Flocq Require Import Core.Core IEEE754.BinarySingleNaN.
From Verif Require Import Outcome Arith Utils IBin Histogram Mean P2 Fame Spec HistSpec ListFacts FloatSpec FloatFacts
  HistFacts HistWitness Defaults MeanFacts FameSpec P2Witness NanSpec NanFacts.
Import ListNotations.
Local Open Scope nat_scope.

Local Notation bn := (bin B64).
Local Notation pinf := (B754_infinity false : double).
Local Notation ninf := (B754_infinity true : double).

(** ** Results that are not finite *)

Lemma fin_add (x y : double) : finite64 (Badd x y) = true -> finite64 x = true /\ finite64 y = true.
Proof.
  destruct x as [sx|sx| |sx mx ex Hx], y as [sy|sy| |sy my ey Hy]; intros H; split; try reflexivity; try discriminate H;
    revert H; unfold Badd, Bplus; destruct (Bool.eqb sx sy); intros H; discriminate H.
Qed.
Lemma fin_sub (x y : double) : finite64 (Bsub x y) = true -> finite64 x = true /\ finite64 y = true.
Proof.
  destruct x as [sx|sx| |sx mx ex Hx], y as [sy|sy| |sy my ey Hy]; intros H; split; try reflexivity; try discriminate H;
    revert H; unfold Bsub, Bminus; cbn [Bopp]; unfold Bplus; destruct (Bool.eqb sx (negb sy)); intros H; discriminate H.
Qed.
Lemma inf_add_l (x y : double) : finite64 x = false -> finite64 (Badd x y) = false.
Proof. intros H. destruct (finite64 (Badd x y)) eqn:E; auto. apply fin_add in E as [E _]. congruence. Qed.
Lemma inf_add_r (x y : double) : finite64 y = false -> finite64 (Badd x y) = false.
Proof. intros H. destruct (finite64 (Badd x y)) eqn:E; auto. apply fin_add in E as [_ E]. congruence. Qed.
Lemma inf_sub_l (x y : double) : finite64 x = false -> finite64 (Bsub x y) = false.
Proof. intros H. destruct (finite64 (Bsub x y)) eqn:E; auto. apply fin_sub in E as [E _]. congruence. Qed.
Lemma inf_div_l (x y : double) : finite64 x = false -> finite64 (Bquot x y) = false.
Proof. destruct x as [sx|sx| |sx mx ex Hx], y as [sy|sy| |sy my ey Hy]; intros H; try discriminate H; reflexivity. Qed.

(** ** Mean and variance *)

Lemma mean_sum_step (s s' : mean B64) (x : double) : mean_update s x = Ret s' ->
  finite64 (mn_sum s) = false \/ finite64 x = false -> finite64 (mn_sum s') = false.
Proof.
  intros E H. unfold mean_update in E. apply bind_Ret in E as ((w, sm) & Ew & E). injection E as <-. cbn [mn_sum].
  destruct H as [H|H]; [|now apply inf_add_r]. apply inf_add_l.
  destruct (mn_window s) as [v|]; [|injection Ew as <- <-; exact H].
  destruct (Nat.ltb _ _); [|injection Ew as <- <-; exact H]. destruct v as [|f v]; [discriminate Ew|].
  injection Ew as <- <-. now apply inf_sub_l.
Qed.

Lemma mean_sum_run (s s' : mean B64) xs : update_all mean_update s xs = Ret s' ->
  finite64 (mn_sum s) = false -> finite64 (mn_sum s') = false.
Proof.
  revert s. induction xs as [|x xs IH]; intros s E H; [injection E as <-; exact H|].
  cbn [update_all] in E. apply bind_Ret in E as (t & Et & E). exact (IH _ E (mean_sum_step _ _ _ Et (or_introl H))).
Qed.

Lemma mean_history (s s' : mean B64) xs : update_all mean_update s xs = Ret s' -> mn_history s' = mn_history s + length xs.
Proof.
  revert s. induction xs as [|x xs IH]; intros s E; [injection E as <-; cbn; lia|].
  cbn [update_all] in E. apply bind_Ret in E as (t & Et & E). rewrite (IH _ E). unfold mean_update in Et.
  apply bind_Ret in Et as ((w, sm) & _ & Et). injection Et as <-. cbn [mn_history length]. lia.
Qed.

Lemma mean_never_finite W (pre post : list double) (x : double) s : finite64 x = false ->
  update_all mean_update (mean_new (A := B64) W) (pre ++ x :: post) = Ret s -> finite64 (mean_evaluate s) = false.
Proof.
  intros H E. pose proof (mean_history _ _ _ E) as Hh.
  rewrite update_all_app in E. apply bind_Ret in E as (t & _ & E). cbn [update_all] in E. apply bind_Ret in E as (t' & Et & E).
  pose proof (mean_sum_run _ _ _ E (mean_sum_step _ _ _ Et (or_intror H))) as Hs.
  rewrite app_length in Hh. cbn [length] in Hh. unfold mean_evaluate.
  destruct (Nat.eqb_spec (mn_history s) 0); [lia|]. destruct (mn_window s); now apply inf_div_l.
Qed.

Lemma variance_never_finite W (pre post : list double) (x : double) : finite64 (Bmul x x) = false ->
  exists s, update_all (variance_update (A := B64)) (variance_new W) (pre ++ x :: post) = Ret s /\
    finite64 (variance_evaluate (A := B64) s) = false.
Proof.
  intros H. destruct (var_run (A := B64) W (pre ++ x :: post)) as (s & E & [_ _ _ Hq]). exists s. split; [exact E|].
  rewrite map_app in Hq. cbn [map] in Hq. unfold variance_evaluate. apply inf_sub_l.
  exact (mean_never_finite W _ _ _ _ H Hq).
Qed.

Lemma variance_nan_forever W (pre post : list double) (x : double) : 1 <= W -> finite64 (Bmul x x) = false -> W <= length post ->
  exists s, update_all (variance_update (A := B64)) (variance_new W) (pre ++ x :: post) = Ret s /\
    variance_evaluate (A := B64) s = B754_nan.
Proof.
  intros HW H L. destruct (var_run (A := B64) W (pre ++ x :: post)) as (s & E & [_ _ _ Hq]). exists s. split; [exact E|].
  rewrite map_app in Hq. cbn [map] in Hq. unfold variance_evaluate.
  destruct (mean_contaminated W (map (fun x => Bmul x x) pre) (map (fun x => Bmul x x) post) (Bmul x x) HW H) as (q & Eq & Nq);
    [intros _; now rewrite map_length|].
  assert (Z : va_sq s = q) by (pose proof (eq_trans (eq_sym Hq) Eq) as Z; now injection Z).
  rewrite Z, Nq. reflexivity.
Qed.

(** ** Histogram *)

Lemma eps_shape : exists m e B, default_eps (A := B64) = B754_finite false m e B.
Proof.
  destruct eps_default as [V F]. destruct (default_eps (A := B64)) as [s|s| |s m e B] eqn:E; try discriminate F.
  - exfalso. assert (Z : Bltb (B754_zero false) (default_eps (A := B64)) = true) by (vm_compute; reflexivity).
    change (num B64) with double in * . rewrite E in Z. destruct s; discriminate Z.
  - assert (Z : Bltb (B754_zero false) (default_eps (A := B64)) = true) by (vm_compute; reflexivity).
    change (num B64) with double in * . rewrite E in Z. destruct s; [discriminate Z|]. now exists m, e, B.
Qed.

Lemma dlt_finite (a b : double) : definitelyLessThan (A := B64) a b default_eps = true -> finite64 a = true /\ finite64 b = true.
Proof.
  destruct eps_shape as (m & e & B & E). unfold definitelyLessThan.
  change (@default_eps B64) with (default_eps (A := B64) : double). rewrite E. clear E.
  assert (G : forall t, t = true -> (finite64 a = false \/ finite64 b = false -> t = false) -> finite64 a = true /\ finite64 b = true).
  { intros t -> K. destruct (finite64 a), (finite64 b); auto; exfalso; discriminate (K ltac:(auto)). }
  intros H. apply (G _ H). clear. intros H.
  destruct a as [sa|sa| |sa ma ea Ha], b as [sb|sb| |sb mb eb Hb]; destruct H as [H|H]; try discriminate H;
    clear H; try destruct sa; try destruct sb; first [reflexivity|apply nan_ltb_r; reflexivity].
Qed.

Lemma dlt_inf (b : bn) (x : double) c : finite64 x = false -> bin_lt b (Bin x x c) = false.
Proof.
  intros H. unfold bin_lt. destruct (definitelyLessThan _ _ _) eqn:E; auto. apply dlt_finite in E as [_ E]. cbn in E. congruence.
Qed.

(** No bin below the observation: it goes to the front. *)
Lemma front_add N W (xs : list double) (h : hist B64) b r (x : double) : length xs < W ->
  update_all hist_update (hist_new (A := B64) N W true) xs = Ret h -> h_bins h = b :: r ->
  (forall d, In d (b :: r) -> bin_lt d (Bin x x 1) = false) ->
  let bins := if leb (a := B64) (b_left b) x then Bin (b_left b) (b_right b) (b_count b + 1) :: r else Bin x x 1 :: b :: r in
  length bins <= N ->
  exists h', hist_update h x = Ret h' /\ h_bins h' = bins /\ h_total h' = S (length xs).
Proof.
  intros L E Hb Hl bins LN. pose proof E as Ec. rewrite <- (calls_updates (A := B64)) in Ec.
  destruct (run_basic (A := B64) _ _ _ _ Ec) as ((w & (HN & HW & Hd & Hw) & _) & T & Lb & _). rewrite hist_items_updates in T.
  rewrite Nat.min_l in T by (change (num B64) with double; lia).
  assert (T0 : h_total h <> 0).
  { rewrite T. destruct xs; [|discriminate]. injection E as <-. discriminate Hb. }
  destruct (hist_add_eq h x w Hw) as (i & bins1 & f & Es & Ff & Ha & Eq).
  assert (i = 0).
  { destruct Ff as (l & rr & E1 & <- & [->|(l' & c & -> & Lt)] & _); [reflexivity|]. exfalso. rewrite Hl in Lt; [discriminate Lt|].
    rewrite <- Hb, E1. apply in_or_app. left. apply in_or_app. right. now left. }
  subst i. assert (bins1 = bins).
  { unfold bins. destruct Ha as [[?|Z]|l c rr _ E1 E2 Le|l c rr _ E1 E2 Le]; [contradiction|rewrite Hb in Z; discriminate Z| |];
      (destruct l; [|discriminate E2]); rewrite Hb in E1; injection E1 as <- <-; now rewrite Le. }
  subst bins1. unfold hist_update. rewrite Eq.
  match goal with |- context [hist_decayCounts ?h0] => destruct (decay_eq h0 (w ++ [0]) Hd eq_refl) as [D _] end.
  cbn [h_total h_windowSize] in D. rewrite D by (rewrite T, HW; change (num B64) with double; lia). cbn [bind h_numBins h_bins].
  rewrite HN. destruct (Nat.ltb_spec N (length bins)); [lia|]. eexists. split; [reflexivity|]. cbn [h_bins h_total]. split; auto.
  rewrite T. change (num B64) with double. lia.
Qed.

Lemma run_length N W (xs : list double) (h : hist B64) : update_all hist_update (hist_new (A := B64) N W true) xs = Ret h ->
  length (h_bins h) <= N.
Proof. intros E. rewrite <- (calls_updates (A := B64)) in E. now destruct (run_basic (A := B64) _ _ _ _ E) as (_ & _ & Lb & _). Qed.

Lemma no_nan_bins N W (xs : list double) (h : hist B64) : length xs <= W -> nans xs = 0 ->
  update_all hist_update (hist_new (A := B64) N W true) xs = Ret h -> forall b, In b (h_bins h) -> nan (b_left b) = false.
Proof.
  intros L Z E b Hb. destruct (run_nans _ _ _ _ L E) as (_ & C & _). rewrite Z in C. unfold nanbins in C.
  destruct (nan (b_left b)) eqn:Nb; auto. exfalso. apply length_zero_iff_nil in C.
  assert (In b (filter nanb (h_bins h))) by (apply filter_In; split; auto). rewrite C in H. destruct H.
Qed.

(** Plus infinity is counted in the lowest bin. *)
Lemma hist_pinf N W (xs : list double) (h : hist B64) : xs <> [] -> nans xs = 0 -> length xs < W ->
  update_all hist_update (hist_new (A := B64) N W true) xs = Ret h ->
  exists b r h', h_bins h = b :: r /\ hist_update h pinf = Ret h' /\
    h_bins h' = Bin (b_left b) (b_right b) (b_count b + 1) :: r.
Proof.
  intros Ne Z L E. destruct (run_nans N W xs h ltac:(lia) E) as (_ & _ & M).
  pose proof (split_nans xs) as Sp. rewrite Z in Sp.
  destruct (h_bins h) as [|b r] eqn:Hb.
  { cbn in M. exfalso. assert (0 < 0); [|lia]. apply M. intros Q. rewrite Q in Sp. destruct xs; [contradiction|discriminate Sp]. }
  assert (Nb : nan (b_left b) = false) by (apply (no_nan_bins N W xs h ltac:(lia) Z E); rewrite Hb; now left).
  destruct (front_add N W xs h b r pinf L E Hb) as (h' & E' & Hb' & _); [intros d _; now apply dlt_inf|..].
  - pose proof (run_length _ _ _ _ E) as Lb. rewrite Hb in Lb.
    replace (leb (a := B64) (b_left b) pinf) with true; [exact Lb|].
    symmetry. change (Bleb (b_left b) pinf = true). destruct (b_left b) as [sb|[]| |[] mb eb Hb0]; try discriminate Nb; reflexivity.
  - exists b, r, h'. split; auto. split; auto. rewrite Hb'.
    replace (leb (a := B64) (b_left b) pinf) with true; [reflexivity|].
    symmetry. change (Bleb (b_left b) pinf = true). destruct (b_left b) as [sb|[]| |[] mb eb Hb0]; try discriminate Nb; reflexivity.
Qed.

Lemma ninf_le (x : double) : nan x = false -> leb (a := B64) ninf x = true.
Proof. intros H. change (Bleb ninf x = true). destruct x as [s|[]| |[] m e B]; try discriminate H; reflexivity. Qed.

(** Once minus infinity has a bin, it takes everything no other bin is below. *)
Lemma hist_ninf_takes N W (xs : list double) (h : hist B64) rt c r (x : double) : length xs < W ->
  update_all hist_update (hist_new (A := B64) N W true) xs = Ret h -> h_bins h = Bin ninf rt c :: r -> nan x = false ->
  (forall d, In d r -> definitelyLessThan (b_left d) x default_eps = false) ->
  exists h', hist_update h x = Ret h' /\ h_bins h' = Bin ninf rt (c + 1) :: r.
Proof.
  intros L E Hb Nx Hl. pose proof (run_length _ _ _ _ E) as Lb. rewrite Hb in Lb.
  destruct (front_add N W xs h _ r x L E Hb) as (h' & E' & Hb' & _).
  - intros d [<-|Hd]; [|now apply Hl]. unfold bin_lt. cbn [b_left]. destruct (definitelyLessThan _ _ _) eqn:Q; auto.
    apply dlt_finite in Q as [Q _]. discriminate Q.
  - cbn [b_left]. rewrite (ninf_le x Nx). exact Lb.
  - cbn [b_left b_right b_count] in Hb'. rewrite (ninf_le x Nx) in Hb'. eauto.
Qed.

Lemma hist_one N W (x : double) : 1 <= N -> 1 <= W ->
  exists h, update_all hist_update (hist_new (A := B64) N W true) [x] = Ret h /\ h_bins h = [Bin x x 1].
Proof.
  intros HN HW. cbn [update_all].
  destruct (hist_add_eq (hist_new (A := B64) N W true) x (repeat 0 W) eq_refl) as (i & bins & f & _ & _ & Ha & Eq).
  assert (bins = [Bin x x 1]).
  { destruct Ha as [_|l c rr _ E1 _ _|l c rr _ E1 _ _]; [reflexivity|destruct l; discriminate E1|destruct l; discriminate E1]. }
  subst bins. unfold hist_update. rewrite Eq.
  match goal with |- context [hist_decayCounts ?h0] => destruct (decay_eq h0 (repeat 0 W ++ [i]) eq_refl eq_refl) as [D _] end.
  rewrite D by (cbn [h_total h_windowSize hist_new]; lia). cbn [bind h_numBins h_bins hist_new length].
  destruct (Nat.ltb_spec N 1); [lia|]. eexists. split; reflexivity.
Qed.

(** As the first observation it takes everything. *)
Lemma hist_ninf_first N W (xs : list double) : 1 <= N -> length xs < W -> nans xs = 0 ->
  exists h, update_all hist_update (hist_new (A := B64) N W true) (ninf :: xs) = Ret h /\
    h_bins h = [Bin ninf ninf (S (length xs))].
Proof.
  intros HN. induction xs as [|x xs IH] using rev_ind; intros L Z.
  - cbn [length] in * . apply hist_one; lia.
  - rewrite app_length in L. cbn [length] in L. unfold nans in Z. rewrite filter_app, app_length in Z. cbn [filter] in Z.
    assert (Nx : nan x = false) by (destruct (nan x); cbn in Z; [lia|reflexivity]).
    destruct IH as (h & E & Hb); [lia|unfold nans; lia|].
    change (ninf :: xs ++ [x]) with ((ninf :: xs) ++ [x]). rewrite update_all_snoc, E. cbn [bind].
    assert (LW : length (ninf :: xs) < W) by (cbn [length]; lia).
    destruct (hist_ninf_takes N W (ninf :: xs) h ninf (S (length xs)) [] x LW E Hb Nx) as (h' & E' & Hb'); [intros d []|].
    exists h'. split; auto. rewrite Hb', app_length. cbn [length]. reflexivity.
Qed.

(** Otherwise it gets a bin of its own. *)
Lemma hist_ninf_new N W (xs : list double) (h : hist B64) b r : length xs < W ->
  update_all hist_update (hist_new (A := B64) N W true) xs = Ret h -> h_bins h = b :: r -> b_left b <> ninf ->
  length (h_bins h) < N ->
  exists h', hist_update h ninf = Ret h' /\ h_bins h' = Bin ninf ninf 1 :: b :: r.
Proof.
  intros L E Hb Nb Lb. rewrite Hb in Lb. assert (Q : leb (a := B64) (b_left b) ninf = false).
  { change (Bleb (b_left b) ninf = false). destruct (b_left b) as [sb|[]| |[] m e B]; try reflexivity. now exfalso; apply Nb. }
  destruct (front_add N W xs h b r ninf L E Hb) as (h' & E' & Hb' & _); [intros d _; now apply dlt_inf|..].
  - rewrite Q. cbn [length] in Lb |- * . lia.
  - rewrite Q in Hb'. eauto.
Qed.

(** With one bin, an infinity and another number: no pair of bins to merge. *)
Lemma hist_two W (x y : double) : 2 <= W -> finite64 x = false \/ finite64 y = false -> leb (a := B64) x y = false ->
  Bsub x y = pinf -> update_all hist_update (hist_new (A := B64) 1 W true) [x; y] = Undef OutOfBounds.
Proof.
  intros HW Hf Hl Hg. destruct (run_fails 1 W [x; y]) as [(h & E)|E]; [|exact E]. exfalso.
  change [x; y] with ([x] ++ [y]) in E. rewrite update_all_snoc in E. apply bind_Ret in E as (t & Et & E).
  pose proof Et as Ec. rewrite <- (calls_updates (A := B64)) in Ec.
  destruct (run_basic (A := B64) _ _ _ _ Ec) as ((w & Lv & _) & T & Lb & _).
  assert (Bt : h_bins t = [Bin x x 1]).
  { destruct (hist_one 1 W x) as (t' & Et' & Z); [lia|lia|]. pose proof (eq_trans (eq_sym Et) Et') as Q. injection Q as ->. exact Z. }
  destruct (update_inv _ _ _ _ _ _ Lv E) as (i & bins & w' & f & _ & _ & Eb & U & _). clear Eb.
  destruct U as [i0 bins1 f1 bins2 w2 bins3 w3 tot Ff Ha Hd Hm]. rewrite Bt in Ha, Ff.
  destruct Hd as [(_ & -> & _ & _)|(HW' & _)]; [|rewrite hist_items_updates in T; cbn [length] in T; lia].
  assert (B2 : length bins1 = 2 /\ (bins1 = [Bin y y 1; Bin x x 1])).
  { destruct Ff as (l & rr & E1 & <- & [->|(l' & c & -> & Lt)] & _).
    2:{ exfalso. assert (c = Bin x x 1) as ->.
        { destruct l' as [|? [|]]; [injection E1 as -> _; reflexivity|discriminate E1|discriminate E1]. }
        unfold bin_lt in Lt. cbn [b_left] in Lt. apply dlt_finite in Lt as [L1 L2]. destruct Hf; congruence. }
    destruct Ha as [[T0|Z]|l c r0 _ E2 E3 Le|l c r0 _ E2 E3 Le].
    - rewrite hist_items_updates in T. cbn [length] in T. lia.
    - discriminate Z.
    - exfalso. destruct l; [|discriminate E3]. injection E2 as <- _. cbn [b_left] in Le. rewrite Hl in Le. discriminate Le.
    - destruct l; [|discriminate E3]. injection E2 as <- <-. auto. }
  destruct B2 as [B2 B3]. destruct Hm as [(Hm & _ & _)|(Hb & l & a & c & r & _ & Em & _ & _)]; [lia|].
  rewrite merge_infinite in Em; [discriminate Em|lia|]. intros l' b' c' r' E'. rewrite B3 in E'.
  destruct l' as [|? [|? [|]]]; try discriminate E'. injection E' as <- <- _. unfold gap. cbn [b_right]. exact Hg.
Qed.

Lemma hist_ninf_one_bin W (x : double) : 2 <= W -> nan x = false -> x <> ninf ->
  update_all hist_update (hist_new (A := B64) 1 W true) [x; ninf] = Undef OutOfBounds.
Proof.
  intros HW Nx Hx. apply hist_two; auto.
  - change (Bleb x ninf = false). destruct x as [s|[]| |[] m e B]; try discriminate Nx; try reflexivity. now exfalso; apply Hx.
  - destruct x as [s|[]| |[] m e B]; try discriminate Nx; try reflexivity. now exfalso; apply Hx.
Qed.

Lemma hist_pinf_one_bin W (x : double) : 2 <= W -> nan x = false -> x <> pinf ->
  update_all hist_update (hist_new (A := B64) 1 W true) [pinf; x] = Undef OutOfBounds.
Proof.
  intros HW Nx Hx. apply hist_two; auto.
  - change (Bleb pinf x = false). destruct x as [s|[]| |[] m e B]; try discriminate Nx; try reflexivity. now exfalso; apply Hx.
  - destruct x as [s|[]| |[] m e B]; try discriminate Nx; try reflexivity. now exfalso; apply Hx.
Qed.

(** ** FAME and MAD *)

Lemma fame_not_finite_step (s : fame B64) (x : double) : 0 < f_history s -> finite64 (f_median s) = false ->
  finite64 (f_median (fame_update s x)) = false.
Proof.
  intros H Nm. unfold fame_update. destruct (Nat.eqb_spec (f_history s) 0) as [|_]; [lia|]. cbn [f_median].
  destruct (ltb x (f_median s)); [now apply inf_sub_l|]. destruct (ltb (f_median s) x); [now apply inf_add_l|exact Nm].
Qed.

Lemma fame_never_finite (step eps : double) s0 (x : double) xs : fame_new (A := B64) step eps = Ret s0 -> finite64 x = false ->
  finite64 (fame_evaluate (fame_run s0 (x :: xs))) = false.
Proof.
  intros E Nx. assert (H0 : f_history s0 = 0) by (unfold fame_new in E; destruct (_ || _); [discriminate E|]; injection E as <-; reflexivity).
  assert (G : forall s : fame B64, 0 < f_history s -> finite64 (f_median s) = false -> finite64 (fame_evaluate (fame_run s xs)) = false).
  { clear. induction xs as [|y ys IH]; intros s H Nm; [exact Nm|]. unfold fame_run. cbn [fold_left]. apply IH; [cbn; lia|].
    now apply fame_not_finite_step. }
  change (fame_run s0 (x :: xs)) with (fame_run (fame_update s0 x) xs). apply G; [cbn; lia|].
  unfold fame_update. rewrite H0. cbn [Nat.eqb f_median negb andb].
  destruct (ltb x x); [now apply inf_sub_l|exact Nx].
Qed.

(** A later one moves the estimate by one step, like any far observation on that side. *)
Definition far_above (s : fame B64) (y : double) : Prop :=
  Bltb (f_median s) y = true /\ Bltb (Babs (Bsub y (Badd (f_median s) (f_step s)))) (f_step s) = false.
Definition far_below (s : fame B64) (y : double) : Prop :=
  Bltb y (f_median s) = true /\ Bltb (Babs (Bsub y (Bsub (f_median s) (f_step s)))) (f_step s) = false.

Lemma ltb_pinf (x : double) : Bltb pinf x = false. Proof. destruct x as [s|[]| |[] m e B]; reflexivity. Qed.
Lemma ltb_ninf (x : double) : Bltb x ninf = false. Proof. destruct x as [s|[]| |[] m e B]; reflexivity. Qed.
Lemma abs_sub_inf b (x : double) (z : double) : Bltb (Babs (Bsub (B754_infinity b) x)) z = false.
Proof. destruct b, x as [s|[]| |[] m e B], z as [s'|[]| |[] m' e' B']; reflexivity. Qed.

Lemma ltb_asym (x y : double) : Bltb x y = true -> Bltb y x = false.
Proof.
  intros H. destruct (nan x) eqn:Nx; [rewrite nan_ltb_l in H; [discriminate H|auto]|].
  destruct (nan y) eqn:Ny; [rewrite nan_ltb_r in H; [discriminate H|auto]|].
  apply X_ltb in H; auto. destruct (Bltb y x) eqn:Q; auto. apply X_ltb in Q; auto. lra.
Qed.

Lemma fame_pinf (s : fame B64) (y : double) : 0 < f_history s -> far_above s y -> fame_update s pinf = fame_update s y.
Proof.
  intros H [H1 H2]. unfold fame_update. destruct (Nat.eqb_spec (f_history s) 0) as [|_]; [lia|]. cbn [negb andb].
  change (@ltb B64) with (@Bltb 53 1024). rewrite ltb_pinf, (ltb_asym _ _ H1), H1.
  replace (Bltb (f_median s) pinf) with true.
  - change (@sub B64) with Bsub. change (@add B64) with Badd. change (@fabs B64) with (@Babs 53 1024). rewrite H2, abs_sub_inf. reflexivity.
  - symmetry. destruct (f_median s) as [b|[]| |[] m e B]; try reflexivity; destruct y as [b'|[]| |[] m' e' B']; discriminate H1.
Qed.

Lemma fame_ninf (s : fame B64) (y : double) : 0 < f_history s -> far_below s y -> fame_update s ninf = fame_update s y.
Proof.
  intros H [H1 H2]. unfold fame_update. destruct (Nat.eqb_spec (f_history s) 0) as [|_]; [lia|]. cbn [negb andb].
  change (@ltb B64) with (@Bltb 53 1024). rewrite H1.
  replace (Bltb ninf (f_median s)) with true.
  - change (@sub B64) with Bsub. change (@add B64) with Badd. change (@fabs B64) with (@Babs 53 1024). rewrite H2, abs_sub_inf. reflexivity.
  - symmetry. destruct (f_median s) as [b|[]| |[] m e B]; try reflexivity; destruct y as [b'|[]| |[] m' e' B']; discriminate H1.
Qed.

Lemma abs_inf_sub b (x : double) : finite64 x = true -> Babs (Bsub (B754_infinity b) x) = pinf.
Proof. destruct b, x as [s|[]| |[] m e B]; intros H; try discriminate H; reflexivity. Qed.

Lemma mad_pinf (s : mad B64) (y : double) : 0 < f_history (a_score s) -> 0 < f_history (a_error s) ->
  let m := fame_evaluate (fame_update (a_score s) y) in
  finite64 m = true -> far_above (a_score s) y -> far_above (a_error s) (Babs (Bsub y m)) ->
  mad_update s pinf = mad_update s y.
Proof.
  cbv zeta. intros H1 H2 Fm Hy He. unfold mad_update. rewrite (fame_pinf _ _ H1 Hy). f_equal.
  change (@fabs B64) with (@Babs 53 1024). change (@sub B64) with Bsub. rewrite (abs_inf_sub _ _ Fm). now apply fame_pinf.
Qed.

Lemma mad_ninf (s : mad B64) (y : double) : 0 < f_history (a_score s) -> 0 < f_history (a_error s) ->
  let m := fame_evaluate (fame_update (a_score s) y) in
  finite64 m = true -> far_below (a_score s) y -> far_above (a_error s) (Babs (Bsub y m)) ->
  mad_update s ninf = mad_update s y.
Proof.
  cbv zeta. intros H1 H2 Fm Hy He. unfold mad_update. rewrite (fame_ninf _ _ H1 Hy). f_equal.
  change (@fabs B64) with (@Babs 53 1024). change (@sub B64) with Bsub. rewrite (abs_inf_sub _ _ Fm). now apply fame_pinf.
Qed.

(** ** P2 *)

Definition inf_at (h : list double) (i : nat) : Prop := exists v, nth_error h i = Some v /\ finite64 v = false.

Lemma inf_store (h h' : list double) i j a : store h i a = Ret h' -> inf_at h j -> (j = i -> finite64 a = false) -> inf_at h' j.
Proof.
  intros E (v & Ev & Nv) Hi. apply store_inv in E as (-> & L). unfold inf_at. rewrite nth_error_set_nth.
  destruct (Nat.eqb_spec i j) as [->|N].
  - exists a. split; [|auto]. now rewrite (proj2 (Nat.ltb_lt _ _) L).
  - exists v. auto.
Qed.

Lemma parabolic_inf (h : list double) n i d v : parabolic (A := B64) h n i d = Ret v -> inf_at h i -> finite64 v = false.
Proof.
  intros E (hi & Eh & Nh). unfold parabolic in E.
  apply bind_Ret in E as (hp & _ & E). apply bind_Ret in E as (hi' & E1 & E). apply at_Ret in E1.
  apply bind_Ret in E as (hm & _ & E). apply bind_Ret in E as (n1 & _ & E). apply bind_Ret in E as (n2 & _ & E).
  apply bind_Ret in E as (n3 & _ & E). pose proof (eq_trans (eq_sym Eh) E1) as Z. injection Z as <-. injection E as <-. now apply inf_add_l.
Qed.

Lemma linear_inf (h : list double) n i d v : linear (A := B64) h n i d = Ret v -> inf_at h i -> finite64 v = false.
Proof.
  intros E (hi & Eh & Nh). unfold linear in E. apply bind_Ret in E as (hi' & E1 & E). apply at_Ret in E1.
  apply bind_Ret in E as (hj & _ & E). apply bind_Ret in E as (nj & _ & E).
  pose proof (eq_trans (eq_sym Eh) E1) as Z. injection Z as <-. injection E as <-. now apply inf_add_l.
Qed.

Lemma adjust_inf (des h : list double) n i h' n' j : adjustHeights (A := B64) des (h, n) i = Ret (h', n') -> inf_at h j -> inf_at h' j.
Proof.
  intros E H. unfold adjustHeights in E.
  apply bind_Ret in E as (d & _ & E). apply bind_Ret in E as (ni & _ & E). apply bind_Ret in E as (g1 & _ & E).
  apply bind_Ret in E as (g2 & _ & E).
  match type of E with (if ?c then _ else _) = _ => destruct c end; [|injection E as <- <-; exact H].
  apply bind_Ret in E as (q & Eq & E). apply bind_Ret in E as (hm & _ & E). apply bind_Ret in E as (hp & _ & E).
  apply bind_Ret in E as (h1 & Eh & E). apply bind_Ret in E as (ni' & _ & E). apply bind_Ret in E as (n1 & _ & E).
  injection E as <- _. match type of Eh with (if ?c then _ else _) = _ => destruct c end.
  - apply (inf_store _ _ _ _ _ Eh H). intros ->. exact (parabolic_inf _ _ _ _ _ Eq H).
  - apply bind_Ret in Eh as (v & El & Eh). apply (inf_store _ _ _ _ _ Eh H). intros ->. exact (linear_inf _ _ _ _ _ El H).
Qed.

Lemma findK_inf (h : list double) (x : double) h' k j : findK (A := B64) h x = Ret (h', k) -> inf_at h j -> 1 <= j <= 3 -> inf_at h' j.
Proof.
  intros E H J. unfold findK in E. do 5 (apply bind_Ret in E as (? & _ & E)).
  repeat match type of E with (if ?c then _ else _) = _ => destruct c end;
    try (injection E as <- <-; exact H);
    (apply bind_Ret in E as (h1 & Es & E); injection E as <- <-; apply (inf_store _ _ _ _ _ Es H); lia).
Qed.

Lemma p2_update_inf (s s' : p2 B64) (x : double) j : 5 <= p_history s -> p2_update s x = Ret s' ->
  inf_at (p_heights s) j -> 1 <= j <= 3 -> 5 <= p_history s' /\ inf_at (p_heights s') j.
Proof.
  intros H E N J. unfold p2_update in E. destruct (Nat.ltb_spec (p_history s) 5); [lia|].
  apply bind_Ret in E as ((h, k) & Ek & E). apply bind_Ret in E as (n & _ & E). apply bind_Ret in E as (d0 & _ & E).
  apply bind_Ret in E as ((h', n') & Ea & E). injection E as <-. cbn [p_history p_heights]. split; [lia|].
  pose proof (findK_inf _ _ _ _ _ Ek N J) as N1.
  match type of Ea with (if ?c then _ else _) = _ => destruct c end;
    apply bind_Ret in Ea as ((h1, n1) & E1 & Ea); apply bind_Ret in Ea as ((h2, n2) & E2 & Ea);
    exact (adjust_inf _ _ _ _ _ _ _ Ea (adjust_inf _ _ _ _ _ _ _ E2 (adjust_inf _ _ _ _ _ _ _ E1 N1))).
Qed.

Lemma p2_run_inf (s s' : p2 B64) xs j : 5 <= p_history s -> update_all p2_update s xs = Ret s' ->
  inf_at (p_heights s) j -> 1 <= j <= 3 -> 5 <= p_history s' /\ inf_at (p_heights s') j.
Proof.
  revert s. induction xs as [|x xs IH]; intros s H E N J; [injection E as <-; auto|].
  cbn [update_all] in E. apply bind_Ret in E as (t & Et & E).
  destruct (p2_update_inf _ _ _ _ H Et N J) as (H' & N'). exact (IH _ H' E N' J).
Qed.

Lemma p2_inf_forever (s s' : p2 B64) xs : 5 < p_history s -> update_all p2_update s xs = Ret s' ->
  (exists v, p2_evaluate s = Ret (s, v) /\ finite64 v = false) -> exists v, p2_evaluate s' = Ret (s', v) /\ finite64 v = false.
Proof.
  intros H E (v & Ev & Nv). unfold p2_evaluate in Ev |- * . destruct (Nat.leb_spec (p_history s) 5); [lia|].
  apply bind_Ret in Ev as (w & Ew & Ev). injection Ev as <-. apply at_Ret in Ew.
  assert (Hs : 5 < p_history s').
  { clear -H E. revert s H E. induction xs as [|x xs IH]; intros s H E; [injection E as <-; auto|].
    cbn [update_all] in E. apply bind_Ret in E as (t & Et & E). apply (IH t); auto.
    unfold p2_update in Et. destruct (Nat.ltb_spec (p_history s) 5); [lia|].
    apply bind_Ret in Et as ((h, k) & Ek & Et). apply bind_Ret in Et as (n & _ & Et). apply bind_Ret in Et as (d0 & _ & Et).
    apply bind_Ret in Et as ((h', n') & Ea & Et). injection Et as <-. cbn. lia. }
  destruct (p2_run_inf s s' xs 2 ltac:(lia) E) as (_ & (u & Eu & Nu)); [exists w; auto|lia|].
  destruct (Nat.leb_spec (p_history s') 5); [lia|]. exists u. split; [|exact Nu].
  apply (proj2 (at_Ret (p_heights s' : list (num B64)) 2 u)) in Eu. now rewrite Eu.
Qed.


Definition spoiled_inf : list double := map Bz [1; 2; 3; 4; 5; 6]%Z ++ [pinf; Bz 7].

Lemma evaluate_same (s s1 : p2 B64) (v : double) : 5 < p_history s -> p2_evaluate s = Ret (s1, v) -> p2_evaluate s = Ret (s, v).
Proof.
  intros H E. unfold p2_evaluate in E |- * . destruct (Nat.leb_spec (p_history s) 5); [lia|].
  apply bind_Ret in E as (u & Eu & E). injection E as <- <-. rewrite Eu. reflexivity.
Qed.

Lemma p2_one_inf : exists s0 s, p2_new (A := B64) (Bquot (Bz 1) (Bz 2)) = Ret s0 /\
  update_all p2_update s0 (map Bz [1; 2; 3; 4; 5; 6]%Z ++ [pinf; Bz 7]) = Ret s /\
  (exists v, p2_evaluate s = Ret (s, v) /\ eqb (a := B64) v pinf = true) /\
  forall ys s', update_all p2_update s ys = Ret s' -> exists v, p2_evaluate s' = Ret (s', v) /\ finite64 v = false.
Proof.
  assert (K : ok (p2_new (A := B64) (Bquot (Bz 1) (Bz 2))) (fun s0 => ok (update_all p2_update s0 spoiled_inf) (fun s =>
    Nat.ltb 5 (p_history s) && ok (p2_evaluate s) (fun sv => eqb (a := B64) (snd sv) pinf))) = true) by (vm_compute; reflexivity).
  apply ok_true in K as (s0 & E0 & K). apply ok_true in K as (s & Es & K). apply andb_true_iff in K as [K1 K2].
  apply Nat.ltb_lt in K1. apply ok_true in K2 as ((s1, v) & Ev & Nv). apply evaluate_same in Ev; auto. cbn [snd] in Nv.
  exists s0, s. split; [exact E0|]. split; [exact Es|]. split; [eauto|]. intros ys s' E. apply (p2_inf_forever s s' ys K1 E).
  exists v. split; [exact Ev|]. change (Beqb v pinf = true) in Nv. destruct v as [b|[]| |[] m e B]; try discriminate Nv; reflexivity.
Qed.

Lemma p2_inf_to_nan : exists s0 s, p2_new (A := B64) (Bquot (Bz 1) (Bz 2)) = Ret s0 /\
  update_all p2_update s0 (map Bz [1; 2; 3; 4; 5; 6]%Z ++ pinf :: map Bz [7; 8; 9; 10]%Z) = Ret s /\
  forall ys s', update_all p2_update s ys = Ret s' -> exists v, p2_evaluate s' = Ret (s', v) /\ nan v = true.
Proof.
  assert (K : ok (p2_new (A := B64) (Bquot (Bz 1) (Bz 2))) (fun s0 => ok (update_all p2_update s0 (map Bz [1; 2; 3; 4; 5; 6]%Z ++ pinf :: map Bz [7; 8; 9; 10]%Z)) (fun s =>
    Nat.ltb 5 (p_history s) && ok (p2_evaluate s) (fun sv => nan (snd sv)))) = true) by (vm_compute; reflexivity).
  apply ok_true in K as (s0 & E0 & K). apply ok_true in K as (s & Es & K). apply andb_true_iff in K as [K1 K2].
  apply Nat.ltb_lt in K1. apply ok_true in K2 as ((s1, v) & Ev & Nv). apply evaluate_same in Ev; auto.
  exists s0, s. split; [exact E0|]. split; [exact Es|]. intros ys s' E. apply (p2_nan_forever s s' ys K1 E). eauto.
Qed.
