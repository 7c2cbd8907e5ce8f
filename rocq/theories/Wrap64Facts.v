(** Facts about wrapping counters. *)

From Coq Require Import List Arith NArith ZArith Bool Lia Reals Lra.
From Flocq Require Import Core.Core IEEE754.BinarySingleNaN.
From Verif Require Import Outcome Arith Spec ListFacts FloatFacts FloatSpec Mean MeanSpec MeanFacts P2 Fame
  CounterSpec CounterFacts Wrap64.
Import ListNotations.
Local Open Scope nat_scope.

Lemma u64_small n : (N.of_nat n < 2 ^ 64)%N -> u64 n = n.
Proof. intros H. unfold u64. rewrite N.mod_small by exact H. apply Nat2N.id. Qed.

Lemma u64_succ n : u64 (u64 n + 1) = u64 (n + 1).
Proof.
  unfold u64. f_equal. rewrite !Nat2N.inj_add, N2Nat.id.
  rewrite N.add_mod_idemp_l by discriminate. reflexivity.
Qed.

Lemma u64_zero n : u64 n = 0 <-> (N.of_nat n mod 2 ^ 64 = 0)%N.
Proof.
  unfold u64. split; intros H.
  - rewrite <- (N2Nat.id (N.of_nat n mod 2 ^ 64)). rewrite H. reflexivity.
  - rewrite H. reflexivity.
Qed.

Section Generic.
  Context {A : arith}.

  Lemma mean_update_history (s : mean A) x k :
    mean_update (Mean (mn_window s) (mn_wsize s) k (mn_sum s)) x =
    (let* s' := mean_update s x in Ret (Mean (mn_window s') (mn_wsize s') (k + 1) (mn_sum s'))).
  Proof.
    unfold mean_update. cbn [mn_window mn_wsize mn_sum mn_history].
    destruct (mn_window s) as [w|]; [|reflexivity].
    destruct (Nat.ltb (mn_wsize s) (length w + 1)); [|reflexivity].
    destruct w; reflexivity.
  Qed.

  (** The wrapped run is the plain run with a wrapped counter. *)
  Lemma mean64_run W (xs : list A) :
    exists s, update_all mean_update (mean_new W) xs = Ret s /\ mean_inv W xs s /\
      update_all mean_update64 (mean_new W) xs = Ret (wrap_mean s).
  Proof.
    induction xs as [|x xs IH] using rev_ind.
    - exists (mean_new W). split; [reflexivity|]. split; [apply mean_new_inv|reflexivity].
    - destruct IH as [s [E1 [I1 E2]]].
      destruct (mean_step W xs s x I1) as [s' [E3 [I2 _]]].
      exists s'. rewrite !update_all_snoc, E1, E2. cbn [bind].
      split; [exact E3|]. split; [exact I2|].
      unfold mean_update64, wrap_mean at 1. rewrite mean_update_history, E3. cbn [bind].
      unfold wrap_mean. cbn [mn_window mn_wsize mn_history mn_sum].
      rewrite u64_succ. rewrite (mean_up _ _ _ E3), Nat.add_1_r. reflexivity.
  Qed.

  Lemma mean64_closed W (xs : list A) :
    exists s t, update_all mean_update (mean_new W) xs = Ret s /\
      update_all mean_update64 (mean_new W) xs = Ret t /\
      mn_window t = mn_window s /\ mn_sum t = mn_sum s /\ mn_history t = u64 (length xs).
  Proof.
    destruct (mean64_run W xs) as [s [E1 [[Hw Hs Hh] E2]]].
    exists s, (wrap_mean s). repeat split; try assumption. cbn. rewrite Hh. reflexivity.
  Qed.

  Lemma mean64_same W (xs : list A) : (N.of_nat (length xs) < 2 ^ 64)%N ->
    update_all mean_update64 (mean_new W) xs = update_all mean_update (mean_new W) xs.
  Proof.
    intros H. destruct (mean64_run W xs) as [s [E1 [[Hw Hs Hh] E2]]].
    rewrite E2, E1. unfold wrap_mean. rewrite Hh, (u64_small _ H), <- Hh. destruct s; reflexivity.
  Qed.

  Lemma variance64_run W (xs : list A) m q :
    update_all mean_update64 (mean_new W) xs = Ret m ->
    update_all mean_update64 (mean_new W) (map (fun x => x *. x) xs) = Ret q ->
    update_all variance_update64 (variance_new W) xs = Ret (Variance (new_window W) W 0 m q).
  Proof.
    revert m q. induction xs as [|x xs IH] using rev_ind; intros m q Em Eq.
    - cbn in Em, Eq. injection Em as <-. injection Eq as <-. reflexivity.
    - rewrite map_app in Eq. cbn [map] in Eq. rewrite update_all_snoc in Em. rewrite update_all_snoc in Eq. rewrite update_all_snoc.
      apply bind_Ret in Em as (m0 & Em0 & Em). apply bind_Ret in Eq as (q0 & Eq0 & Eq).
      rewrite (IH _ _ Em0 Eq0). cbn [bind]. unfold variance_update64. cbn [va_mean va_sq].
      rewrite Em. cbn [bind]. rewrite Eq. reflexivity.
  Qed.
  Lemma variance_run_parts W (xs : list A) m q :
    update_all mean_update (mean_new W) xs = Ret m ->
    update_all mean_update (mean_new W) (map (fun x => x *. x) xs) = Ret q ->
    update_all variance_update (variance_new W) xs = Ret (Variance (new_window W) W 0 m q).
  Proof.
    revert m q. induction xs as [|x xs IH] using rev_ind; intros m q Em Eq.
    - cbn in Em, Eq. injection Em as <-. injection Eq as <-. reflexivity.
    - rewrite map_app in Eq. cbn [map] in Eq. rewrite update_all_snoc in Em. rewrite update_all_snoc in Eq. rewrite update_all_snoc.
      apply bind_Ret in Em as (m0 & Em0 & Em). apply bind_Ret in Eq as (q0 & Eq0 & Eq).
      rewrite (IH _ _ Em0 Eq0). cbn [bind]. unfold variance_update. cbn [va_mean va_sq].
      rewrite Em. cbn [bind]. rewrite Eq. reflexivity.
  Qed.

  Lemma variance64_same W (xs : list A) : (N.of_nat (length xs) < 2 ^ 64)%N ->
    update_all variance_update64 (variance_new W) xs = update_all variance_update (variance_new W) xs.
  Proof.
    intros H. destruct (mean64_run W xs) as [m [Em _]].
    destruct (mean64_run W (map (fun x => x *. x) xs)) as [q [Eq _]].
    assert (H' : (N.of_nat (length (map (fun x => x *. x) xs)) < 2 ^ 64)%N) by (rewrite map_length; exact H).
    rewrite (variance_run_parts W xs m q Em Eq).
    apply variance64_run; [rewrite (mean64_same W xs H)|rewrite (mean64_same W _ H')]; assumption.
  Qed.

  (** FAME and MAD as folds. *)
  Lemma fame_same xs : forall s : fame A, (N.of_nat (f_history s + length xs) < 2 ^ 64)%N ->
    fold_left fame_update64 xs s = fold_left fame_update xs s /\
    f_history (fold_left fame_update xs s) = f_history s + length xs.
  Proof.
    induction xs as [|x xs IH]; intros s H.
    - cbn. split; [reflexivity|lia].
    - cbn [fold_left length] in * .
      assert (E : fame_update64 s x = fame_update s x).
      { unfold fame_update64. rewrite u64_small; [destruct (fame_update s x); reflexivity|].
        cbn [fame_update f_history]. lia. }
      rewrite E. destruct (IH (fame_update s x)) as [H1 H2].
      + cbn [fame_update f_history]. lia.
      + split; [exact H1|]. rewrite H2. cbn [fame_update f_history]. lia.
  Qed.

  Lemma fame_history64 xs : forall s : fame A, f_history s = u64 (f_history s) ->
    f_history (fold_left fame_update64 xs s) = u64 (f_history s + length xs).
  Proof.
    induction xs as [|x xs IH]; intros s H.
    - cbn. rewrite Nat.add_0_r. exact H.
    - cbn [fold_left length].
      assert (E : f_history (fame_update64 s x) = u64 (f_history s + 1)) by reflexivity.
      assert (U : forall n k, u64 (u64 n + k) = u64 (n + k)).
      { intros n k. unfold u64. f_equal. rewrite !Nat2N.inj_add, N2Nat.id.
        rewrite N.add_mod_idemp_l by discriminate. reflexivity. }
      rewrite IH; rewrite E.
      + rewrite U. f_equal. lia.
      + rewrite <- (Nat.add_0_r (u64 (f_history s + 1))) at 2. rewrite U, Nat.add_0_r. reflexivity.
  Qed.

  Lemma mad_same xs : forall s : mad A,
    (N.of_nat (f_history (a_score s) + length xs) < 2 ^ 64)%N ->
    (N.of_nat (f_history (a_error s) + length xs) < 2 ^ 64)%N ->
    (N.of_nat (a_history s + length xs) < 2 ^ 64)%N ->
    fold_left mad_update64 xs s = fold_left mad_update xs s.
  Proof.
    induction xs as [|x xs IH]; intros s H1 H2 H3; [reflexivity|].
    cbn [fold_left length] in * .
    assert (F : forall (f : fame A) y, (N.of_nat (f_history f + S (length xs)) < 2 ^ 64)%N ->
              fame_update64 f y = fame_update f y).
    { intros f y H. unfold fame_update64. rewrite u64_small; [destruct (fame_update f y); reflexivity|].
      cbn [fame_update f_history]. lia. }
    assert (E : mad_update64 s x = mad_update s x).
    { unfold mad_update64, mad_update. rewrite !F by assumption. rewrite u64_small by lia. reflexivity. }
    rewrite E. apply IH; cbn [mad_update a_score a_error a_history fame_update f_history]; lia.
  Qed.

  (** The windowed quantile. *)
  Lemma wp2_step_same (s : wp2 A) x :
    (N.of_nat (w_wsize s + 1) < 2 ^ 64)%N -> (N.of_nat (S (w_history s)) < 2 ^ 64)%N ->
    wp2_update64 s x = wp2_update s x.
  Proof.
    intros HW Hh. unfold wp2_update64, wp2_update. rewrite (u64_small _ HW), (u64_small _ Hh).
    destruct (p2_update (w_p2 s) x) as [p| |]; cbn [bind]; [|reflexivity|reflexivity].
    destruct (Nat.ltb 0 (w_wsize s)); cbn [andb]; [|reflexivity].
    replace (Nat.eqb (w_wsize s + 1) 0) with false by (symmetry; apply Nat.eqb_neq; lia).
    reflexivity.
  Qed.

  Lemma wp2_update_wsize (s : wp2 A) x s' : wp2_update s x = Ret s' -> w_wsize s' = w_wsize s.
  Proof.
    unfold wp2_update. intros E. apply bind_Ret in E as (p & _ & E). destruct (_ && _)%bool.
    - apply bind_Ret in E as ([p' v] & _ & E). now injection E as <-.
    - now injection E as <-.
  Qed.
  Lemma wp2_evaluate_wsize (s : wp2 A) s' v : wp2_evaluate s = Ret (s', v) -> w_wsize s' = w_wsize s.
  Proof.
    unfold wp2_evaluate. destruct (Nat.ltb _ _).
    - intros E. apply bind_Ret in E as ([p w] & _ & E). now injection E as <- _.
    - destruct (Nat.eqb _ _); [discriminate|]. intros E.
      apply bind_Ret in E as ([p w] & _ & E). now injection E as <- _.
  Qed.

  Lemma wp2_runs os : forall s : wp2 A,
    (N.of_nat (w_wsize s + 1) < 2 ^ 64)%N -> (N.of_nat (w_history s + observed os) < 2 ^ 64)%N ->
    stat_run wp2_update64 wp2_evaluate s os = stat_run wp2_update wp2_evaluate s os.
  Proof.
    induction os as [|[x|] os IH]; intros s HW Hh; [reflexivity| |]; cbn [stat_run observed] in * .
    - rewrite wp2_step_same by (try assumption; lia).
      destruct (wp2_update s x) as [s'| |] eqn:E; cbn [bind]; [|reflexivity|reflexivity].
      apply IH; [rewrite (wp2_update_wsize _ _ _ E); exact HW|rewrite (wp2_up _ _ _ E); lia].
    - destruct (wp2_evaluate s) as [[s' v]| |] eqn:E; cbn [bind]; [|reflexivity|reflexivity].
      apply IH; [rewrite (wp2_evaluate_wsize _ _ _ E); exact HW|rewrite (wp2_ask _ _ _ E); exact Hh].
  Qed.

  Lemma wp2_same (q : A) W os s0 : wp2_new q W = Ret s0 ->
    (N.of_nat W + 1 < 2 ^ 64)%N -> (N.of_nat (observed os) < 2 ^ 64)%N ->
    stat_run wp2_update64 wp2_evaluate s0 os = stat_run wp2_update wp2_evaluate s0 os.
  Proof.
    intros E HW Hh. apply wp2_runs.
    - unfold wp2_new in E. apply bind_Ret in E as (p & _ & E). injection E as <-. cbn [w_wsize]. lia.
    - rewrite (wp2_zero _ _ _ E). exact Hh.
  Qed.

  (** windowSize = 2^64 - 1. *)
  Lemma wp2_max (q : A) W s0 x : wp2_new q W = Ret s0 -> (N.of_nat W + 1 = 2 ^ 64)%N ->
    wp2_update64 s0 x = Undef DivByZero.
  Proof.
    unfold wp2_new, p2_new. destruct (_ || _)%bool; [discriminate|]. intros E HW. cbn [bind] in E.
    injection E as <-. unfold wp2_update64. cbn [w_p2 w_wsize w_history].
    match goal with |- context [p2_update ?s0 x] =>
      assert (Hp : exists p, p2_update s0 x = Ret p) by (eexists; reflexivity) end.
    destruct Hp as [p Hp]. rewrite Hp. cbn [bind].
    assert (H0 : Nat.ltb 0 W = true) by (apply Nat.ltb_lt; lia).
    assert (H1 : Nat.eqb (u64 (W + 1)) 0 = true).
    { apply Nat.eqb_eq, u64_zero. replace (N.of_nat (W + 1)) with (N.of_nat W + 1)%N by lia. rewrite HW. reflexivity. }
    rewrite H0, H1. reflexivity.
  Qed.
End Generic.

(** The reported mean in exact arithmetic. *)
Local Open Scope R_scope.

Lemma mean64_reported W (xs : list R) :
  exists t, update_all (mean_update64 (A := RA)) (mean_new W) xs = Ret t /\
    mean_evaluate (A := RA) t =
      (if N.eqb (N.of_nat (length xs) mod 2 ^ 64) 0 then 0
       else match W with
            | O => rsum xs / INR (N.to_nat (N.of_nat (length xs) mod 2 ^ 64))
            | S _ => avg (window_of W xs)
            end).
Proof.
  destruct (mean_exact_state W xs) as (s & E & [Hw Hs Hh] & Hsum).
  destruct (mean64_run (A := RA) W xs) as (s' & E' & _ & E64).
  assert (s' = s) by (pose proof (eq_trans (eq_sym E') E) as H; injection H as ->; reflexivity). subst s'.
  exists (wrap_mean s). split; [exact E64|].
  unfold mean_evaluate, wrap_mean. cbn [mn_history mn_window mn_sum]. rewrite Hh, Hw, Hsum.
  change (num RA) with R.
  destruct (N.eqb_spec (N.of_nat (length xs) mod 2 ^ 64) 0) as [L|L].
  - rewrite (proj2 (u64_zero _) L). reflexivity.
  - destruct (Nat.eqb_spec (u64 (length xs)) 0) as [K|K]; [apply u64_zero in K; contradiction|].
    destruct W as [|W']; cbn [Nat.ltb Nat.leb].
    + unfold of_nat. cbn. rewrite <- INR_IZR_INZ. reflexivity.
    + unfold of_nat. cbn. rewrite <- INR_IZR_INZ. unfold avg, window_of.
      destruct (lastn (S W') xs) eqn:E2; [|reflexivity].
      assert (Kl : length (lastn (S W') xs) = 0%nat) by (rewrite E2; auto). rewrite lastn_length in Kl.
      destruct xs as [|y ys]; [|cbn [length] in Kl; lia]. exfalso. apply L. reflexivity.
Qed.

Lemma rsum_repeat c n : rsum (repeat c n) = INR n * c.
Proof. induction n as [|n IH]; [cbn; lra|]. cbn [repeat rsum]. rewrite IH, S_INR. lra. Qed.

Lemma mean64_wrong n : (N.of_nat n = 2 ^ 64 + 1)%N ->
  exists t, update_all (mean_update64 (A := RA)) (mean_new 0) (repeat 1 n) = Ret t /\
    mean_evaluate (A := RA) t = INR n.
Proof.
  intros H. destruct (mean64_reported 0 (repeat 1 n)) as [t [E V]]. exists t. split; [exact E|].
  rewrite repeat_length, H in V. change ((2 ^ 64 + 1) mod 2 ^ 64)%N with 1%N in V.
  cbn [N.eqb N.to_nat] in V. change (Pos.to_nat 1) with 1%nat in V.
  rewrite V, rsum_repeat. cbn [INR]. lra.
Qed.

Lemma mean64_blank W (xs : list R) : (N.of_nat (length xs) mod 2 ^ 64 = 0)%N ->
  exists t, update_all (mean_update64 (A := RA)) (mean_new W) xs = Ret t /\ mean_evaluate (A := RA) t = 0.
Proof.
  intros H. destruct (mean64_reported W xs) as [t [E V]]. exists t. split; [exact E|].
  rewrite H in V. exact V.
Qed.

(** FAME starts again. *)
Lemma fame_first {A : arith} (irr : forall x : A, ltb x x = false) (s : fame A) (x : A) :
  f_history s = 0%nat -> f_median (fame_update64 s x) = x.
Proof.
  intros H. unfold fame_update64, fame_update. rewrite H. cbn [Nat.eqb f_median]. rewrite irr. reflexivity.
Qed.

Lemma fame64_restart {A : arith} (irr : forall x : A, ltb x x = false) (step eps : A) s0 (xs : list A) (x : A) :
  fame_new step eps = Ret s0 -> (N.of_nat (length xs) mod 2 ^ 64 = 0)%N ->
  fame_evaluate (fold_left fame_update64 (xs ++ [x]) s0) = x.
Proof.
  intros E H. rewrite fold_left_app. cbn [fold_left]. apply fame_first; [exact irr|].
  assert (H0 : f_history s0 = 0%nat).
  { unfold fame_new in E. destruct (_ || _)%bool; [discriminate E|]. injection E as <-. reflexivity. }
  rewrite fame_history64; rewrite H0; [|reflexivity]. apply u64_zero. exact H.
Qed.

Lemma mad_histories {A : arith} (xs : list A) : forall s : mad A,
  f_history (a_score s) = f_history (a_error s) -> f_history (a_score s) = u64 (f_history (a_score s)) ->
  f_history (a_score (fold_left mad_update64 xs s)) = u64 (f_history (a_score s) + length xs) /\
  f_history (a_error (fold_left mad_update64 xs s)) = u64 (f_history (a_score s) + length xs).
Proof.
  assert (U : forall n k, u64 (u64 n + k) = u64 (n + k)).
  { intros n k. unfold u64. f_equal. rewrite !Nat2N.inj_add, N2Nat.id.
    rewrite N.add_mod_idemp_l by discriminate. reflexivity. }
  induction xs as [|x xs IH]; intros s He Hu.
  - cbn [fold_left length]. rewrite Nat.add_0_r. split; [exact Hu|]. rewrite <- He. exact Hu.
  - cbn [fold_left length].
    assert (E1 : f_history (a_score (mad_update64 s x)) = u64 (f_history (a_score s) + 1)) by reflexivity.
    assert (E2 : f_history (a_error (mad_update64 s x)) = u64 (f_history (a_error s) + 1)) by reflexivity.
    destruct (IH (mad_update64 s x)) as [H1 H2].
    + rewrite E1, E2, He. reflexivity.
    + rewrite E1. rewrite <- (Nat.add_0_r (u64 _)) at 2. rewrite U, Nat.add_0_r. reflexivity.
    + rewrite H1, H2, E1, U. split; f_equal; lia.
Qed.

Lemma mad64_restart {A : arith} (irr : forall x : A, ltb x x = false) s0 (xs : list A) (x : A) :
  mad_new = Ret s0 -> (N.of_nat (length xs) mod 2 ^ 64 = 0)%N ->
  mad_evaluate (fold_left mad_update64 (xs ++ [x]) s0) = fabs (x -. x).
Proof.
  intros E H. rewrite fold_left_app. cbn [fold_left].
  assert (H0 : f_history (a_score s0) = 0%nat /\ f_history (a_error s0) = 0%nat).
  { unfold mad_new in E. apply bind_Ret in E as (f & Ef & E). apply bind_Ret in E as (g & Eg & E).
    injection E as <-. unfold fame_new in Ef, Eg. destruct (_ || _)%bool; [discriminate Ef|].
    injection Ef as <-. injection Eg as <-. split; reflexivity. }
  destruct H0 as [Ha Hb].
  destruct (mad_histories xs s0) as [H1 H2]; [congruence|rewrite Ha; reflexivity|].
  rewrite Ha in H1, H2. cbn [Nat.add] in H1, H2. rewrite (proj2 (u64_zero _) H) in H1, H2.
  unfold mad_evaluate, mad_update64, fame_evaluate. cbn [a_error].
  rewrite fame_first by assumption. rewrite fame_first by assumption. reflexivity.
Qed.

Lemma mad_same_new {A : arith} (xs : list A) m0 : (N.of_nat (length xs) < 2 ^ 64)%N -> mad_new = Ret m0 ->
  fold_left mad_update64 xs m0 = fold_left mad_update xs m0.
Proof.
  intros H E. unfold mad_new in E. apply bind_Ret in E as (f & Ef & E). apply bind_Ret in E as (g & Eg & E).
  injection E as <-. unfold fame_new in Ef, Eg. destruct (_ || _)%bool; [discriminate Ef|].
  injection Ef as <-. injection Eg as <-. apply mad_same; exact H.
Qed.
