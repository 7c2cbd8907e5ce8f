(** Larger observations and larger estimates. *)

From Coq Require Import List Reals ZArith Lra Lia Bool Arith Sorted.
From Flocq Require Import Core.Core IEEE754.BinarySingleNaN.
From Verif Require Import Outcome Arith Mean Fame P2 Spec AskSpec MeanSpec FameSpec FloatSpec ListFacts FloatFacts UtilsFacts MeanFacts FameFacts P2Facts P2Witness.
Import ListNotations.
Open Scope R_scope.

(** ** The mean, exact *)

Lemma Forall2_len {X Y} (P : X -> Y -> Prop) l l' : Forall2 P l l' -> length l = length l'.
Proof. induction 1; cbn; auto. Qed.

Lemma Forall2_skipn {X Y} (P : X -> Y -> Prop) n l l' : Forall2 P l l' -> Forall2 P (skipn n l) (skipn n l').
Proof. intros H. revert n. induction H; intros [|n]; cbn; auto. Qed.

Lemma rsum_le l l' : Forall2 Rle l l' -> rsum l <= rsum l'.
Proof. induction 1; unfold rsum in * ; cbn in * ; lra. Qed.

Lemma avg_le l l' : Forall2 Rle l l' -> avg l <= avg l'.
Proof.
  intros H. unfold avg. rewrite <- (Forall2_len _ _ _ H). destruct l as [|a l].
  - inversion H. subst. lra.
  - inversion H as [|a' b' k k' Hab Hk]; subst. apply Rmult_le_compat_r; [|apply rsum_le, H]. apply Rlt_le, Rinv_0_lt_compat, lt_0_INR. cbn. lia.
Qed.

Lemma window_le W (xs ys : list R) : Forall2 Rle xs ys -> Forall2 Rle (window_of W xs) (window_of W ys).
Proof.
  intros H. unfold window_of. destruct W; auto. unfold lastn. rewrite <- (Forall2_len _ _ _ H). apply Forall2_skipn, H.
Qed.

Lemma mean_mono W (xs ys : list R) : Forall2 Rle xs ys ->
  exists s t, update_all (mean_update (A := RA)) (mean_new W) xs = Ret s /\
    update_all (mean_update (A := RA)) (mean_new W) ys = Ret t /\ mean_evaluate (A := RA) s <= mean_evaluate (A := RA) t.
Proof.
  intros H. destruct (mean_exact W xs) as (s & E & V), (mean_exact W ys) as (t & E' & V').
  exists s, t. split; auto. split; auto. rewrite V, V'. apply avg_le, window_le. auto.
Qed.

(** ** The mean in doubles, before the window slides *)

Lemma add_mono (s t x y : double) : nan s = false -> nan t = false -> finite64 x = true -> finite64 y = true ->
  X s <= X t -> B2R x <= B2R y ->
  nan (Badd s x) = false /\ nan (Badd t y) = false /\ X (Badd s x) <= X (Badd t y).
Proof.
  intros Ns Nt Fx Fy Hs Hx.
  assert (N : forall a b : double, nan a = false -> finite64 b = true -> nan (Badd a b) = false).
  { intros a b Na Fb. destruct (finite64 a) eqn:Fa; [apply (X_add a b Fa Fb)|].
    destruct a as [|sa| |]; try discriminate Fa; try discriminate Na. destruct b as [|sb| |]; try discriminate Fb; reflexivity. }
  split; [auto|]. split; [auto|].
  assert (I : forall (sg : bool) (b : double), finite64 b = true -> Badd (B754_infinity sg) b = B754_infinity sg).
  { intros sg b Fb. destruct b as [|sb| |]; try discriminate Fb; reflexivity. }
  destruct (finite64 s) eqn:Fs, (finite64 t) eqn:Ft.
  - destruct (X_add s x Fs Fx) as [-> _], (X_add t y Ft Fy) as [-> _]. rewrite !X_fin in Hs by auto. apply R64_le. lra.
  - destruct t as [|[]| |]; try discriminate Ft; try discriminate Nt.
    + assert (H : Rabs (X s) < big) by (apply fin_X; auto). apply Rabs_lt_inv in H. unfold X in Hs at 2. lra.
    + rewrite (I false y Fy). pose proof (X_bound (Badd s x)). unfold X at 2. lra.
  - destruct s as [|[]| |]; try discriminate Fs; try discriminate Ns.
    + rewrite (I true x Fx). pose proof (X_bound (Badd t y)). unfold X at 1. lra.
    + assert (H : Rabs (X t) < big) by (apply fin_X; auto). apply Rabs_lt_inv in H. unfold X in Hs at 1. lra.
  - destruct s as [|a| |]; try discriminate Fs; try discriminate Ns. destruct t as [|b| |]; try discriminate Ft; try discriminate Nt.
    rewrite (I a x Fx), (I b y Fy). exact Hs.
Qed.

Lemma div_mono (s t c : double) : nan s = false -> nan t = false -> finite64 c = true -> 0 < B2R c ->
  X s <= X t -> nan (Bquot s c) = false /\ nan (Bquot t c) = false /\ X (Bquot s c) <= X (Bquot t c).
Proof.
  intros Ns Nt Fc Hc Hs.
  assert (I : forall (sg : bool), Bquot (B754_infinity sg) c = B754_infinity sg).
  { intros sg. destruct c as [|sb| |sc m e B]; try discriminate Fc; [cbn in Hc; lra|].
    destruct sc; [|destruct sg; reflexivity].
    exfalso. revert Hc. unfold B2R. unfold F2R. cbn [Fnum Fexp cond_Zopp]. intros Hc.
    pose proof (IZR_lt (Z.neg m) 0 ltac:(lia)) as H1. pose proof (bpow_gt_0 radix2 e) as H2. cbn [cond_Zopp] in Hc.
    change (- Z.pos m)%Z with (Z.neg m) in Hc. nra. }
  assert (N : forall a : double, nan a = false -> nan (Bquot a c) = false).
  { intros a Na. destruct (finite64 a) eqn:Fa; [apply (X_div a c Fa Fc); lra|].
    destruct a as [|sa| |]; try discriminate Fa; try discriminate Na. now rewrite I. }
  split; [auto|]. split; [auto|].
  assert (HD : forall a b, a <= b -> a / B2R c <= b / B2R c) by (intros; apply Rmult_le_compat_r; auto; apply Rlt_le, Rinv_0_lt_compat; auto).
  destruct (finite64 s) eqn:Fs, (finite64 t) eqn:Ft.
  - destruct (X_div s c Fs Fc) as [-> _]; [lra|]. destruct (X_div t c Ft Fc) as [-> _]; [lra|]. rewrite !X_fin in Hs by auto. apply R64_le. auto.
  - destruct t as [|[]| |]; try discriminate Ft; try discriminate Nt.
    + assert (H : Rabs (X s) < big) by (apply fin_X; auto). apply Rabs_lt_inv in H. unfold X in Hs at 2. lra.
    + rewrite (I false). pose proof (X_bound (Bquot s c)). unfold X at 2. lra.
  - destruct s as [|[]| |]; try discriminate Fs; try discriminate Ns.
    + rewrite (I true). pose proof (X_bound (Bquot t c)). unfold X at 1. lra.
    + assert (H : Rabs (X t) < big) by (apply fin_X; auto). apply Rabs_lt_inv in H. unfold X in Hs at 1. lra.
  - destruct s as [|a| |]; try discriminate Fs; try discriminate Ns. destruct t as [|b| |]; try discriminate Ft; try discriminate Nt.
    rewrite (I a), (I b). exact Hs.
Qed.

Definition leF (x y : double) : Prop := finite64 x = true /\ finite64 y = true /\ B2R x <= B2R y.

Definition wlen (o : option (list double)) : option nat := match o with Some w => Some (length w) | None => None end.

Record alike (s t : mean B64) : Prop := {
  al_window : wlen (mn_window s) = wlen (mn_window t);
  al_wsize : mn_wsize s = mn_wsize t;
  al_history : mn_history s = mn_history t;
  al_nan_s : nan (mn_sum s) = false;
  al_nan_t : nan (mn_sum t) = false;
  al_sum : X (mn_sum s) <= X (mn_sum t) }.

Lemma mean_run_mono xs ys : Forall2 leF xs ys -> forall s t : mean B64, alike s t ->
  (forall w, mn_window s = Some w -> (length w + length xs <= mn_wsize s)%nat) ->
  exists s' t', update_all mean_update s xs = Ret s' /\ update_all mean_update t ys = Ret t' /\ alike s' t'.
Proof.
  induction 1 as [|x y xs ys (Fx & Fy & Hxy) H IH]; intros s t [HW HZ HH Ns Nt HS] HL.
  - exists s, t. split; [reflexivity|]. split; [reflexivity|]. constructor; auto.
  - destruct (add_mono (mn_sum s) (mn_sum t) x y Ns Nt Fx Fy HS Hxy) as (N1 & N2 & HS').
    assert (ST : exists s1 t1, mean_update s x = Ret s1 /\ mean_update t y = Ret t1 /\ alike s1 t1 /\
      forall w, mn_window s1 = Some w -> (length w + length xs <= mn_wsize s1)%nat).
    { unfold mean_update. rewrite <- HZ, <- HH.
      destruct (mn_window s) as [w|] eqn:Ew, (mn_window t) as [v|] eqn:Ev; try discriminate HW; cbn [bind].
      - cbn [wlen] in HW. injection HW as HW. specialize (HL w eq_refl). cbn [length] in HL.
        change (num B64) with double in * . rewrite <- HW.
        destruct (Nat.ltb_spec (mn_wsize s) (length w + 1)); [lia|]. cbn [bind].
        eexists _, _. split; [reflexivity|]. split; [reflexivity|]. split.
        + constructor; cbn; auto. rewrite !app_length, HW. reflexivity.
        + cbn [mn_window mn_wsize]. intros w' E. injection E as <-. rewrite app_length. cbn [length]. lia.
      - eexists _, _. split; [reflexivity|]. split; [reflexivity|]. split; [constructor; cbn; auto|].
        cbn [mn_window]. intros w' E. discriminate E. }
    destruct ST as (s1 & t1 & E1 & E2 & HA & HL'). cbn [update_all]. rewrite E1, E2. cbn [bind]. apply IH; auto.
Qed.

Lemma of_nat_pos n : (0 < n)%nat -> (Z.of_nat n <= 2 ^ 53)%Z -> finite64 (of_nat (A := B64) n) = true /\ 0 < B2R (of_nat (A := B64) n).
Proof.
  intros H HM. unfold of_nat. change (of_Z (a := B64)) with Bz. destruct (Bz_exact (Z.of_nat n)) as [E F]; [lia|].
  split; auto. rewrite E. apply (IZR_lt 0). lia.
Qed.

Lemma div_nat (s t : double) n m k : n = k -> m = k -> k <> 0%nat -> (Z.of_nat k <= 2 ^ 53)%Z -> nan s = false -> nan t = false ->
  X s <= X t -> nan (Bquot s (of_nat (A := B64) n)) = false /\ nan (Bquot t (of_nat (A := B64) m)) = false /\
    X (Bquot s (of_nat (A := B64) n)) <= X (Bquot t (of_nat (A := B64) m)).
Proof. intros -> -> H0 HM Ns Nt H. destruct (of_nat_pos k) as [Fc Pc]; try lia. apply div_mono; auto. Qed.

Lemma mean_mono_double W (xs ys : list double) : Forall2 leF xs ys -> (W = 0 \/ length xs <= W)%nat -> (Z.of_nat (length xs) <= 2 ^ 53)%Z ->
  exists s t, update_all (mean_update (A := B64)) (mean_new W) xs = Ret s /\
    update_all (mean_update (A := B64)) (mean_new W) ys = Ret t /\
    nan (mean_evaluate (A := B64) s) = false /\ nan (mean_evaluate (A := B64) t) = false /\
    X (mean_evaluate (A := B64) s) <= X (mean_evaluate (A := B64) t).
Proof.
  intros H HW HM.
  assert (N0 : nan (Bz 0) = false) by reflexivity.
  destruct (mean_run_mono xs ys H (mean_new (A := B64) W) (mean_new (A := B64) W)) as (s & t & E & E' & [W1 W2 W3 Ns Nt HS]).
  { constructor; auto; cbn; lra. }
  { intros w Ew. unfold mean_new in Ew |- * . cbn [mn_window mn_wsize] in * . unfold new_window in Ew.
    destruct (Nat.ltb_spec 0 W); [|discriminate Ew]. injection Ew as <-. cbn [length]. lia. }
  exists s, t. split; auto. split; auto.
  destruct (run64 W xs s E) as [Hw _ Hh].
  unfold mean_evaluate. rewrite <- W3. unfold double in * . rewrite Hh. destruct (Nat.eqb (length xs) 0) eqn:L; cbv beta iota; change (num B64) with (binary_float 53 1024) in * ; rewrite L.
  { split; [exact N0|]. split; [exact N0|]. apply Rle_refl. }
  apply Nat.eqb_neq in L.
  destruct (mn_window s) as [w|] eqn:Ew, (mn_window t) as [v|] eqn:Ev; try discriminate W1.
  - cbn [wlen] in W1. injection W1 as W1.
    assert (Lw : length w = length xs).
    { destruct W; [discriminate Hw|]. injection Hw as ->. etransitivity; [apply lastn_length|]. destruct HW as [HW|HW]; [discriminate HW|]. apply Nat.min_l || apply Nat.min_r; exact HW. }
    apply (div_nat _ _ _ _ (length xs)); auto. exact (eq_trans (eq_sym W1) Lw).
  - apply (div_nat _ _ _ _ (length xs)); auto.
Qed.

(** ** P2 while it stores its observations *)

Section SMALL.
  Context {A : arith}.
  Variable V : A -> R.
  Variable N : A -> Prop.
  Hypothesis N0 : N (of_Z 0).
  Hypothesis HN : forall x, N x -> not_nan x = true.
  Hypothesis HLT : forall x y, N x -> N y -> ltb x y = true <-> V x < V y.

  Definition le2 (x y : A) : Prop := N x /\ N y /\ V x <= V y.

  Lemma le2_trans x y z : le2 x y -> le2 y z -> le2 x z.
  Proof. intros (H1 & H2 & H3) (H4 & H5 & H6). repeat split; auto. lra. Qed.
  Lemma le2_all_trans l m n : Forall2 le2 l m -> Forall2 le2 m n -> Forall2 le2 l n.
  Proof.
    intros H. revert n. induction H; intros n K; inversion K; subst; constructor; auto. eapply le2_trans; eauto.
  Qed.
  Lemma le2_refl l : Forall N l -> Forall2 le2 l l.
  Proof. induction 1; constructor; auto. repeat split; auto. lra. Qed.
  Lemma le2_left l m : Forall2 le2 l m -> Forall N l.
  Proof. induction 1 as [|x y l m (H1 & _)]; auto. Qed.
  Lemma le2_right l m : Forall2 le2 l m -> Forall N m.
  Proof. induction 1 as [|x y l m (_ & H1 & _)]; auto. Qed.

  Lemma ltb_no x y : N x -> N y -> ltb x y = false -> le2 y x.
  Proof.
    intros Hx Hy H. repeat split; auto. destruct (Rle_lt_dec (V y) (V x)) as [L|L]; auto.
    apply (HLT x y Hx Hy) in L. congruence.
  Qed.

  Lemma insert_all (P : A -> Prop) x l : P x -> Forall P l -> Forall P (sort_insert x l).
  Proof.
    intros Hx H. induction H as [|y l Hy Hl IH]; cbn [sort_insert]; auto. destruct (ltb x y); auto.
  Qed.

  Lemma insert_sorted x l : N x -> Forall N l -> StronglySorted le2 l -> StronglySorted le2 (sort_insert x l).
  Proof.
    intros Hx HA HS. induction HS as [|y l HS IH HF]; cbn [sort_insert].
    - repeat constructor.
    - inversion HA as [|y' l' Hy Hl]; subst. destruct (ltb x y) eqn:E.
      + apply (HLT x y Hx Hy) in E. assert (le2 x y) by (repeat split; auto; lra).
        constructor; [constructor; auto|]. constructor; auto. eapply Forall_impl; [|exact HF].
        intros a Ha. eapply le2_trans; eauto.
      + constructor; auto. apply insert_all; auto. now apply ltb_no.
  Qed.

  Lemma cons_le_insert c y l : le2 c y -> StronglySorted le2 l -> Forall (le2 c) l -> Forall N l ->
    Forall2 le2 (c :: l) (sort_insert y l).
  Proof.
    intros Hc HS. revert c Hc. induction HS as [|d l HS IH HF]; intros c Hc HA HL; cbn [sort_insert]; [auto|].
    inversion HA as [|? ? Hd Hl]; subst. inversion HL as [|? ? Nd Nl]; subst. destruct (ltb y d) eqn:E.
    - constructor; auto. apply le2_refl. auto.
    - constructor; auto. apply IH; auto. apply ltb_no; auto. apply Hc.
  Qed.

  Lemma insert_le_cons x b l m : le2 x b -> Forall2 le2 l m -> StronglySorted le2 (b :: m) ->
    Forall2 le2 (sort_insert x l) (b :: m).
  Proof.
    intros Hx H. revert b Hx. induction H as [|e d l m Hed H IH]; intros b Hx HS; cbn [sort_insert]; [auto|].
    inversion HS as [|? ? HS' HF]; subst. inversion HF as [|? ? Hbd Hbm]; subst. destruct (ltb x e) eqn:E.
    - constructor; auto.
    - constructor.
      + eapply le2_trans; [|exact Hx]. apply ltb_no; [apply Hx|apply Hed|exact E].
      + apply IH; auto. eapply le2_trans; eauto.
  Qed.

  Lemma insert_mono x y l m : le2 x y -> Forall2 le2 l m -> StronglySorted le2 l -> StronglySorted le2 m ->
    Forall2 le2 (sort_insert x l) (sort_insert y m).
  Proof.
    intros Hx H. induction H as [|a b l m Hab H IH]; intros S1 S2; cbn [sort_insert]; [auto|].
    inversion S1 as [|? ? S1' F1]; subst. inversion S2 as [|? ? S2' F2]; subst.
    destruct (ltb x a) eqn:E1, (ltb y b) eqn:E2.
    - constructor; auto.
    - assert (Hby : le2 b y) by (apply ltb_no; auto; [apply Hx|apply Hab]).
      constructor.
      + apply (HLT x a) in E1; [|apply Hx|apply Hab]. repeat split; [apply Hx|apply Hab|]. destruct Hab as (_ & _ & Hab). lra.
      + eapply le2_all_trans; [constructor; [exact Hab|exact H]|]. apply cons_le_insert; auto. now apply le2_right in H.
    - assert (Hax : le2 a x) by (apply ltb_no; auto; [apply Hx|apply Hab]).
      apply (HLT y b) in E2; [|apply Hx|apply Hab].
      constructor; [eapply le2_trans; eauto|]. apply insert_le_cons; auto.
      repeat split; [apply Hx|apply Hab|]. destruct Hx as (_ & _ & Hx). lra.
    - constructor; auto.
  Qed.

  Lemma sort_mono_acc l m : Forall2 le2 l m -> forall a b, Forall2 le2 a b -> StronglySorted le2 a -> StronglySorted le2 b ->
    Forall2 le2 (fold_left (fun acc x => sort_insert x acc) l a) (fold_left (fun acc x => sort_insert x acc) m b).
  Proof.
    induction 1 as [|x y l m Hxy H IH]; intros a b HA S1 S2; cbn [fold_left]; auto. apply IH.
    - apply insert_mono; auto.
    - apply insert_sorted; auto; [apply Hxy|now apply le2_left in HA].
    - apply insert_sorted; auto; [apply Hxy|now apply le2_right in HA].
  Qed.

  Lemma sort_mono l m : Forall2 le2 l m -> Forall2 le2 (sort_list l) (sort_list m).
  Proof. intros H. apply sort_mono_acc; auto; constructor. Qed.

  Lemma nn l : Forall N l -> forallb not_nan l = true.
  Proof. induction 1; cbn [forallb]; auto. rewrite HN by auto. auto. Qed.

  Lemma at_mono l m i v : Forall2 le2 l m -> at_ l i = Ret v -> exists w, at_ m i = Ret w /\ le2 v w.
  Proof.
    intros H. revert i. induction H; intros [|i] E; cbn in * ; try discriminate E; eauto.
    injection E as <-. eauto.
  Qed.

  Lemma run_mono (s0 : p2 A) xs ys : p_history s0 = 0%nat -> p_heights s0 = repeat (of_Z 0) 5 -> (length xs <= 5)%nat ->
    Forall2 le2 xs ys -> exists s t, update_all p2_update s0 xs = Ret s /\ update_all p2_update s0 ys = Ret t /\
      p_quantile s = p_quantile s0 /\ p_quantile t = p_quantile s0 /\ p_history s = length xs /\ p_history t = length xs /\
      Forall2 le2 (p_heights s) (p_heights t).
  Proof.
    intros H0 HH HL H. pose proof (Forall2_len _ _ _ H) as L.
    assert (L5 : length (p_heights s0) = 5%nat) by (rewrite HH; reflexivity).
    destruct (Nat.eq_dec (length xs) 5) as [E|E].
    - rewrite !run_five by (auto; congruence). rewrite (nn xs), (nn ys) by (eauto using le2_left, le2_right).
      eexists _, _. split; [reflexivity|]. split; [reflexivity|]. cbn. repeat split; auto. now apply sort_mono.
    - rewrite !run_small by (auto; lia). eexists _, _. split; [reflexivity|]. split; [reflexivity|]. cbn. repeat split; auto.
      apply Forall2_app; auto. rewrite <- L. apply le2_refl. rewrite HH. apply Forall_forall. intros z Hz.
      assert (Hi : In z (repeat (of_Z 0) 5)).
      { rewrite <- (firstn_skipn (length xs) (repeat (of_Z 0) 5)). apply in_or_app. auto. }
      apply repeat_spec in Hi. now subst.
  Qed.

  Lemma small_mono (q : A) s0 xs ys s v s' : p2_new q = Ret s0 -> (length xs <= 5)%nat -> Forall2 le2 xs ys ->
    update_all p2_update s0 xs = Ret s -> p2_evaluate s = Ret (s', v) ->
    exists t t' w, update_all p2_update s0 ys = Ret t /\ p2_evaluate t = Ret (t', w) /\ le2 v w.
  Proof.
    intros E0 HL H E1 E2. unfold p2_new in E0. destruct (_ || _); [discriminate E0|]. injection E0 as E0.
    destruct (run_mono s0 xs ys) as (s1 & t & F1 & F2 & Q1 & Q2 & H1 & H2 & HH); auto; [now subst s0|now subst s0|].
    rewrite F1 in E1. injection E1 as ->. exists t. revert E2. unfold p2_evaluate.
    rewrite H1, H2. destruct (Nat.leb_spec (length xs) 5); [|lia].
    unfold std_sort. rewrite (nn (p_heights s)), (nn (p_heights t)) by (eauto using le2_left, le2_right). cbn [bind].
    rewrite Q1, Q2. destruct (round_int _) as [z|]; [|intros E2; discriminate E2].
    destruct (_ && _)%bool; [|intros E2; discriminate E2]. destruct (Z.ltb z 0); [intros E2; discriminate E2|].
    intros E2. apply bind_Ret in E2. destruct E2 as (u & Ea & Eb). injection Eb as <- <-.
    destruct (at_mono _ _ _ _ (sort_mono _ _ HH) Ea) as (w & Ew & Hw). rewrite Ew. cbn [bind].
    eexists _, _. repeat split; eauto; apply Hw.
  Qed.
End SMALL.

Lemma small_mono_RA (q : R) s0 (xs ys : list R) s v s' : p2_new (A := RA) q = Ret s0 -> (length xs <= 5)%nat -> Forall2 Rle xs ys ->
  update_all p2_update s0 xs = Ret s -> p2_evaluate s = Ret (s', v) ->
  exists t t' w, update_all p2_update s0 ys = Ret t /\ p2_evaluate t = Ret (t', w) /\ v <= w.
Proof.
  intros E0 HL H E1 E2.
  destruct (small_mono (A := RA) (fun x => x) (fun _ => True)) with (4 := E0) (7 := E1) (8 := E2) (ys := ys) as (t & t' & w & K1 & K2 & _ & _ & K3); eauto 6.
  - intros x _. unfold not_nan. cbn. unfold Reqb. destruct (Req_EM_T x x); congruence.
  - intros x y _ _. cbn. unfold Rltb. destruct (Rlt_dec x y); split; intros; auto; congruence.
  - clear -H. induction H; constructor; auto. repeat split; auto.
Qed.

Lemma small_mono_B64 (q : double) s0 (xs ys : list double) s v s' : p2_new (A := B64) q = Ret s0 -> (length xs <= 5)%nat ->
  Forall2 (fun x y => nan x = false /\ nan y = false /\ X x <= X y) xs ys ->
  update_all p2_update s0 xs = Ret s -> p2_evaluate s = Ret (s', v) ->
  exists t t' w, update_all p2_update s0 ys = Ret t /\ p2_evaluate t = Ret (t', w) /\ nan v = false /\ nan w = false /\ X v <= X w.
Proof.
  intros E0 HL H E1 E2.
  destruct (small_mono (A := B64) X (fun x => nan x = false)) with (4 := E0) (7 := E1) (8 := E2) (ys := ys) as (t & t' & w & K1 & K2 & K3 & K4 & K5); eauto 8.
  - intros x Nx. unfold not_nan. change (Beqb x x = true). now apply X_eqb.
  - intros x y Nx Ny. now apply X_ltb.
Qed.

(** ** Refutations *)

Lemma slide_refuted : exists s t, 
  update_all (mean_update (A := B64)) (mean_new 2) [Bz 0; Bz 1; Bz 0] = Ret s /\
  update_all (mean_update (A := B64)) (mean_new 2) [Bz (2 ^ 53); Bz 1; Bz 0] = Ret t /\
  ltb (a := B64) (mean_evaluate t) (mean_evaluate s) = true.
Proof.
  assert (H : ok (update_all (mean_update (A := B64)) (mean_new 2) [Bz 0; Bz 1; Bz 0]) (fun s =>
    ok (update_all (mean_update (A := B64)) (mean_new 2) [Bz (2 ^ 53); Bz 1; Bz 0]) (fun t =>
    ltb (a := B64) (mean_evaluate t) (mean_evaluate s))) = true) by (vm_compute; reflexivity).
  apply ok_true in H as (s & E & H). apply ok_true in H as (t & E' & H). eauto.
Qed.

Lemma p2_mono_refuted : exists s t s' t' v w,
  p2_stream Bhalf [8; 0; 2; 8; 0; 3; 3]%Z = Ret s /\ p2_stream Bhalf [8; 0; 4; 8; 0; 3; 3]%Z = Ret t /\
  p2_evaluate s = Ret (s', v) /\ p2_evaluate t = Ret (t', w) /\ ltb (a := B64) (Badd w (Bz 2)) v = true.
Proof.
  assert (H : ok (p2_stream Bhalf [8; 0; 2; 8; 0; 3; 3]%Z) (fun s => ok (p2_stream Bhalf [8; 0; 4; 8; 0; 3; 3]%Z) (fun t =>
    ok (p2_evaluate s) (fun '(_, v) => ok (p2_evaluate t) (fun '(_, w) => ltb (a := B64) (Badd w (Bz 2)) v)))) = true) by (vm_compute; reflexivity).
  apply ok_true in H as (s & E & H). apply ok_true in H as (t & E' & H). apply ok_true in H as ([s' v] & Ev & H).
  apply ok_true in H as ([t' w] & Ew & H). exists s, t, s', t', v, w. auto 6.
Qed.

Lemma fame_mono_refuted : exists s, fame_new (A := B64) (Bz 1) (Bz 0) = Ret s /\
  ltb (a := B64) (fame_evaluate (fame_run s [Bz 9; Bz 8])) (fame_evaluate (fame_run s [Bz 7; Bz 8])) = true.
Proof.
  assert (H : ok (fame_new (A := B64) (Bz 1) (Bz 0)) (fun s =>
    ltb (a := B64) (fame_evaluate (fame_run s [Bz 9; Bz 8])) (fame_evaluate (fame_run s [Bz 7; Bz 8]))) = true) by (vm_compute; reflexivity).
  apply ok_true in H as (s & E & H). eauto.
Qed.

Lemma mono_data_double : Forall2 leF [Bz 0; Bz 5] [Bz 1; Bz 5].
Proof.
  destruct (Bz_exact 0) as [E0 F0]; [lia|]. destruct (Bz_exact 1) as [E1 F1]; [lia|]. destruct (Bz_exact 5) as [E5 F5]; [lia|].
  repeat constructor; auto; rewrite ?E0, ?E1, ?E5; lra.
Qed.

Lemma mono_data_inf : Forall2 (fun x y => nan x = false /\ nan y = false /\ X x <= X y) [Bz 0; Bz 5] [Bz 1; B754_infinity false].
Proof.
  destruct (Bz_exact 0) as [E0 F0]; [lia|]. destruct (Bz_exact 1) as [E1 F1]; [lia|]. destruct (Bz_exact 5) as [E5 F5]; [lia|].
  constructor; [split; [|split]; auto; rewrite !X_fin, E0, E1 by auto; lra|].
  constructor; [split; [|split]; auto; apply (X_bound (Bz 5))|constructor].
Qed.

Lemma mono_data : Forall2 Rle [0; 5; 2] [1; 5; 7].
Proof. repeat (apply Forall2_cons; [lra|]). constructor. Qed.

Lemma mono_run_data : exists s0 s s' v, p2_new (A := B64) Bhalf = Ret s0 /\
  update_all p2_update s0 [Bz 0; Bz 5] = Ret s /\ p2_evaluate s = Ret (s', v).
Proof.
  assert (H : ok (p2_new (A := B64) Bhalf) (fun s0 => ok (update_all p2_update s0 [Bz 0; Bz 5]) (fun s =>
    ok (p2_evaluate s) (fun _ => true))) = true) by (vm_compute; reflexivity).
  apply ok_true in H as (s0 & E0 & H). apply ok_true in H as (s & E & H). apply ok_true in H as ([s' v] & Ev & _).
  exists s0, s, s', v. auto.
Qed.
