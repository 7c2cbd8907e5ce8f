(** Mean and variance of data on a grid. *)

From Coq Require Import List Reals ZArith Lra Lia Bool Arith.
From Flocq Require Import Core.Core IEEE754.BinarySingleNaN.
From Verif Require Import Outcome Arith Mean Spec MeanSpec FloatSpec GridSpec ListFacts FloatFacts UtilsFacts MeanFacts P2Witness MonoFacts.
Import ListNotations.
Open Scope R_scope.

Lemma grid_0 e B : (0 <= B)%Z -> on_grid e B 0.
Proof. intros H. exists 0%Z. split; [lia|]. lra. Qed.

Lemma grid_le e B C r : (B <= C)%Z -> on_grid e B r -> on_grid e C r.
Proof. intros H (m & Hm & E). exists m. split; [lia|auto]. Qed.

Lemma grid_add e B C r t : on_grid e B r -> on_grid e C t -> on_grid e (B + C) (r + t).
Proof. intros (m & Hm & ->) (n & Hn & ->). exists (m + n)%Z. split; [lia|]. rewrite plus_IZR. lra. Qed.

Lemma grid_neg e B r : on_grid e B r -> on_grid e B (- r).
Proof. intros (m & Hm & ->). exists (- m)%Z. split; [lia|]. rewrite opp_IZR. lra. Qed.

Lemma grid_mult e f B C r t : on_grid e B r -> on_grid f C t -> on_grid (e + f) (B * C) (r * t).
Proof. intros (m & Hm & ->) (n & Hn & ->). exists (m * n)%Z. split; [nia|]. rewrite mult_IZR, bpow_plus. ring. Qed.

(** Division by a power of two. *)
Lemma grid_shift e B k r : on_grid e B r -> on_grid (e - k) B (r / bpow radix2 k).
Proof.
  intros (m & Hm & ->). exists m. split; auto. unfold Z.sub. rewrite bpow_plus, bpow_opp. unfold Rdiv. ring.
Qed.

Lemma grid_sum e B l : (0 <= B)%Z -> Forall (on_grid e B) l -> on_grid e (B * Z.of_nat (length l)) (rsum l).
Proof.
  intros HB. induction 1 as [|r l Hr Hl IH].
  - apply grid_0. lia.
  - cbn [length rsum]. eapply grid_le; [|apply (grid_add e B); [exact Hr|exact IH]]. lia.
Qed.

Lemma grid_format e r : (-1074 <= e)%Z -> on_grid e (2 ^ 53) r -> generic_format radix2 fexp64 r.
Proof.
  intros He (m & Hm & ->). destruct (Z.eq_dec (Z.abs m) (2 ^ 53)) as [E|E].
  - assert (K : generic_format radix2 fexp64 (bpow radix2 53 * bpow radix2 e)).
    { rewrite <- bpow_plus. apply generic_format_bpow. unfold fexp64, SpecFloat.fexp, SpecFloat.emin. lia. }
    change (bpow radix2 53) with (IZR (2 ^ 53)) in K.
    assert (H : m = (2 ^ 53)%Z \/ m = (- 2 ^ 53)%Z) by lia. destruct H as [-> | ->]; auto.
    rewrite opp_IZR, Ropp_mult_distr_l_reverse. now apply generic_format_opp.
  - change (IZR m * bpow radix2 e) with (F2R (Float radix2 m e)). apply generic_format_F2R. intros Hn. unfold cexp.
    assert (mag radix2 (F2R (Float radix2 m e)) <= 53 + e)%Z.
    { apply mag_le_bpow.
      - intros H. apply eq_0_F2R in H. contradiction.
      - rewrite bpow_plus. unfold F2R. simpl Fexp. simpl Fnum. rewrite Rabs_mult, (Rabs_pos_eq (bpow radix2 e)) by apply bpow_ge_0.
        apply Rmult_lt_compat_r; [apply bpow_gt_0|]. rewrite <- abs_IZR.
        change (bpow radix2 53) with (IZR (2 ^ 53)). apply IZR_lt. lia. }
    unfold fexp64, SpecFloat.fexp, SpecFloat.emin. lia.
Qed.

Lemma grid_bound e r : (e <= 970)%Z -> on_grid e (2 ^ 53) r -> Rabs r <= bpow radix2 1023.
Proof.
  intros He (m & Hm & ->). rewrite Rabs_mult, (Rabs_pos_eq (bpow radix2 e)) by apply bpow_ge_0.
  apply Rle_trans with (bpow radix2 53 * bpow radix2 e).
  - apply Rmult_le_compat_r; [apply bpow_ge_0|]. rewrite <- abs_IZR. change (bpow radix2 53) with (IZR (2 ^ 53)). now apply IZR_le.
  - rewrite <- bpow_plus. apply bpow_le. lia.
Qed.

Lemma big_1023 : bpow radix2 1023 < big.
Proof. apply bpow_lt. lia. Qed.

Lemma grid_exact e r : (-1074 <= e <= 970)%Z -> on_grid e (2 ^ 53) r -> R64 r = r /\ Rabs r < big.
Proof.
  intros He Hr. pose proof (grid_bound e r ltac:(lia) Hr) as Hb. pose proof big_1023.
  assert (Rabs r < big) by lra. split; auto. unfold R64. rewrite rnd_fix by (apply (grid_format e); auto; lia). now apply sat_in.
Qed.

(** An operation whose exact result is representable. *)
Lemma op_exact (z : double) r : X z = R64 r -> nan z = false -> R64 r = r /\ Rabs r < big -> finite64 z = true /\ B2R z = r.
Proof.
  intros HX Hn [E Hb]. rewrite E in HX.
  assert (F : finite64 z = true) by (apply fin_X; auto; rewrite HX; auto). split; auto. rewrite <- X_fin; auto.
Qed.

Lemma op_round (z : double) r : X z = R64 r -> nan z = false -> Rabs r <= bpow radix2 1023 -> finite64 z = true /\ B2R z = rnd r.
Proof.
  intros HX Hn Hb.
  assert (K : Rabs (rnd r) < big).
  { rewrite <- rnd_abs. apply Rle_lt_trans with (rnd (bpow radix2 1023)); [now apply rnd_le|].
    rewrite rnd_fix by (apply generic_format_bpow; vm_compute; discriminate). apply big_1023. }
  unfold R64 in HX. rewrite sat_in in HX by auto.
  assert (F : finite64 z = true) by (apply fin_X; auto; rewrite HX; auto). split; auto. rewrite <- X_fin; auto.
Qed.

Lemma grid_window e B W xs : Forall (grid e B) xs -> Forall (on_grid e B) (map B2R (window_of W xs)).
Proof.
  intros H. apply Forall_map. assert (K : Forall (grid e B) (window_of W xs)) by (destruct W; [exact H|now apply Forall_lastn]).
  eapply Forall_impl; [|exact K]. intros x Hx. apply Hx.
Qed.

Lemma grid_sum_win e B W (xs : list double) : (0 <= B)%Z -> Forall (grid e B) xs -> (B * Z.of_nat (kept W xs) <= 2 ^ 53)%Z ->
  on_grid e (2 ^ 53) (rsum (map B2R (window_of W xs))).
Proof.
  intros HB HF HW. eapply grid_le; [|apply grid_sum; [exact HB|apply grid_window, HF]].
  rewrite map_length. unfold kept in HW. destruct W; cbn [window_of]; [exact HW|]. rewrite lastn_length. nia.
Qed.

(** The running sum is exact for streams of any length. *)
Lemma sum_exact W e B (xs : list double) : (-1074 <= e <= 970)%Z -> (0 <= B)%Z -> Forall (grid e B) xs ->
  (B * Z.of_nat (kept W xs) <= 2 ^ 53)%Z ->
  exists s, update_all (mean_update (A := B64)) (mean_new W) xs = Ret s /\ mean_inv (A := B64) W xs s /\
    finite64 (mn_sum s) = true /\ B2R (mn_sum s) = rsum (map B2R (window_of W xs)).
Proof.
  intros He HB HF HW.
  destruct (mean_run_sum (A := B64) W (fun ys z => (B * Z.of_nat (kept W ys) <= 2 ^ 53)%Z ->
      finite64 z = true /\ B2R z = rsum (map B2R (window_of W ys))) (grid e B)) with (xs := xs) as (s & E & Hi & Hp); auto.
  - intros _. split; [reflexivity|]. destruct W; reflexivity.
  - clear xs HF HW. intros xs sum x HF IH HW.
    pose proof (grid_sum_win e B W (xs ++ [x]) HB HF HW) as G.
    apply Forall_app in HF as [HF Hx]. inversion Hx as [|? ? [Fx Gx] _]; subst. clear Hx.
    assert (HW' : (B * Z.of_nat (kept W xs) <= 2 ^ 53)%Z).
    { unfold kept in * . destruct W; auto. rewrite app_length in HW. cbn [length] in HW. nia. }
    destruct (IH HW') as [Fs Es]. clear IH.
    unfold next_sum. change (num B64) with double in * . destruct W as [|W'].
    + cbn [window_of] in * . rewrite map_app, rsum_app in * . cbn [map rsum] in * . rewrite Rplus_0_r in * .
      destruct (X_add sum x Fs Fx) as [HX Hn]. rewrite Es in HX. exact (op_exact _ _ HX Hn (grid_exact e _ He G)).
    + set (W := Datatypes.S W') in * . assert (WO : forall l : list double, window_of W l = lastn W l) by reflexivity.
      rewrite WO in * . rewrite (lastn_snoc W) in * by (unfold W; lia).
      destruct (Nat.ltb_spec (length xs) W) as [Hlt|Hge].
      * assert (K : finite64 (Badd sum x) = true /\ B2R (Badd sum x) = rsum (map B2R (lastn W xs ++ [x]))).
        { rewrite map_app, rsum_app in * . cbn [map rsum] in * . rewrite Rplus_0_r in * .
          destruct (X_add sum x Fs Fx) as [HX Hn]. rewrite Es in HX. exact (op_exact _ _ HX Hn (grid_exact e _ He G)). }
        destruct (lastn W xs); exact K.
      * pose proof (Forall_lastn _ W xs HF) as HL. 
        assert (L : length (lastn W xs) = W) by (rewrite lastn_length; lia).
        destruct (lastn W xs) as [|f w] eqn:El; [unfold W in L; discriminate L|].
        inversion HL as [|? ? [Ff Gf] Hw]; subst. cbn [length] in L.
        assert (Gw : on_grid e (2 ^ 53) (rsum (map B2R w))).
        { eapply grid_le; [|apply (grid_sum e B); [exact HB|apply Forall_map; eapply Forall_impl; [|exact Hw]; intros a Ha; apply Ha]].
          rewrite map_length. change (kept W (xs ++ [x])) with W in HW.
          apply Z.le_trans with (B * Z.of_nat W)%Z; [apply Z.mul_le_mono_nonneg_l; [exact HB|]|exact HW]. apply inj_le. rewrite <- L. apply Nat.le_succ_diag_r. }
        cbn [map rsum] in Es.
        destruct (X_sub sum f Fs Ff) as [HX Hn]. rewrite Es in HX.
        replace (B2R f + rsum (map B2R w) - B2R f) with (rsum (map B2R w)) in HX by lra.
        destruct (op_exact _ _ HX Hn (grid_exact e _ He Gw)) as [F1 E1].
        cbn [tl] in * . rewrite map_app, rsum_app in * . cbn [map rsum] in * . rewrite Rplus_0_r in * .
        destruct (X_add (Bsub sum f) x F1 Fx) as [HX2 Hn2]. rewrite E1 in HX2.
        exact (op_exact _ _ HX2 Hn2 (grid_exact e _ He G)).
  - exists s. split; [exact E|]. split; [exact Hi|]. exact (Hp HW).
Qed.

Lemma avg_cons a l : avg (a :: l) = rsum (a :: l) / INR (length (a :: l)).
Proof. reflexivity. Qed.

Lemma avg_bound C l : Forall (fun r => Rabs r <= C) l -> 0 <= C -> Rabs (avg l) <= C.
Proof.
  intros H HC. destruct l as [|a l]; [cbn; rewrite Rabs_R0; auto|]. rewrite avg_cons.
  assert (P : 0 < INR (length (a :: l))) by (apply lt_0_INR; cbn; lia).
  assert (K : Rabs (rsum (a :: l)) <= C * INR (length (a :: l))).
  { clear P. induction H as [|x m Hx Hm IH]; cbn [rsum length]; [rewrite Rabs_R0; cbn; lra|].
    rewrite S_INR. pose proof (Rabs_triang x (rsum m)). lra. }
  unfold Rdiv. rewrite Rabs_mult, (Rabs_pos_eq (/ _)) by (left; now apply Rinv_0_lt_compat).
  apply Rmult_le_reg_r with (INR (length (a :: l))); auto. rewrite Rmult_assoc, Rinv_l, Rmult_1_r by lra. exact K.
Qed.

Lemma window_len {X} W (xs : list X) : length (window_of W xs) = match W with O => length xs | _ => Nat.min W (length xs) end.
Proof. destruct W; [reflexivity|]. apply lastn_length. Qed.

Lemma eval_grid W e B (xs : list double) s : (-1074 <= e <= 970)%Z -> (1 <= B)%Z -> xs <> [] -> Forall (grid e B) xs ->
  (B * Z.of_nat (kept W xs) <= 2 ^ 53)%Z -> mean_inv (A := B64) W xs s ->
  finite64 (mn_sum s) = true -> B2R (mn_sum s) = rsum (map B2R (window_of W xs)) ->
  finite64 (mean_evaluate (A := B64) s) = true /\ B2R (mean_evaluate (A := B64) s) = rnd (avg (map B2R (window_of W xs))).
Proof.
  intros He HB Hne HF HW [Hw Hs Hh] Fs Es.
  assert (Len : (0 < length xs)%nat) by (destruct xs; cbn; [contradiction|lia]).
  set (w := window_of W xs) in * .
  assert (Lw : (0 < length w)%nat /\ (Z.of_nat (length w) <= 2 ^ 53)%Z).
  { unfold w. rewrite window_len. unfold kept in HW. destruct W; nia. }
  assert (EV : mean_evaluate (A := B64) s = Bquot (mn_sum s) (Bz (Z.of_nat (length w)))).
  { unfold mean_evaluate. rewrite Hh, Hw. assert (EZ : Nat.eqb (length xs) 0 = false) by (apply Nat.eqb_neq; lia).
    change (num B64) with double. rewrite EZ. destruct W; reflexivity. }
  rewrite EV. destruct (Bz_exact (Z.of_nat (length w))) as [En Fn]; [lia|].
  assert (P : 0 < IZR (Z.of_nat (length w))) by (apply IZR_lt; lia).
  destruct (X_div (mn_sum s) _ Fs Fn) as [HX Hn]; [rewrite En; lra|]. rewrite Es, En in HX.
  assert (EA : rsum (map B2R w) / IZR (Z.of_nat (length w)) = avg (map B2R w)).
  { rewrite <- INR_IZR_INZ. destruct w as [|a w]; [cbn in Lw; lia|]. cbn [map]. rewrite avg_cons. cbn [length]. now rewrite map_length. }
  rewrite EA in HX. apply op_round; auto. apply avg_bound; [|apply bpow_ge_0].
  eapply Forall_impl; [|apply (grid_window e B W xs HF)]. intros r Hr. apply (grid_bound e); [lia|].
  eapply grid_le; [|exact Hr]. unfold kept in HW. destruct W; nia.
Qed.

Lemma mean_grid W e B (xs : list double) : (-1074 <= e <= 970)%Z -> (1 <= B)%Z -> xs <> [] -> Forall (grid e B) xs ->
  (B * Z.of_nat (kept W xs) <= 2 ^ 53)%Z ->
  exists s, update_all (mean_update (A := B64)) (mean_new W) xs = Ret s /\
    finite64 (mean_evaluate (A := B64) s) = true /\
    B2R (mean_evaluate (A := B64) s) = rnd (avg (map B2R (window_of W xs))).
Proof.
  intros He HB Hne HF HW. destruct (sum_exact W e B xs He ltac:(lia) HF HW) as (s & E & Hi & Fs & Es).
  exists s. split; [exact E|]. apply (eval_grid W e B xs); auto.
Qed.

Lemma avg_between lo hi l : l <> [] -> Forall (fun r => lo <= r <= hi) l -> lo <= avg l <= hi.
Proof.
  intros Hne H. destruct l as [|a l]; [contradiction|]. rewrite avg_cons. clear Hne.
  assert (P : 0 < INR (length (a :: l))) by (apply lt_0_INR; cbn; lia).
  assert (K : lo * INR (length (a :: l)) <= rsum (a :: l) <= hi * INR (length (a :: l))).
  { clear P. induction H as [|x m Hx Hm IH]; cbn [rsum length]; [cbn; lra|]. rewrite S_INR. lra. }
  unfold Rdiv. split; apply Rmult_le_reg_r with (INR (length (a :: l))); auto; rewrite Rmult_assoc, Rinv_l, Rmult_1_r by lra; apply K.
Qed.

Lemma window_nil {X} W (xs : list X) : xs <> [] -> window_of W xs <> [].
Proof.
  intros H E. apply (f_equal (@length X)) in E. rewrite window_len in E. destruct xs; [contradiction|]. destruct W; cbn in E; discriminate E.
Qed.

Lemma rnd_B2R (x : double) : rnd (B2R x) = B2R x.
Proof. apply rnd_fix. apply generic_format_B2R. Qed.

Lemma mean_grid_range W e B (xs : list double) (lo hi : double) : (-1074 <= e <= 970)%Z -> (1 <= B)%Z -> xs <> [] -> Forall (grid e B) xs ->
  (B * Z.of_nat (kept W xs) <= 2 ^ 53)%Z -> Forall (fun x => B2R lo <= B2R x <= B2R hi) (window_of W xs) ->
  exists s, update_all (mean_update (A := B64)) (mean_new W) xs = Ret s /\
    finite64 (mean_evaluate (A := B64) s) = true /\ B2R lo <= B2R (mean_evaluate (A := B64) s) <= B2R hi.
Proof.
  intros He HB Hne HF HW HR. destruct (mean_grid W e B xs He HB Hne HF HW) as (s & E & F & V). exists s. split; auto. split; auto.
  rewrite V. rewrite <- (rnd_B2R lo), <- (rnd_B2R hi).
  assert (K : B2R lo <= avg (map B2R (window_of W xs)) <= B2R hi).
  { apply avg_between; [|now apply Forall_map]. pose proof (window_nil W xs Hne). destruct (window_of W xs); [contradiction|discriminate]. }
  split; apply rnd_le; apply K.
Qed.

Lemma Forall2_window {X Y} (P : X -> Y -> Prop) W l l' : Forall2 P l l' -> Forall2 P (window_of W l) (window_of W l').
Proof.
  intros H. pose proof (Forall2_len _ _ _ H) as L. destruct W; [exact H|]. unfold window_of, lastn. rewrite <- L. now apply Forall2_skipn.
Qed.

Lemma mean_grid_mono W e B (xs ys : list double) : (-1074 <= e <= 970)%Z -> (1 <= B)%Z -> Forall (grid e B) xs -> Forall (grid e B) ys ->
  (B * Z.of_nat (kept W xs) <= 2 ^ 53)%Z -> Forall2 (fun x y => B2R x <= B2R y) xs ys ->
  exists s t, update_all (mean_update (A := B64)) (mean_new W) xs = Ret s /\
    update_all (mean_update (A := B64)) (mean_new W) ys = Ret t /\
    B2R (mean_evaluate (A := B64) s) <= B2R (mean_evaluate (A := B64) t).
Proof.
  intros He HB HF HG HW H. destruct xs as [|x xs].
  - inversion H; subst. destruct (mean_run (A := B64) W []) as (s & E & _). exists s, s. split; auto. split; auto. lra.
  - pose proof (Forall2_len _ _ _ H) as L. destruct ys as [|y ys]; [discriminate L|].
    assert (HW' : (B * Z.of_nat (kept W (y :: ys)) <= 2 ^ 53)%Z) by (replace (kept W (y :: ys)) with (kept W (x :: xs)); [exact HW|unfold kept; destruct W; [exact L|reflexivity]]).
    destruct (mean_grid W e B (x :: xs)) as (s & E & _ & V); auto; [discriminate|].
    destruct (mean_grid W e B (y :: ys)) as (t & E' & _ & V'); auto; [discriminate|].
    exists s, t. split; auto. split; auto. rewrite V, V'. apply rnd_le, avg_le.
    assert (K : Forall2 (fun x y => B2R x <= B2R y) (window_of W (x :: xs)) (window_of W (y :: ys))) by (now apply Forall2_window).
    clear -K. induction K; constructor; auto.
Qed.

(** ** The variance *)

Lemma square_grid e B (x : double) : (-1074 <= 2 * e <= 970)%Z -> (B * B <= 2 ^ 53)%Z -> grid e B x ->
  grid (2 * e) (B * B) (Bmul x x) /\ B2R (Bmul x x) = B2R x * B2R x.
Proof.
  intros He HB [Fx Gx]. destruct (X_mul x x Fx Fx) as [HX Hn]. pose proof (grid_mult e e B B _ _ Gx Gx) as G.
  replace (e + e)%Z with (2 * e)%Z in G by lia.
  destruct (op_exact _ _ HX Hn (grid_exact (2 * e) _ He (grid_le _ _ _ _ HB G))) as [F E].
  split; [|exact E]. split; auto. now rewrite E.
Qed.

Lemma window_map {X Y} (f : X -> Y) W (xs : list X) : window_of W (map f xs) = map f (window_of W xs).
Proof. destruct W; [reflexivity|]. cbn [window_of]. unfold lastn. now rewrite map_length, skipn_map. Qed.

Lemma variance_grid W e B (xs : list double) : (-1074 <= 2 * e <= 970)%Z -> (1 <= B)%Z -> xs <> [] -> Forall (grid e B) xs ->
  (B * B * Z.of_nat (kept W xs) <= 2 ^ 53)%Z ->
  let w := map B2R (window_of W xs) in
  exists s, update_all (variance_update (A := B64)) (variance_new W) xs = Ret s /\
    finite64 (variance_evaluate (A := B64) s) = true /\
    B2R (variance_evaluate (A := B64) s) = rnd (rnd (avg (map (fun r => r * r) w)) - rnd (rnd (avg w) * rnd (avg w))).
Proof.
  intros He HB Hne HF HW w.
  assert (K1 : (1 <= kept W xs)%nat) by (unfold kept; destruct W; [destruct xs; [contradiction|cbn; lia]|lia]).
  assert (HB2 : (B * B <= 2 ^ 53)%Z) by nia.
  assert (Hs : Forall (grid (2 * e) (B * B)) (map (fun x => Bmul x x) xs)).
  { apply Forall_map. eapply Forall_impl; [|exact HF]. intros x Hx. now apply square_grid. }
  assert (Hk : kept W (map (fun x : double => Bmul x x) xs) = kept W xs) by (unfold kept; destruct W; auto; now rewrite map_length).
  destruct (mean_grid W e B xs) as (m & Em & Fm & Vm); auto; [lia|nia|].
  destruct (mean_grid W (2 * e) (B * B) (map (fun x => Bmul x x) xs)) as (q & Eq & Fq & Vq); auto; [nia|destruct xs; [contradiction|discriminate]|now rewrite Hk|].
  destruct (var_run (A := B64) W xs) as (s & E & [_ _ Hm Hq]). exists s. split; [exact E|].
  unfold variance_evaluate.
  assert (Em' : va_mean s = m) by (apply (f_equal (fun o => match o with Ret t => t | _ => m end)) in Hm; rewrite Em in Hm; symmetry; exact Hm).
  assert (Eq' : va_sq s = q) by (pose proof (eq_trans (eq_sym Hq) Eq) as K; injection K as K; exact K).
  rewrite Em', Eq'. clear E Hm Hq Em Eq Em' Eq' s.
  assert (EW : map B2R (window_of W (map (fun x : double => Bmul x x) xs)) = map (fun r => r * r) w).
  { unfold w. rewrite window_map, !map_map. apply map_ext_in. intros x Hx.
    assert (In x xs).
    { destruct W; auto. cbn [window_of] in Hx. unfold lastn in Hx. rewrite <- (firstn_skipn (length xs - Datatypes.S W) xs). apply in_or_app; auto. }
    rewrite Forall_forall in HF. apply (square_grid e B); auto. }
  rewrite EW in Vq. fold w in Vm.
  assert (Gw : Forall (on_grid e B) w) by (apply grid_window; auto).
  set (C := IZR B * bpow radix2 e).
  assert (HC : 0 <= C) by (apply Rmult_le_pos; [apply (IZR_le 0); lia|apply bpow_ge_0]).
  assert (Bw : Forall (fun r => Rabs r <= C) w).
  { eapply Forall_impl; [|exact Gw]. intros r (k & Hk' & ->). rewrite Rabs_mult, (Rabs_pos_eq (bpow radix2 e)) by apply bpow_ge_0.
    apply Rmult_le_compat_r; [apply bpow_ge_0|]. rewrite <- abs_IZR. now apply IZR_le. }
  assert (GC : on_grid e (2 ^ 53) C) by (exists B; split; [nia|reflexivity]).
  assert (GCC : on_grid (2 * e) (2 ^ 53) (C * C)).
  { exists (B * B)%Z. split; [nia|]. unfold C. rewrite mult_IZR. replace (2 * e)%Z with (e + e)%Z by lia. rewrite bpow_plus. ring. }
  assert (RC : rnd C = C) by (apply rnd_fix, (grid_format e); auto; lia).
  assert (RCC : rnd (C * C) = C * C) by (apply rnd_fix, (grid_format (2 * e)); auto; lia).
  pose proof (grid_bound (2 * e) _ ltac:(lia) GCC) as BC. rewrite Rabs_pos_eq in BC by nra.
  assert (MB : Rabs (rnd (avg w)) <= C).
  { rewrite <- rnd_abs, <- RC. apply rnd_le, avg_bound; auto. }
  assert (MM : 0 <= rnd (avg w) * rnd (avg w) <= C * C).
  { apply Rabs_le_inv in MB. split; [nra|]. nra. }
  assert (QB : 0 <= avg (map (fun r => r * r) w) <= C * C).
  { assert (HN : map (fun r => r * r) w <> []).
    { unfold w. pose proof (window_nil W xs Hne). destruct (window_of W xs); [contradiction|discriminate]. }
    apply avg_between; auto. apply Forall_map. eapply Forall_impl; [|exact Bw]. intros r Hr. cbn beta in * . apply Rabs_le_inv in Hr. nra. }
  destruct (X_mul (mean_evaluate (A := B64) m) (mean_evaluate (A := B64) m) Fm Fm) as [HX Hn]. rewrite Vm in HX.
  destruct (op_round _ _ HX Hn) as [Fmm Vmm]; [rewrite Rabs_pos_eq; lra|].
  change (sub (a := B64)) with Bsub. change (mul (a := B64)) with Bmul.
  destruct (X_sub (mean_evaluate (A := B64) q) (Bmul (mean_evaluate (A := B64) m) (mean_evaluate (A := B64) m)) Fq Fmm) as [HX2 Hn2].
  rewrite Vq, Vmm in HX2. apply op_round; auto.
  assert (R0 : rnd 0 = 0) by (apply rnd_fix, generic_format_0).
  assert (T1 : 0 <= rnd (avg (map (fun r => r * r) w)) <= C * C) by (rewrite <- R0 at 1; rewrite <- RCC; split; apply rnd_le; apply QB).
  assert (T2 : 0 <= rnd (rnd (avg w) * rnd (avg w)) <= C * C) by (rewrite <- R0 at 1; rewrite <- RCC; split; apply rnd_le; apply MM).
  apply Rabs_le. lra.
Qed.

Lemma avg_const c l : l <> [] -> Forall (fun r => r = c) l -> avg l = c.
Proof.
  intros Hne H. assert (K : c <= avg l <= c) by (apply avg_between; auto; eapply Forall_impl; [|exact H]; cbn; intros; lra). lra.
Qed.

Lemma variance_grid_constant W e B (xs : list double) (c : double) : (-1074 <= 2 * e <= 970)%Z -> (1 <= B)%Z -> xs <> [] -> Forall (grid e B) xs ->
  (B * B * Z.of_nat (kept W xs) <= 2 ^ 53)%Z -> Forall (fun x => x = c) (window_of W xs) ->
  exists s, update_all (variance_update (A := B64)) (variance_new W) xs = Ret s /\
    finite64 (variance_evaluate (A := B64) s) = true /\ B2R (variance_evaluate (A := B64) s) = 0.
Proof.
  intros He HB Hne HF HW HC. destruct (variance_grid W e B xs He HB Hne HF HW) as (s & E & F & V). exists s. split; auto. split; auto.
  rewrite V. assert (Nw : map B2R (window_of W xs) <> []).
  { pose proof (window_nil W xs Hne). destruct (window_of W xs); [contradiction|discriminate]. }
  assert (Cw : Forall (fun r => r = B2R c) (map B2R (window_of W xs))).
  { apply Forall_map. eapply Forall_impl; [|exact HC]. cbn. intros; now subst. }
  rewrite (avg_const (B2R c) (map B2R (window_of W xs))) by auto. rewrite rnd_B2R. rewrite (avg_const (B2R c * B2R c)).
  - rewrite Rminus_eq_0. apply rnd_fix, generic_format_0.
  - intros H. apply map_eq_nil in H. contradiction.
  - apply Forall_map. eapply Forall_impl; [|exact Cw]. cbn. intros; now subst.
Qed.

(** A window of 2^k observations: the variance itself, exactly. *)
Lemma variance_grid_exact W e B k (xs : list double) : (-1074 <= 2 * (e - k))%Z -> (2 * e <= 970)%Z -> (0 <= k)%Z -> (1 <= B)%Z ->
  Forall (grid e B) xs -> (B * B * Z.of_nat (kept W xs) <= 2 ^ 53)%Z ->
  Z.of_nat (length (window_of W xs)) = (2 ^ k)%Z -> (B * B * 2 ^ (2 * k) <= 2 ^ 52)%Z ->
  exists s, update_all (variance_update (A := B64)) (variance_new W) xs = Ret s /\
    finite64 (variance_evaluate (A := B64) s) = true /\
    B2R (variance_evaluate (A := B64) s) = pvar (map B2R (window_of W xs)).
Proof.
  intros He1 He2 Hk HB HF HW HL H52.
  assert (Pk : (0 < 2 ^ k)%Z) by (apply Z.pow_pos_nonneg; lia).
  assert (Hne : xs <> []).
  { intros ->. assert (L0 : length (window_of W (@nil double)) = 0%nat) by (destruct W; reflexivity). rewrite L0 in HL. cbn in HL. lia. }
  destruct (variance_grid W e B xs) as (s & E & F & V); auto; [lia|]. exists s. split; auto. split; auto. rewrite V, pvar_moments.
  set (w := map B2R (window_of W xs)) in * .
  assert (Gw : Forall (on_grid e B) w) by (apply grid_window; auto).
  assert (Lw : Z.of_nat (length w) = (2 ^ k)%Z) by (unfold w; rewrite map_length; exact HL).
  assert (HA : forall f C l, (0 <= C)%Z -> Z.of_nat (length l) = (2 ^ k)%Z -> Forall (on_grid f C) l -> on_grid (f - k) (C * 2 ^ k) (avg l)).
  { intros f C l HC Ll Gl. destruct l as [|a l]; [cbn in Ll; lia|]. rewrite avg_cons, INR_IZR_INZ, Ll, (IZR_Zpower radix2) by auto.
    apply grid_shift. rewrite <- Ll. apply grid_sum; auto. }
  pose proof (HA e B w ltac:(lia) Lw Gw) as GM.
  assert (GQ : on_grid (2 * e - k) (B * B * 2 ^ k) (avg (map (fun r => r * r) w))).
  { apply HA; [nia|now rewrite map_length|]. apply Forall_map. eapply Forall_impl; [|exact Gw]. intros r Hr.
    replace (2 * e)%Z with (e + e)%Z by lia. now apply grid_mult. }
  assert (P2 : (2 ^ (2 * k) = 2 ^ k * 2 ^ k)%Z) by (rewrite <- Z.pow_add_r by lia; f_equal; lia).
  pose proof (grid_mult _ _ _ _ _ _ GM GM) as GMM. replace (e - k + (e - k))%Z with (2 * (e - k))%Z in GMM by lia.
  assert (GQ2 : on_grid (2 * (e - k)) (B * B * 2 ^ (2 * k)) (avg (map (fun r => r * r) w))).
  { destruct GQ as (m & Hm & ->). exists (m * 2 ^ k)%Z. split; [rewrite P2; nia|].
    rewrite mult_IZR, (IZR_Zpower radix2) by auto. rewrite Rmult_assoc, <- bpow_plus. do 2 f_equal. lia. }
  assert (H53 : (2 ^ 53 = 2 * 2 ^ 52)%Z) by reflexivity.
  assert (R1 : rnd (avg w) = avg w) by (apply rnd_fix, (grid_format (e - k)); [lia|]; eapply grid_le; [|exact GM]; nia).
  assert (R2 : rnd (avg (map (fun r => r * r) w)) = avg (map (fun r => r * r) w)) by (apply rnd_fix, (grid_format (2 * (e - k))); [lia|]; eapply grid_le; [|exact GQ2]; nia).
  assert (R3 : rnd (avg w * avg w) = avg w * avg w) by (apply rnd_fix, (grid_format (2 * (e - k))); [lia|]; eapply grid_le; [|exact GMM]; nia).
  rewrite R1, R2, R3. apply rnd_fix, (grid_format (2 * (e - k))); [lia|].
  eapply grid_le; [|apply (grid_add _ _ _ _ _ GQ2 (grid_neg _ _ _ GMM))]. nia.
Qed.

(** ** Examples and refutations *)

(** Quarters up to 1000: 0.25, 2.5, 999.75. *)
Lemma grid_data : Forall (grid (-2) 4000) (map (fun z => Bquot (Bz z) (Bz 4)) [1; 10; 3999]%Z).
Proof.
  assert (H : forall z, (Z.abs z <= 4000)%Z -> grid (-2) 4000 (Bquot (Bz z) (Bz 4))).
  { intros z Hz. destruct (Bz_exact z) as [Ez Fz]; [lia|]. destruct (Bz_exact 4) as [E4 F4]; [lia|].
    destruct (X_div (Bz z) (Bz 4) Fz F4) as [HX Hn]; [rewrite E4; lra|]. rewrite Ez, E4 in HX.
    assert (G : on_grid (-2) 4000 (IZR z / 4)).
    { exists z. split; auto. }
    destruct (op_exact _ _ HX Hn (grid_exact (-2) _ ltac:(lia) (grid_le (-2) 4000 (2 ^ 53) _ ltac:(lia) G))) as [F E].
    split; auto. now rewrite E. }
  repeat constructor; apply H; lia.
Qed.

(** Off the grid the mean of three equal observations is another number. *)
Lemma constant_mean_refuted : exists s,
  update_all (mean_update (A := B64)) (mean_new 3) (repeat (lit 1 10) 3 : list double) = Ret s /\
  ltb (a := B64) (lit 1 10) (mean_evaluate s) = true.
Proof.
  assert (H : ok (update_all (mean_update (A := B64)) (mean_new 3) (repeat (lit 1 10) 3 : list double)) (fun s =>
    ltb (a := B64) (lit 1 10) (mean_evaluate s)) = true) by (vm_compute; reflexivity).
  apply ok_true in H as (s & E & H). eauto.
Qed.
