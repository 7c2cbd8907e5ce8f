(** Rounding errors of StreamingMean in double arithmetic. *)

From Coq Require Import List Reals ZArith Lra Lia Bool Arith.
From Flocq Require Import Core.Core IEEE754.BinarySingleNaN Relative Plus_error.
From Verif Require Import Outcome Arith Mean Spec MeanSpec ListFacts FloatSpec FloatFacts UtilsFacts MeanFacts.
Import ListNotations.
Open Scope R_scope.

Definition u : R := bpow radix2 (-53).

Lemma u_ro_u : u_ro radix2 53 = u.
Proof. unfold u_ro, u. change (/ 2) with (bpow radix2 (-1)). rewrite <- bpow_plus. reflexivity. Qed.

Lemma u_pos : 0 < u <= / 1048576.
Proof.
  unfold u. split; [apply bpow_gt_0|]. change (/ 1048576) with (bpow radix2 (-20)). apply bpow_le. lia.
Qed.

Lemma u_small : u / (1 + u) <= u.
Proof.
  pose proof u_pos. apply Rmult_le_reg_r with (1 + u); [lra|]. unfold Rdiv.
  rewrite Rmult_assoc, Rinv_l by lra. nra.
Qed.

Lemma rnd_plus (x y : double) : Rabs (rnd (B2R x + B2R y) - (B2R x + B2R y)) <= u * Rabs (B2R x + B2R y).
Proof.
  assert (P53 : Prec_gt_0 53) by exact eq_refl.
  destruct (FLT_plus_error_N_ex radix2 (-1074) 53 (fun n => negb (Z.even n)) (B2R x) (B2R y)) as (eps & He & E).
  - apply B2R_format.
  - apply B2R_format.
  - change (round radix2 (FLT_exp (-1074) 53) (Znearest (fun n => negb (Z.even n))) (B2R x + B2R y))
      with (rnd (B2R x + B2R y)) in E.
    rewrite E. replace ((B2R x + B2R y) * (1 + eps) - (B2R x + B2R y)) with (eps * (B2R x + B2R y)) by ring.
    rewrite Rabs_mult. apply Rmult_le_compat_r; [apply Rabs_pos|]. rewrite u_ro_u in He.
    eapply Rle_trans; [exact He|]. apply u_small.
Qed.

Lemma rnd_any x : Rabs (rnd x - x) <= u * Rabs x + bpow radix2 (-1075).
Proof.
  destruct (relative_error_N_FLT'_ex radix2 (-1074) 53 ltac:(lia) (fun n => negb (Z.even n)) x) as (eps & eta & He & Ht & _ & E).
  change (round radix2 (FLT_exp (-1074) 53) (Znearest (fun n => negb (Z.even n))) x) with (rnd x) in E.
  rewrite E. replace (x * (1 + eps) + eta - x) with (eps * x + eta) by ring.
  eapply Rle_trans; [apply Rabs_triang|]. rewrite Rabs_mult. apply Rplus_le_compat.
  - apply Rmult_le_compat_r; [apply Rabs_pos|]. rewrite u_ro_u in He.
    eapply Rle_trans; [exact He|]. apply u_small.
  - eapply Rle_trans; [exact Ht|]. change (/ 2) with (bpow radix2 (-1)). rewrite <- bpow_plus. right. reflexivity.
Qed.

(** One addition in a chain of them. *)
Lemma add_err (x y : double) (a b E M : R) : finite64 x = true -> finite64 y = true ->
  Rabs (B2R x - a) <= E -> B2R y = b -> Rabs (a + b) <= M -> (1 + u) * E + u * M <= M -> M <= bpow radix2 1000 ->
  finite64 (Badd x y) = true /\ Rabs (B2R (Badd x y) - (a + b)) <= (1 + u) * E + u * M.
Proof.
  intros Fx Fy Hx <- HM HE Hb. pose proof u_pos as U. destruct (X_add x y Fx Fy) as [Xs Ns].
  pose proof (rnd_plus x y) as Hr.
  assert (D : Rabs (rnd (B2R x + B2R y) - (a + B2R y)) <= (1 + u) * E + u * M).
  { assert (K : Rabs (B2R x + B2R y) <= M + E).
    { replace (B2R x + B2R y) with ((a + B2R y) + (B2R x - a)) by ring. eapply Rle_trans; [apply Rabs_triang|]. lra. }
    replace (rnd (B2R x + B2R y) - (a + B2R y)) with ((rnd (B2R x + B2R y) - (B2R x + B2R y)) + (B2R x - a)) by ring.
    eapply Rle_trans; [apply Rabs_triang|]. nra. }
  assert (Bd : Rabs (rnd (B2R x + B2R y)) < big).
  { apply Rle_lt_trans with (2 * M).
    - replace (rnd (B2R x + B2R y)) with ((rnd (B2R x + B2R y) - (a + B2R y)) + (a + B2R y)) by ring.
      eapply Rle_trans; [apply Rabs_triang|]. lra.
    - apply Rle_lt_trans with (bpow radix2 1001); [|apply bpow_lt; lia].
      change 1001%Z with (1 + 1000)%Z. rewrite bpow_plus. change (bpow radix2 1) with 2. lra. }
  unfold R64 in Xs. rewrite sat_in in Xs by exact Bd.
  assert (F : finite64 (Badd x y) = true) by (apply fin_X; auto; rewrite Xs; auto).
  split; auto. rewrite <- (X_fin _ F), Xs. exact D.
Qed.

Lemma sub_err (x y : double) (a b E M : R) : finite64 x = true -> finite64 y = true ->
  Rabs (B2R x - a) <= E -> B2R y = b -> Rabs (a - b) <= M -> (1 + u) * E + u * M <= M -> M <= bpow radix2 1000 ->
  finite64 (Bsub x y) = true /\ Rabs (B2R (Bsub x y) - (a - b)) <= (1 + u) * E + u * M.
Proof.
  intros Fx Fy Hx Hy HM HE Hb. destruct (X_sub x y Fx Fy) as [Xs Ns].
  assert (Fo : finite64 (Bopp y) = true) by (destruct y; auto).
  assert (Eo : B2R (Bopp y) = - B2R y) by apply B2R_Bopp.
  destruct (add_err x (Bopp y) a (- b) E M) as [F1 D1]; auto; [rewrite Eo; lra|].
  destruct (X_add x (Bopp y) Fx Fo) as [Xa _]. rewrite Eo in Xa. rewrite (X_fin _ F1) in Xa.
  replace (B2R x + - B2R y) with (B2R x - B2R y) in Xa by ring.
  assert (F : finite64 (Bsub x y) = true).
  { apply fin_X; auto. rewrite Xs, <- Xa. apply B2R_lt_big. }
  split; auto. rewrite <- (X_fin _ F), Xs, <- Xa. exact D1.
Qed.

Lemma pow_lin n : INR n * u <= / 2 -> 1 <= (1 + u) ^ n <= 1 + 2 * INR n * u.
Proof.
  pose proof u_pos as U. induction n as [|n IH]; intros H; [simpl; lra|].
  rewrite S_INR in H |- * . pose proof (pos_INR n). destruct IH as [I1 I2]; [nra|].
  cbn [pow]. split; [nra|].
  assert ((1 + u) * (1 + u) ^ n <= (1 + u) * (1 + 2 * INR n * u)) by (apply Rmult_le_compat_l; lra). nra.
Qed.

Lemma rsum_bound B l : Forall (fun x => Rabs x <= B) l -> Rabs (rsum l) <= INR (length l) * B.
Proof.
  induction 1 as [|x l Hx F IH]; [simpl; rewrite Rabs_R0; lra|].
  change (length (x :: l)) with (S (length l)). rewrite S_INR. cbn [rsum].
  eapply Rle_trans; [apply Rabs_triang|]. lra.
Qed.

Lemma window_length {X} W (xs : list X) : length (window_of W xs) = match W with O => length xs | _ => Nat.min W (length xs) end.
Proof. destruct W; auto. apply lastn_length. Qed.

Lemma Forall_window {X} (P : X -> Prop) W l : Forall P l -> Forall P (window_of W l).
Proof. destruct W; auto. intros H. unfold window_of, lastn. rewrite <- (firstn_skipn (length l - S W) l) in H.
  now apply Forall_app in H as [_ H]. Qed.

Definition bounded64 (B : R) (x : double) : Prop := finite64 x = true /\ Rabs (B2R x) <= B.

Lemma sum_error W B K (xs : list double) : 0 <= B -> Forall (bounded64 B) xs ->
  (length (window_of W xs) <= K)%nat -> INR K * B <= bpow radix2 1000 -> INR (2 * length xs) * u <= / 2 ->
  exists s, update_all (mean_update (A := B64)) (mean_new W) xs = Ret s /\ mean_inv (A := B64) W xs s /\
    finite64 (mn_sum s) = true /\
    Rabs (B2R (mn_sum s) - rsum (map B2R (window_of W xs))) <= INR K * B * ((1 + u) ^ (2 * length xs) - 1).
Proof.
  intros HB. set (M := INR K * B). pose proof u_pos as U.
  induction xs as [|x xs IH] using rev_ind; intros F L HM Hn.
  - eexists. split; [reflexivity|]. split; [apply mean_new_inv|]. split; [reflexivity|].
    assert (E : window_of (X := double) W [] = []) by (destruct W; reflexivity). rewrite E.
    change (B2R (mn_sum (mean_new (A := B64) W))) with 0.
    cbn [map rsum length]. change ((1 + u) ^ (2 * 0)) with 1. rewrite !Rminus_0_r, Rabs_R0. right. ring.
  - apply Forall_app in F as [F Fx]. inversion_clear Fx as [|? ? Bx _].
    rewrite app_length in Hn |- * . cbn [length] in Hn |- * . rewrite window_length, app_length in L. cbn [length] in L.
    replace (2 * (length xs + 1))%nat with (S (S (2 * length xs))) in Hn |- * by lia.
    assert (Hn1 : INR (S (2 * length xs)) * u <= / 2) by (rewrite S_INR in Hn; nra).
    assert (Hn2 : INR (2 * length xs) * u <= / 2) by (rewrite S_INR in Hn1; nra).
    destruct IH as (s & E & Hi & Fs & Es); auto.
    { rewrite window_length. destruct W; lia. }
    destruct (mean_step (A := B64) W xs s x Hi) as (s' & E' & Hi' & Hs').
    exists s'. rewrite update_all_snoc, E. cbn [bind]. split; [exact E'|]. split; [exact Hi'|]. rewrite Hs'.
    clear s' E' Hi' Hs' E Hi.
    destruct (pow_lin _ Hn) as [P1 P2], (pow_lin _ Hn1) as [P3 P4], (pow_lin _ Hn2) as [P5 P6].
    assert (M0 : 0 <= M) by (unfold M; apply Rmult_le_pos; auto; apply pos_INR).
    set (g := (1 + u) ^ (2 * length xs)) in * .
    assert (G1 : (1 + u) ^ S (2 * length xs) = (1 + u) * g) by reflexivity.
    assert (G2 : (1 + u) ^ S (S (2 * length xs)) = (1 + u) * ((1 + u) * g)) by reflexivity.
    assert (R1 : (1 + u) * (M * (g - 1)) + u * M = M * ((1 + u) * g - 1)) by ring.
    assert (R2 : (1 + u) * (M * ((1 + u) * g - 1)) + u * M = M * ((1 + u) * ((1 + u) * g) - 1)) by ring.
    destruct Bx as [Fx Bx].
    assert (Sum : forall l : list double, Forall (bounded64 B) l -> (length l <= K)%nat -> Rabs (rsum (map B2R l)) <= M).
    { intros l Fl Ll. eapply Rle_trans; [apply (rsum_bound B)|].
      - apply Forall_map. eapply Forall_impl; [|exact Fl]. intros y []; auto.
      - rewrite map_length. unfold M. apply Rmult_le_compat_r; auto. apply le_INR; auto. }
    rewrite G2. rewrite G1 in P3, P4. rewrite G2 in P1, P2. clear G1 G2. clearbody g M.
    assert (L1 : (1 + u) * g - 1 <= 1) by (clear - P4 Hn1; lra). assert (L2 : (1 + u) * ((1 + u) * g) - 1 <= 1) by (clear - P2 Hn; lra).
    assert (C1 : M * ((1 + u) * g - 1) <= M) by (clear - L1 M0; nra).
    assert (C2 : M * ((1 + u) * ((1 + u) * g) - 1) <= M) by (clear - L2 M0; nra).
    assert (C3 : M * ((1 + u) * g - 1) <= M * ((1 + u) * ((1 + u) * g) - 1)).
    { apply Rmult_le_compat_l; auto. clear - P3 U. nra. }
    assert (Fw := Forall_window _ W _ F). assert (Lw := window_length W xs).
    unfold next_sum. change (num B64) with double. destruct W as [|W'].
    + cbn [window_of] in * . rewrite map_app, rsum_app. cbn [map rsum]. rewrite Rplus_0_r.
      destruct (add_err (mn_sum s) x (rsum (map B2R xs)) (B2R x) (M * (g - 1)) M) as [F1 D1]; auto.
      * specialize (Sum (xs ++ [x])). rewrite map_app, rsum_app in Sum. cbn [map rsum] in Sum. rewrite Rplus_0_r in Sum.
        apply Sum; [apply Forall_app; split; auto; constructor; [split; auto|constructor]|rewrite app_length; simpl; lia].
      * rewrite R1. exact C1.
      * split; [exact F1|]. eapply Rle_trans; [exact D1|]. rewrite R1. exact C3.
    + set (W := S W') in * . cbn [window_of] in * . assert (WO : forall l : list double, window_of W l = lastn W l) by reflexivity.
      rewrite WO in * . assert (L' : (Nat.min W (length xs + 1) <= K)%nat) by exact L. clear L.
      change (length (lastn W xs) = Nat.min W (length xs)) in Lw. rewrite (lastn_snoc W) by (unfold W; lia).
      assert (SL : forall l : list double, Forall (bounded64 B) l -> (length l + 1 <= K)%nat ->
        Rabs (rsum (map B2R l) + B2R x) <= M).
      { intros l Fl Ll. specialize (Sum (l ++ [x])). rewrite map_app, rsum_app in Sum. cbn [map rsum] in Sum.
        rewrite Rplus_0_r in Sum. apply Sum; [apply Forall_app; split; auto; constructor; [split; auto|constructor]|].
        rewrite app_length. simpl. lia. }
      destruct (Nat.ltb_spec (length xs) W) as [Hlt|Hge]; rewrite map_app, rsum_app; cbn [map rsum]; rewrite Rplus_0_r.
      * assert (D : finite64 (Badd (mn_sum s) x) = true /\
          Rabs (B2R (Badd (mn_sum s) x) - (rsum (map B2R (lastn W xs)) + B2R x)) <= M * ((1 + u) * g - 1)).
        { rewrite <- R1. apply add_err; auto; [|rewrite R1; exact C1]. apply SL; auto. rewrite Lw. unfold W in *; lia. }
        destruct D as [F1 D1]. destruct (lastn W xs); (split; [exact F1|]); (eapply Rle_trans; [exact D1|exact C3]).
      * destruct (lastn W xs) as [|f w] eqn:El.
        { cbn [length] in Lw. unfold W in *; lia. }
        cbn [map tl rsum] in * . inversion_clear Fw as [|? ? [Ff Bf] Fw'].
        cbn [length] in Lw.
        destruct (sub_err (mn_sum s) f (B2R f + rsum (map B2R w)) (B2R f) (M * (g - 1)) M) as [F1 D1]; auto.
        { replace (B2R f + rsum (map B2R w) - B2R f) with (rsum (map B2R w)) by ring. apply Sum; auto. unfold W in *; lia. }
        { rewrite R1. exact C1. }
        replace (B2R f + rsum (map B2R w) - B2R f) with (rsum (map B2R w)) in D1 by ring. rewrite R1 in D1.
        destruct (add_err (Bsub (mn_sum s) f) x (rsum (map B2R w)) (B2R x) (M * ((1 + u) * g - 1)) M) as [F2 D2]; auto.
        { apply SL; auto. unfold W in *; lia. }
        { rewrite R2. exact C2. }
        split; [exact F2|]. rewrite R2 in D2. exact D2.
Qed.

Lemma mean_error W B (xs : list double) : 0 <= B -> xs <> [] -> Forall (bounded64 B) xs ->
  INR (length (window_of W xs)) * B <= bpow radix2 1000 -> (Z.of_nat (length xs) <= 2 ^ 51)%Z ->
  exists s, update_all (mean_update (A := B64)) (mean_new W) xs = Ret s /\
    finite64 (mean_evaluate (A := B64) s) = true /\
    Rabs (B2R (mean_evaluate (A := B64) s) - avg (map B2R (window_of W xs)))
      <= (2 * INR (length xs) + 1) * bpow radix2 (-52) * B + bpow radix2 (-1075).
Proof.
  intros HB Hne HF HW Hn. pose proof u_pos as U.
  assert (Len : (0 < length xs)%nat) by (destruct xs; simpl; [contradiction|lia]).
  assert (N2 : INR (length xs) * u <= / 4).
  { apply Rle_trans with (bpow radix2 51 * u).
    - apply Rmult_le_compat_r; [lra|]. rewrite INR_IZR_INZ. apply IZR_le in Hn. exact Hn.
    - unfold u. rewrite <- bpow_plus. right. simpl. lra. }
  destruct (sum_error W B _ xs HB HF (le_n _) HW) as (s & E & [Hw Hs Hh] & Fs & Es).
  { rewrite mult_INR. change (INR 2) with 2. lra. }
  exists s. split; [exact E|].
  set (w := window_of W xs) in * . set (k := length w) in * .
  assert (Lw : (0 < k <= length xs)%nat).
  { unfold k, w. rewrite window_length. destruct W; lia. }
  assert (EV : mean_evaluate (A := B64) s = Bquot (mn_sum s) (Bz (Z.of_nat k))).
  { unfold mean_evaluate. rewrite Hh, Hw. change (num B64) with double.
    replace (Nat.eqb (length xs) 0) with false by (symmetry; apply Nat.eqb_neq; lia).
    unfold k, w. destruct W; reflexivity. }
  assert (EA : avg (map B2R w) = rsum (map B2R w) / INR k).
  { assert (K : length (map B2R w) = k) by apply map_length. unfold avg. rewrite <- K.
    destruct (map B2R w); auto. simpl in K. lia. }
  rewrite EV, EA. clear EV EA.
  destruct (Bz_exact (Z.of_nat k)) as [En Fn]; [lia|]. rewrite <- INR_IZR_INZ in En.
  assert (P : 1 <= INR k) by (apply (le_INR 1); lia).
  destruct (X_div (mn_sum s) _ Fs Fn) as [HX Hnan]; [rewrite En; lra|]. rewrite En in HX.
  assert (PL : 1 <= (1 + u) ^ (2 * length xs) <= 1 + 2 * INR (2 * length xs) * u).
  { apply pow_lin. rewrite mult_INR. change (INR 2) with 2. lra. }
  rewrite mult_INR in PL. change (INR 2) with 2 in PL.
  set (g := (1 + u) ^ (2 * length xs)) in * . clearbody g.
  set (S0 := B2R (mn_sum s)) in * . set (T := rsum (map B2R w)) in * .
  assert (Bw : Rabs T <= INR k * B).
  { replace k with (length (map B2R w)) by apply map_length. apply rsum_bound. apply Forall_map.
    eapply Forall_impl; [|apply Forall_window; exact HF]. intros y []; auto. }
  assert (Dq : Rabs (S0 / INR k - T / INR k) <= B * (4 * INR (length xs) * u)).
  { replace (S0 / INR k - T / INR k) with ((S0 - T) / INR k) by (field; lra).
    unfold Rdiv. rewrite Rabs_mult, (Rabs_pos_eq (/ _)) by (left; apply Rinv_0_lt_compat; lra).
    apply Rmult_le_reg_r with (INR k); [lra|]. rewrite Rmult_assoc, Rinv_l, Rmult_1_r by lra.
    eapply Rle_trans; [exact Es|]. rewrite (Rmult_comm (INR k) B), !Rmult_assoc. apply Rmult_le_compat_l; auto.
    rewrite (Rmult_comm (INR k)), <- !Rmult_assoc. apply Rmult_le_compat_r; [lra|]. clear - PL. lra. }
  assert (Bq : Rabs (T / INR k) <= B).
  { unfold Rdiv. rewrite Rabs_mult, (Rabs_pos_eq (/ _)) by (left; apply Rinv_0_lt_compat; lra).
    apply Rmult_le_reg_r with (INR k); [lra|]. rewrite Rmult_assoc, Rinv_l, Rmult_1_r by lra. lra. }
  assert (Bs : Rabs (S0 / INR k) <= 2 * B).
  { replace (S0 / INR k) with ((S0 / INR k - T / INR k) + T / INR k) by ring.
    eapply Rle_trans; [apply Rabs_triang|]. clear - Dq Bq N2 HB. nra. }
  pose proof (rnd_any (S0 / INR k)) as Hr.
  assert (D : Rabs (rnd (S0 / INR k) - T / INR k) <=
    (2 * INR (length xs) + 1) * bpow radix2 (-52) * B + bpow radix2 (-1075)).
  { replace (bpow radix2 (-52)) with (2 * u).
    - replace (rnd (S0 / INR k) - T / INR k)
        with ((rnd (S0 / INR k) - S0 / INR k) + (S0 / INR k - T / INR k)) by ring.
      eapply Rle_trans; [apply Rabs_triang|].
      assert (u * Rabs (S0 / INR k) <= u * (2 * B)) by (apply Rmult_le_compat_l; lra). clear - H Hr Dq. nra.
    - unfold u. change 2 with (bpow radix2 1). rewrite <- bpow_plus. reflexivity. }
  assert (Bd : Rabs (rnd (S0 / INR k)) < big).
  { rewrite <- rnd_abs. apply Rle_lt_trans with (rnd (bpow radix2 1001)).
    - apply rnd_le. eapply Rle_trans; [exact Bs|]. change 1001%Z with (1 + 1000)%Z. rewrite bpow_plus.
      change (bpow radix2 1) with 2. apply Rmult_le_compat_l; [lra|]. eapply Rle_trans; [|exact HW]. clear - P HB. nra.
    - rewrite rnd_fix; [apply bpow_lt; lia|]. apply generic_format_bpow. vm_compute. discriminate. }
  unfold R64 in HX. rewrite sat_in in HX by auto.
  assert (F : finite64 (Bquot (mn_sum s) (Bz (Z.of_nat k))) = true) by (apply fin_X; auto; rewrite HX; auto).
  split; auto. rewrite <- (X_fin _ F), HX. exact D.
Qed.

Lemma mean_error_case : 0 <= 4 /\ [Bz 1; Bz 4; Bz (-3)] <> [] /\
  Forall (fun x => finite64 x = true /\ Rabs (B2R x) <= 4) [Bz 1; Bz 4; Bz (-3)] /\
  INR (length (window_of 2 [Bz 1; Bz 4; Bz (-3)])) * 4 <= bpow radix2 1000.
Proof.
  assert (K : forall z, (Z.abs z <= 4)%Z -> finite64 (Bz z) = true /\ Rabs (B2R (Bz z)) <= 4).
  { intros z Hz. destruct (Bz_exact z) as [-> F]; [lia|]. split; auto. rewrite <- abs_IZR. apply IZR_le. auto. }
  split; [lra|]. split; [discriminate|]. split; [repeat (apply Forall_cons; [apply K; lia|]); apply Forall_nil|].
  cbn [length window_of lastn skipn Nat.sub]. apply Rle_trans with (bpow radix2 3); [simpl; lra|apply bpow_le; lia].
Qed.
