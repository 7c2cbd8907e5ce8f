(** StreamingVariance and WindowedP2Quantile with contraction. *)

From Coq Require Import List Reals ZArith Lra Lia Bool Arith.
From Flocq Require Import Core.Core IEEE754.BinarySingleNaN.
From Flocq Require Mult_error.
From Verif Require Import Outcome Arith Mean P2 Contract Spec ListFacts FloatSpec FloatFacts UtilsFacts
  MeanFacts MeanSpec MeanError VarError P2Witness ContractFacts.
Import ListNotations.
Local Open Scope R_scope.

(** ** StreamingVariance *)

Lemma X_sub_mul (a b c : double) : finite64 a = true -> finite64 b = true -> finite64 c = true ->
  X (sub_mul true a b c) = R64 (B2R a - B2R b * B2R c) /\ nan (sub_mul true a b c) = false.
Proof.
  intros Fa Fb Fc. unfold sub_mul. assert (Fo : finite64 (Bopp b) = true) by now rewrite opp_fin. assert (Eo : B2R (Bopp b) = - B2R b) by apply B2R_Bopp.
  destruct (X_fused (Bopp b) c a) as [H1 H2]; auto. split; auto. rewrite H1, Eo. f_equal. ring.
Qed.

Lemma variance_error_fused W B (xs : list double) : bpow radix2 (-500) <= B -> xs <> [] -> Forall (bounded64 B) xs ->
  INR (length (window_of W xs)) * (B * B) <= bpow radix2 999 -> (Z.of_nat (length xs) <= 2 ^ 48)%Z ->
  exists s, update_all (variance_update (A := B64)) (variance_new W) xs = Ret s /\
    finite64 (variance_evaluate_c true s) = true /\
    Rabs (B2R (variance_evaluate_c true s) - pvar (map B2R (window_of W xs)))
      <= (INR (length xs) + 1) * bpow radix2 (-49) * (B * B).
Proof.
  intros HB Hne HF HW Hn. pose proof u_pos as U. destruct (eta_small B HB) as (E0 & _ & E2).
  destruct (variance_means W B xs HB Hne HF HW Hn) as (s & mu & sq & E & Fm & Fq & Dp & Q1 & M3 & Mm2 & Bmu2 & Bsq & Nu & N1 & BB & P).
  exists s. split; [exact E|]. clear E. rewrite Dp. clear Dp HF HW. unfold variance_evaluate_c.
  replace (bpow radix2 (-49)) with (16 * u)
    by (unfold u; change 16 with (bpow radix2 4); rewrite <- bpow_plus; reflexivity).
  set (md := mean_evaluate (A := B64) (va_mean s)) in * . set (qd := mean_evaluate (A := B64) (va_sq s)) in * .
  set (n := INR (length xs)) in * . clearbody md qd n. set (b2 := B * B) in * .
  set (m2 := B2R md * B2R md) in * .
  assert (Big : 32 * b2 < big).
  { apply Rle_lt_trans with (32 * bpow radix2 999); [lra|]. change 32 with (bpow radix2 5).
    rewrite <- bpow_plus. apply bpow_lt. lia. }
  destruct (X_sub_mul qd md md Fq Fm Fm) as [HY Hny]. fold m2 in HY.
  set (v := B2R qd - m2) in * .
  assert (V1 : Rabs (v - (sq - mu * mu)) <= (13 * n + 15) * u * b2).
  { replace (v - (sq - mu * mu)) with ((B2R qd - sq) + - (m2 - mu * mu)) by (unfold v; ring).
    eapply Rle_trans; [apply Rabs_triang|]. rewrite !Rabs_Ropp. clear - Q1 M3 U P. nra. }
  assert (V2 : Rabs v <= 3 * b2).
  { replace v with ((v - (sq - mu * mu)) + (sq - mu * mu)) by ring. eapply Rle_trans; [apply Rabs_triang|].
    assert (Rabs (sq - mu * mu) <= 2 * b2).
    { unfold Rminus. eapply Rle_trans; [apply Rabs_triang|]. rewrite Rabs_Ropp. lra. }
    assert ((13 * n + 15) * u <= 1) by (clear - Nu N1 U; nra).
    assert ((13 * n + 15) * u * b2 <= 1 * b2) by (apply Rmult_le_compat_r; lra). lra. }
  pose proof (rnd_any v) as Hv. fold eta in Hv.
  assert (R2 : Rabs (rnd v - v) <= (3 + / 1000) * u * b2).
  { eapply Rle_trans; [exact Hv|]. assert (u * Rabs v <= u * (3 * b2)) by (apply Rmult_le_compat_l; lra).
    clear - H E2. lra. }
  destruct (rnd_finite (sub_mul true qd md md) v (5 * b2)) as [Fv Ev]; auto; [|lra|].
  { replace (rnd v) with ((rnd v - v) + v) by ring. eapply Rle_trans; [apply Rabs_triang|].
    clear - R2 V2 P U. nra. }
  split; [exact Fv|]. rewrite Ev.
  replace (rnd v - (sq - mu * mu)) with ((rnd v - v) + (v - (sq - mu * mu))) by ring.
  eapply Rle_trans; [apply Rabs_triang|].
  replace ((n + 1) * (16 * u) * b2) with ((16 * n + 16) * (u * b2)) by ring.
  assert (Ub : 0 <= u * b2) by (clear - U P; nra).
  assert ((13 * n + 15 + 3 + / 1000) * (u * b2) <= (16 * n + 16) * (u * b2)) by (apply Rmult_le_compat_r; lra). lra.
Qed.

Lemma variance_error_c W B (c : bool) (xs : list double) : bpow radix2 (-500) <= B -> xs <> [] ->
  Forall (fun x => finite64 x = true /\ Rabs (B2R x) <= B) xs ->
  INR (length (window_of W xs)) * (B * B) <= bpow radix2 999 -> (Z.of_nat (length xs) <= 2 ^ 48)%Z ->
  exists s, update_all (variance_update (A := B64)) (variance_new W) xs = Ret s /\
    finite64 (variance_evaluate_c c s) = true /\
    Rabs (B2R (variance_evaluate_c c s) - pvar (map B2R (window_of W xs)))
      <= (INR (length xs) + 1) * bpow radix2 (-49) * (B * B).
Proof.
  intros H1 H2 H3 H4 H5. destruct c; [now apply variance_error_fused|].
  destruct (variance_error W B xs H1 H2 H3 H4 H5) as (s & E & F & D). exists s.
  rewrite variance_separate. auto.
Qed.

Lemma mean_one W (x : double) : finite64 x = true -> exists m, mean_update (A := B64) (mean_new W) x = Ret m /\
  finite64 (mean_evaluate (A := B64) m) = true /\ B2R (mean_evaluate (A := B64) m : double) = B2R x.
Proof.
  intros F. assert (G : finite64 (Bquot (Badd (Bz 0) x) (Bz 1)) = true /\ B2R (Bquot (Badd (Bz 0) x) (Bz 1)) = B2R x).
  { destruct (Bz_exact 0) as [E0 F0]; [lia|]. destruct (Bz_exact 1) as [E1 F1]; [lia|].
    destruct (X_add (Bz 0) x F0 F) as [HX Hn]. rewrite E0, Rplus_0_l, R64_B2R in HX.
    assert (Fa : finite64 (Badd (Bz 0) x) = true) by (apply fin_X; auto; rewrite HX; apply B2R_lt_big).
    rewrite (X_fin _ Fa) in HX. destruct (X_div (Badd (Bz 0) x) (Bz 1) Fa F1) as [HY Hm]; [rewrite E1; lra|].
    rewrite HX, E1 in HY. unfold Rdiv in HY. rewrite Rinv_1, Rmult_1_r, R64_B2R in HY.
    assert (Fb : finite64 (Bquot (Badd (Bz 0) x) (Bz 1)) = true) by (apply fin_X; auto; rewrite HY; apply B2R_lt_big).
    split; auto. now rewrite <- (X_fin _ Fb). }
  destruct W as [|W]; eexists; (split; [reflexivity|exact G]).
Qed.

(** One observation. *)
Lemma variance_one W (x : double) : finite64 x = true -> finite64 (Bmul x x) = true ->
  exists s, update_all (variance_update (A := B64)) (variance_new W) [x] = Ret s /\
    finite64 (variance_evaluate_c false s) = true /\ B2R (variance_evaluate_c false s) = 0 /\
    finite64 (variance_evaluate_c true s) = true /\
    B2R (variance_evaluate_c true s) = rnd (rnd (B2R x * B2R x) - B2R x * B2R x).
Proof.
  intros F F2. destruct (mean_one W x F) as (m & Em & Fm & Vm). destruct (mean_one W (Bmul x x) F2) as (q & Eq & Fq & Vq).
  cbn [update_all]. unfold variance_update, variance_new. cbn [va_mean va_sq].
  change (mul (a := B64) x x) with (Bmul x x).
  change (mean_update (A := B64) (mean_new W) x) with (mean_update (A := B64) (mean_new W) x).
  rewrite Em. cbn [bind]. rewrite Eq. cbn [bind].
  eexists. split; [reflexivity|]. unfold variance_evaluate_c. cbn [va_mean va_sq].
  set (md := mean_evaluate (A := B64) m) in * . set (qd := mean_evaluate (A := B64) q) in * . clearbody md qd.
  change (num B64) with double in * . 
  destruct (X_mul x x F F) as [HX _]. rewrite (X_fin _ F2) in HX. set (r := B2R x * B2R x) in * .
  assert (Bd : Rabs (rnd r) < big).
  { destruct (Rlt_or_le (Rabs (rnd r)) big) as [H|H]; auto. exfalso. pose proof (B2R_lt_big (Bmul x x)) as L. rewrite HX in L.
    unfold R64 in L. rewrite sat_out in L by auto. pose proof big_pos. revert L. destruct (Rlt_bool (rnd r) 0);
      [rewrite Rabs_Ropp|]; rewrite Rabs_pos_eq; lra. }
  unfold R64 in HX. rewrite sat_in in HX by auto. rewrite HX in Vq.
  assert (P1 : finite64 (sub_mul false qd md md) = true /\ B2R (sub_mul false qd md md) = 0).
  { unfold sub_mul. destruct (X_mul md md Fm Fm) as [HM Nm]. rewrite Vm in HM. fold r in HM. unfold R64 in HM. rewrite sat_in in HM by auto.
    assert (Fmm : finite64 (Bmul md md) = true) by (apply fin_X; auto; now rewrite HM).
    rewrite (X_fin _ Fmm) in HM. destruct (X_sub qd (Bmul md md) Fq Fmm) as [HS Ns].
    rewrite Vq, HM, Rminus_diag_eq in HS by auto. unfold R64 in HS. rewrite rnd_0 in HS. rewrite sat_in in HS by (rewrite Rabs_R0; apply big_pos).
    assert (Fs : finite64 (Bsub qd (Bmul md md)) = true) by (apply fin_X; auto; rewrite HS, Rabs_R0; apply big_pos).
    split; auto. now rewrite <- (X_fin _ Fs). }
  destruct P1 as [P1 P2]. split; [exact P1|]. split; [exact P2|].
  destruct (X_sub_mul qd md md Fq Fm Fm) as [HS Ns]. rewrite Vq, Vm in HS. fold r in HS.
  pose proof (rnd_any r) as D. pose proof (rnd_any (rnd r - r)) as D2. pose proof u_pos as U.
  assert (U2 : u <= / 1024) by (unfold u; apply Rle_trans with (bpow radix2 (-10)); [apply bpow_le; lia|simpl; lra]).
  assert (Tiny : bpow radix2 (-1075) <= / 1024) by (apply Rle_trans with (bpow radix2 (-10)); [apply bpow_le; lia|simpl; lra]).
  assert (Hb : 1024 <= big) by (change 1024 with (bpow radix2 10); apply bpow_le; lia).
  assert (Ab : Rabs r <= Rabs (rnd r) + Rabs (rnd r - r)).
  { replace r with (rnd r + - (rnd r - r)) at 1 by ring. eapply Rle_trans; [apply Rabs_triang|]. rewrite Rabs_Ropp. lra. }
  assert (Ar : Rabs (rnd (rnd r - r)) <= Rabs (rnd r - r) + Rabs (rnd (rnd r - r) - (rnd r - r))).
  { replace (rnd (rnd r - r)) with ((rnd r - r) + (rnd (rnd r - r) - (rnd r - r))) at 1 by ring. apply Rabs_triang. }
  pose proof (Rabs_pos r). pose proof (Rabs_pos (rnd r - r)).
  assert (D' : Rabs (rnd r - r) <= / 1024 * Rabs r + / 1024) by nra.
  assert (D2' : Rabs (rnd (rnd r - r) - (rnd r - r)) <= / 1024 * Rabs (rnd r - r) + / 1024) by nra.
  apply (rnd_finite (sub_mul true qd md md) (rnd r - r) (big / 2)); auto; lra.
Qed.

Lemma variance_one_negative : exists (x : double) s, finite64 x = true /\
  update_all (variance_update (A := B64)) (variance_new 0) [x] = Ret s /\ B2R (variance_evaluate_c true s) = -1.
Proof.
  set (x := Bz 100000001). set (c := match update_all (variance_update (A := B64)) (variance_new 0) [x] with
    Ret s => Beqb (variance_evaluate_c true s) (Bz (-1)) && finite64 (variance_evaluate_c true s) | _ => false end).
  assert (T : c = true) by (vm_compute; reflexivity). unfold c in T.
  destruct (update_all _ _ _) as [s| |] eqn:E in T; try discriminate T. apply andb_prop in T as [T1 T2].
  exists x, s. split; [vm_compute; reflexivity|]. split; [exact E|]. destruct (Bz_exact (-1)) as [E1 F1]; [lia|].
  rewrite Beqb_correct in T1 by auto. revert T1. case Req_bool_spec; intros H T; [|discriminate T]. rewrite H. exact E1.
Qed.

(** ** WindowedP2Quantile *)

Lemma sum_choice_end c (w1 prev w2 v : double) : finite64 w1 = true -> B2R w1 = 0 -> finite64 w2 = true -> B2R w2 = 1 ->
  finite64 prev = true -> finite64 v = true ->
  finite64 (sum_of_products c w1 prev w2 v) = true /\ B2R (sum_of_products c w1 prev w2 v) = B2R v.
Proof.
  intros F1 E1 F2 E2 Fp Fv.
  assert (A : finite64 (Bmul w1 prev) = true /\ B2R (Bmul w1 prev) = 0).
  { destruct (X_mul w1 prev F1 Fp) as [H N]. rewrite E1, Rmult_0_l in H. unfold R64 in H. rewrite rnd_0, sat_in in H by (rewrite Rabs_R0; apply big_pos).
    assert (F : finite64 (Bmul w1 prev) = true) by (apply fin_X; auto; rewrite H, Rabs_R0; apply big_pos).
    split; auto. now rewrite <- (X_fin _ F). }
  assert (B : finite64 (Bmul w2 v) = true /\ B2R (Bmul w2 v) = B2R v).
  { destruct (X_mul w2 v F2 Fv) as [H N]. rewrite E2, Rmult_1_l, R64_B2R in H.
    assert (F : finite64 (Bmul w2 v) = true) by (apply fin_X; auto; rewrite H; apply B2R_lt_big).
    split; auto. now rewrite <- (X_fin _ F). }
  destruct A as [FA EA], B as [FB EB].
  assert (G : forall z : double, X z = R64 (B2R v) /\ nan z = false -> finite64 z = true /\ B2R z = B2R v).
  { intros z [H N]. rewrite R64_B2R in H. assert (F : finite64 z = true) by (apply fin_X; auto; rewrite H; apply B2R_lt_big).
    split; auto. now rewrite <- (X_fin _ F). }
  destruct c; apply G; cbn [sum_of_products].
  - destruct (X_add (Bmul w1 prev) (Bmul w2 v) FA FB) as [H N]. split; auto. rewrite H, EA, EB, Rplus_0_l. reflexivity.
  - destruct (X_fused w1 prev (Bmul w2 v) F1 Fp FB) as [H N]. split; auto. rewrite H, E1, EB, Rmult_0_l, Rplus_0_l. reflexivity.
  - destruct (X_fused w2 v (Bmul w1 prev) F2 Fv FA) as [H N]. split; auto. rewrite H, E2, EA, Rmult_1_l, Rplus_0_r. reflexivity.
Qed.

Lemma wp2_end_c c (s : wp2 B64) p (v : double) : (1 <= w_wsize s <= w_history s)%nat -> (w_history s mod w_wsize s = 0)%nat ->
  p2_evaluate (w_p2 s) = Ret (p, v) -> finite64 (w_previous s) = true -> finite64 v = true ->
  exists s' r, wp2_evaluate_c c s = Ret (s', r) /\ finite64 r = true /\ B2R r = B2R v.
Proof.
  intros [H1 H2] Hm E Fp Fv. unfold wp2_evaluate_c. destruct (Nat.ltb_spec (w_history s) (w_wsize s)); [lia|].
  destruct (Nat.eqb_spec (w_wsize s) 0); [lia|]. rewrite Hm, E. cbn [bind Nat.add].
  destruct (Bz_exact 1) as [E1 F1]; [lia|].
  assert (W2 : finite64 (of_nat (A := B64) 1) = true /\ B2R (of_nat (A := B64) 1 : double) = 1) by (split; [exact F1|exact E1]).
  destruct W2 as [F2 E2].
  assert (W1 : finite64 (Bsub (Bz 1) (of_nat (A := B64) 1)) = true /\ B2R (Bsub (Bz 1) (of_nat (A := B64) 1)) = 0).
  { destruct (X_sub (Bz 1) (of_nat (A := B64) 1) F1 F2) as [HS N]. rewrite E1, E2, Rminus_diag_eq in HS by auto.
    unfold R64 in HS. rewrite rnd_0, sat_in in HS by (rewrite Rabs_R0; apply big_pos).
    assert (F : finite64 (Bsub (Bz 1) (of_nat (A := B64) 1)) = true) by (apply fin_X; auto; rewrite HS, Rabs_R0; apply big_pos).
    split; [exact F|]. now rewrite <- (X_fin _ F). }
  destruct W1 as [F0 E0]. eexists. eexists. split; [reflexivity|]. now apply sum_choice_end.
Qed.

(** Before windowSize observations, nothing is contracted. *)
Lemma wp2_early_c c (s : wp2 B64) : (w_history s < w_wsize s)%nat -> wp2_evaluate_c c s = wp2_evaluate (A := B64) s.
Proof. intros H. unfold wp2_evaluate_c, wp2_evaluate. destruct (Nat.ltb_spec (w_history s) (w_wsize s)); [reflexivity|lia]. Qed.

Lemma wp2_case : exists (s : wp2 B64) p v, (1 <= w_wsize s <= w_history s)%nat /\ (w_history s mod w_wsize s = 0)%nat /\
  p2_evaluate (w_p2 s) = Ret (p, v) /\ finite64 (w_previous s) = true /\ finite64 v = true.
Proof.
  assert (T : ok (let* s0 := wp2_new (A := B64) (lit (A := B64) 1 2) 2 in
                  let* s := update_all (wp2_update (A := B64)) s0 [Bz 3; Bz 7; Bz 5; Bz 6] in
                  let* (p, v) := p2_evaluate (w_p2 s) in Ret (s, v))
                 (fun sv => let s := fst sv in Nat.eqb (w_wsize s) 2 && Nat.eqb (w_history s) 4 && finite64 (w_previous s) && finite64 (snd sv)) = true)
    by (vm_compute; reflexivity).
  destruct (wp2_new _ _) as [s0| |] in T; try discriminate T. cbn [bind] in T.
  destruct (update_all _ _ _) as [s| |] in T; try discriminate T. cbn [bind] in T.
  destruct (p2_evaluate (w_p2 s)) as [[p v]| |] eqn:E; try discriminate T. cbn [bind ok fst snd] in T.
  apply andb_prop in T as [T F2]. apply andb_prop in T as [T F1]. apply andb_prop in T as [T1 T2].
  apply Nat.eqb_eq in T1, T2. exists s, p, v. rewrite T1, T2. repeat split; auto.
Qed.
