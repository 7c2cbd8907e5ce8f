(** Rounding errors of StreamingVariance in double arithmetic. *)

From Coq Require Import List Reals ZArith Lra Lia Bool Arith.
From Flocq Require Import Core.Core IEEE754.BinarySingleNaN.
From Verif Require Import Outcome Arith Mean Spec MeanSpec ListFacts FloatSpec FloatFacts UtilsFacts MeanFacts MeanError.
Import ListNotations.
Open Scope R_scope.

Lemma avg_eq l : l <> [] -> avg l = rsum l / INR (length l).
Proof. destruct l; [contradiction|reflexivity]. Qed.

Lemma avg_close {X} (f g : X -> R) e (l : list X) : 0 <= e -> Forall (fun x => Rabs (f x - g x) <= e) l ->
  Rabs (avg (map f l) - avg (map g l)) <= e.
Proof.
  intros He F. destruct l as [|x l]; [unfold avg; simpl; rewrite Rminus_0_r, Rabs_R0; auto|]. set (L := x :: l) in * .
  rewrite !avg_eq by (unfold L; discriminate). rewrite !map_length.
  assert (P : 0 < INR (length L)) by (apply (lt_INR 0); unfold L; simpl; lia).
  assert (D : Rabs (rsum (map f L) - rsum (map g L)) <= INR (length L) * e).
  { clearbody L. clear P. induction F as [|y l' Hy F IH]; [simpl; rewrite Rminus_0_r, Rabs_R0; lra|].
    change (length (y :: l')) with (S (length l')). rewrite S_INR. cbn [map rsum].
    replace (f y + rsum (map f l') - (g y + rsum (map g l')))
      with ((f y - g y) + (rsum (map f l') - rsum (map g l'))) by ring.
    eapply Rle_trans; [apply Rabs_triang|]. lra. }
  replace (rsum (map f L) / INR (length L) - rsum (map g L) / INR (length L))
    with ((rsum (map f L) - rsum (map g L)) / INR (length L)) by (field; lra).
  unfold Rdiv. rewrite Rabs_mult, (Rabs_pos_eq (/ _)) by (left; apply Rinv_0_lt_compat; auto).
  apply Rmult_le_reg_r with (INR (length L)); auto. rewrite Rmult_assoc, Rinv_l, Rmult_1_r by lra. lra.
Qed.

Lemma avg_bound B l : 0 <= B -> Forall (fun x => Rabs x <= B) l -> Rabs (avg l) <= B.
Proof.
  intros HB F. pose proof (avg_close (fun x => x) (fun _ => 0) B l HB) as H.
  rewrite map_id in H. assert (Z : avg (map (fun _ : R => 0) l) = 0).
  { destruct l as [|x l]; [reflexivity|]. rewrite avg_eq by discriminate.
    rewrite (rsum_const 0); [unfold Rdiv; ring|]. apply Forall_forall. intros y Hy. apply in_map_iff in Hy as (? & <- & _). auto. }
  rewrite Z, Rminus_0_r in H. apply H. eapply Forall_impl; [|exact F]. intros y Hy. cbv beta. now rewrite Rminus_0_r.
Qed.

Definition eta : R := bpow radix2 (-1075).

Lemma eta_small B : bpow radix2 (-500) <= B -> 0 < eta /\ eta <= u * B / 1000 /\ eta <= u * (B * B) / 1000.
Proof.
  intros HB. pose proof (bpow_gt_0 radix2 (-500)) as P. pose proof u_pos as U. unfold eta.
  split; [apply bpow_gt_0|].
  assert (K : bpow radix2 (-10) <= / 1000) by (simpl; lra).
  assert (B2 : bpow radix2 (-1000) <= B * B).
  { change (-1000)%Z with (-500 + -500)%Z. rewrite bpow_plus. apply Rmult_le_compat; lra. }
  split.
  - apply Rle_trans with (u * bpow radix2 (-500) * bpow radix2 (-10)).
    + unfold u. rewrite <- !bpow_plus. apply bpow_le. lia.
    + unfold Rdiv. apply Rmult_le_compat; auto; try apply bpow_ge_0; [apply Rmult_le_pos; lra|apply Rmult_le_compat_l; lra].
  - apply Rle_trans with (u * bpow radix2 (-1000) * bpow radix2 (-10)).
    + unfold u. rewrite <- !bpow_plus. apply bpow_le. lia.
    + unfold Rdiv. apply Rmult_le_compat; auto; try apply bpow_ge_0.
      * apply Rmult_le_pos; [lra|apply bpow_ge_0].
      * apply Rmult_le_compat_l; lra.
Qed.

Lemma rnd_finite (x : double) r M : nan x = false -> X x = R64 r -> Rabs (rnd r) <= M -> M < big ->
  finite64 x = true /\ B2R x = rnd r.
Proof.
  intros Hn HX Hb HM. unfold R64 in HX. rewrite sat_in in HX by lra.
  assert (F : finite64 x = true) by (apply fin_X; auto; rewrite HX; lra). split; auto. now rewrite <- (X_fin _ F).
Qed.

(** The square of one observation. *)
Lemma square_err B (x : double) : bpow radix2 (-500) <= B -> B * B <= bpow radix2 999 -> bounded64 B x ->
  bounded64 (B * B * (1 + 2 * u)) (Bmul x x) /\ Rabs (B2R (Bmul x x) - B2R x * B2R x) <= 2 * u * (B * B).
Proof.
  intros HB HM [Fx Hx]. destruct (eta_small B HB) as (E0 & _ & E2). pose proof u_pos as U.
  destruct (X_mul x x Fx Fx) as [HX Hn]. pose proof (rnd_any (B2R x * B2R x)) as Hr. fold eta in Hr.
  assert (S2 : Rabs (B2R x * B2R x) <= B * B).
  { rewrite Rabs_mult. apply Rmult_le_compat; auto using Rabs_pos. }
  assert (P : 0 < B * B) by (pose proof (bpow_gt_0 radix2 (-500)); nra).
  set (b2 := B * B) in * . clearbody b2. set (x2 := B2R x * B2R x) in * .
  assert (D : Rabs (rnd x2 - x2) <= 2 * u * b2).
  { eapply Rle_trans; [exact Hr|]. assert (u * Rabs x2 <= u * b2) by (apply Rmult_le_compat_l; lra).
    clear - H E2 P U. nra. }
  assert (D' : Rabs (rnd x2) <= b2 * (1 + 2 * u)).
  { replace (rnd x2) with ((rnd x2 - x2) + x2) by ring. eapply Rle_trans; [apply Rabs_triang|]. clear - D S2. lra. }
  destruct (rnd_finite (Bmul x x) x2 (b2 * (1 + 2 * u))) as [F E]; auto.
  { apply Rle_lt_trans with (2 * bpow radix2 999); [clear - P U HM; nra|].
    change 2 with (bpow radix2 1). rewrite <- bpow_plus. apply bpow_lt. lia. }
  rewrite E. split; [split; auto; rewrite E|]; auto.
Qed.

Lemma window_map_length {X Y} (f : X -> Y) W xs : length (window_of W (map f xs)) = length (window_of W xs).
Proof. now rewrite <- map_window, map_length. Qed.

(** The two means that evaluate combines. *)
Lemma variance_means W B (xs : list double) : bpow radix2 (-500) <= B -> xs <> [] -> Forall (bounded64 B) xs ->
  INR (length (window_of W xs)) * (B * B) <= bpow radix2 999 -> (Z.of_nat (length xs) <= 2 ^ 48)%Z ->
  exists s mu sq, update_all (variance_update (A := B64)) (variance_new W) xs = Ret s /\
    let md : double := mean_evaluate (A := B64) (va_mean s) in
    let qd : double := mean_evaluate (A := B64) (va_sq s) in
    finite64 md = true /\ finite64 qd = true /\ pvar (map B2R (window_of W xs)) = sq - mu * mu /\
    Rabs (B2R qd - sq) <= (4 * INR (length xs) + 5) * u * (B * B) /\
    Rabs (B2R md * B2R md - mu * mu) <= (9 * INR (length xs) + 7) * u * (B * B) /\
    Rabs (B2R md * B2R md) <= 2 * (B * B) /\ Rabs (mu * mu) <= B * B /\ Rabs sq <= B * B /\
    INR (length xs) * u <= / 32 /\ 1 <= INR (length xs) /\ B * B <= bpow radix2 999 /\ 0 < B * B.
Proof.
  intros HB Hne HF HW Hn. pose proof u_pos as U. destruct (eta_small B HB) as (E0 & E1 & E2).
  assert (B0 : 0 < B) by (pose proof (bpow_gt_0 radix2 (-500)); lra).
  assert (Len : (0 < length xs)%nat) by (destruct xs; simpl; [contradiction|lia]).
  assert (Lw : (0 < length (window_of W xs) <= length xs)%nat) by (rewrite window_length; destruct W; lia).
  set (k := length (window_of W xs)) in * .
  assert (K1 : 1 <= INR k) by (apply (le_INR 1); lia).
  assert (N1 : 1 <= INR (length xs)) by (apply (le_INR 1); lia).
  assert (N48 : INR (length xs) <= bpow radix2 48).
  { rewrite INR_IZR_INZ. apply IZR_le in Hn. exact Hn. }
  assert (Nu : INR (length xs) * u <= / 32).
  { apply Rle_trans with (bpow radix2 48 * u).
    - apply Rmult_le_compat_r; lra.
    - unfold u. rewrite <- bpow_plus. right. simpl. lra. }
  assert (BB : B * B <= bpow radix2 999) by (eapply Rle_trans; [|exact HW]; clear - K1 B0; nra).
  assert (P999 : 2 * bpow radix2 999 = bpow radix2 1000).
  { change 2 with (bpow radix2 1) at 1. rewrite <- bpow_plus. reflexivity. }
  destruct (var_run (A := B64) W xs) as (s & E & [_ _ Hm Hq]). exists s.
  (* the two means *)
  destruct (mean_error W B xs) as (m & Em & Fm & Dm); auto; [lra| |lia|].
  { destruct (Rle_lt_dec 1 B) as [G|G].
    - apply Rle_trans with (INR k * (B * B)); [apply Rmult_le_compat_l; [lra|clear - G; nra]|].
      pose proof (bpow_gt_0 radix2 999). lra.
    - apply Rle_trans with (INR k * 1); [apply Rmult_le_compat_l; lra|]. rewrite Rmult_1_r.
      apply Rle_trans with (bpow radix2 48); [|apply bpow_le; lia].
      apply Rle_trans with (INR (length xs)); auto. apply le_INR. lia. }
  rewrite Hm in Em. injection Em as <-.
  assert (Sq : forall x, bounded64 B x -> bounded64 (B * B * (1 + 2 * u)) (Bmul x x) /\
    Rabs (B2R (Bmul x x) - B2R x * B2R x) <= 2 * u * (B * B)) by (intros; apply square_err; auto).
  destruct (mean_error W (B * B * (1 + 2 * u)) (map (fun x => Bmul x x) xs)) as (q & Eq & Fq & Dq).
  { clear - B0 U. nra. }
  { destruct xs; [contradiction|discriminate]. }
  { apply Forall_map. eapply Forall_impl; [|exact HF]. intros x Hx. apply Sq; auto. }
  { rewrite window_map_length. fold k. rewrite <- P999. rewrite <- Rmult_assoc.
    assert (0 <= INR k * (B * B)) by (apply Rmult_le_pos; [lra|clear - B0; nra]).
    set (kb := INR k * (B * B)) in *; clearbody kb. set (p9 := bpow radix2 999) in *; clearbody p9. clear - HW H U. nra. }
  { rewrite map_length. lia. }
  assert (QE : Ret (va_sq s) = Ret q) by (rewrite <- Hq, <- Eq; reflexivity). injection QE as QE. subst q. clear Eq Hm Hq.
  rewrite map_length in Dq. fold eta in Dm, Dq.
  set (w := window_of W xs) in * .
  assert (Fw : Forall (bounded64 B) w) by (apply Forall_window; auto).
  assert (Da : Rabs (avg (map B2R (window_of W (map (fun x => Bmul x x) xs))) - avg (map (fun x => B2R x * B2R x) w))
    <= 2 * u * (B * B)).
  { rewrite <- map_window. fold w. rewrite map_map. apply (avg_close (fun x => B2R (Bmul x x)) (fun x => B2R x * B2R x)).
    - clear - B0 U. nra.
    - eapply Forall_impl; [|exact Fw]. intros x Hx. apply Sq; auto. }
  assert (Dp : pvar (map B2R w) = avg (map (fun x => B2R x * B2R x) w) - avg (map B2R w) * avg (map B2R w))
    by (rewrite pvar_moments, map_map; reflexivity).
  assert (Bmu : Rabs (avg (map B2R w)) <= B).
  { apply avg_bound; [lra|]. apply Forall_map. eapply Forall_impl; [|exact Fw]. intros x []; auto. }
  assert (Bsq : Rabs (avg (map (fun x => B2R x * B2R x) w)) <= B * B).
  { apply avg_bound; [clear - B0; nra|]. apply Forall_map. eapply Forall_impl; [|exact Fw]. intros x [_ Hx]. cbv beta.
    rewrite Rabs_mult. apply Rmult_le_compat; auto using Rabs_pos. }
  exists (avg (map B2R w)), (avg (map (fun x => B2R x * B2R x) w)). split; [exact E|]. clear E. cbv zeta.
  rewrite Dp. clear Dp Sq Fw HF HW.
  replace (bpow radix2 (-52)) with (2 * u) in Dm, Dq
    by (unfold u; change 2 with (bpow radix2 1); rewrite <- bpow_plus; reflexivity).
  set (md := mean_evaluate (A := B64) (va_mean s)) in * . set (qd := mean_evaluate (A := B64) (va_sq s)) in * .
  set (mu := avg (map B2R w)) in * . set (sq := avg (map (fun x => B2R x * B2R x) w)) in * .
  set (sq' := avg (map B2R (window_of W (map (fun x => Bmul x x) xs)))) in * .
  set (n := INR (length xs)) in * . clearbody md qd mu sq sq' n. clear N48 K1 Lw Len Hn k w Hne xs.
  (* error of the mean of squares *)
  assert (Q1 : Rabs (B2R qd - sq) <= (4 * n + 5) * u * (B * B)).
  { replace (B2R qd - sq) with ((B2R qd - sq') + (sq' - sq)) by ring. eapply Rle_trans; [apply Rabs_triang|].
    assert (T : (2 * n + 1) * (2 * u) * (B * B * (1 + 2 * u)) + eta <= (4 * n + 3) * u * (B * B)); [|clear - T Da Dq; lra].
    set (b2 := B * B) in *; assert (P : 0 < b2) by (unfold b2; clear - B0; nra). clearbody b2.
    assert (T1 : (4 * n + 2) * u * (2 * u) * b2 <= (6 / 32) * (2 * u) * b2).
    { apply Rmult_le_compat_r; [lra|]. apply Rmult_le_compat_r; [lra|]. clear - Nu N1 U. nra. }
    clear - T1 E2 P U. nra. }
  (* the mean and its square *)
  set (d := (4 * n + 3) * u).
  assert (Hd : 0 < d <= 7 / 32) by (unfold d; clear - Nu N1 U; nra).
  assert (M1 : Rabs (B2R md - mu) <= d * B).
  { eapply Rle_trans; [exact Dm|]. unfold d. clear - E1 B0 U. nra. }
  assert (Mb : Rabs (B2R md) <= (1 + d) * B).
  { replace (B2R md) with ((B2R md - mu) + mu) by ring. eapply Rle_trans; [apply Rabs_triang|]. clear - M1 Bmu. lra. }
  assert (M2 : Rabs (B2R md * B2R md - mu * mu) <= (d * B) * ((2 + d) * B)).
  { replace (B2R md * B2R md - mu * mu) with ((B2R md - mu) * (B2R md + mu)) by ring. rewrite Rabs_mult.
    apply Rmult_le_compat; auto using Rabs_pos. eapply Rle_trans; [apply Rabs_triang|]. clear - Mb Bmu. lra. }
  assert (Mm : Rabs (B2R md * B2R md) <= ((1 + d) * B) * ((1 + d) * B)).
  { rewrite Rabs_mult. apply Rmult_le_compat; auto using Rabs_pos. }
  assert (Bmu2 : Rabs (mu * mu) <= B * B) by (rewrite Rabs_mult; apply Rmult_le_compat; auto using Rabs_pos).
  set (b2 := B * B) in * . assert (P : 0 < b2) by (unfold b2; clear - B0; nra).
  replace ((d * B) * ((2 + d) * B)) with (d * (2 + d) * b2) in M2 by (unfold b2; ring).
  replace (((1 + d) * B) * ((1 + d) * B)) with ((1 + d) * (1 + d) * b2) in Mm by (unfold b2; ring).
  assert (M3 : Rabs (B2R md * B2R md - mu * mu) <= (9 * n + 7) * u * b2).
  { eapply Rle_trans; [exact M2|]. apply Rmult_le_compat_r; [lra|].
    assert (d * (2 + d) <= d * (2 + 7 / 32)) by (apply Rmult_le_compat_l; lra). unfold d in * . clear - H U N1. nra. }
  assert (Mm2 : Rabs (B2R md * B2R md) <= 2 * b2).
  { eapply Rle_trans; [exact Mm|]. apply Rmult_le_compat_r; [lra|]. clear - Hd. nra. }
  split; [exact Fm|]. split; [exact Fq|]. split; [reflexivity|]. split; [exact Q1|]. split; [exact M3|].
  split; [exact Mm2|]. split; [exact Bmu2|]. split; [exact Bsq|]. auto.
Qed.

Lemma variance_error W B (xs : list double) : bpow radix2 (-500) <= B -> xs <> [] -> Forall (bounded64 B) xs ->
  INR (length (window_of W xs)) * (B * B) <= bpow radix2 999 -> (Z.of_nat (length xs) <= 2 ^ 48)%Z ->
  exists s, update_all (variance_update (A := B64)) (variance_new W) xs = Ret s /\
    finite64 (variance_evaluate (A := B64) s) = true /\
    Rabs (B2R (variance_evaluate (A := B64) s) - pvar (map B2R (window_of W xs)))
      <= (INR (length xs) + 1) * bpow radix2 (-49) * (B * B).
Proof.
  intros HB Hne HF HW Hn. pose proof u_pos as U. destruct (eta_small B HB) as (E0 & _ & E2).
  destruct (variance_means W B xs HB Hne HF HW Hn) as (s & mu & sq & E & Fm & Fq & Dp & Q1 & M3 & Mm2 & Bmu2 & Bsq & Nu & N1 & BB & P).
  exists s. split; [exact E|]. clear E. rewrite Dp. clear Dp HF HW. unfold variance_evaluate. cbn [B64 sub mul].
  replace (bpow radix2 (-49)) with (16 * u)
    by (unfold u; change 16 with (bpow radix2 4); rewrite <- bpow_plus; reflexivity).
  set (md := mean_evaluate (A := B64) (va_mean s)) in * . set (qd := mean_evaluate (A := B64) (va_sq s)) in * .
  set (n := INR (length xs)) in * . clearbody md qd n. set (b2 := B * B) in * .
  destruct (X_mul md md Fm Fm) as [HX Hnan]. pose proof (rnd_any (B2R md * B2R md)) as Hr. fold eta in Hr.
  set (m2 := B2R md * B2R md) in * .
  assert (R1 : Rabs (rnd m2 - m2) <= 3 * u * b2).
  { eapply Rle_trans; [exact Hr|]. assert (u * Rabs m2 <= u * (2 * b2)) by (apply Rmult_le_compat_l; lra).
    clear - H E2 P U. nra. }
  assert (R1b : Rabs (rnd m2) <= 3 * b2).
  { replace (rnd m2) with ((rnd m2 - m2) + m2) by ring. eapply Rle_trans; [apply Rabs_triang|].
    clear - R1 Mm2 P U. nra. }
  assert (Big : 32 * b2 < big).
  { apply Rle_lt_trans with (32 * bpow radix2 999); [lra|]. change 32 with (bpow radix2 5).
    rewrite <- bpow_plus. apply bpow_lt. lia. }
  destruct (rnd_finite (Bmul md md) m2 (3 * b2)) as [Fmm Emm]; auto; [lra|].
  destruct (X_sub qd (Bmul md md) Fq Fmm) as [HY Hny]. rewrite Emm in HY.
  set (v := B2R qd - rnd m2) in * .
  assert (V1 : Rabs (v - (sq - mu * mu)) <= (13 * n + 15) * u * b2).
  { replace (v - (sq - mu * mu)) with ((B2R qd - sq) + (- (rnd m2 - m2) + - (m2 - mu * mu))) by (unfold v; ring).
    eapply Rle_trans; [apply Rabs_triang|]. eapply Rle_trans; [apply Rplus_le_compat_l, Rabs_triang|].
    rewrite !Rabs_Ropp. clear - Q1 R1 M3. lra. }
  assert (V2 : Rabs v <= 3 * b2).
  { replace v with ((v - (sq - mu * mu)) + (sq - mu * mu)) by ring. eapply Rle_trans; [apply Rabs_triang|].
    assert (Rabs (sq - mu * mu) <= 2 * b2).
    { unfold Rminus. eapply Rle_trans; [apply Rabs_triang|]. rewrite Rabs_Ropp. lra. }
    assert ((13 * n + 15) * u <= 1) by (clear - Nu N1 U; nra).
    assert ((13 * n + 15) * u * b2 <= 1 * b2) by (apply Rmult_le_compat_r; lra). lra. }
  pose proof (rnd_any v) as Hv. fold eta in Hv.
  assert (R2 : Rabs (rnd v - v) <= (3 + / 1000) * u * b2).
  { eapply Rle_trans; [exact Hv|]. assert (u * Rabs v <= u * (3 * b2)) by (apply Rmult_le_compat_l; lra).
    clear - H E2. lra. }
  destruct (rnd_finite (Bsub qd (Bmul md md)) v (5 * b2)) as [Fv Ev]; auto; [|lra|].
  { replace (rnd v) with ((rnd v - v) + v) by ring. eapply Rle_trans; [apply Rabs_triang|].
    clear - R2 V2 P U. nra. }
  split; [exact Fv|]. rewrite Ev.
  replace (rnd v - (sq - mu * mu)) with ((rnd v - v) + (v - (sq - mu * mu))) by ring.
  eapply Rle_trans; [apply Rabs_triang|].
  replace ((n + 1) * (16 * u) * b2) with ((16 * n + 16) * (u * b2)) by ring.
  assert (Ub : 0 <= u * b2) by (clear - U P; nra).
  assert ((13 * n + 15 + 3 + / 1000) * (u * b2) <= (16 * n + 16) * (u * b2)) by (apply Rmult_le_compat_r; lra). lra.
Qed.

Lemma variance_error_sign W B (xs : list double) : bpow radix2 (-500) <= B -> xs <> [] -> Forall (bounded64 B) xs ->
  INR (length (window_of W xs)) * (B * B) <= bpow radix2 999 -> (Z.of_nat (length xs) <= 2 ^ 48)%Z ->
  exists s, update_all (variance_update (A := B64)) (variance_new W) xs = Ret s /\
    finite64 (variance_evaluate (A := B64) s) = true /\
    Rabs (B2R (variance_evaluate (A := B64) s) - pvar (map B2R (window_of W xs)))
      <= (INR (length xs) + 1) * bpow radix2 (-49) * (B * B) /\
    - ((INR (length xs) + 1) * bpow radix2 (-49) * (B * B)) <= B2R (variance_evaluate (A := B64) s).
Proof.
  intros H1 H2 H3 H4 H5. destruct (variance_error W B xs H1 H2 H3 H4 H5) as (s & E & F & D).
  exists s. repeat split; auto. pose proof (pvar_nonneg (map B2R (window_of W xs))).
  set (e := _ * (B * B)) in * . clearbody e. apply Rabs_le_inv in D. lra.
Qed.

(** Cancellation: the relative error is unbounded. *)
Lemma variance_cancels : exists (x y : double) s, finite64 x = true /\ finite64 y = true /\
  update_all (variance_update (A := B64)) (variance_new 0) [x; y] = Ret s /\
  B2R (variance_evaluate (A := B64) s) = 0 /\ pvar (map B2R [x; y]) = / 4.
Proof.
  exists (Bz (2 ^ 30)), (Bz (2 ^ 30 + 1)).
  destruct (var_run (A := B64) 0 [Bz (2 ^ 30); Bz (2 ^ 30 + 1)]) as (s & E & _). exists s.
  destruct (Bz_exact (2 ^ 30)) as [E1 F1]; [lia|]. destruct (Bz_exact (2 ^ 30 + 1)) as [E2 F2]; [lia|].
  split; [exact F1|]. split; [exact F2|]. split; [exact E|]. split.
  - assert (K : match update_all (variance_update (A := B64)) (variance_new 0) [Bz (2 ^ 30); Bz (2 ^ 30 + 1)] with
                | Ret s => match variance_evaluate (A := B64) s with B754_zero _ => true | _ => false end
                | _ => false end = true) by (vm_compute; reflexivity).
    rewrite E in K. destruct (variance_evaluate (A := B64) s); try discriminate. reflexivity.
  - cbn [map]. rewrite E1, E2, plus_IZR. unfold pvar, avg. simpl. lra.
Qed.

Lemma variance_error_case : bpow radix2 (-500) <= 4 /\
  Forall (fun x => finite64 x = true /\ Rabs (B2R x) <= 4) [Bz 1; Bz 4; Bz (-3)] /\
  INR (length (window_of 2 [Bz 1; Bz 4; Bz (-3)])) * (4 * 4) <= bpow radix2 999.
Proof.
  split; [change 4 with (bpow radix2 2); apply bpow_le; lia|]. split; [apply mean_error_case|].
  cbn [length window_of lastn skipn Nat.sub]. apply Rle_trans with (bpow radix2 5); [simpl; lra|apply bpow_le; lia].
Qed.
