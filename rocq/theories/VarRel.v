(** The error of StreamingVariance in doubles while nothing has left the window. *)

From Coq Require Import List Reals ZArith Lra Lia Bool Arith.
From Flocq Require Import Core.Core IEEE754.BinarySingleNaN.
From Verif Require Import Outcome Arith Mean Spec MeanSpec ListFacts FloatSpec FloatFacts UtilsFacts MeanFacts MeanError VarError MeanRel.
Import ListNotations.
Open Scope R_scope.

Definition sqr (x : double) : R := B2R x * B2R x.

Lemma avg_rel {X} (f g : X -> R) c e (l : list X) : l <> [] -> Forall (fun x => Rabs (f x - g x) <= c * g x + e) l ->
  Rabs (avg (map f l) - avg (map g l)) <= c * avg (map g l) + e.
Proof.
  intros Hl F. rewrite !avg_eq by (destruct l; [contradiction|discriminate]). rewrite !map_length.
  assert (P : 0 < INR (length l)) by (apply (lt_INR 0); destruct l; [contradiction|simpl; lia]).
  assert (D : Rabs (rsum (map f l) - rsum (map g l)) <= c * rsum (map g l) + INR (length l) * e).
  { clear P Hl. induction F as [|y l' Hy F IH]; [simpl; rewrite Rminus_0_r, Rabs_R0; lra|].
    change (length (y :: l')) with (S (length l')). rewrite S_INR. cbn [map rsum].
    replace (f y + rsum (map f l') - (g y + rsum (map g l')))
      with ((f y - g y) + (rsum (map f l') - rsum (map g l'))) by ring.
    eapply Rle_trans; [apply Rabs_triang|]. lra. }
  replace (rsum (map f l) / INR (length l) - rsum (map g l) / INR (length l))
    with ((rsum (map f l) - rsum (map g l)) / INR (length l)) by (field; lra).
  unfold Rdiv. rewrite Rabs_mult, (Rabs_pos_eq (/ _)) by (left; apply Rinv_0_lt_compat; auto).
  apply Rmult_le_reg_r with (INR (length l)); auto. rewrite Rmult_assoc, Rinv_l, Rmult_1_r by lra.
  eapply Rle_trans; [exact D|]. right. field. lra.
Qed.

Lemma sqr_pos x : 0 <= sqr x.
Proof. apply Rle_0_sqr. Qed.

Lemma sqr_sum_in (xs : list double) x : In x xs -> sqr x <= rsum (map sqr xs).
Proof.
  assert (P : forall l, 0 <= rsum (map sqr l)).
  { induction l as [|y l IH]; cbn [map rsum]; [lra|]. pose proof (sqr_pos y). lra. }
  induction xs as [|y xs IH]; intros H; [destruct H|]. cbn [map rsum]. destruct H as [->|H].
  - pose proof (P xs). lra.
  - specialize (IH H). pose proof (sqr_pos y). lra.
Qed.

Lemma avg_sq_le (f : double -> R) (xs : list double) : (forall x, f x * f x = sqr x) ->
  avg (map f xs) * avg (map f xs) <= avg (map sqr xs).
Proof.
  intros Hf. pose proof (pvar_nonneg (map f xs)) as H. rewrite pvar_moments, map_map in H.
  replace (map (fun x => f x * f x) xs) with (map sqr xs) in H; [lra|]. apply map_ext. intros x. symmetry. apply Hf.
Qed.

(** The two means that evaluate combines, against the root mean square [r]. *)
Lemma var_means_avg W (xs : list double) r : (W = 0 \/ length xs <= W)%nat -> xs <> [] -> Forall (fun x => finite64 x = true) xs ->
  0 <= r -> r * r = avg (map sqr xs) -> bpow radix2 (-500) <= r ->
  rsum (map sqr xs) <= bpow radix2 999 -> (Z.of_nat (length xs) <= 2 ^ 48)%Z ->
  exists s mu sq, update_all (variance_update (A := B64)) (variance_new W) xs = Ret s /\
    let md : double := mean_evaluate (A := B64) (va_mean s) in
    let qd : double := mean_evaluate (A := B64) (va_sq s) in
    finite64 md = true /\ finite64 qd = true /\ pvar (map B2R xs) = sq - mu * mu /\
    Rabs (B2R qd - sq) <= (4 * INR (length xs) + 5) * u * (r * r) /\
    Rabs (B2R md * B2R md - mu * mu) <= (9 * INR (length xs) + 7) * u * (r * r) /\
    Rabs (B2R md * B2R md) <= 2 * (r * r) /\ Rabs (mu * mu) <= r * r /\ Rabs sq <= r * r /\
    INR (length xs) * u <= / 32 /\ 1 <= INR (length xs) /\ r * r <= bpow radix2 999 /\ 0 < r * r.
Proof.
  intros HW Hne HF R0 HR HB HS Hn. pose proof u_pos as U. destruct (eta_small r HB) as (E0 & E1 & E2).
  assert (B0 : 0 < r) by (pose proof (bpow_gt_0 radix2 (-500)); lra).
  assert (Len : (0 < length xs)%nat) by (destruct xs; simpl; [contradiction|lia]).
  assert (N1 : 1 <= INR (length xs)) by (apply (le_INR 1); lia).
  assert (N48 : INR (length xs) <= bpow radix2 48).
  { rewrite INR_IZR_INZ. apply IZR_le in Hn. exact Hn. }
  assert (Nu : INR (length xs) * u <= / 32).
  { apply Rle_trans with (bpow radix2 48 * u).
    - apply Rmult_le_compat_r; lra.
    - unfold u. rewrite <- bpow_plus. right. simpl. lra. }
  assert (ES : rsum (map sqr xs) = INR (length xs) * (r * r)).
  { rewrite HR, avg_eq by (destruct xs; [contradiction|discriminate]). rewrite map_length. field. lra. }
  rewrite ES in HS.
  assert (P : 0 < r * r) by (clear - B0; nra).
  assert (BB : r * r <= bpow radix2 999) by (eapply Rle_trans; [|exact HS]; clear - N1 P; nra).
  assert (P999 : 2 * bpow radix2 999 = bpow radix2 1000).
  { change 2 with (bpow radix2 1) at 1. rewrite <- bpow_plus. reflexivity. }
  set (ab := fun x : double => Rabs (B2R x)).
  assert (Qa : avg (map ab xs) * avg (map ab xs) <= r * r).
  { rewrite HR. apply avg_sq_le. intros x. unfold ab, sqr. rewrite <- Rabs_mult. apply Rabs_pos_eq. apply Rle_0_sqr. }
  assert (Ba : avg (map ab xs) <= r) by (apply Rsqr_incr_0_var; [exact Qa|exact R0]).
  assert (Qm : avg (map B2R xs) * avg (map B2R xs) <= r * r) by (rewrite HR; apply (avg_sq_le B2R); reflexivity).
  assert (Bmu : Rabs (avg (map B2R xs)) <= r) by (rewrite <- (Rabs_pos_eq r R0); apply Rsqr_le_abs_0; exact Qm).
  assert (Sa : rsum (map ab xs) = INR (length xs) * avg (map ab xs)).
  { rewrite avg_eq by (destruct xs; [contradiction|discriminate]). rewrite map_length. field. lra. }
  destruct (var_run (A := B64) W xs) as (s & E & [_ _ Hm Hq]). exists s.
  destruct (mean_rel W xs HW Hne HF) as (m & Em & Fm & Dm); [|lia|].
  { change (rsum (map ab xs) <= bpow radix2 1000). rewrite Sa. apply Rle_trans with (INR (length xs) * r); [apply Rmult_le_compat_l; lra|].
    destruct (Rle_lt_dec 1 r) as [G|G].
    - apply Rle_trans with (INR (length xs) * (r * r)); [apply Rmult_le_compat_l; [lra|clear - G; nra]|].
      pose proof (bpow_gt_0 radix2 999). lra.
    - apply Rle_trans with (INR (length xs) * 1); [apply Rmult_le_compat_l; lra|]. rewrite Rmult_1_r.
      apply Rle_trans with (bpow radix2 48); [exact N48|apply bpow_le; lia]. }
  rewrite Hm in Em. injection Em as <-.
  assert (Sq : Forall (fun x => finite64 (Bmul x x) = true /\ 0 <= B2R (Bmul x x) /\ Rabs (B2R (Bmul x x) - sqr x) <= u * sqr x + eta) xs).
  { apply Forall_forall. intros x Hx. rewrite Forall_forall in HF. specialize (HF x Hx).
    pose proof (sqr_sum_in xs x Hx) as S2. rewrite ES in S2. unfold sqr in * .
    pose proof (Rle_0_sqr (B2R x)) as S0. unfold Rsqr in S0.
    destruct (X_mul x x HF HF) as [HX Hnn]. pose proof (rnd_any (B2R x * B2R x)) as Hr. fold eta in Hr. rewrite (Rabs_pos_eq _ S0) in Hr.
    assert (Rn : 0 <= rnd (B2R x * B2R x)) by (rewrite <- rnd_0; apply rnd_le; exact S0).
    destruct (rnd_finite (Bmul x x) (B2R x * B2R x) (4 * bpow radix2 999)) as [F1 E']; auto.
    - rewrite Rabs_pos_eq by exact Rn. apply Rabs_le_inv in Hr.
      assert (eta <= bpow radix2 999) by (unfold eta; apply bpow_le; lia).
      assert (u * (B2R x * B2R x) <= B2R x * B2R x) by (clear - U S0; nra). lra.
    - change 4 with (bpow radix2 2). rewrite <- bpow_plus. apply bpow_lt. lia.
    - rewrite E'. auto. }
  set (ys := map (fun x => Bmul x x) xs).
  assert (Ly : length ys = length xs) by apply map_length.
  assert (Da : Rabs (avg (map B2R ys) - r * r) <= u * (r * r) + eta).
  { unfold ys. rewrite map_map. rewrite HR. apply (avg_rel (fun x => B2R (Bmul x x)) sqr u eta xs Hne).
    eapply Forall_impl; [|exact Sq]. intros x (_ & _ & H). exact H. }
  assert (Sy : rsum (map B2R ys) = INR (length xs) * avg (map B2R ys)).
  { rewrite avg_eq by (unfold ys; destruct xs; [contradiction|discriminate]). 
    replace (length (map B2R ys)) with (length xs) by (symmetry; etransitivity; [apply map_length|exact Ly]). field. lra. }
  assert (Ay : avg (map B2R ys) <= (1 + 2 * u) * (r * r)).
  { apply Rabs_le_inv in Da. clear - Da E2 P U. nra. }
  destruct (mean_rel_pos W ys) as (q & Eq & Fq & Dq).
  { rewrite Ly. exact HW. }
  { unfold ys. destruct xs; [contradiction|discriminate]. }
  { unfold ys. apply Forall_map. eapply Forall_impl; [|exact Sq]. intros x (H1 & H2 & _). auto. }
  { rewrite Sy. rewrite <- P999. apply Rle_trans with (INR (length xs) * (2 * (r * r))); [|lra].
    apply Rmult_le_compat_l; [lra|]. clear - Ay U P. nra. }
  { rewrite Ly. lia. }
  assert (QE : Ret (va_sq s) = Ret q) by (rewrite <- Hq, <- Eq; reflexivity). injection QE as QE. subst q. clear Eq Hm Hq.
  rewrite Ly in Dq. fold eta in Dm, Dq.
  assert (Dp : pvar (map B2R xs) = r * r - avg (map B2R xs) * avg (map B2R xs))
    by (rewrite pvar_moments, map_map, HR; reflexivity).
  exists (avg (map B2R xs)), (r * r). split; [exact E|]. clear E. cbv zeta. rewrite Dp.
  replace (bpow radix2 (-52)) with (2 * u) in Dm, Dq
    by (unfold u; change 2 with (bpow radix2 1); rewrite <- bpow_plus; reflexivity).
  change (avg (map (fun x => Rabs (B2R x)) xs)) with (avg (map ab xs)) in Dm.
  set (md := mean_evaluate (A := B64) (va_mean s)) in * . set (qd := mean_evaluate (A := B64) (va_sq s)) in * .
  set (mu := avg (map B2R xs)) in * . set (sq' := avg (map B2R ys)) in * . set (av := avg (map ab xs)) in * .
  set (n := INR (length xs)) in * . clearbody md qd mu sq' av n. clear N48 Len Hn Hne HF HW Sq Ly Sy Sa ES HR Dp ab ys.
  assert (Q1 : Rabs (B2R qd - r * r) <= (4 * n + 5) * u * (r * r)).
  { replace (B2R qd - r * r) with ((B2R qd - sq') + (sq' - r * r)) by ring. eapply Rle_trans; [apply Rabs_triang|].
    set (b2 := r * r) in * . clearbody b2.
    assert (T0 : (n + 1) * (2 * u) * sq' <= (n + 1) * (2 * u) * ((1 + 2 * u) * b2)) by (apply Rmult_le_compat_l; [clear - N1 U; nra|exact Ay]).
    assert (T1 : (n + 1) * (2 * u) * ((1 + 2 * u) * b2) <= (n + 1) * (2 * u) * (3 / 2 * b2)).
    { apply Rmult_le_compat_l; [clear - N1 U; nra|]. clear - U P. nra. }
    assert (T2 : 0 < u * b2) by (clear - U P; nra).
    assert (T3 : 0 <= n * (u * b2)) by (apply Rmult_le_pos; lra). clear - T0 T1 T2 T3 Da Dq E2. lra. }
  set (d := (4 * n + 3) * u).
  assert (Hd : 0 < d <= 7 / 32) by (unfold d; clear - Nu N1 U; nra).
  assert (M1 : Rabs (B2R md - mu) <= d * r).
  { eapply Rle_trans; [exact Dm|]. unfold d.
    assert ((n + 1) * (2 * u) * av <= (n + 1) * (2 * u) * r) by (apply Rmult_le_compat_l; [clear - N1 U; nra|exact Ba]).
    assert (0 < u * r) by (clear - U B0; nra). assert (u * r <= n * (u * r)) by (clear - N1 H0; nra). clear - H H0 H1 E1. lra. }
  assert (Mb : Rabs (B2R md) <= (1 + d) * r).
  { replace (B2R md) with ((B2R md - mu) + mu) by ring. eapply Rle_trans; [apply Rabs_triang|]. clear - M1 Bmu. lra. }
  assert (M2 : Rabs (B2R md * B2R md - mu * mu) <= (d * r) * ((2 + d) * r)).
  { replace (B2R md * B2R md - mu * mu) with ((B2R md - mu) * (B2R md + mu)) by ring. rewrite Rabs_mult.
    apply Rmult_le_compat; auto using Rabs_pos. eapply Rle_trans; [apply Rabs_triang|]. clear - Mb Bmu. lra. }
  assert (Mm : Rabs (B2R md * B2R md) <= ((1 + d) * r) * ((1 + d) * r)).
  { rewrite Rabs_mult. apply Rmult_le_compat; auto using Rabs_pos. }
  assert (Bmu2 : Rabs (mu * mu) <= r * r) by (rewrite Rabs_mult; apply Rmult_le_compat; auto using Rabs_pos).
  assert (Bsq : Rabs (r * r) <= r * r) by (rewrite Rabs_pos_eq; lra).
  set (b2 := r * r) in * .
  replace ((d * r) * ((2 + d) * r)) with (d * (2 + d) * b2) in M2 by (unfold b2; ring).
  replace (((1 + d) * r) * ((1 + d) * r)) with ((1 + d) * (1 + d) * b2) in Mm by (unfold b2; ring).
  assert (M3 : Rabs (B2R md * B2R md - mu * mu) <= (9 * n + 7) * u * b2).
  { eapply Rle_trans; [exact M2|]. apply Rmult_le_compat_r; [lra|].
    assert (d * (2 + d) <= d * (2 + 7 / 32)) by (apply Rmult_le_compat_l; lra). unfold d in * . clear - H U N1. nra. }
  assert (Mm2 : Rabs (B2R md * B2R md) <= 2 * b2).
  { eapply Rle_trans; [exact Mm|]. apply Rmult_le_compat_r; [lra|]. clear - Hd. nra. }
  split; [exact Fm|]. split; [exact Fq|]. split; [reflexivity|]. split; [exact Q1|]. split; [exact M3|].
  split; [exact Mm2|]. split; [exact Bmu2|]. split; [exact Bsq|]. auto.
Qed.

Lemma var_rel_root W (xs : list double) B : (W = 0 \/ length xs <= W)%nat -> xs <> [] -> Forall (fun x => finite64 x = true) xs ->
  0 <= B -> B * B = avg (map sqr xs) -> bpow radix2 (-500) <= B ->
  rsum (map sqr xs) <= bpow radix2 999 -> (Z.of_nat (length xs) <= 2 ^ 48)%Z ->
  exists s, update_all (variance_update (A := B64)) (variance_new W) xs = Ret s /\
    finite64 (variance_evaluate (A := B64) s) = true /\
    Rabs (B2R (variance_evaluate (A := B64) s) - pvar (map B2R xs)) <= (INR (length xs) + 1) * bpow radix2 (-49) * (B * B).
Proof.
  intros HW Hne HF B0 HR HB HS Hn. pose proof u_pos as U. destruct (eta_small B HB) as (E0 & _ & E2).
  destruct (var_means_avg W xs B HW Hne HF B0 HR HB HS Hn) as (s & mu & sq & E & Fm & Fq & Dp & Q1 & M3 & Mm2 & Bmu2 & Bsq & Nu & N1 & BB & P).
  exists s. split; [exact E|]. clear E. rewrite Dp. clear Dp HF HS. unfold variance_evaluate. cbn [B64 sub mul].
  replace (bpow radix2 (-49)) with (16 * u)
    by (unfold u; change 16 with (bpow radix2 4); rewrite <- bpow_plus; reflexivity).
  set (md := mean_evaluate (A := B64) (va_mean s)) in * . set (qd := mean_evaluate (A := B64) (va_sq s)) in * .
  set (n := INR (length xs)) in * . clearbody md qd n. set (b2 := B * B) in * .
  destruct (X_mul md md Fm Fm) as [HX Hnan]. pose proof (rnd_any (B2R md * B2R md)) as Hr. fold eta in Hr.
  set (m2 := B2R md * B2R md) in * .
  assert (R1 : Rabs (rnd m2 - m2) <= 3 * u * b2).
  { eapply Rle_trans; [exact Hr|]. assert (u * Rabs m2 <= u * (2 * b2)) by (apply Rmult_le_compat_l; lra).
    clear - H E2 P U. nra. }
  assert (R1b : Rabs (rnd m2) <= 3 * b2).
  { replace (rnd m2) with ((rnd m2 - m2) + m2) by ring. eapply Rle_trans; [apply Rabs_triang|].
    clear - R1 Mm2 P U. nra. }
  assert (Big : 32 * b2 < big).
  { apply Rle_lt_trans with (32 * bpow radix2 999); [lra|]. change 32 with (bpow radix2 5).
    rewrite <- bpow_plus. apply bpow_lt. lia. }
  destruct (rnd_finite (Bmul md md) m2 (3 * b2)) as [Fmm Emm]; auto; [lra|].
  destruct (X_sub qd (Bmul md md) Fq Fmm) as [HY Hny]. rewrite Emm in HY.
  set (v := B2R qd - rnd m2) in * .
  assert (V1 : Rabs (v - (sq - mu * mu)) <= (13 * n + 15) * u * b2).
  { replace (v - (sq - mu * mu)) with ((B2R qd - sq) + (- (rnd m2 - m2) + - (m2 - mu * mu))) by (unfold v; ring).
    eapply Rle_trans; [apply Rabs_triang|]. eapply Rle_trans; [apply Rplus_le_compat_l, Rabs_triang|].
    rewrite !Rabs_Ropp. clear - Q1 R1 M3. lra. }
  assert (V2 : Rabs v <= 3 * b2).
  { replace v with ((v - (sq - mu * mu)) + (sq - mu * mu)) by ring. eapply Rle_trans; [apply Rabs_triang|].
    assert (Rabs (sq - mu * mu) <= 2 * b2).
    { unfold Rminus. eapply Rle_trans; [apply Rabs_triang|]. rewrite Rabs_Ropp. lra. }
    assert ((13 * n + 15) * u <= 1) by (clear - Nu N1 U; nra).
    assert ((13 * n + 15) * u * b2 <= 1 * b2) by (apply Rmult_le_compat_r; lra). lra. }
  pose proof (rnd_any v) as Hv. fold eta in Hv.
  assert (R2 : Rabs (rnd v - v) <= (3 + / 1000) * u * b2).
  { eapply Rle_trans; [exact Hv|]. assert (u * Rabs v <= u * (3 * b2)) by (apply Rmult_le_compat_l; lra).
    clear - H E2. lra. }
  destruct (rnd_finite (Bsub qd (Bmul md md)) v (5 * b2)) as [Fv Ev]; auto; [|lra|].
  { replace (rnd v) with ((rnd v - v) + v) by ring. eapply Rle_trans; [apply Rabs_triang|].
    clear - R2 V2 P U. nra. }
  split; [exact Fv|]. rewrite Ev.
  replace (rnd v - (sq - mu * mu)) with ((rnd v - v) + (v - (sq - mu * mu))) by ring.
  eapply Rle_trans; [apply Rabs_triang|].
  replace ((n + 1) * (16 * u) * b2) with ((16 * n + 16) * (u * b2)) by ring.
  assert (Ub : 0 <= u * b2) by (clear - U P; nra).
  assert ((13 * n + 15 + 3 + / 1000) * (u * b2) <= (16 * n + 16) * (u * b2)) by (apply Rmult_le_compat_r; lra). lra.
Qed.

Lemma var_rel W (xs : list double) : (W = 0 \/ length xs <= W)%nat -> xs <> [] -> Forall (fun x => finite64 x = true) xs ->
  bpow radix2 (-1000) <= avg (map (fun x => B2R x * B2R x) xs) ->
  rsum (map (fun x => B2R x * B2R x) xs) <= bpow radix2 999 -> (Z.of_nat (length xs) <= 2 ^ 48)%Z ->
  exists s, update_all (variance_update (A := B64)) (variance_new W) xs = Ret s /\
    finite64 (variance_evaluate (A := B64) s) = true /\
    Rabs (B2R (variance_evaluate (A := B64) s) - pvar (map B2R xs))
      <= (INR (length xs) + 1) * bpow radix2 (-49) * avg (map (fun x => B2R x * B2R x) xs).
Proof.
  intros HW Hne HF HA HS Hn. set (a := avg (map (fun x => B2R x * B2R x) xs)) in * .
  assert (A0 : 0 < a) by (pose proof (bpow_gt_0 radix2 (-1000)); lra).
  assert (S2 : sqrt a * sqrt a = a) by (apply sqrt_sqrt; lra).
  destruct (var_rel_root W xs (sqrt a) HW Hne HF (sqrt_pos a)) as (s & E & F & D); auto.
  - replace (bpow radix2 (-500)) with (sqrt (bpow radix2 (-1000))).
    + apply sqrt_le_1_alt. exact HA.
    + change (-1000)%Z with (-500 + -500)%Z. rewrite bpow_plus. apply sqrt_square. apply bpow_ge_0.
  - exists s. split; [exact E|]. split; [exact F|]. rewrite S2 in D. exact D.
Qed.

Lemma var_rel_case : (3 = 0 \/ length [Bz 1; Bz 4; Bz 3] <= 3)%nat /\
  bpow radix2 (-1000) <= avg (map (fun x => B2R x * B2R x) [Bz 1; Bz 4; Bz 3]) /\
  rsum (map (fun x => B2R x * B2R x) [Bz 1; Bz 4; Bz 3]) <= bpow radix2 999.
Proof.
  assert (K : forall z, (0 <= z <= 4)%Z -> B2R (Bz z) = IZR z).
  { intros z Hz. destruct (Bz_exact z) as [-> F]; [lia|]. auto. }
  pose proof (K 1%Z ltac:(lia)) as E1. pose proof (K 4%Z ltac:(lia)) as E4. pose proof (K 3%Z ltac:(lia)) as E3.
  split; [right; cbn; lia|]. unfold avg. cbn [map rsum length INR]. rewrite E1, E4, E3. split.
  - apply Rle_trans with (bpow radix2 0); [apply bpow_le; lia|simpl; lra].
  - apply Rle_trans with (bpow radix2 5); [simpl; lra|apply bpow_le; lia].
Qed.
