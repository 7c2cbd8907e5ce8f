(** The error of StreamingMean in doubles while nothing has left the window. *)

From Coq Require Import List Reals ZArith Lra Lia Bool Arith Floats.SpecFloat.
From Flocq Require Import Core.Core IEEE754.BinarySingleNaN.
From Verif Require Import Outcome Arith Mean Spec MeanSpec ListFacts FloatSpec FloatFacts UtilsFacts MeanFacts MeanError P2Witness.
Import ListNotations.
Open Scope R_scope.

Definition mag (xs : list double) : R := rsum (map (fun x => Rabs (B2R x)) xs).

Lemma mag_snoc xs x : mag (xs ++ [x]) = mag xs + Rabs (B2R x).
Proof. unfold mag. rewrite map_app, rsum_app. cbn [map rsum]. now rewrite Rplus_0_r. Qed.

Lemma mag_pos xs : 0 <= mag xs.
Proof. unfold mag. induction xs as [|x xs IH]; cbn [map rsum]; [lra|]. pose proof (Rabs_pos (B2R x)). lra. Qed.

Lemma mag_sum xs : Rabs (rsum (map B2R xs)) <= mag xs.
Proof.
  unfold mag. induction xs as [|x xs IH]; cbn [map rsum]; [rewrite Rabs_R0; lra|].
  eapply Rle_trans; [apply Rabs_triang|]. lra.
Qed.

Lemma still_window {X} W (xs : list X) : (W = 0 \/ length xs <= W)%nat -> window_of W xs = xs.
Proof.
  destruct W; auto. intros [H|H]; [discriminate H|]. unfold window_of, lastn.
  replace (length xs - S W)%nat with 0%nat by lia. reflexivity.
Qed.

Lemma sum_rel W (xs : list double) : (W = 0 \/ length xs <= W)%nat -> Forall (fun x => finite64 x = true) xs ->
  mag xs <= bpow radix2 1000 -> INR (length xs) * u <= / 2 ->
  exists s, update_all (mean_update (A := B64)) (mean_new W) xs = Ret s /\ mean_inv (A := B64) W xs s /\
    finite64 (mn_sum s) = true /\ Rabs (B2R (mn_sum s) - rsum (map B2R xs)) <= mag xs * ((1 + u) ^ length xs - 1).
Proof.
  pose proof u_pos as U. induction xs as [|x xs IH] using rev_ind; intros HW F HM Hn.
  - eexists. split; [reflexivity|]. split; [apply mean_new_inv|]. split; [reflexivity|].
    change (B2R (mn_sum (mean_new (A := B64) W))) with 0. cbn [map rsum length pow]. rewrite Rminus_0_r, Rabs_R0. unfold mag. cbn. lra.
  - apply Forall_app in F as [F Fx]. inversion_clear Fx as [|? ? Bx _].
    rewrite mag_snoc in HM |- * . rewrite app_length in Hn, HW |- * . cbn [length] in Hn, HW |- * . rewrite Nat.add_1_r in Hn, HW |- * .
    pose proof (Rabs_pos (B2R x)) as Px. pose proof (mag_pos xs) as Pm.
    assert (Hn1 : INR (length xs) * u <= / 2) by (rewrite S_INR in Hn; nra).
    destruct IH as (s & E & Hi & Fs & Es); auto; [lia|lra|].
    destruct (mean_step (A := B64) W xs s x Hi) as (s' & E' & Hi' & Hs').
    exists s'. rewrite update_all_snoc, E. cbn [bind]. split; [exact E'|]. split; [exact Hi'|]. rewrite Hs'.
    assert (NS : next_sum (A := B64) W xs (mn_sum s) x = Badd (mn_sum s) x).
    { unfold next_sum. destruct W as [|W']; [reflexivity|]. destruct HW as [HW|HW]; [discriminate HW|].
      change (num B64) with double. destruct (Nat.ltb_spec (length xs) (S W')); [|lia].
      destruct (lastn (S W') xs); reflexivity. }
    rewrite NS. clear NS s' E' Hi' Hs' E Hi.
    destruct (pow_lin _ Hn) as [P1 P2], (pow_lin _ Hn1) as [P3 P4].
    rewrite map_app, rsum_app. cbn [map rsum]. rewrite Rplus_0_r.
    set (g := (1 + u) ^ length xs) in * . change ((1 + u) ^ S (length xs)) with ((1 + u) * g) in * .
    assert (L1 : (1 + u) * g - 1 <= 1) by (clear - P2 Hn; lra). clearbody g.
    set (M := mag xs + Rabs (B2R x)) in * .
    assert (K : (1 + u) * (mag xs * (g - 1)) + u * M <= M * ((1 + u) * g - 1)).
    { assert (Q : 0 <= (1 + u) * (g - 1) * Rabs (B2R x)) by (apply Rmult_le_pos; [apply Rmult_le_pos; lra|lra]).
      replace (M * ((1 + u) * g - 1)) with ((1 + u) * (mag xs * (g - 1)) + u * M + (1 + u) * (g - 1) * Rabs (B2R x)) by (unfold M; ring). lra. }
    assert (M0 : 0 <= M) by (unfold M; lra).
    destruct (add_err (mn_sum s) x (rsum (map B2R xs)) (B2R x) (mag xs * (g - 1)) M) as [F1 D1]; auto.
    + unfold M. eapply Rle_trans; [apply Rabs_triang|]. pose proof (mag_sum xs). lra.
    + clear - K L1 M0. nra.
    + split; [exact F1|]. exact (Rle_trans _ _ _ D1 K).
Qed.

Lemma mean_rel W (xs : list double) : (W = 0 \/ length xs <= W)%nat -> xs <> [] -> Forall (fun x => finite64 x = true) xs ->
  rsum (map (fun x => Rabs (B2R x)) xs) <= bpow radix2 1000 -> (Z.of_nat (length xs) <= 2 ^ 51)%Z ->
  exists s, update_all (mean_update (A := B64)) (mean_new W) xs = Ret s /\
    finite64 (mean_evaluate (A := B64) s) = true /\
    Rabs (B2R (mean_evaluate (A := B64) s) - avg (map B2R xs))
      <= (INR (length xs) + 1) * bpow radix2 (-52) * avg (map (fun x => Rabs (B2R x)) xs) + bpow radix2 (-1075).
Proof.
  intros HW Hne HF HM Hn. pose proof u_pos as U. fold (mag xs) in HM.
  assert (Len : (0 < length xs)%nat) by (destruct xs; simpl; [contradiction|lia]).
  assert (N2 : INR (length xs) * u <= / 4).
  { apply Rle_trans with (bpow radix2 51 * u).
    - apply Rmult_le_compat_r; [lra|]. rewrite INR_IZR_INZ. apply IZR_le in Hn. exact Hn.
    - unfold u. rewrite <- bpow_plus. right. simpl. lra. }
  destruct (sum_rel W xs HW HF HM) as (s & E & [Hw Hs Hh] & Fs & Es); [lra|].
  exists s. split; [exact E|]. set (k := length xs) in * .
  assert (EV : mean_evaluate (A := B64) s = Bquot (mn_sum s) (Bz (Z.of_nat k))).
  { unfold mean_evaluate. rewrite Hh, Hw. change (num B64) with double. fold k.
    replace (Nat.eqb k 0) with false by (symmetry; apply Nat.eqb_neq; lia).
    pose proof (still_window W xs HW) as SW. destruct W; [reflexivity|]. cbn [window_of] in SW.
    change (num B64) with double in * . rewrite SW. reflexivity. }
  assert (EA : forall f : double -> R, avg (map f xs) = rsum (map f xs) / INR k).
  { intros f. assert (K : length (map f xs) = k) by apply map_length. unfold avg. rewrite <- K.
    destruct (map f xs); auto. simpl in K. lia. }
  assert (EA1 : avg (map B2R xs) = rsum (map B2R xs) / INR k) by exact (EA B2R).
  assert (EA2 : avg (map (fun x => Rabs (B2R x)) xs) = mag xs / INR k) by exact (EA (fun x => Rabs (B2R x))).
  rewrite EV, EA1, EA2. clear EV EA EA1 EA2.
  destruct (Bz_exact (Z.of_nat k)) as [En Fn]; [lia|]. rewrite <- INR_IZR_INZ in En.
  assert (P : 1 <= INR k) by (apply (le_INR 1); lia).
  destruct (X_div (mn_sum s) _ Fs Fn) as [HX Hnan]; [rewrite En; lra|]. rewrite En in HX.
  assert (PL : 1 <= (1 + u) ^ S k <= 1 + 2 * INR (S k) * u) by (apply pow_lin; rewrite S_INR; lra).
  assert (PK : 1 <= (1 + u) ^ k <= 1 + 2 * INR k * u) by (apply pow_lin; lra).
  rewrite S_INR in PL. change ((1 + u) ^ S k) with ((1 + u) * (1 + u) ^ k) in PL.
  set (g := (1 + u) ^ k) in * . clearbody g.
  set (S0 := B2R (mn_sum s)) in * . set (T := rsum (map B2R xs)) in * .
  pose proof (mag_sum xs) as MT. fold T in MT. pose proof (mag_pos xs) as M0. set (M := mag xs) in * . clearbody M T S0.
  set (a := M / INR k).
  assert (IK : 0 < / INR k <= 1).
  { split; [apply Rinv_0_lt_compat; lra|]. rewrite <- Rinv_1. apply Rinv_le; lra. }
  assert (A0 : 0 <= a <= M) by (unfold a, Rdiv; clear - IK M0; nra).
  assert (Dq : Rabs (S0 / INR k - T / INR k) <= a * (g - 1)).
  { replace (S0 / INR k - T / INR k) with ((S0 - T) / INR k) by (field; lra).
    unfold a, Rdiv. rewrite Rabs_mult, (Rabs_pos_eq (/ _)) by lra.
    replace (M * / INR k * (g - 1)) with (M * (g - 1) * / INR k) by ring. apply Rmult_le_compat_r; [lra|exact Es]. }
  assert (Bq : Rabs (T / INR k) <= a).
  { unfold a, Rdiv. rewrite Rabs_mult, (Rabs_pos_eq (/ _)) by lra. apply Rmult_le_compat_r; lra. }
  assert (Bs : Rabs (S0 / INR k) <= a * g).
  { replace (S0 / INR k) with ((S0 / INR k - T / INR k) + T / INR k) by ring.
    eapply Rle_trans; [apply Rabs_triang|]. lra. }
  pose proof (rnd_any (S0 / INR k)) as Hr.
  assert (D : Rabs (rnd (S0 / INR k) - T / INR k) <= (INR k + 1) * bpow radix2 (-52) * a + bpow radix2 (-1075)).
  { replace (bpow radix2 (-52)) with (2 * u).
    - replace (rnd (S0 / INR k) - T / INR k)
        with ((rnd (S0 / INR k) - S0 / INR k) + (S0 / INR k - T / INR k)) by ring.
      eapply Rle_trans; [apply Rabs_triang|].
      assert (u * Rabs (S0 / INR k) <= u * (a * g)) by (apply Rmult_le_compat_l; lra).
      assert (a * ((1 + u) * g - 1) <= a * (2 * (INR k + 1) * u)) by (apply Rmult_le_compat_l; lra). lra.
    - unfold u. change 2 with (bpow radix2 1). rewrite <- bpow_plus. reflexivity. }
  assert (Bd : Rabs (rnd (S0 / INR k)) < big).
  { rewrite <- rnd_abs. apply Rle_lt_trans with (rnd (bpow radix2 1001)).
    - apply rnd_le. eapply Rle_trans; [exact Bs|]. change 1001%Z with (1 + 1000)%Z. rewrite bpow_plus.
      change (bpow radix2 1) with 2. assert (g <= 2) by lra. assert (a * g <= M * 2) by (clear - A0 H PK; nra). lra.
    - rewrite rnd_fix; [apply bpow_lt; lia|]. apply generic_format_bpow. vm_compute. discriminate. }
  unfold R64 in HX. rewrite sat_in in HX by auto.
  assert (F : finite64 (Bquot (mn_sum s) (Bz (Z.of_nat k))) = true) by (apply fin_X; auto; rewrite HX; auto).
  split; auto. rewrite <- (X_fin _ F), HX. exact D.
Qed.

Lemma mean_rel_pos W (xs : list double) : (W = 0 \/ length xs <= W)%nat -> xs <> [] ->
  Forall (fun x => finite64 x = true /\ 0 <= B2R x) xs ->
  rsum (map B2R xs) <= bpow radix2 1000 -> (Z.of_nat (length xs) <= 2 ^ 51)%Z ->
  exists s, update_all (mean_update (A := B64)) (mean_new W) xs = Ret s /\
    finite64 (mean_evaluate (A := B64) s) = true /\
    Rabs (B2R (mean_evaluate (A := B64) s) - avg (map B2R xs))
      <= (INR (length xs) + 1) * bpow radix2 (-52) * avg (map B2R xs) + bpow radix2 (-1075).
Proof.
  intros HW Hne HF HM Hn.
  assert (E : map (fun x => Rabs (B2R x)) xs = map B2R xs).
  { apply map_ext_in. intros x Hx. rewrite Forall_forall in HF. apply Rabs_pos_eq. now apply HF. }
  destruct (mean_rel W xs HW Hne) as (s & Es & F & D); auto.
  - eapply Forall_impl; [|exact HF]. intros x []; auto.
  - apply Rle_trans with (2 := HM). right. exact (f_equal rsum E).
  - exists s. split; [exact Es|]. split; [exact F|]. eapply Rle_trans; [exact D|]. right. do 2 f_equal. exact (f_equal avg E).
Qed.

(** ** The mean of a constant *)
Definition tenth : double := lit (A := B64) 1 10.
Lemma tenths : exists s, update_all (mean_update (A := B64)) (mean_new 0) [tenth; tenth; tenth] = Ret s /\
  Bltb tenth (mean_evaluate (A := B64) s) = true.
Proof.
  assert (H : ok (update_all (mean_update (A := B64)) (mean_new 0) [tenth; tenth; tenth])
    (fun s => Bltb tenth (mean_evaluate (A := B64) s)) = true) by (vm_compute; reflexivity).
  apply ok_true in H as (s & E & H). eauto.
Qed.

(** ** Once the window slides *)
Lemma half_value : B2R Bhalf = / 2.
Proof.
  assert (E : B2SF Bhalf = S754_finite false 4503599627370496 (-53)) by (vm_compute; reflexivity).
  rewrite <- SF2R_B2SF, E. unfold SF2R, F2R. cbn [Fnum Fexp cond_Zopp].
  change 4503599627370496%positive with (2 ^ 52)%positive. 
  replace (IZR (Z.pos (2 ^ 52))) with (bpow radix2 52) by reflexivity. rewrite <- bpow_plus. reflexivity.
Qed.

Lemma half_lost : exists s, update_all (mean_update (A := B64)) (mean_new 2) [Bz (2 ^ 53); Bz 1; Bz 1] = Ret s /\
  B2R (mean_evaluate (A := B64) s) = / 2 /\ avg (map B2R (window_of 2 [Bz (2 ^ 53); Bz 1; Bz 1])) = 1.
Proof.
  assert (H : ok (update_all (mean_update (A := B64)) (mean_new 2) [Bz (2 ^ 53); Bz 1; Bz 1])
    (fun s => Beqb (mean_evaluate (A := B64) s) Bhalf && finite64 (mean_evaluate (A := B64) s)) = true) by (vm_compute; reflexivity).
  apply ok_true in H as (s & E & H). apply andb_prop in H as [H F]. exists s. split; [exact E|]. split.
  - assert (FH : finite64 Bhalf = true) by (vm_compute; reflexivity).
    apply X_eqb in H; [|now apply fin_nan|now apply fin_nan]. rewrite !X_fin in H by auto. rewrite H.
    apply half_value.
  - assert (E1 : B2R (Bz 1) = 1) by (apply (Bz_exact 1); lia).
    cbn [window_of lastn skipn length Nat.sub map]. unfold avg. cbn [rsum length INR]. rewrite E1. lra.
Qed.

Lemma mean_rel_case : (3 = 0 \/ length [Bz 1; Bz 4; Bz 3] <= 3)%nat /\ [Bz 1; Bz 4; Bz 3] <> [] /\
  Forall (fun x => finite64 x = true /\ 0 <= B2R x) [Bz 1; Bz 4; Bz 3] /\
  rsum (map B2R [Bz 1; Bz 4; Bz 3]) <= bpow radix2 1000.
Proof.
  assert (K : forall z, (0 <= z <= 4)%Z -> finite64 (Bz z) = true /\ B2R (Bz z) = IZR z).
  { intros z Hz. destruct (Bz_exact z) as [-> F]; [lia|]. auto. }
  destruct (K 1%Z) as [F1 E1]; [lia|]. destruct (K 4%Z) as [F4 E4]; [lia|]. destruct (K 3%Z) as [F3 E3]; [lia|].
  split; [right; cbn; lia|]. split; [discriminate|]. split.
  - repeat apply Forall_cons; try apply Forall_nil; (split; [assumption|]); rewrite ?E1, ?E4, ?E3; lra.
  - cbn [map rsum]. rewrite E1, E4, E3. apply Rle_trans with (bpow radix2 4); [simpl; lra|apply bpow_le; lia].
Qed.
