(** A bounded stream on which the windowed mean drifts at every step. *)

From Coq Require Import List Reals ZArith Lra Lia Bool Arith.
From Flocq Require Import Core.Core IEEE754.BinarySingleNaN.
From Verif Require Import Outcome Arith Mean Spec MeanSpec ListFacts FloatSpec FloatFacts UtilsFacts MeanFacts.
Import ListNotations.
Open Scope R_scope.

(** The last two bits of the observations repeat with period eight. *)
Definition low (k : nat) : Z := nth (k mod 8) [0; 3; 3; 2; 2; 1; 1; 0]%Z 0%Z.
Definition drift_item (k : nat) : double := lit (A := B64) (2 ^ 52 + low k) (2 ^ 53).

Lemma below8 r : (r < 8)%nat -> (r = 0 \/ r = 1 \/ r = 2 \/ r = 3 \/ r = 4 \/ r = 5 \/ r = 6 \/ r = 7)%nat.
Proof. lia. Qed.

Lemma low_range k : (0 <= low k <= 3)%Z.
Proof.
  unfold low. assert (H : (k mod 8 < 8)%nat) by (apply Nat.mod_upper_bound; lia). apply below8 in H.
  destruct H as [->|[->|[->|[->|[->|[->|[->| ->]]]]]]]; cbn; lia.
Qed.

Lemma low_step k : exists m, (low k + low (S k) + Z.of_nat k = 4 * m + 3)%Z.
Proof.
  unfold low. assert (H : (k mod 8 < 8)%nat) by (apply Nat.mod_upper_bound; lia). apply below8 in H.
  pose proof (Nat.div_mod k 8 ltac:(lia)) as D.
  assert (S8 : (S k mod 8 = S (k mod 8) mod 8)%nat).
  { change (S k) with (1 + k)%nat. change (S (k mod 8)) with (1 + k mod 8)%nat.
    rewrite (Nat.add_mod_idemp_r 1 k 8) by lia. reflexivity. }
  rewrite S8. set (q := (k / 8)%nat) in * . clearbody q.
  destruct H as [H|[H|[H|[H|[H|[H|[H|H]]]]]]]; rewrite H in D |- *;
    [exists (2 * Z.of_nat q)%Z|exists (2 * Z.of_nat q + 1)%Z ..];
    match goal with |- (nth ?a ?l ?d + nth ?b _ _ + _ = _)%Z =>
      let x := eval compute in (nth a l d) in let y := eval compute in (nth b l d) in
      change (nth a l d) with x; change (nth b l d) with y end; lia.
Qed.

Definition units (z : Z) : R := IZR z * bpow radix2 (-53).

Lemma format_units z : (Z.abs z < 2 ^ 53)%Z -> generic_format radix2 fexp64 (units z).
Proof.
  intros H. unfold units. change (IZR z * bpow radix2 (-53)) with (F2R (Float radix2 z (-53))).
  apply (generic_format_FLT radix2 (-1074) 53). apply (FLT_spec radix2 (-1074) 53 _ (Float radix2 z (-53))); auto. simpl. lia.
Qed.

Lemma units_plus a b : units a + units b = units (a + b).
Proof. unfold units. rewrite plus_IZR. ring. Qed.
Lemma units_minus a b : units a - units b = units (a - b).
Proof. unfold units. rewrite minus_IZR. ring. Qed.

Lemma units_lt z e : (0 <= z < 2 ^ (53 + e))%Z -> (0 <= e)%Z -> Rabs (units z) < bpow radix2 e.
Proof.
  intros [H0 H] He. unfold units. rewrite Rabs_pos_eq by (apply Rmult_le_pos; [apply IZR_le; auto|apply bpow_ge_0]).
  replace e with ((53 + e) + -53)%Z at 1 by lia. rewrite bpow_plus. apply Rmult_lt_compat_r; [apply bpow_gt_0|].
  rewrite <- IZR_Zpower by lia. apply IZR_lt. auto.
Qed.

(** Half-way cases that ties-to-even sends up. *)
Lemma half_up m : (2 ^ 53 <= 4 * m + 3 < 2 ^ 54)%Z -> rnd (units (4 * m + 3)) = units (4 * m + 4).
Proof.
  intros H. set (x := units (4 * m + 3)).
  assert (M : mag radix2 x = 1%Z :> Z).
  { apply mag_unique. split.
    - change (bpow radix2 (1 - 1)) with 1. unfold x, units.
      rewrite Rabs_pos_eq by (apply Rmult_le_pos; [apply IZR_le; lia|apply bpow_ge_0]).
      replace 1 with (IZR (2 ^ 53) * bpow radix2 (-53)).
      + apply Rmult_le_compat_r; [apply bpow_ge_0|]. apply IZR_le. lia.
      + change (IZR (2 ^ 53)) with (bpow radix2 53). rewrite <- bpow_plus. reflexivity.
    - apply units_lt; lia. }
  unfold rnd, round, F2R, scaled_mantissa, cexp. rewrite M. change (fexp64 1) with (-52)%Z. cbn [Fnum Fexp].
  assert (E : x * bpow radix2 (- -52) = IZR (2 * m + 1) + / 2).
  { unfold x, units. rewrite Rmult_assoc, <- bpow_plus. change (bpow radix2 (-53 + - -52)) with (/ 2).
    rewrite !plus_IZR, !mult_IZR. lra. }
  rewrite E.
  assert (F : Zfloor (IZR (2 * m + 1) + / 2) = (2 * m + 1)%Z).
  { apply Zfloor_imp. rewrite (plus_IZR (2 * m + 1) 1). lra. }
  assert (C : Zceil (IZR (2 * m + 1) + / 2) = (2 * m + 2)%Z).
  { apply Zceil_imp. replace (2 * m + 2 - 1)%Z with (2 * m + 1)%Z by lia.
    replace (2 * m + 2)%Z with (2 * m + 1 + 1)%Z by lia. rewrite (plus_IZR (2 * m + 1) 1). lra. }
  unfold Znearest. rewrite F, C. rewrite Rcompare_Eq by lra.
  replace (negb (Z.even (2 * m + 1))) with true.
  - unfold units. replace (4 * m + 4)%Z with (2 * (2 * m + 2))%Z by lia. rewrite (mult_IZR 2).
    replace (bpow radix2 (-52)) with (2 * bpow radix2 (-53)); [ring|].
    change 2 with (bpow radix2 1). rewrite <- bpow_plus. reflexivity.
  - symmetry. rewrite Z.add_1_r, Z.even_succ, Z.odd_mul. reflexivity.
Qed.

Lemma drift_item_value k : B2R (drift_item k) = units (2 ^ 52 + low k) /\ finite64 (drift_item k) = true.
Proof.
  pose proof (low_range k). destruct (lit_nearest (2 ^ 52 + low k) (2 ^ 53)) as [E F]; [lia|lia|].
  split; auto. unfold drift_item. rewrite E.
  replace (IZR (2 ^ 52 + low k) / IZR (2 ^ 53)) with (units (2 ^ 52 + low k)).
  - apply rnd_fix, format_units. lia.
  - unfold units, Rdiv. f_equal.
Qed.

Lemma exact_sum (x : double) (r : R) : nan x = false -> X x = R64 r -> rnd r < big -> 0 <= rnd r ->
  finite64 x = true /\ B2R x = rnd r.
Proof.
  intros Hn HX Hb H0. unfold R64 in HX. assert (K : Rabs (rnd r) < big) by (rewrite Rabs_pos_eq; auto).
  rewrite sat_in in HX by auto.
  assert (F : finite64 x = true) by (apply fin_X; auto; rewrite HX; auto). split; auto. now rewrite <- (X_fin _ F).
Qed.

Lemma units_big z : (0 <= z < 2 ^ 60)%Z -> 0 <= units z < big.
Proof.
  intros H. split; [apply Rmult_le_pos; [apply IZR_le; lia|apply bpow_ge_0]|].
  eapply Rle_lt_trans; [apply Rle_abs|]. eapply Rlt_trans; [apply (units_lt z 7); lia|]. apply bpow_lt. lia.
Qed.

(** One step: the error grows by one unit. *)
Lemma drift_add (t : double) k : finite64 t = true -> B2R t = units (2 ^ 52 + low k + Z.of_nat k) ->
  (Z.of_nat k < 2 ^ 51)%Z ->
  finite64 (Badd t (drift_item (S k))) = true /\
  B2R (Badd t (drift_item (S k))) = units (2 ^ 53 + low k + low (S k) + Z.of_nat (S k)).
Proof.
  intros Ft Et Hk. destruct (drift_item_value (S k)) as [Ei Fi]. destruct (X_add t _ Ft Fi) as [HX Hn].
  rewrite Et, Ei, units_plus in HX. destruct (low_step k) as [m Hm]. pose proof (low_range k). pose proof (low_range (S k)).
  replace (2 ^ 52 + low k + Z.of_nat k + (2 ^ 52 + low (S k)))%Z with (4 * (2 ^ 51 + m) + 3)%Z in HX by lia.
  assert (R : rnd (units (4 * (2 ^ 51 + m) + 3)) = units (4 * (2 ^ 51 + m) + 4)) by (apply half_up; lia).
  replace (2 ^ 53 + low k + low (S k) + Z.of_nat (S k))%Z with (4 * (2 ^ 51 + m) + 4)%Z by lia.
  rewrite <- R. apply exact_sum; auto; rewrite R; apply units_big; lia.
Qed.

Lemma drift_prefix k : map drift_item (seq 0 (S (S k))) = map drift_item (seq 0 k) ++ [drift_item k; drift_item (S k)].
Proof. rewrite !seq_S, !map_app, <- app_assoc. reflexivity. Qed.

Lemma drift_window k : lastn 2 (map drift_item (seq 0 (S (S k)))) = [drift_item k; drift_item (S k)].
Proof.
  rewrite drift_prefix. unfold lastn. rewrite app_length. cbn [length].
  replace (length (map drift_item (seq 0 k)) + 2 - 2)%nat with (length (map drift_item (seq 0 k))) by lia.
  rewrite skipn_app, skipn_all, Nat.sub_diag. reflexivity.
Qed.

Lemma drift_state k : (Z.of_nat k <= 2 ^ 51)%Z ->
  exists s, update_all (mean_update (A := B64)) (mean_new 2) (map drift_item (seq 0 (S k))) = Ret s /\
    mean_inv (A := B64) 2 (map drift_item (seq 0 (S k))) s /\ finite64 (mn_sum s) = true /\
    B2R (mn_sum s) = units (match k with
                            | O => 2 ^ 52 + low 0
                            | S j => 2 ^ 53 + low j + low k + Z.of_nat k
                            end).
Proof.
  induction k as [|k IH]; intros Hk.
  - destruct (mean_step (A := B64) 2 [] (mean_new 2) (drift_item 0) (mean_new_inv (A := B64) 2)) as (s & E & I & Hs).
    exists s. cbn [seq map update_all app] in * . rewrite E. split; [reflexivity|]. split; [exact I|]. rewrite Hs.
    unfold next_sum. cbn [lastn length skipn Nat.sub mean_new mn_sum B64 add of_Z].
    destruct (drift_item_value 0) as [Ei Fi]. destruct (Bz_exact 0) as [Ez Fz]; [lia|].
    destruct (X_add (Bz 0) _ Fz Fi) as [HX Hn]. rewrite Ez, Ei, Rplus_0_l in HX.
    assert (R : rnd (units (2 ^ 52 + low 0)) = units (2 ^ 52 + low 0)) by (apply rnd_fix, format_units; reflexivity).
    rewrite <- R. apply exact_sum; auto; rewrite R; apply units_big; cbn; lia.
  - destruct IH as (s & E & I & Fs & Es); [lia|].
    rewrite seq_S, map_app. cbn [map]. change (0 + S k)%nat with (S k).
    destruct (mean_step (A := B64) 2 _ s (drift_item (S k)) I) as (s' & E' & I' & Hs').
    exists s'. rewrite update_all_snoc, E. cbn [bind]. split; [exact E'|]. split; [exact I'|]. rewrite Hs'.
    clear E' I' Hs' s' E I. unfold next_sum. change (num B64) with double. rewrite map_length, seq_length.
    destruct k as [|k].
    + cbn -[Badd drift_item low units Z.of_nat Z.pow Z.add].
      apply (drift_add (mn_sum s) 0); auto. reflexivity.
    + rewrite drift_window. replace (S (S k) <? 2)%nat with false by (symmetry; apply Nat.ltb_ge; lia).
      cbn [B64 add sub]. destruct (drift_item_value k) as [Ef Ff]. destruct (X_sub (mn_sum s) _ Fs Ff) as [HX Hn].
      rewrite Es, Ef, units_minus in HX.
      replace (2 ^ 53 + low k + low (S k) + Z.of_nat (S k) - (2 ^ 52 + low k))%Z
        with (2 ^ 52 + low (S k) + Z.of_nat (S k))%Z in HX by lia.
      pose proof (low_range (S k)).
      assert (R : rnd (units (2 ^ 52 + low (S k) + Z.of_nat (S k))) = units (2 ^ 52 + low (S k) + Z.of_nat (S k)))
        by (apply rnd_fix, format_units; lia).
      destruct (exact_sum _ _ Hn HX) as [F1 E1]; [rewrite R; apply units_big; lia ..|]. rewrite R in E1.
      apply (drift_add _ (S k)); auto. lia.
Qed.

(** The mean is off by [k] half units in the last place after [k + 1] observations. *)
Lemma mean_growth k : (Z.of_nat k <= 2 ^ 51)%Z ->
  exists s, update_all (mean_update (A := B64)) (mean_new 2) (map drift_item (seq 0 (S k))) = Ret s /\
    finite64 (mean_evaluate (A := B64) s) = true /\
    B2R (mean_evaluate (A := B64) s) - avg (map B2R (window_of 2 (map drift_item (seq 0 (S k))))) =
      INR k * bpow radix2 (-54).
Proof.
  intros Hk. destruct (drift_state k Hk) as (s & E & [Hw Hs Hh] & Fs & Es). exists s. split; auto.
  unfold mean_evaluate. rewrite Hh, Hw. change (num B64) with double. rewrite map_length, seq_length.
  cbn [Nat.eqb Nat.ltb Nat.leb]. change (window_of 2 (map drift_item (seq 0 (S k)))) with (lastn 2 (map drift_item (seq 0 (S k)))).
  destruct k as [|k].
  - cbn [seq map]. change (lastn 2 [drift_item 0]) with [drift_item 0]. cbn [length map avg rsum].
    change (of_nat (A := B64) 1) with (Bz 1). cbn [B64 div].
    destruct (Bz_exact 1) as [E1 F1]; [lia|]. destruct (X_div (mn_sum s) (Bz 1) Fs F1) as [HX Hn]; [rewrite E1; lra|].
    rewrite E1, Es in HX. replace (units (2 ^ 52 + low 0) / 1) with (units (2 ^ 52 + low 0)) in HX by field.
    assert (R : rnd (units (2 ^ 52 + low 0)) = units (2 ^ 52 + low 0)) by (apply rnd_fix, format_units; reflexivity).
    destruct (exact_sum _ _ Hn HX) as [F2 E2]; [rewrite R; apply units_big; cbn; lia ..|]. split; auto.
    rewrite E2, R. destruct (drift_item_value 0) as [-> _]. simpl INR. field.
  - rewrite drift_window. cbn [length map avg rsum]. change (of_nat (A := B64) 2) with (Bz 2). cbn [B64 div].
    destruct (Bz_exact 2) as [E1 F1]; [lia|]. destruct (X_div (mn_sum s) (Bz 2) Fs F1) as [HX Hn]; [rewrite E1; lra|].
    rewrite E1, Es in HX. destruct (low_step k) as [m Hm].
    pose proof (low_range k). pose proof (low_range (S k)).
    replace (2 ^ 53 + low k + low (S k) + Z.of_nat (S k))%Z with (2 * (2 ^ 52 + 2 * m + 2))%Z in HX by lia.
    replace (units (2 * (2 ^ 52 + 2 * m + 2)) / 2) with (units (2 ^ 52 + 2 * m + 2)) in HX
      by (unfold units; rewrite (mult_IZR 2); field).
    assert (R : rnd (units (2 ^ 52 + 2 * m + 2)) = units (2 ^ 52 + 2 * m + 2)) by (apply rnd_fix, format_units; lia).
    destruct (exact_sum _ _ Hn HX) as [F2 E2]; [rewrite R; apply units_big; lia ..|]. split; auto.
    rewrite E2, R. destruct (drift_item_value k) as [-> _], (drift_item_value (S k)) as [-> _].
    rewrite Rplus_0_r, units_plus. change (INR 2) with 2. unfold units.
    replace (2 ^ 52 + low k + (2 ^ 52 + low (S k)))%Z with (2 * (2 ^ 52 + 2 * m + 2) - Z.of_nat (S k))%Z by lia.
    rewrite minus_IZR, (mult_IZR 2), <- INR_IZR_INZ.
    replace (bpow radix2 (-53)) with (2 * bpow radix2 (-54)); [field|].
    change 2 with (bpow radix2 1). rewrite <- bpow_plus. reflexivity.
Qed.

Lemma drift_item_range k : finite64 (drift_item k) = true /\ / 2 <= B2R (drift_item k) < 1.
Proof.
  destruct (drift_item_value k) as [-> F]. pose proof (low_range k). split; auto. split.
  - replace (/ 2) with (units (2 ^ 52)).
    + apply Rmult_le_compat_r; [apply bpow_ge_0|]. apply IZR_le. lia.
    + unfold units. change (IZR (2 ^ 52)) with (bpow radix2 52). rewrite <- bpow_plus. reflexivity.
  - eapply Rle_lt_trans; [apply Rle_abs|]. apply (units_lt _ 0); lia.
Qed.
