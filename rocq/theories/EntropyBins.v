(** The default number of bins. *)

From Coq Require Import List Arith Bool Lia ZArith Reals Lra.
From Flocq Require Import Core.Core IEEE754.BinarySingleNaN.
From Verif Require Import Outcome Arith Utils Histogram Mean Entropy FloatSpec FloatFacts EntropySpec EntropyFacts EntropyDrift.
Local Open Scope nat_scope.

Lemma sturges_bins W : 1 <= W -> exists k, entropy_bins W 0 = Ret (k + 1) /\ W <= 2 ^ k /\ (forall j, W <= 2 ^ j -> k <= j).
Proof.
  intros HW. exists (Nat.log2_up W). unfold entropy_bins. cbn [Nat.eqb]. destruct (Nat.eqb_spec W 0); [lia|].
  split; [f_equal; lia|]. split.
  - destruct (Nat.eq_dec W 1) as [->|K]; [simpl; lia|]. apply Nat.log2_up_spec. lia.
  - intros j Hj. apply Nat.log2_up_le_pow2 in Hj; lia.
Qed.

Lemma dyadic_format (m : Z) (e : Z) : (Z.abs m < 2 ^ 53)%Z -> (-1074 <= e)%Z -> rnd (F2R (Float radix2 m e)) = F2R (Float radix2 m e).
Proof.
  intros Hm He. unfold rnd. apply round_generic; auto with typeclass_instances.
  apply generic_format_FLT. exists (Float radix2 m e); auto.
Qed.

Lemma log2R_pow k : log2R (INR (2 ^ k)) = INR k.
Proof.
  rewrite pow_INR. change (INR 2) with 2%R. unfold log2R. rewrite ln_pow by lra. field. pose proof ln2_pos. lra.
Qed.

Lemma log2R_mono a b : (0 < a)%R -> (a <= b)%R -> (log2R a <= log2R b)%R.
Proof.
  intros Ha Hab. unfold log2R. apply Rmult_le_compat_r; [left; apply Rinv_0_lt_compat; apply ln2_pos|].
  destruct Hab as [H| ->]; [left; now apply ln_increasing|lra].
Qed.

Lemma ln2_le_1 : (ln 2 <= 1)%R.
Proof. pose proof (ln_below 2). lra. Qed.
Lemma ln2_ge_half : (/ 2 <= ln 2)%R.
Proof. pose proof (ln_above 2). lra. Qed.

(** [log2 (2^j + 1)] lies between [j + 2^-(j+1)] and [j + 2^-(j-1)]. *)
Lemma log2R_succ j : (INR j + / 2 / 2 ^ j <= log2R (INR (2 ^ j + 1)) <= INR j + 2 / 2 ^ j)%R.
Proof.
  assert (P : (1 <= 2 ^ j)%R) by (apply pow_R1_Rle; lra). set (p := (2 ^ j)%R) in * .
  assert (E : INR (2 ^ j + 1) = (p * (1 + / p))%R).
  { rewrite plus_INR, pow_INR. change (INR 2) with 2%R. fold p. cbn. field. lra. }
  assert (Q : (0 < / p)%R) by (apply Rinv_0_lt_compat; lra).
  assert (E2 : log2R (INR (2 ^ j + 1)) = (INR j + ln (1 + / p) / ln 2)%R).
  { rewrite E. unfold log2R. rewrite ln_mult by lra. unfold p. rewrite ln_pow by lra. field. pose proof ln2_pos. lra. }
  rewrite E2. pose proof ln2_pos as L2. pose proof ln2_le_1. pose proof ln2_ge_half.
  assert (I2 : (1 <= / ln 2 <= 2)%R).
  { split.
    - rewrite <- Rinv_1. apply Rinv_le_contravar; lra.
    - replace 2%R with (/ / 2)%R at 2 by field. apply Rinv_le_contravar; lra. }
  pose proof (ln_below (1 + / p)) as U. pose proof (ln_above (1 + / p)) as L.
  assert (Lo : (/ 2 * / p <= 1 - / (1 + / p))%R).
  { replace (1 - / (1 + / p))%R with (/ (p + 1))%R by (field; lra). rewrite <- Rinv_mult.
    apply Rinv_le_contravar; lra. }
  assert (0 <= ln (1 + / p))%R by lra.
  assert (/ 2 * / p * 1 <= ln (1 + / p) * / ln 2)%R by (apply Rmult_le_compat; lra).
  assert (ln (1 + / p) * / ln 2 <= / p * 2)%R by (apply Rmult_le_compat; lra).
  unfold Rdiv. lra.
Qed.

(** A correctly rounded log2 has the right ceiling up to 2^47. *)
Lemma sturges_rounded W : 1 <= W -> Nat.log2_up W <= 47 -> Zceil (rnd (log2R (INR W))) = Z.of_nat (Nat.log2_up W).
Proof.
  intros HW Hk. set (k := Nat.log2_up W) in * . destruct (Nat.eq_dec W 1) as [E|E].
  - subst W. unfold k. cbn. rewrite log2R_1, rnd_0. apply (Zceil_IZR 0).
  - destruct (Nat.log2_up_spec W) as [L U]; [lia|]. fold k in L, U.
    assert (Hk1 : 1 <= k) by (apply Nat.log2_up_pos; lia). destruct k as [|j] eqn:Ek; [lia|]. cbn [Nat.pred] in L.
    assert (P : (0 < INR W)%R) by (apply lt_0_INR; lia).
    apply Zceil_imp. split.
    + (* the point j + 2^-(j+1) is a double *)
      assert (F : rnd (INR j + / 2 / 2 ^ j) = (INR j + / 2 / 2 ^ j)%R).
      { replace (INR j + / 2 / 2 ^ j)%R with (F2R (Float radix2 (Z.of_nat j * 2 ^ (Z.of_nat j + 1) + 1) (- (Z.of_nat j + 1)))).
        - apply dyadic_format; [|lia]. rewrite Z.abs_eq by lia.
          assert (2 ^ (Z.of_nat j + 1) <= 2 ^ 47)%Z by (apply Z.pow_le_mono_r; lia).
          assert (Z.of_nat j <= 46)%Z by lia. change (2 ^ 53)%Z with (64 * 2 ^ 47)%Z. nia.
        - unfold F2R. cbn [Fnum Fexp]. rewrite plus_IZR, mult_IZR, <- INR_IZR_INZ.
          replace (IZR (2 ^ (Z.of_nat j + 1))) with (bpow radix2 (Z.of_nat j + 1)) by (rewrite <- IZR_Zpower by lia; reflexivity). rewrite Rmult_plus_distr_r, Rmult_assoc, <- bpow_plus.
          replace (Z.of_nat j + 1 + - (Z.of_nat j + 1))%Z with 0%Z by lia. rewrite Rmult_1_r, Rmult_1_l. f_equal.
          rewrite bpow_opp. replace (bpow radix2 (Z.of_nat j + 1)) with (2 * 2 ^ j)%R.
          + field. apply pow_nonzero. lra.
          + rewrite bpow_plus, <- IZR_Zpower by lia. change (radix2 : Z) with 2%Z. rewrite <- pow_IZR. cbn. ring. }
      apply Rlt_le_trans with (rnd (INR j + / 2 / 2 ^ j)).
      * rewrite F. replace (Z.of_nat (S j) - 1)%Z with (Z.of_nat j) by lia. rewrite <- INR_IZR_INZ.
        assert (0 < / 2 / 2 ^ j)%R by (apply Rdiv_lt_0_compat; [lra|apply pow_lt; lra]). lra.
      * apply rnd_le. apply Rle_trans with (log2R (INR (2 ^ j + 1))); [apply log2R_succ|].
        apply log2R_mono; [apply lt_0_INR; lia|]. apply le_INR. lia.
    + apply Rle_trans with (rnd (INR (S j))).
      * apply rnd_le. rewrite <- (log2R_pow (S j)). apply log2R_mono; auto. apply le_INR. exact U.
      * right. rewrite INR_IZR_INZ. replace (IZR (Z.of_nat (S j))) with (F2R (Float radix2 (Z.of_nat (S j)) 0)) by (unfold F2R; cbn; ring).
        apply dyadic_format; lia.
Qed.

(** Just above 2^50 it is off by one. *)
Lemma sturges_off : rnd (log2R (INR (2 ^ 50 + 1))) = 50%R.
Proof.
  assert (F50 : rnd 50 = 50%R).
  { replace 50%R with (F2R (Float radix2 50 0)) by (unfold F2R; cbn; ring). apply dyadic_format; lia. }
  destruct (log2R_succ 50) as [L U].
  assert (E50 : INR 50 = 50%R) by (rewrite INR_IZR_INZ; reflexivity). rewrite E50 in L, U.
  apply Rle_antisym.
  - apply Rle_trans with (rnd (50 + 2 / 2 ^ 50)); [now apply rnd_le|].
    replace (50 + 2 / 2 ^ 50)%R with (F2R (Float radix2 (50 * 2 ^ 49 + 1) (-49))).
    + pose proof (binary_normalize_correct 53 1024 prec_gt_0_53 prec_lt_emax_53 mode_NE (50 * 2 ^ 49 + 1) (-49) false) as B.
      cbv zeta in B. change (round radix2 (SpecFloat.fexp 53 1024) (round_mode mode_NE) (F2R (Float radix2 (50 * 2 ^ 49 + 1) (-49))))
        with (rnd (F2R (Float radix2 (50 * 2 ^ 49 + 1) (-49)))) in B.
      destruct (Rlt_bool _ _).
      * destruct B as (B & _ & _). rewrite <- B.
        replace (binary_normalize 53 1024 prec_gt_0_53 prec_lt_emax_53 mode_NE (50 * 2 ^ 49 + 1) (-49) false)
          with (Bz 50); [destruct (Bz_exact 50) as [-> _]; [lia|lra]|].
        apply B2SF_inj. vm_compute. reflexivity.
      * exfalso. apply (f_equal (fun s => match s with SpecFloat.S754_finite _ _ _ => true | _ => false end)) in B.
        vm_compute in B. discriminate.
    + unfold F2R. cbn [Fnum Fexp]. change (bpow radix2 (-49)) with (/ IZR (Z.pow_pos 2 49))%R.
      rewrite plus_IZR, mult_IZR. change (Z.pow_pos 2 49) with (2 ^ 49)%Z. replace (IZR (2 ^ 49)) with (2 ^ 49)%R by (rewrite (pow_IZR 2 49); reflexivity).
      replace (2 ^ 50)%R with (2 * 2 ^ 49)%R by reflexivity.
      assert (2 ^ 49 <> 0)%R by (apply pow_nonzero; lra). set (q := (2 ^ 49)%R) in * . field. auto.
  - rewrite <- F50 at 1. apply rnd_le. apply Rle_trans with (2 := L).
    assert (0 < / 2 / 2 ^ 50)%R by (apply Rdiv_lt_0_compat; [lra|apply pow_lt; lra]). lra.
Qed.

Lemma sturges_off_ceiling : Zceil (rnd (log2R (INR (2 ^ 50 + 1)))) = 50%Z /\ ~ 2 ^ 50 + 1 <= 2 ^ 50.
Proof.
  split.
  - rewrite sturges_off. apply (Zceil_IZR 50).
  - generalize (2 ^ 50). intros n. lia.
Qed.

Lemma given_bins W N : 1 <= N -> entropy_bins W N = Ret N.
Proof. intros H. unfold entropy_bins. destruct (Nat.eqb_spec N 0); [lia|reflexivity]. Qed.
