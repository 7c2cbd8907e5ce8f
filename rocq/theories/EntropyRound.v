(** Rounding errors of StreamingEntropy in doubles, inside the window. *)

From Coq Require Import List Sorting.Sorted Arith Bool Lia ZArith Reals Lra.
From Flocq Require Import Core.Core IEEE754.BinarySingleNaN.
From Verif Require Import Outcome Arith Utils IBin Histogram Mean Entropy Spec ListFacts HistSpec UtilsFacts
  HistFacts FloatSpec FloatFacts UtilsMono HistOrder HistStreams EntropySpec EntropyFacts EntropyDrift MeanError.
Import ListNotations.
Local Open Scope R_scope.

(** ** The binary logarithm *)

Lemma ln2_half : / 2 <= ln 2.
Proof. pose proof (ln_above 2 ltac:(lra)). lra. Qed.

Lemma log2R_mult a b : 0 < a -> 0 < b -> log2R (a * b) = log2R a + log2R b.
Proof. intros. unfold log2R. rewrite ln_mult by auto. unfold Rdiv. ring. Qed.

(** [y * /ln 2] is at most twice [y]. *)
Lemma over_ln2 y B : Rabs y <= B -> Rabs (y / ln 2) <= 2 * B.
Proof.
  intros H. pose proof ln2_half. pose proof ln2_pos. unfold Rdiv. rewrite Rabs_mult, (Rabs_pos_eq (/ ln 2)) by (left; now apply Rinv_0_lt_compat).
  assert (/ ln 2 <= 2).
  { apply Rmult_le_reg_r with (ln 2); auto. rewrite Rinv_l by lra. lra. }
  assert (0 <= / ln 2) by (left; now apply Rinv_0_lt_compat). pose proof (Rabs_pos y). nra.
Qed.

Lemma xlog_small x : 0 < x <= 1 -> Rabs (x * log2R x) <= 2.
Proof.
  intros [P Q]. unfold log2R. replace (x * (ln x / ln 2)) with (x * ln x / ln 2) by (unfold Rdiv; ring).
  replace 2 with (2 * 1) at 2 by ring. apply over_ln2. pose proof (ln_below x P). pose proof (ln_above x P) as A.
  assert (x * (1 - / x) <= x * ln x) by (apply Rmult_le_compat_l; lra).
  replace (x * (1 - / x)) with (x - 1) in * by (field; lra). apply Rabs_le. nra.
Qed.

Lemma log2R_near d : Rabs d <= / 4 -> Rabs (log2R (1 + d)) <= 4 * Rabs d.
Proof.
  intros H. assert (- / 4 <= d <= / 4) by (now apply Rabs_le_inv). unfold log2R.
  replace (4 * Rabs d) with (2 * (2 * Rabs d)) by ring. apply over_ln2.
  pose proof (ln_below (1 + d) ltac:(lra)). pose proof (ln_above (1 + d) ltac:(lra)) as A.
  replace (1 - / (1 + d)) with (d / (1 + d)) in A by (field; lra).
  assert (RD : Rabs (d / (1 + d)) <= 2 * Rabs d).
  { unfold Rdiv. rewrite Rabs_mult. rewrite (Rabs_pos_eq (/ (1 + d))) by (left; apply Rinv_0_lt_compat; lra).
    assert (/ (1 + d) <= 2).
    { apply Rmult_le_reg_r with (1 + d); [lra|]. rewrite Rinv_l by lra. lra. }
    pose proof (Rabs_pos d). nra. }
  apply Rabs_le_inv in RD. pose proof (Rabs_pos d). pose proof (Rle_abs d). pose proof (Rle_abs (- d)). rewrite Rabs_Ropp in * .
  apply Rabs_le. lra.
Qed.

(** ** Approximation *)

Definition k : R := bpow radix2 (-46).

Lemma k_u : k = 128 * u.
Proof. unfold k, u. change (-46)%Z with (7 + -53)%Z. rewrite bpow_plus. change (bpow radix2 7) with 128. reflexivity. Qed.

Lemma tiny : 0 < bpow radix2 (-1075) <= / 1048576 * / 1048576 * u.
Proof.
  split; [apply bpow_gt_0|]. change (/ 1048576) with (bpow radix2 (-20)). unfold u. rewrite <- !bpow_plus. apply bpow_le. lia.
Qed.

Definition approx (x : double) (a E : R) : Prop := finite64 x = true /\ Rabs (B2R x - a) <= E.

Lemma op_rnd (z : double) r : X z = R64 r /\ nan z = false -> Rabs r <= bpow radix2 1000 ->
  finite64 z = true /\ Rabs (B2R z - r) <= u * Rabs r + bpow radix2 (-1075).
Proof.
  intros [E N] H. pose proof (rnd_any r) as D. pose proof u_pos as U. pose proof tiny as T.
  assert (B : Rabs (rnd r) < big).
  { apply Rle_lt_trans with (2 * bpow radix2 1000 + 1).
    - replace (rnd r) with ((rnd r - r) + r) by ring. eapply Rle_trans; [apply Rabs_triang|].
      pose proof (Rabs_pos r). nra.
    - apply Rlt_le_trans with (bpow radix2 1002); [|apply bpow_le; lia].
      change 1002%Z with (2 + 1000)%Z. rewrite bpow_plus. change (bpow radix2 2) with 4.
      assert (1 <= bpow radix2 1000) by (change 1 with (bpow radix2 0); apply bpow_le; lia). lra. }
  unfold R64 in E. rewrite sat_in in E by auto.
  assert (F : finite64 z = true) by (apply fin_X; auto; now rewrite E). split; auto.
  rewrite <- (X_fin _ F), E. exact D.
Qed.

(** Any result of at most 64 in magnitude is rounded by at most [k]. *)
Lemma op_k (z : double) r : X z = R64 r /\ nan z = false -> Rabs r <= 64 -> approx z r k.
Proof.
  intros E H. destruct (op_rnd z r E) as [F D].
  - eapply Rle_trans; [exact H|]. change 64 with (bpow radix2 6). apply bpow_le. lia.
  - split; auto. eapply Rle_trans; [exact D|]. rewrite k_u. pose proof u_pos. pose proof tiny. nra.
Qed.

Lemma approx_trans x a b E F : approx x a E -> Rabs (a - b) <= F -> approx x b (E + F).
Proof.
  intros [Fx D] H. split; auto. replace (B2R x - b) with ((B2R x - a) + (a - b)) by ring.
  eapply Rle_trans; [apply Rabs_triang|]. lra.
Qed.

Lemma approx_weaken x a E F : approx x a E -> E <= F -> approx x a F.
Proof. intros [] ?. split; auto. lra. Qed.

Lemma near x a E M : approx x a E -> Rabs a <= M -> Rabs (B2R x) <= M + E.
Proof.
  intros [_ D] H. replace (B2R x) with ((B2R x - a) + a) by ring. eapply Rle_trans; [apply Rabs_triang|]. lra.
Qed.

Lemma approx_add x y a b E F : approx x a E -> approx y b F -> Rabs (a + b) <= 48 -> E + F <= 16 ->
  approx (Badd x y) (a + b) (k + (E + F)).
Proof.
  intros [Fx Dx] [Fy Dy] H HE.
  assert (D : Rabs ((B2R x + B2R y) - (a + b)) <= E + F).
  { replace ((B2R x + B2R y) - (a + b)) with ((B2R x - a) + (B2R y - b)) by ring. eapply Rle_trans; [apply Rabs_triang|]. lra. }
  apply approx_trans with (B2R x + B2R y); [|exact D].
  apply op_k; [now apply X_add|]. replace (B2R x + B2R y) with ((B2R x + B2R y - (a + b)) + (a + b)) by ring.
  eapply Rle_trans; [apply Rabs_triang|]. lra.
Qed.

Lemma approx_sub x y a b E F : approx x a E -> approx y b F -> Rabs (a - b) <= 48 -> E + F <= 16 ->
  approx (Bsub x y) (a - b) (k + (E + F)).
Proof.
  intros [Fx Dx] [Fy Dy] H HE.
  assert (D : Rabs ((B2R x - B2R y) - (a - b)) <= E + F).
  { replace ((B2R x - B2R y) - (a - b)) with ((B2R x - a) + - (B2R y - b)) by ring. eapply Rle_trans; [apply Rabs_triang|].
    rewrite Rabs_Ropp. lra. }
  apply approx_trans with (B2R x - B2R y); [|exact D].
  apply op_k; [now apply X_sub|]. replace (B2R x - B2R y) with ((B2R x - B2R y - (a - b)) + (a - b)) by ring.
  eapply Rle_trans; [apply Rabs_triang|]. lra.
Qed.

(** A factor in [0,1] contracts the error of the other one. *)
Lemma approx_mul x y a b E F : approx x a E -> approx y b F -> 0 <= a <= 1 -> 0 <= B2R x <= 1 -> Rabs b <= 48 -> F <= 16 ->
  approx (Bmul x y) (a * b) (k + (a * F + E * 64)).
Proof.
  intros [Fx Dx] [Fy Dy] Ha Hx Hb HF.
  assert (Y : Rabs (B2R y) <= 64) by (pose proof (near y b F 48 (conj Fy Dy) Hb); lra).
  apply approx_trans with (B2R x * B2R y).
  - apply op_k; [now apply X_mul|]. rewrite Rabs_mult, (Rabs_pos_eq (B2R x)) by lra. pose proof (Rabs_pos (B2R y)). nra.
  - replace (B2R x * B2R y - a * b) with (a * (B2R y - b) + (B2R x - a) * B2R y) by ring.
    eapply Rle_trans; [apply Rabs_triang|]. rewrite !Rabs_mult, (Rabs_pos_eq a) by lra. apply Rplus_le_compat.
    + apply Rmult_le_compat_l; lra.
    + apply Rmult_le_compat; auto using Rabs_pos.
Qed.

(** ** The quotients *)

Lemma of_nat_exact n : (Z.of_nat n <= 2 ^ 53)%Z -> finite64 (of_nat (A := B64) n) = true /\ B2R (of_nat (A := B64) n : double) = INR n.
Proof.
  intros H. unfold of_nat. change (of_Z (a := B64)) with Bz. destruct (Bz_exact (Z.of_nat n)) as [E F]; [lia|].
  split; auto. now rewrite INR_IZR_INZ.
Qed.

(** A quotient of counts: relative error, and range. *)
Lemma quot_err (x y : double) c n : finite64 x = true -> finite64 y = true -> B2R x = INR c -> B2R y = INR n ->
  (1 <= c <= n)%nat -> (Z.of_nat n <= 2 ^ 40)%Z ->
  finite64 (Bquot x y) = true /\ bpow radix2 (-40) <= B2R (Bquot x y) <= 1 /\
  exists d, B2R (Bquot x y) = INR c / INR n * (1 + d) /\ Rabs d <= 2 * u.
Proof.
  intros Fx Fy Ex Ey Hc Hn.
  assert (Pn : 0 < INR n) by (apply lt_0_INR; lia). assert (Pc : 1 <= INR c) by (change 1 with (INR 1); apply le_INR; lia).
  assert (Cn : INR c <= INR n) by (apply le_INR; lia).
  assert (Bn : INR n <= bpow radix2 40).
  { rewrite INR_IZR_INZ. change (bpow radix2 40) with (IZR (2 ^ 40)). now apply IZR_le. }
  assert (Q1 : INR c / INR n <= 1).
  { apply Rmult_le_reg_r with (INR n); auto. unfold Rdiv. rewrite Rmult_assoc, Rinv_l by lra. lra. }
  assert (Q0 : bpow radix2 (-40) <= INR c / INR n).
  { change (-40)%Z with (- (40))%Z. rewrite bpow_opp. apply Rle_trans with (/ INR n); [now apply Rinv_le_contravar|].
    unfold Rdiv. rewrite <- (Rmult_1_l (/ INR n)) at 1. apply Rmult_le_compat_r; auto. left. now apply Rinv_0_lt_compat. }
  assert (P40 : 0 < bpow radix2 (-40)) by apply bpow_gt_0.
  destruct (X_div x y Fx Fy) as [E N]; [lra|]. rewrite Ex, Ey in E.
  destruct (op_rnd _ _ (conj E N)) as [F D].
  { rewrite Rabs_pos_eq by lra. apply Rle_trans with 1; auto. change 1 with (bpow radix2 0). apply bpow_le. lia. }
  rewrite (X_fin _ F) in E. split; auto. rewrite E. set (q := INR c / INR n) in * . split.
  - assert (F40 : R64 (bpow radix2 (-40)) = bpow radix2 (-40)).
    { unfold R64. rewrite rnd_fix; [|apply generic_format_bpow; vm_compute; discriminate].
      apply sat_in. rewrite Rabs_pos_eq by lra. apply bpow_lt. lia. }
    assert (F1 : R64 1 = 1) by (destruct (Bz_exact 1) as [<- _]; [lia|]; apply R64_B2R).
    split; [rewrite <- F40|rewrite <- F1]; now apply R64_le.
  - exists ((B2R (Bquot x y) - q) / q). rewrite <- E. split; [field; lra|].
    unfold Rdiv. rewrite Rabs_mult, Rabs_inv, (Rabs_pos_eq q) by lra.
    apply Rmult_le_reg_r with q; [lra|]. rewrite Rmult_assoc, Rinv_l, Rmult_1_r by lra.
    eapply Rle_trans; [exact D|]. rewrite Rabs_pos_eq by lra. pose proof u_pos.
    assert (bpow radix2 (-1075) <= u * q); [|lra].
    apply Rle_trans with (u * bpow radix2 (-40)); [|apply Rmult_le_compat_l; lra].
    unfold u. rewrite <- bpow_plus. apply bpow_le. lia.
Qed.

(** ** One update *)

Section Log.
  Context (log2 : double -> double) (eta : R).
  Context (Pe : 0 <= eta <= 1).
  Context (Acc : forall x : double, finite64 x = true -> bpow radix2 (-40) <= B2R x <= 1 ->
             approx (log2 x) (log2R (B2R x)) eta).

  Lemma log_err (z : double) q d : finite64 z = true -> bpow radix2 (-40) <= B2R z <= 1 -> 0 < q ->
    B2R z = q * (1 + d) -> Rabs d <= 2 * u -> approx (log2 z) (log2R q) (eta + k).
  Proof.
    intros F Rz Pq Ez Hd. pose proof u_pos as U. apply approx_trans with (log2R (B2R z)); [now apply Acc|].
    assert (Rabs d <= / 4) by lra. assert (0 < 1 + d) by (apply Rabs_le_inv in H; lra).
    rewrite Ez, log2R_mult by auto. replace (log2R q + log2R (1 + d) - log2R q) with (log2R (1 + d)) by ring.
    eapply Rle_trans; [now apply log2R_near|]. rewrite k_u. lra.
  Qed.

  (** x log2 x at a rounded quotient. *)
  Lemma xlogx_err (x y : double) c n : finite64 x = true -> finite64 y = true -> B2R x = INR c -> B2R y = INR n ->
    (c <= n)%nat -> (1 <= n)%nat -> (Z.of_nat n <= 2 ^ 40)%Z ->
    exists r, xlogx (A := B64) log2 (Bquot x y) = Ret r /\ approx r (INR c / INR n * log2R (INR c / INR n)) (eta + 2 * k).
  Proof.
    intros Fx Fy Ex Ey Hc Hn Bn. pose proof u_pos as U. destruct (Bz_exact 0) as [E0 F0]; [lia|].
    assert (Pn : 0 < INR n) by (apply lt_0_INR; lia).
    destruct c as [|c].
    - cbn [INR] in Ex |- * . destruct (X_div x y Fx Fy) as [E N]; [lra|]. rewrite Ex in E.
      replace (0 / B2R y) with 0 in E by (unfold Rdiv; ring). rewrite R64_0 in E.
      exists (Bz 0). unfold xlogx. change (ltb (Bquot x y) zero) with (Bltb (Bquot x y) (Bz 0)).
      change (eqb (a := B64) zero (Bquot x y)) with (Beqb (Bz 0) (Bquot x y)).
      assert (Z0 : X (Bz 0) = 0) by (rewrite (X_fin _ F0); exact E0).
      replace (Bltb (Bquot x y) (Bz 0)) with false by (symmetry; apply X_ltb_false; auto using fin_nan; lra).
      replace (Beqb (Bz 0) (Bquot x y)) with true by (symmetry; apply X_eqb; auto using fin_nan; lra).
      split; [reflexivity|]. split; auto. change (IZR 0) with 0 in E0. rewrite E0.
      replace (0 - 0 / INR n * log2R (0 / INR n)) with 0 by (unfold Rdiv; ring). rewrite Rabs_R0. rewrite k_u. lra.
    - destruct (quot_err x y (S c) n Fx Fy Ex Ey) as (F & Rz & d & Ed & Hd); [lia|auto|].
      set (z := Bquot x y) in * . set (q := INR (S c) / INR n) in * .
      assert (Pq : 0 < q) by (apply Rdiv_lt_0_compat; auto; apply lt_0_INR; lia).
      assert (Pz : 0 < B2R z) by (pose proof (bpow_gt_0 radix2 (-40)); lra).
      exists (Bmul z (log2 z)). unfold xlogx. change (ltb z zero) with (Bltb z (Bz 0)).
      change (eqb (a := B64) zero z) with (Beqb (Bz 0) z).
      assert (Z0 : X (Bz 0) = 0) by (rewrite (X_fin _ F0); exact E0).
      replace (Bltb z (Bz 0)) with false by (symmetry; apply X_ltb_false; auto using fin_nan; rewrite Z0, (X_fin _ F); lra).
      replace (Beqb (Bz 0) z) with false.
      2: { symmetry. apply not_true_is_false. intros K. apply X_eqb in K; auto using fin_nan. rewrite Z0, (X_fin _ F) in K. lra. }
      split; [reflexivity|].
      destruct (Acc z F Rz) as [Fl Dl]. pose proof (xlog_small (B2R z) ltac:(lra)) as S1.
      assert (D1 : Rabs (B2R z * B2R (log2 z) - B2R z * log2R (B2R z)) <= eta).
      { rewrite <- Rmult_minus_distr_l, Rabs_mult, (Rabs_pos_eq (B2R z)) by lra. pose proof (Rabs_pos (B2R (log2 z) - log2R (B2R z))). nra. }
      assert (Q1 : q <= 1).
      { apply Rmult_le_reg_r with (INR n); auto. unfold q, Rdiv. rewrite Rmult_assoc, Rinv_l by lra.
        rewrite Rmult_1_r, Rmult_1_l. now apply le_INR. }
      assert (D2 : Rabs (B2R z * log2R (B2R z) - q * log2R q) <= k).
      { assert (Hd4 : Rabs d <= / 4) by lra. pose proof (Rabs_le_inv _ _ Hd4).
        rewrite Ed, log2R_mult by lra.
        replace (q * (1 + d) * (log2R q + log2R (1 + d)) - q * log2R q)
          with (d * (q * log2R q) + q * (1 + d) * log2R (1 + d)) by ring.
        eapply Rle_trans; [apply Rabs_triang|]. rewrite !Rabs_mult, (Rabs_pos_eq q), (Rabs_pos_eq (1 + d)) by lra.
        pose proof (xlog_small q ltac:(lra)) as S2. rewrite Rabs_mult, (Rabs_pos_eq q) in S2 by lra.
        pose proof (log2R_near d Hd4) as S3. pose proof (Rabs_pos d). pose proof (Rabs_pos (log2R q)). pose proof (Rabs_pos (log2R (1 + d))).
        assert (Rabs d * (q * Rabs (log2R q)) <= 2 * u * 2) by (apply Rmult_le_compat; auto; nra).
        assert (q * (1 + d) * Rabs (log2R (1 + d)) <= 2 * (4 * (2 * u))).
        { apply Rmult_le_compat; auto; [nra|nra|lra]. }
        rewrite k_u. lra. }
      replace (eta + 2 * k) with ((k + eta) + k) by ring.
      apply approx_trans with (B2R z * log2R (B2R z)); auto.
      apply approx_trans with (B2R z * B2R (log2 z)); auto.
      apply op_k; [now apply X_mul|].
      replace (B2R z * B2R (log2 z)) with ((B2R z * B2R (log2 z) - B2R z * log2R (B2R z)) + B2R z * log2R (B2R z)) by ring.
      eapply Rle_trans; [apply Rabs_triang|]. lra.
  Qed.

  Definition rate : R := 3 * eta + bpow radix2 (-42).

  Lemma rate_k : rate = 3 * eta + 16 * k.
  Proof. unfold rate, k. change (-42)%Z with (4 + -46)%Z. rewrite bpow_plus. reflexivity. Qed.

  Lemma max_count (dc : double) c : finite64 dc = true -> B2R dc = INR (S c) -> (Z.of_nat (S c) <= 2 ^ 40)%Z ->
    finite64 (max_ (A := B64) (Bz 0) (Bsub dc (Bz 1))) = true /\ B2R (max_ (A := B64) (Bz 0) (Bsub dc (Bz 1)) : double) = INR c.
  Proof.
    intros Fc Ec Bc. destruct (Bz_exact 0) as [E0 F0]; [lia|]. destruct (Bz_exact 1) as [E1 F1]; [lia|].
    destruct (of_nat_exact c) as [Fk Ek]; [lia|].
    destruct (X_sub dc (Bz 1) Fc F1) as [Es Ns]. rewrite E1, Ec, S_INR in Es.
    replace (INR c + 1 - 1) with (INR c) in Es by ring. rewrite <- Ek, R64_B2R in Es.
    assert (F : finite64 (Bsub dc (Bz 1)) = true) by (apply fin_X; auto; rewrite Es; apply B2R_lt_big).
    rewrite (X_fin _ F), Ek in Es. unfold max_. change (ltb (Bz 0) (Bsub dc (Bz 1))) with (Bltb (Bz 0) (Bsub dc (Bz 1))).
    destruct (Bltb (Bz 0) (Bsub dc (Bz 1))) eqn:L; auto.
    split; auto. apply X_ltb_false in L; auto using fin_nan. rewrite !X_fin, E0, Es in L by auto.
    rewrite E0. pose proof (pos_INR c). change (IZR 0) with 0 in * . lra.
  Qed.

  Lemma value_err n c (ent : double) H err : (S c <= n)%nat -> (Z.of_nat n <= 2 ^ 40)%Z ->
    approx ent H err -> 0 <= H <= 40 -> err <= 4 ->
    exists r, ent_value (A := B64) log2 n (S c) ent = Ret r /\
      approx r (let rhs := - (INR (S c) / INR n * log2R (INR (S c) / INR n)) + INR c / INR n * log2R (INR c / INR n) in
                if Nat.eqb n 1 then rhs else (INR n - 1) / INR n * (H - log2R ((INR n - 1) / INR n)) + rhs)
        (if Nat.eqb n 1 then rate else (INR n - 1) / INR n * err + rate).
  Proof.
    intros Hc Bn Hent HH Herr. rewrite rate_k.
    assert (Kp : 0 < k <= / 1024) by (rewrite k_u; pose proof u_pos; lra).
    destruct (of_nat_exact n) as [Fn En]; [lia|]. destruct (of_nat_exact (S c)) as [Fc Ec]; [lia|].
    destruct (Bz_exact 0) as [E0 F0]; [lia|]. destruct (Bz_exact 1) as [E1 F1]; [lia|].
    unfold ent_value. set (dn := of_nat n) in * . set (dc := of_nat (S c)) in * .
    change (div (a := B64)) with Bquot. change (sub (a := B64)) with Bsub. change (add (a := B64)) with Badd.
    change (mul (a := B64)) with Bmul. change (of_Z (a := B64)) with Bz.
    destruct (max_count dc c) as [Fm Em]; auto; [lia|]. set (dm := max_ _ _) in * .
    destruct (xlogx_err dc dn (S c) n) as (x1 & -> & A1); auto; [lia|].
    destruct (xlogx_err dm dn c n) as (x2 & -> & A2); auto; [lia|lia|]. cbn [bind].
    assert (Pn : 1 <= INR n) by (change 1 with (INR 1); apply le_INR; lia).
    assert (G : forall j, (j <= n)%nat -> Rabs (INR j / INR n * log2R (INR j / INR n)) <= 2).
    { intros [|j] Hj; [cbn [INR]; replace (0 / INR n * log2R (0 / INR n)) with 0 by (unfold Rdiv; ring); rewrite Rabs_R0; lra|].
      apply xlog_small. split; [apply Rdiv_lt_0_compat; [apply lt_0_INR; lia|lra]|].
      apply Rmult_le_reg_r with (INR n); [lra|]. unfold Rdiv. rewrite Rmult_assoc, Rinv_l by lra.
      rewrite Rmult_1_r, Rmult_1_l. now apply le_INR. }
    pose proof (G (S c) ltac:(lia)) as G1. pose proof (G c ltac:(lia)) as G2. clear G.
    set (g1 := INR (S c) / INR n * log2R (INR (S c) / INR n)) in * .
    set (g2 := INR c / INR n * log2R (INR c / INR n)) in * .
    assert (A0 : approx (Bz 0) 0 0) by (split; auto; rewrite E0; change (IZR 0) with 0; rewrite Rminus_0_r, Rabs_R0; lra).
    apply Rabs_le_inv in G1. apply Rabs_le_inv in G2.
    assert (A3 : approx (Badd (Bsub (Bz 0) x1) x2) (- g1 + g2) (2 * eta + 6 * k)).
    { replace (- g1 + g2) with ((0 - g1) + g2) by ring.
      eapply approx_weaken; [apply approx_add; [apply approx_sub; [exact A0|exact A1|apply Rabs_le; lra|lra]|exact A2|apply Rabs_le; lra|lra]|lra]. }
    set (rhs := Badd _ _) in * . change (eqb (a := B64)) with (@Beqb 53 1024).
    assert (T : Beqb (Bz 1) dn = Nat.eqb n 1).
    { apply eq_true_iff_eq. rewrite X_eqb by auto using fin_nan. rewrite !X_fin, E1, En by auto. rewrite Nat.eqb_eq.
      split; [|intros ->; reflexivity]. intros K. apply INR_eq. now rewrite <- K. }
    rewrite T. destruct (Nat.eqb_spec n 1) as [->|N1]; eexists; (split; [reflexivity|]).
    - cbn zeta. eapply approx_weaken; [exact A3|lra].
    - cbn zeta. destruct n as [|m]; [lia|]. rewrite S_INR in * . replace (INR m + 1 - 1) with (INR m) by ring.
      assert (Fm1 : finite64 (Bsub dn (Bz 1)) = true /\ B2R (Bsub dn (Bz 1)) = INR m).
      { destruct (of_nat_exact m) as [Fk Ek]; [lia|].
        destruct (X_sub dn (Bz 1) Fn F1) as [Es Ns]. rewrite E1, En in Es.
        replace (INR m + 1 - 1) with (INR m) in Es by ring. rewrite <- Ek, R64_B2R in Es.
        assert (F : finite64 (Bsub dn (Bz 1)) = true) by (apply fin_X; auto; rewrite Es; apply B2R_lt_big).
        rewrite (X_fin _ F), Ek in Es. auto. }
      destruct Fm1 as [Fm1 Em1].
      destruct (quot_err (Bsub dn (Bz 1)) dn m (S m) Fm1 Fn Em1) as (Fp & Rp & d & Ed & Hd); [now rewrite S_INR|lia|auto|].
      rewrite S_INR in Ed. set (p := Bquot _ _) in * . set (q := INR m / (INR m + 1)) in * .
      assert (Pm : 1 <= INR m) by (change 1 with (INR 1); apply le_INR; lia).
      assert (Pq : / 2 <= q <= 1).
      { unfold q. split.
        - apply Rmult_le_reg_r with (INR m + 1); [lra|]. unfold Rdiv. rewrite Rmult_assoc, Rinv_l by lra. lra.
        - apply Rmult_le_reg_r with (INR m + 1); [lra|]. unfold Rdiv. rewrite Rmult_assoc, Rinv_l by lra. lra. }
      assert (Al : approx (log2 p) (log2R q) (eta + k)) by (apply log_err with d; auto; lra).
      assert (Lq : -4 <= log2R q <= 0).
      { split; [|apply log2R_neg; lra]. pose proof (xlog_small q ltac:(lra)) as S1. apply Rabs_le_inv in S1.
        pose proof (log2R_neg q ltac:(lra)). nra. }
      assert (Ap : approx p q (2 * u)).
      { split; auto. rewrite Ed. replace (q * (1 + d) - q) with (q * d) by ring. rewrite Rabs_mult, (Rabs_pos_eq q) by lra.
        pose proof (Rabs_pos d). nra. }
      assert (Err0 : 0 <= err) by (destruct Hent as [_ D]; eapply Rle_trans; [apply Rabs_pos|exact D]).
      assert (Ad : approx (Bsub ent (log2 p)) (H - log2R q) (err + eta + 2 * k)).
      { eapply approx_weaken; [apply approx_sub; [exact Hent|exact Al|apply Rabs_le; lra|lra]|lra]. }
      assert (Am : approx (Bmul p (Bsub ent (log2 p))) (q * (H - log2R q)) (q * err + eta + 4 * k)).
      { eapply approx_weaken; [apply approx_mul; [exact Ap|exact Ad|lra| |apply Rabs_le; lra|lra]|].
        - pose proof (bpow_gt_0 radix2 (-40)). lra.
        - rewrite k_u in * . pose proof u_pos. nra. }
      eapply approx_weaken; [apply approx_add; [exact Am|exact A3| |]|].
      + apply Rabs_le. nra.
      + nra.
      + nra.
  Qed.
End Log.

(** ** The whole stream *)

Lemma occurrences_B64 (x : double) xs : finite64 x = true -> Forall finD xs ->
  occurrences (A := B64) x xs = cnt (map B2R xs) (B2R x).
Proof.
  intros Fx F. unfold occurrences, cnt. induction F as [|y xs Fy F IH]; [reflexivity|]. cbn [filter map count_occ].
  change (eqb (a := B64) y x) with (@Beqb 53 1024 y x). destruct (Req_EM_T (B2R y) (B2R x)) as [e|ne].
  - replace (Beqb y x) with true; [cbn [length]; now rewrite IH|]. symmetry. apply X_eqb; auto using fin_nan. now rewrite !X_fin by auto.
  - replace (Beqb y x) with false; [exact IH|]. symmetry. apply not_true_is_false. intros K.
    apply X_eqb in K; auto using fin_nan. rewrite !X_fin in K by auto. auto.
Qed.

Lemma shannon_small xs : (Z.of_nat (length xs) <= 2 ^ 40)%Z -> 0 <= shannon xs (distinct xs) <= 40.
Proof.
  intros H. split; [apply shannon_nonneg; intros v I; now apply nodup_In in I|].
  destruct xs as [|y xs]; [unfold shannon; cbn; lra|].
  eapply Rle_trans; [apply shannon_max; simpl; lia|]. set (l := y :: xs) in * .
  assert (D : (length (distinct l) <= length l)%nat) by (apply NoDup_incl_length; [apply NoDup_nodup|intros v I; now apply nodup_In in I]).
  assert (P : (1 <= length (distinct l))%nat).
  { assert (In y (distinct l)) by (apply nodup_In; simpl; auto). destruct (distinct l); [destruct H0|simpl; lia]. }
  assert (P2 : 0 < ln 2) by apply ln2_pos. unfold log2R.
  apply Rmult_le_reg_r with (ln 2); auto. unfold Rdiv. rewrite Rmult_assoc, Rinv_l, Rmult_1_r by lra.
  replace (40 * ln 2) with (ln (2 ^ 40)) by (rewrite ln_pow by lra; cbn [INR]; ring).
  assert (L : INR (length (distinct l)) <= 2 ^ 40).
  { rewrite INR_IZR_INZ. replace (2 ^ 40) with (IZR (2 ^ 40)) by (simpl; lra). apply IZR_le. lia. }
  assert (0 < INR (length (distinct l))) by (apply lt_0_INR; lia).
  destruct (Rle_lt_or_eq_dec _ _ L) as [L'| ->]; [|lra]. left. now apply ln_increasing.
Qed.

Section Run.
  Context (log2 : double -> double) (eta : R).
  Context (Pe : 0 <= eta <= 1).
  Context (Acc : forall x : double, finite64 x = true -> bpow radix2 (-40) <= B2R x <= 1 ->
             approx (log2 x) (log2R (B2R x)) eta).

  Lemma entropy_run_B64 N W (xs : list double) : (1 <= W)%nat -> (length xs <= W)%nat -> Forall finD xs ->
    separated (A := B64) xs -> few (A := B64) N xs ->
    (Z.of_nat (length xs) <= 2 ^ 40)%Z -> INR (length xs) * eta <= 1 ->
    exists e, update_all (entropy_update (A := B64) log2)
                (Entropy (new_window W) W 0 (hist_new (A := B64) N W true) (Bz 0)) xs = Ret e /\
      exact_state N W xs e /\
      approx (e_value e) (shannon (map B2R xs) (distinct (map B2R xs))) (INR (S (length xs)) / 2 * rate eta).
  Proof.
    intros HW. induction xs as [|x xs IH] using rev_ind; intros L F S Fw Bn He.
    - eexists. split; [reflexivity|]. split; [now apply exact_new|]. cbn [e_value map]. unfold shannon. cbn [distinct nodup map Rsum].
      destruct (Bz_exact 0) as [E0 F0]; [lia|]. split; auto. rewrite E0. change (IZR 0) with 0. rewrite Ropp_0, Rminus_0_r, Rabs_R0.
      unfold rate. pose proof (bpow_gt_0 radix2 (-42)). cbn [length INR]. lra.
    - rewrite app_length in L, Bn, He |- * . simpl length in L, Bn, He |- * .
      rewrite Nat.add_1_r in He |- * . apply Forall_app in F as [F Fx]. inversion_clear Fx as [|? ? Dx _].
      assert (Pn : 0 <= INR (length xs)) by apply pos_INR. rewrite S_INR in He.
      destruct IH as (e & E & X & V); auto; [lia|eapply separated_prefix; eauto|eapply few_prefix; eauto|lia|nra|].
      rewrite update_all_snoc, E. cbn [bind]. assert (Lx : (length xs < W)%nat) by lia.
      assert (F' : Forall finD (xs ++ [x])) by (apply Forall_app; auto).
      destruct (exact_step log2 ordered_B64 N W xs e x X Lx F' S Fw) as (e0 & X' & Eu).
      assert (C : (occurrences (A := B64) x xs <= length xs)%nat).
      { clear. induction xs as [|y xs IH]; [apply Nat.le_refl|]. unfold occurrences in * . cbn [filter].
        destruct (eqb y x); cbn [length] in * ; lia. }
      assert (Hs : 0 <= shannon (map B2R xs) (distinct (map B2R xs)) <= 40)
        by (apply shannon_small; rewrite map_length; change (binary_float 53 1024) with double; lia).
      set (n := length xs) in * .
      assert (Rt : rate eta <= 3 * eta + bpow radix2 (-42)) by (unfold rate; lra).
      assert (Rp : 0 <= rate eta) by (unfold rate; pose proof (bpow_gt_0 radix2 (-42)); lra).
      assert (Ln : INR n <= bpow radix2 40).
      { rewrite INR_IZR_INZ. change (bpow radix2 40) with (IZR (2 ^ 40)). apply IZR_le. lia. }
      assert (Er : INR (Datatypes.S n) / 2 * rate eta <= 4).
      { rewrite S_INR. assert (INR n * bpow radix2 (-42) <= 1).
        { apply Rle_trans with (bpow radix2 40 * bpow radix2 (-42)); [apply Rmult_le_compat_r; auto; apply bpow_ge_0|].
          rewrite <- bpow_plus. change 1 with (bpow radix2 0). apply bpow_le. lia. }
        assert (bpow radix2 (-42) <= 1) by (change 1 with (bpow radix2 0); apply bpow_le; lia). unfold rate in * . nra. }
      destruct (value_err log2 eta Pe Acc (Datatypes.S n) (occurrences (A := B64) x xs) (e_value e)
                  (shannon (map B2R xs) (distinct (map B2R xs))) (INR (Datatypes.S n) / 2 * rate eta)) as (r & Er1 & Ar); auto; try lia.
      change (length (A := num B64) xs) with n in Eu. rewrite Eu. rewrite Er1. cbn [bind].
      eexists. split; [reflexivity|]. split; [exact X'|]. cbn [e_value].
      rewrite occurrences_B64 in Ar by auto. rewrite map_app. cbn [map]. destruct xs as [|y xs].
      + subst n. cbn [length Nat.eqb] in Ar |- * . cbn [map app]. cbn [map] in Ar. unfold cnt in Ar. cbn [count_occ] in Ar.
        unfold shannon, distinct, share. cbn [nodup in_dec map Rsum count_occ]. destruct (Req_EM_T (B2R x) (B2R x)); [|congruence].
        cbn [INR length] in Ar |- * . eapply approx_weaken; [|].
        * eapply approx_trans; [exact Ar|]. instantiate (1 := 0). right.
          destruct (in_dec Req_EM_T (B2R x) []) as [[]|_]. cbn [map Rsum].
          destruct (Req_EM_T (B2R x) (B2R x)); [|congruence]. cbn [INR].
          match goal with |- Rabs ?t = 0 => replace t with 0 by (unfold Rdiv; rewrite Rinv_1, !Rmult_1_r, log2R_1; ring) end. apply Rabs_R0.
        * lra.
      + assert (L1 : (1 <= length (map B2R (y :: xs)))%nat) by (rewrite map_length; simpl; lia).
        rewrite (shannon_snoc _ _ L1). rewrite map_length. fold n.
        replace (Nat.eqb (Datatypes.S n) 1) with false in Ar by (unfold n; reflexivity).
        eapply approx_weaken; [exact Ar|]. rewrite !S_INR. assert (0 < INR n) by (apply lt_0_INR; unfold n; simpl; lia).
        right. field. lra.
  Qed.
End Run.

Lemma entropy_error (log2 : double -> double) (eta : R) W N B (xs : list double) :
  0 <= eta ->
  (forall x : double, finite64 x = true -> bpow radix2 (-40) <= B2R x <= 1 ->
     finite64 (log2 x) = true /\ Rabs (B2R (log2 x) - log2R (B2R x)) <= eta) ->
  (1 <= N /\ B = N \/ N = 0 /\ 1 <= W /\ B = Nat.log2_up W + 1)%nat ->
  (length xs <= W)%nat -> (Z.of_nat (length xs) <= 2 ^ 40)%Z -> INR (length xs) * eta <= 1 ->
  Forall (fun x => finite64 x = true) xs -> separated (A := B64) xs -> few (A := B64) B xs ->
  exists e0 e, entropy_new (A := B64) W N = Ret e0 /\ update_all (entropy_update (A := B64) log2) e0 xs = Ret e /\
    finite64 (entropy_evaluate e) = true /\
    forall vs, NoDup vs -> (forall v, In v vs <-> In v (map B2R xs)) ->
      Rabs (B2R (entropy_evaluate e) - shannon (map B2R xs) vs)
        <= INR (length xs + 1) / 2 * (3 * eta + bpow radix2 (-42)).
Proof.
  intros P0 Acc HB L Bn He F S Fw.
  assert (E0 : entropy_new (A := B64) W N = Ret (Entropy (new_window W) W 0 (hist_new B W true) (of_Z (a := B64) 0))).
  { destruct HB as [[HN ->]|(-> & HW & ->)]; [now apply new_bins|now apply new_default]. }
  eexists. assert (G : exists e, update_all (entropy_update (A := B64) log2) (Entropy (new_window W) W 0 (hist_new (A := B64) B W true) (Bz 0)) xs = Ret e /\
    approx (e_value e) (shannon (map B2R xs) (distinct (map B2R xs))) (INR (Datatypes.S (length xs)) / 2 * rate eta)).
  { destruct xs as [|x xs].
    - eexists. split; [reflexivity|]. cbn [e_value map]. unfold shannon. cbn [distinct nodup map Rsum].
      destruct (Bz_exact 0) as [E1 F0]; [lia|]. split; auto. rewrite E1. change (IZR 0) with 0. rewrite Ropp_0, Rminus_0_r, Rabs_R0.
      unfold rate. pose proof (bpow_gt_0 radix2 (-42)). cbn [length INR]. lra.
    - assert (E1 : 0 <= eta <= 1).
      { assert (1 <= INR (length (x :: xs))) by (change 1 with (INR 1); apply le_INR; simpl; lia). split; nra. }
      destruct (entropy_run_B64 log2 eta E1 Acc B W (x :: xs)) as (e & E & _ & V); auto; [simpl in L; lia|]. eauto. }
  destruct G as (e & E & Fe & V). exists e. split; [exact E0|]. split; [exact E|]. split; [exact Fe|]. intros vs Nv Iv.
  rewrite (shannon_unique _ vs Nv Iv). rewrite Nat.add_1_r. exact V.
Qed.

(** ** A correctly rounded logarithm *)

Definition to_double (r : R) : double :=
  binary_normalize 53 1024 prec_gt_0_53 prec_lt_emax_53 mode_NE
    (Ztrunc (scaled_mantissa radix2 fexp64 (rnd r))) (cexp radix2 fexp64 (rnd r)) false.

Lemma to_double_ok r : Rabs r <= bpow radix2 1000 -> finite64 (to_double r) = true /\ B2R (to_double r) = rnd r.
Proof.
  intros H. unfold to_double. set (m := Ztrunc _). set (e := cexp _ _ _).
  pose proof (binary_normalize_correct 53 1024 prec_gt_0_53 prec_lt_emax_53 mode_NE m e false) as C.
  assert (Fm : generic_format radix2 fexp64 (rnd r)).
  { unfold rnd. apply generic_format_round; [apply FLT_exp_valid; reflexivity|apply valid_rnd_N]. }
  assert (E : F2R (Float radix2 m e) = rnd r) by (symmetry; exact Fm).
  cbv zeta in C. rewrite E in C. change (round radix2 (SpecFloat.fexp 53 1024) (round_mode mode_NE) (rnd r)) with (rnd (rnd r)) in C.
  rewrite (rnd_fix _ Fm) in C. change (bpow radix2 1024) with big in C. rewrite Rlt_bool_true in C.
  - destruct C as (C1 & C2 & _). auto.
  - pose proof (rnd_any r) as D. pose proof u_pos as U. pose proof tiny as T.
    apply Rle_lt_trans with (2 * bpow radix2 1000 + 1).
    + replace (rnd r) with ((rnd r - r) + r) by ring. eapply Rle_trans; [apply Rabs_triang|].
      pose proof (Rabs_pos r). nra.
    + apply Rlt_le_trans with (bpow radix2 1002); [|apply bpow_le; lia].
      change 1002%Z with (2 + 1000)%Z. rewrite bpow_plus. change (bpow radix2 2) with 4.
      assert (1 <= bpow radix2 1000) by (change 1 with (bpow radix2 0); apply bpow_le; lia). lra.
Qed.

Lemma log2R_range x : bpow radix2 (-40) <= x <= 1 -> -40 <= log2R x <= 0.
Proof.
  intros [H1 H2]. assert (P : 0 < bpow radix2 (-40)) by apply bpow_gt_0. split; [|apply log2R_neg; lra].
  assert (E : log2R (bpow radix2 (-40)) = -40).
  { unfold log2R. replace (bpow radix2 (-40)) with (/ 2 ^ 40) by (simpl; lra). rewrite ln_Rinv by (apply pow_lt; lra).
    rewrite ln_pow by lra. pose proof ln2_pos. cbn [INR]. field. lra. }
  rewrite <- E. unfold log2R, Rdiv. apply Rmult_le_compat_r; [left; apply Rinv_0_lt_compat; apply ln2_pos|].
  destruct (Rle_lt_or_eq_dec _ _ H1) as [L'| ->]; [|lra]. left. now apply ln_increasing.
Qed.

Lemma rounded_accuracy (x l : R) : bpow radix2 (-40) <= x <= 1 -> l = rnd (log2R x) -> Rabs (l - log2R x) <= bpow radix2 (-47).
Proof.
  intros H ->. apply log2R_range in H. eapply Rle_trans; [apply rnd_any|].
  assert (A : Rabs (log2R x) <= 40) by (apply Rabs_le; lra).
  change (-47)%Z with (6 + -53)%Z. rewrite bpow_plus. change (bpow radix2 6) with 64. fold u. pose proof u_pos. pose proof tiny. nra.
Qed.

Lemma entropy_error_rounded (log2 : double -> double) W N B (xs : list double) :
  (forall x : double, finite64 x = true -> 0 < B2R x <= 1 -> finite64 (log2 x) = true /\ B2R (log2 x) = rnd (log2R (B2R x))) ->
  (1 <= N /\ B = N \/ N = 0 /\ 1 <= W /\ B = Nat.log2_up W + 1)%nat ->
  (1 <= length xs <= W)%nat -> (Z.of_nat (length xs) <= 2 ^ 40)%Z ->
  Forall (fun x => finite64 x = true) xs -> separated (A := B64) xs -> few (A := B64) B xs ->
  exists e0 e, entropy_new (A := B64) W N = Ret e0 /\ update_all (entropy_update (A := B64) log2) e0 xs = Ret e /\
    finite64 (entropy_evaluate e) = true /\
    forall vs, NoDup vs -> (forall v, In v vs <-> In v (map B2R xs)) ->
      Rabs (B2R (entropy_evaluate e) - shannon (map B2R xs) vs) <= INR (length xs) * bpow radix2 (-41).
Proof.
  intros Acc HB L Bn F S Fw.
  assert (Ln : INR (length xs) <= bpow radix2 40).
  { rewrite INR_IZR_INZ. change (bpow radix2 40) with (IZR (2 ^ 40)). apply IZR_le. lia. }
  destruct (entropy_error log2 (bpow radix2 (-47)) W N B xs) as (e0 & e & E0 & E & Fe & V); auto; try lia.
  - apply bpow_ge_0.
  - intros x Fx Hx. destruct (Acc x Fx) as [Fl El]; [pose proof (bpow_gt_0 radix2 (-40)); lra|]. split; auto.
    now apply rounded_accuracy.
  - apply Rle_trans with (bpow radix2 40 * bpow radix2 (-47)); [apply Rmult_le_compat_r; auto; apply bpow_ge_0|].
    rewrite <- bpow_plus. change 1 with (bpow radix2 0). apply bpow_le. lia.
  - exists e0, e. repeat (split; [assumption|]). intros vs Nv Iv. eapply Rle_trans; [now apply V|].
    rewrite plus_INR. cbn [INR]. assert (1 <= INR (length xs)) by (change 1 with (INR 1); apply le_INR; lia).
    change (-41)%Z with (6 + -47)%Z. change (-42)%Z with (5 + -47)%Z. rewrite !bpow_plus.
    change (bpow radix2 6) with 64. change (bpow radix2 5) with 32. pose proof (bpow_gt_0 radix2 (-47)). nra.
Qed.

(** ** Constant data *)

Section Const.
  Context (log2 : double -> double).
  Context (Fin : forall x : double, finite64 x = true -> 0 < B2R x <= 1 -> finite64 (log2 x) = true).
  Context (One : forall x : double, finite64 x = true -> B2R x = 1 -> B2R (log2 x) = 0).

  Definition zeroish (x : double) : Prop := finite64 x = true /\ B2R x = 0.

  Lemma op_zero (z : double) r : X z = R64 r /\ nan z = false -> r = 0 -> zeroish z.
  Proof.
    intros [E N] ->. rewrite R64_0 in E. assert (F : finite64 z = true) by (apply fin_X; auto; rewrite E, Rabs_R0; apply big_pos).
    split; auto. now rewrite <- (X_fin _ F).
  Qed.

  Lemma op_val (z : double) r : X z = R64 r /\ nan z = false -> Rabs r < big -> (exists w : double, Rabs r <= Rabs (B2R w)) ->
    finite64 z = true /\ B2R z = R64 r.
  Proof.
    intros [E N] _ (w & H). assert (F : finite64 z = true).
    { apply fin_X; auto. rewrite E, R64_abs. apply Rle_lt_trans with (R64 (Rabs (B2R w))); [now apply R64_le|].
      rewrite <- R64_abs, R64_B2R. apply B2R_lt_big. }
    split; auto. now rewrite <- (X_fin _ F).
  Qed.

  Lemma const_value n (ent : double) : (1 <= n)%nat -> (Z.of_nat n <= 2 ^ 40)%Z -> zeroish ent ->
    exists r, ent_value (A := B64) log2 n n ent = Ret r /\ zeroish r.
  Proof.
    intros Hn Bn [Fe Ee]. destruct n as [|m]; [lia|].
    destruct (of_nat_exact (S m)) as [Fn En]; [lia|].
    destruct (Bz_exact 0) as [E0 F0]; [lia|]. destruct (Bz_exact 1) as [E1 F1]; [lia|].
    change (IZR 0) with 0 in E0. assert (X0 : X (Bz 0) = 0) by (now rewrite (X_fin _ F0)).
    unfold ent_value. set (dn := of_nat (S m)) in * .
    change (div (a := B64)) with Bquot. change (sub (a := B64)) with Bsub. change (add (a := B64)) with Badd.
    change (mul (a := B64)) with Bmul. change (of_Z (a := B64)) with Bz.
    destruct (max_count dn m) as [Fm Em]; auto. set (dm := max_ _ _) in * .
    assert (Pn : 0 < INR (S m)) by (apply lt_0_INR; lia).
    (* the share of the only value is 1 *)
    destruct (quot_err dn dn (S m) (S m) Fn Fn En En) as (F & _ & _); [lia|auto|].
    assert (Q1 : B2R (Bquot dn dn) = 1).
    { destruct (X_div dn dn Fn Fn) as [E N]; [lra|]. rewrite (X_fin _ F) in E. rewrite E, En. unfold Rdiv. rewrite Rinv_r by lra.
      change (IZR 1) with 1 in E1. rewrite <- E1. apply R64_B2R. }
    set (q := Bquot dn dn) in * .
    assert (H1 : xlogx (A := B64) log2 q = Ret (Bmul q (log2 q))).
    { unfold xlogx. change (ltb q zero) with (Bltb q (Bz 0)). change (eqb (a := B64) zero q) with (Beqb (Bz 0) q).
      replace (Bltb q (Bz 0)) with false by (symmetry; apply X_ltb_false; auto using fin_nan; rewrite X0, (X_fin _ F); lra).
      replace (Beqb (Bz 0) q) with false; [reflexivity|].
      symmetry. apply not_true_is_false. intros K. apply X_eqb in K; auto using fin_nan. rewrite X0, (X_fin _ F) in K. lra. }
    rewrite H1. cbn [bind].
    assert (Z1 : zeroish (Bmul q (log2 q))).
    { eapply op_zero; [apply X_mul; auto; apply Fin; auto; lra|]. rewrite (One q F Q1). ring. }
    set (x1 := Bmul q (log2 q)) in * . clear H1. destruct Z1 as [Fx1 Ex1].
    assert (Z2 : zeroish (Bsub (Bz 0) x1)) by (eapply op_zero; [apply X_sub; auto|]; rewrite Ex1, E0; ring).
    set (y1 := Bsub (Bz 0) x1) in * . destruct Z2 as [Fy1 Ey1].
    assert (T : Beqb (Bz 1) dn = Nat.eqb (S m) 1).
    { apply eq_true_iff_eq. rewrite X_eqb by auto using fin_nan. rewrite !X_fin, E1, En by auto. rewrite Nat.eqb_eq.
      split; [|intros ->; reflexivity]. intros K. apply INR_eq. now rewrite <- K. }
    destruct m as [|m].
    - assert (Zq : X (Bquot dm dn) = 0 /\ nan (Bquot dm dn) = false).
      { destruct (X_div dm dn Fm Fn) as [E N]; [lra|]. rewrite Em in E. cbn [INR] in E.
        replace (0 / B2R dn) with 0 in E by (unfold Rdiv; ring). rewrite R64_0 in E. auto. }
      assert (H2 : xlogx (A := B64) log2 (Bquot dm dn) = Ret (Bz 0)).
      { destruct Zq as [Zq Nq]. unfold xlogx. change (ltb (Bquot dm dn) zero) with (Bltb (Bquot dm dn) (Bz 0)).
        change (eqb (a := B64) zero (Bquot dm dn)) with (Beqb (Bz 0) (Bquot dm dn)).
        replace (Bltb (Bquot dm dn) (Bz 0)) with false by (symmetry; apply X_ltb_false; auto using fin_nan; lra).
        replace (Beqb (Bz 0) (Bquot dm dn)) with true by (symmetry; apply X_eqb; auto using fin_nan; lra). reflexivity. }
      rewrite H2. cbn [bind]. change (eqb (a := B64)) with (@Beqb 53 1024). rewrite T. cbn [Nat.eqb].
      eexists. split; [reflexivity|]. eapply op_zero; [apply X_add; auto|]. lra.
    - set (n1 := Bsub dn (Bz 1)).
      assert (Fm1 : finite64 n1 = true /\ B2R n1 = INR (S m)).
      { destruct (of_nat_exact (S m)) as [Fk Ek]; [lia|].
        destruct (X_sub dn (Bz 1) Fn F1) as [Es Ns]. rewrite E1, En, (S_INR (S m)) in Es.
        replace (INR (S m) + 1 - 1) with (INR (S m)) in Es by ring. rewrite <- Ek, R64_B2R in Es.
        assert (F' : finite64 (Bsub dn (Bz 1)) = true) by (apply fin_X; auto; rewrite Es; apply B2R_lt_big).
        rewrite (X_fin _ F'), Ek in Es. auto. }
      destruct Fm1 as [Fm1 Em1].
      destruct (quot_err dm dn (S m) (S (S m)) Fm Fn Em En) as (Fp & Rp & _); [lia|auto|].
      assert (Ep : Bquot dm dn = Bquot n1 dn).
      { replace dm with n1; auto. apply X_inj; auto using fin_nan; rewrite !X_fin by auto; [congruence|].
        rewrite Em1. apply not_0_INR. lia. }
      rewrite <- Ep. set (p := Bquot dm dn) in * . pose proof (bpow_gt_0 radix2 (-40)) as P40.
      assert (H2 : xlogx (A := B64) log2 p = Ret (Bmul p (log2 p))).
      { unfold xlogx. change (ltb p zero) with (Bltb p (Bz 0)). change (eqb (a := B64) zero p) with (Beqb (Bz 0) p).
        replace (Bltb p (Bz 0)) with false by (symmetry; apply X_ltb_false; auto using fin_nan; rewrite X0, (X_fin _ Fp); lra).
        replace (Beqb (Bz 0) p) with false; [reflexivity|].
        symmetry. apply not_true_is_false. intros K. apply X_eqb in K; auto using fin_nan. rewrite X0, (X_fin _ Fp) in K. lra. }
      rewrite H2. cbn [bind]. change (eqb (a := B64)) with (@Beqb 53 1024). rewrite T. cbn [Nat.eqb].
      eexists. split; [reflexivity|].
      assert (Fl : finite64 (log2 p) = true) by (apply Fin; auto; lra). set (l := log2 p) in * .
      assert (Sm : Rabs (B2R p * B2R l) <= Rabs (B2R l)).
      { rewrite Rabs_mult, (Rabs_pos_eq (B2R p)) by lra. pose proof (Rabs_pos (B2R l)). nra. }
      destruct (op_val (Bmul p l) (B2R p * B2R l)) as [Fx2 Ex2]; [now apply X_mul| |eauto|].
      { eapply Rle_lt_trans; [exact Sm|apply B2R_lt_big]. }
      destruct (op_val (Bsub ent l) (B2R ent - B2R l)) as [Fd Ed]; [now apply X_sub| | |].
      { rewrite Ee. rewrite Rminus_0_l, Rabs_Ropp. apply B2R_lt_big. }
      { exists l. rewrite Ee. rewrite Rminus_0_l, Rabs_Ropp. lra. }
      rewrite Ee, Rminus_0_l, R64_opp, R64_B2R in Ed.
      destruct (op_val (Bmul p (Bsub ent l)) (B2R p * B2R (Bsub ent l))) as [Fm2 Em2]; [now apply X_mul| | |].
      { rewrite Ed. replace (B2R p * - B2R l) with (- (B2R p * B2R l)) by ring. rewrite Rabs_Ropp. eapply Rle_lt_trans; [exact Sm|apply B2R_lt_big]. }
      { exists l. rewrite Ed. replace (B2R p * - B2R l) with (- (B2R p * B2R l)) by ring. now rewrite Rabs_Ropp. }
      rewrite Ed in Em2. replace (B2R p * - B2R l) with (- (B2R p * B2R l)) in Em2 by ring. rewrite R64_opp in Em2.
      destruct (op_val (Badd y1 (Bmul p l)) (B2R y1 + B2R (Bmul p l))) as [Fr Er]; [now apply X_add| | |].
      { rewrite Ey1, Rplus_0_l. apply B2R_lt_big. }
      { exists (Bmul p l). rewrite Ey1, Rplus_0_l. lra. }
      rewrite Ey1, Rplus_0_l, R64_B2R, Ex2 in Er.
      eapply op_zero; [now apply X_add|]. lra.
  Qed.

  Lemma const_separated (x : double) n : finite64 x = true -> separated (A := B64) (repeat x n).
  Proof.
    intros F a b Ia Ib. apply repeat_spec in Ia. apply repeat_spec in Ib. subst. left.
    change (Beqb x x = true). apply X_eqb; auto using fin_nan.
  Qed.

  Lemma const_few (x : double) N n : finite64 x = true -> (1 <= N)%nat -> few (A := B64) N (repeat x n).
  Proof.
    intros F HN vs S I. destruct vs as [|a [|b vs]]; simpl; try lia. exfalso.
    inversion_clear S as [|? ? S1 F1]. inversion_clear F1 as [|? ? H1 _].
    assert (Ia := I a (or_introl eq_refl)). assert (Ib := I b (or_intror (or_introl eq_refl))).
    apply repeat_spec in Ia. apply repeat_spec in Ib. subst. change (Bltb x x = true) in H1.
    apply X_ltb in H1; auto using fin_nan. lra.
  Qed.

  Lemma const_run N W (x : double) n : finite64 x = true -> (1 <= N)%nat -> (n <= W)%nat -> (Z.of_nat n <= 2 ^ 40)%Z ->
    exists e, update_all (entropy_update (A := B64) log2)
                (Entropy (new_window W) W 0 (hist_new (A := B64) N W true) (Bz 0)) (repeat x n) = Ret e /\
      (1 <= W -> exact_state N W (repeat x n) e)%nat /\ zeroish (e_value e).
  Proof.
    intros Fx HN. induction n as [|n IH]; intros L Bn.
    - eexists. split; [reflexivity|]. split; [now apply exact_new|]. destruct (Bz_exact 0) as [E0 F0]; [lia|]. now split.
    - destruct IH as (e & E & X & V); [lia|lia|].
      replace (repeat x (S n)) with (repeat x n ++ [x]) by (symmetry; apply repeat_cons).
      rewrite update_all_snoc, E. cbn [bind].
      assert (FF : Forall finD (repeat x n ++ [x])).
      { replace (repeat x n ++ [x]) with (repeat x (S n)) by apply repeat_cons. apply List.Forall_forall. intros y Iy. apply repeat_spec in Iy. now subst. }
      assert (Sp : separated (A := B64) (repeat x n ++ [x])).
      { replace (repeat x n ++ [x]) with (repeat x (S n)) by apply repeat_cons. now apply const_separated. }
      assert (Fw : few (A := B64) N (repeat x n ++ [x])).
      { replace (repeat x n ++ [x]) with (repeat x (S n)) by apply repeat_cons. now apply const_few. }
      assert (Lr : (length (repeat x n) < W)%nat) by (rewrite repeat_length; lia).
      destruct (exact_step log2 ordered_B64 N W (repeat x n) e x (X ltac:(lia)) Lr FF Sp Fw) as (e0 & X' & Eu).
      assert (Oc : occurrences (A := B64) x (repeat x n) = n).
      { clear -Fx. unfold occurrences. induction n as [|n IH]; [reflexivity|]. cbn [repeat filter].
        change (eqb (a := B64) x x) with (@Beqb 53 1024 x x). replace (Beqb x x) with true; [cbn [length]; now rewrite IH|].
        symmetry. apply X_eqb; auto using fin_nan. }
      rewrite Oc in Eu. replace (length (A := num B64) (repeat x n)) with n in Eu by (symmetry; apply repeat_length).
      destruct (const_value (S n) (e_value e)) as (r & Er & Zr); [lia|auto|auto|].
      rewrite Eu, Er. cbn [bind]. eexists. split; [reflexivity|]. split; [intros _; exact X'|exact Zr].
  Qed.
End Const.

Lemma entropy_constant (log2 : double -> double) W N (x : double) n :
  (forall y : double, finite64 y = true -> 0 < B2R y <= 1 -> finite64 (log2 y) = true) ->
  (forall y : double, finite64 y = true -> B2R y = 1 -> B2R (log2 y) = 0) ->
  finite64 x = true -> (1 <= N \/ 1 <= W)%nat -> (n <= W)%nat -> (Z.of_nat n <= 2 ^ 40)%Z ->
  exists e0 e, entropy_new (A := B64) W N = Ret e0 /\ update_all (entropy_update (A := B64) log2) e0 (repeat x n) = Ret e /\
    finite64 (entropy_evaluate e) = true /\ B2R (entropy_evaluate e : double) = 0.
Proof.
  intros Fin One Fx HN L Bn. destruct N as [|N].
  - eexists. destruct (const_run log2 Fin One (Nat.log2_up W + 1) W x n) as (e & E & _ & V); auto; [lia|].
    exists e. split; [apply new_default; lia|]. split; [exact E|]. exact V.
  - eexists. destruct (const_run log2 Fin One (S N) W x n) as (e & E & _ & V); auto; [lia|].
    exists e. split; [apply new_bins; lia|]. split; [exact E|]. exact V.
Qed.

Definition rlog2 (x : double) : double := to_double (log2R (B2R x)).

Lemma rlog2_ok (x : double) : finite64 x = true -> 0 < B2R x <= 1 -> finite64 (rlog2 x) = true /\ B2R (rlog2 x) = rnd (log2R (B2R x)).
Proof.
  intros F [P Q]. apply to_double_ok. rewrite Rabs_left1 by (apply log2R_neg; lra).
  (* any positive double is at least 2^-1074 *)
  assert (L : bpow radix2 (-1074) <= B2R x).
  { assert (G : generic_format radix2 (FLT_exp (-1074) 53) (B2R x)) by apply B2R_format.
    apply (generic_format_ge_bpow radix2 (FLT_exp (-1074) 53) (-1074)); auto. intros e. unfold FLT_exp. lia. }
  assert (P2 := ln2_pos). assert (E : ln (bpow radix2 (-1074)) = -1074 * ln 2).
  { rewrite bpow_exp. rewrite ln_exp. reflexivity. }
  assert (ln (bpow radix2 (-1074)) <= ln (B2R x)).
  { destruct (Rle_lt_or_eq_dec _ _ L) as [L'| ->]; [|lra]. left. apply ln_increasing; auto. apply bpow_gt_0. }
  apply Rle_trans with 1074.
  - unfold log2R. apply Rmult_le_reg_r with (ln 2); auto. rewrite <- Ropp_mult_distr_l. unfold Rdiv.
    rewrite Rmult_assoc, Rinv_l by lra. lra.
  - apply Rle_trans with (bpow radix2 11); [simpl; lra|apply bpow_le; lia].
Qed.

Lemma rounded_log2_exists : exists log2 : double -> double, forall x : double, finite64 x = true -> 0 < B2R x <= 1 ->
  finite64 (log2 x) = true /\ B2R (log2 x) = rnd (log2R (B2R x)).
Proof. exists rlog2. exact rlog2_ok. Qed.

Lemma error_case : Forall (fun x => finite64 x = true) (map Bz [2; 1; 2]%Z) /\
  separated (A := B64) (map Bz [2; 1; 2]%Z) /\ few (A := B64) 2 (map Bz [2; 1; 2]%Z).
Proof.
  assert (F : Forall (fun x => finite64 x = true) (map Bz [2; 1; 2]%Z)) by (repeat constructor).
  split; [exact F|]. split.
  - assert (H : forallb (fun x : double => forallb (fun y : double => eqb (a := B64) x y || definitelyLessThan (A := B64) x y default_eps
        || definitelyLessThan (A := B64) y x default_eps) (map Bz [2; 1; 2]%Z)) (map Bz [2; 1; 2]%Z) = true) by (vm_compute; reflexivity).
    intros x y Ix Iy. rewrite forallb_forall in H. specialize (H x Ix). cbn beta in H. rewrite forallb_forall in H. specialize (H y Iy).
    apply orb_true_iff in H as [H|H]; auto. apply orb_true_iff in H as [H|H]; auto.
  - intros vs S I. destruct vs as [|a [|b [|c vs]]]; simpl; try lia. exfalso.
    inversion_clear S as [|? ? S1 F1]. inversion_clear S1 as [|? ? S2 F2].
    inversion_clear F1 as [|? ? H1 F3]. inversion_clear F2 as [|? ? H3 F5].
    assert (Ha := I a (or_introl eq_refl)). assert (Hb := I b (or_intror (or_introl eq_refl))).
    assert (Hc := I c (or_intror (or_intror (or_introl eq_refl)))).
    assert (H : forallb (fun a : double => forallb (fun b : double => forallb (fun c : double =>
        negb (ltb (a := B64) a b && ltb (a := B64) b c)) (map Bz [2; 1; 2]%Z)) (map Bz [2; 1; 2]%Z)) (map Bz [2; 1; 2]%Z) = true)
      by (vm_compute; reflexivity).
    rewrite forallb_forall in H. specialize (H a Ha). cbn beta in H. rewrite forallb_forall in H. specialize (H b Hb).
    cbn beta in H. rewrite forallb_forall in H. specialize (H c Hc). cbn beta in H. rewrite H1, H3 in H. discriminate.
Qed.
