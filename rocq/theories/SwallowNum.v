(** Increasing reals and doubles whose gaps do not shrink. *)

From Coq Require Import List Reals ZArith Lra Lia Bool Arith.
From Flocq Require Import Core.Core IEEE754.BinarySingleNaN.
From Verif Require Import Outcome Arith Utils IBin Histogram Spec ListFacts HistSpec FloatSpec FloatFacts UtilsFacts UtilsMono HistFacts HistStreams HistWitness P2Witness UnitNum GroupNum SwallowSpec SwallowFacts.
Import ListNotations.
Local Open Scope nat_scope.

Lemma gaps_grow (d : nat -> R) n : (forall i, S i < n -> (d i <= d (S i))%R) -> forall i j, i <= j < n -> (d i <= d j)%R.
Proof.
  intros H i j. induction j as [|j IH]; intros L; [assert (i = 0) as -> by lia; lra|].
  destruct (Nat.eq_dec i (S j)) as [->|]; [lra|]. apply Rle_trans with (d j); [apply IH; lia|apply H; lia].
Qed.

Lemma swallow_real N W (x : nat -> R) n : 1 <= N <= n -> n <= W -> risingR x n ->
  exists h, update_all hist_update (hist_new (A := RA) N W true) (map x (seq 0 n)) = Ret h /\
    h_bins h = first_takes_all (A := RA) x N n.
Proof.
  intros [HN Hn] HW (B & U & D).
  assert (Up : forall i j, i < j < n -> (x i < x j)%R).
  { intros i j L. specialize (U i j L). pose proof (Rmax_l (Rabs (x i)) (Rabs (x j))). pose proof (Rabs_pos (x i)). lra. }
  destruct (swallow_run (A := RA) x n) with (N := N) (W := W) (k := n) as (h & E & Eb); auto.
  - intros i j L. apply RA_less. exact (U i j L).
  - intros i j L. specialize (Up i j L). split.
    + destruct (definitelyLessThan (A := RA) (x j) (x i) bin_eps) eqn:Q; auto. apply RA_less_lt in Q; [lra|]. unfold bin_eps, lit. cbn. lra.
    + apply RA_greater. specialize (U i j L). unfold bin_eps, lit. cbn.
      pose proof (Rmax_l (Rabs (x i)) (Rabs (x j))). pose proof (Rabs_pos (x i)). rewrite Rmax_comm. lra.
  - intros i j L1 L2.
    destruct (definitelyLessThan (A := RA) (Rminus (x (j + 1)) (x j)) (Rminus (x (i + 1)) (x i)) default_eps) eqn:Q; auto.
    apply RA_less_lt in Q; [|unfold default_eps, lit; cbn; lra].
    assert (K : (x (S i) - x i <= x (S j) - x j)%R).
    { apply (gaps_grow (fun i => x (S i) - x i)%R (n - 1)); [intros k Hk; apply D; lia|lia]. }
    rewrite !Nat.add_1_r in Q. lra.
  - intros i j Hi Hj. apply big_gap; apply B; auto.
  - exists h. split; auto. rewrite Eb. unfold swallowed. destruct (Nat.ltb_spec n N); [lia|reflexivity].
Qed.

Lemma apart_less (x y e : double) : finite64 x = true -> finite64 y = true -> finite64 e = true ->
  (0 <= B2R e <= 1 / 4000)%R -> (Rmax (Rabs (B2R x)) (Rabs (B2R y)) * (1 / 2000) <= B2R y - B2R x)%R ->
  (bpow radix2 (-1000) <= B2R y - B2R x <= bpow radix2 1023)%R -> definitelyLessThan (A := B64) x y e = true.
Proof.
  intros Fx Fy Fe He D2 D3. pose proof (bpow_gt_0 radix2 (-1000)).
  apply B_less; auto. unfold tol. apply Rle_lt_trans with (R64 ((B2R y - B2R x) / 2)).
  - apply R64_le. pose proof (Rmax_l (Rabs (B2R x)) (Rabs (B2R y))). pose proof (Rabs_pos (B2R x)). nra.
  - rewrite R64_half by (pose proof low; lra). assert (bpow radix2 (-1000) <= R64 (B2R y - B2R x))%R.
    { rewrite <- (R64_pow (-1000)) by lia. now apply R64_le. }
    lra.
Qed.

Lemma bin_eps_small : (0 <= B2R (bin_eps (A := B64)) <= 1 / 4000)%R.
Proof.
  split; [apply bin_eps_ok|]. unfold bin_eps. rewrite (proj1 (lit_nearest 1 1000000 ltac:(lia) ltac:(lia))).
  apply Rle_trans with (rnd (bpow radix2 (-12))); [apply rnd_le|rewrite rnd_bpow by lia]; change (bpow radix2 (-12)) with (/ 4096)%R; lra.
Qed.

Lemma swallow_double N W (x : nat -> double) n : 1 <= N <= n -> n <= W -> risingB x n ->
  exists h, update_all hist_update (hist_new (A := B64) N W true) (map x (seq 0 n)) = Ret h /\
    h_bins h = first_takes_all (A := B64) x N n.
Proof.
  intros [HN Hn] HW (B & U & D). pose proof (bpow_gt_0 radix2 (-1000)) as P0.
  destruct default_eps_ok as [Fe _], bin_eps_ok as [Fb _].
  assert (T : (2 * bpow radix2 1022 = bpow radix2 1023)%R) by (change 1023%Z with (1 + 1022)%Z; rewrite bpow_plus; reflexivity).
  assert (Up : forall i j, i < j < n -> (bpow radix2 (-1000) <= B2R (x j) - B2R (x i) <= bpow radix2 1023)%R).
  { intros i j L. destruct (U i j L) as [_ U2]. destruct (B i) as [_ Bi]; [lia|]. destruct (B j) as [_ Bj]; [lia|].
    apply Rabs_le_inv in Bi, Bj. lra. }
  assert (Sf : forall i j, i < n -> j < n -> finite64 (Bsub (x j) (x i)) = true /\ B2R (Bsub (x j) (x i)) = R64 (B2R (x j) - B2R (x i))).
  { intros i j Hi Hj. destruct (B i Hi) as [Fi Bi], (B j Hj) as [Fj Bj]. destruct (X_sub (x j) (x i) Fj Fi) as [Xs Ns].
    assert (F : finite64 (Bsub (x j) (x i)) = true).
    { apply fin_X; auto. rewrite Xs, R64_abs. apply Rle_lt_trans with (bpow radix2 1023); [|apply bpow_lt; lia].
      rewrite <- (R64_pow 1023) by lia. apply R64_le. apply Rabs_le_inv in Bi, Bj. apply Rabs_le. lra. }
    split; auto. now rewrite <- X_fin. }
  destruct (swallow_run (A := B64) x n) with (N := N) (W := W) (k := n) as (h & E & Eb); auto.
  - intros i j L. destruct (U i j L) as [U1 _]. apply apart_less; auto; try (apply B; lia). apply eps_small.
  - intros i j L. pose proof (Up i j L) as K. destruct (U i j L) as [U1 _]. split.
    + destruct (definitelyLessThan (A := B64) (x j) (x i) bin_eps) eqn:Q; auto.
      apply B_less_lt in Q; auto; try (apply B; lia); [lra|apply bin_eps_small].
    + rewrite B_greater_less. apply apart_less; auto; try (apply B; lia). apply bin_eps_small.
  - intros i j L1 L2. destruct (Sf j (j + 1)) as [F1 E1]; [lia|lia|]. destruct (Sf i (i + 1)) as [F2 E2]; [lia|lia|].
    change (definitelyLessThan (A := B64) (Bsub (x (j + 1)) (x j)) (Bsub (x (i + 1)) (x i)) default_eps = false).
    destruct (definitelyLessThan (A := B64) (Bsub (x (j + 1)) (x j)) (Bsub (x (i + 1)) (x i)) default_eps) eqn:Q; auto.
    apply B_less_lt in Q; auto; [|apply default_eps_ok]. rewrite E1, E2 in Q.
    assert (K : (B2R (x (S i)) - B2R (x i) <= B2R (x (S j)) - B2R (x j))%R).
    { apply (gaps_grow (fun i => B2R (x (S i)) - B2R (x i))%R (n - 1)); [intros k Hk; apply D; lia|lia]. }
    rewrite !Nat.add_1_r in Q. apply R64_le in K. lra.
  - intros i j Hi Hj. apply moderate_gap; apply B; auto.
  - exists h. split; auto. rewrite Eb. unfold swallowed. destruct (Nat.ltb_spec n N); [lia|reflexivity].
Qed.

(** Counting up. *)
Lemma counting_rises n : n <= 2000 -> risingB (fun i => Bz (Z.of_nat i + 1)) n.
Proof.
  intros Hn. assert (V : forall i, i < n -> finite64 (Bz (Z.of_nat i + 1)) = true /\ B2R (Bz (Z.of_nat i + 1)) = IZR (Z.of_nat i + 1)).
  { intros i Hi. destruct (Bz_exact (Z.of_nat i + 1)); [lia|auto]. }
  assert (B1 : (bpow radix2 (-1000) <= 1)%R) by (change 1%R with (bpow radix2 0); apply bpow_le; lia).
  assert (B0 : (2000 <= bpow radix2 1022)%R).
  { apply Rle_trans with (bpow radix2 11); [change (bpow radix2 11) with 2048%R; lra|apply bpow_le; lia]. }
  split; [|split].
  - intros i Hi. destruct (V i Hi) as [F ->]. split; auto. rewrite <- abs_IZR. apply Rle_trans with 2000%R; auto. apply IZR_le. lia.
  - intros i j L. destruct (V i) as [_ ->]; [lia|]. destruct (V j) as [_ ->]; [lia|]. rewrite <- !abs_IZR, <- minus_IZR.
    assert (Rmax (IZR (Z.abs (Z.of_nat i + 1))) (IZR (Z.abs (Z.of_nat j + 1))) <= 2000)%R by (apply Rmax_lub; apply IZR_le; lia).
    assert (1 <= IZR (Z.of_nat j + 1 - (Z.of_nat i + 1)))%R by (apply IZR_le; lia). split; lra.
  - intros i L. destruct (V i) as [_ ->]; [lia|]. destruct (V (S i)) as [_ ->]; [lia|]. destruct (V (S (S i))) as [_ ->]; [lia|].
    rewrite <- !minus_IZR. apply IZR_le. lia.
Qed.

Lemma counting N W n : 1 <= N <= n -> n <= W -> n <= 2000 ->
  exists h, update_all hist_update (hist_new (A := B64) N W true) (map (fun i => Bz (Z.of_nat i + 1)) (seq 0 n)) = Ret h /\
    hist_binCounts h = Ret (n - N + 1 :: repeat 1 (N - 1)).
Proof.
  intros H HW Hn. destruct (swallow_double N W _ n H HW (counting_rises n Hn)) as (h & E & Eb). exists h. split; auto.
  rewrite (run_binCounts (A := B64) N W _ h E) by (rewrite map_length, seq_length; auto). rewrite Eb. unfold first_takes_all.
  cbn [map b_count]. rewrite map_map. cbn [b_count]. do 2 f_equal. generalize (n - N + 1) as a. generalize (N - 1) as m. clear.
  induction m as [|m IH]; intros a; cbn [seq map repeat]; auto. f_equal. apply IH.
Qed.

Lemma doubling_rises : risingR (fun i => 2 ^ i)%R 1000.
Proof.
  assert (Pw : forall i, (2 ^ i)%R = bpow radix2 (Z.of_nat i)).
  { intros i. rewrite pow_powerRZ, bpow_powerRZ. reflexivity. }
  assert (P1 : forall i, (1 <= 2 ^ i)%R) by (intros; apply pow_R1_Rle; lra).
  assert (Mo : forall i j, i < j -> (2 * 2 ^ i <= 2 ^ j)%R).
  { intros i j L. change (2 * 2 ^ i)%R with (2 ^ S i)%R. apply Rle_pow; [lra|lia]. }
  split; [|split].
  - intros i Hi. rewrite Rabs_pos_eq by (specialize (P1 i); lra). rewrite Pw. apply bpow_le. lia.
  - intros i j L. pose proof (P1 i). pose proof (P1 j). specialize (Mo i j ltac:(lia)). rewrite !Rabs_pos_eq, Rmax_right by lra. lra.
  - intros i L. cbn [pow]. specialize (P1 i). lra.
Qed.

Lemma counting_down : exists h g : hist B64, hist_stream 3 100 [1; 2; 3; 4; 5; 6; 7; 8]%Z = Ret h /\
  hist_stream 3 100 [8; 7; 6; 5; 4; 3; 2; 1]%Z = Ret g /\
  hist_binCounts h = Ret [6; 1; 1] /\ hist_binCounts g = Ret [2; 2; 4].
Proof.
  assert (T : ok (hist_stream 3 100 [1; 2; 3; 4; 5; 6; 7; 8]%Z) (fun h => ok (hist_stream 3 100 [8; 7; 6; 5; 4; 3; 2; 1]%Z) (fun g =>
    ok (hist_binCounts h) (fun l => ok (hist_binCounts g) (fun m =>
      (if list_eq_dec Nat.eq_dec l [6; 1; 1] then true else false) && (if list_eq_dec Nat.eq_dec m [2; 2; 4] then true else false))))) = true)
    by (vm_compute; reflexivity).
  apply ok_true in T as (h & E1 & T). apply ok_true in T as (g & E2 & T). apply ok_true in T as (l & E3 & T).
  apply ok_true in T as (m & E4 & T). apply andb_prop in T as [T1 T2]. exists h, g. split; [exact E1|]. split; [exact E2|].
  destruct (list_eq_dec Nat.eq_dec l [6; 1; 1]) as [->|]; [|discriminate T1].
  destruct (list_eq_dec Nat.eq_dec m [2; 2; 4]) as [->|]; [|discriminate T2]. auto.
Qed.
