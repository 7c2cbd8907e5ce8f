(** Rounding of the histogram's distribution function. *)

From Coq Require Import List Sorting.Sorted Arith Bool Lia ZArith Reals Lra.
From Flocq Require Import Core.Core IEEE754.BinarySingleNaN Relative.
From Verif Require Import Outcome Arith Utils IBin Histogram Spec ListFacts HistSpec UtilsFacts HistFacts
  FloatSpec FloatFacts UtilsMono HistOrder HistStreams HistQuant HistExactSpec HistExact P2Witness.
Import ListNotations.
Local Open Scope nat_scope.

Definition close (m : nat) (F s : R) : Prop := (F * (1 - u53) ^ m <= s <= F * (1 + u53) ^ m)%R.

Lemma pow_u m : (Z.of_nat m <= 2 ^ 33)%Z ->
  (1 / 2 <= (1 - u53) ^ m <= 1 /\ 1 <= (1 + u53) ^ m <= 2)%R /\ (INR m * u53 <= / 1048576)%R.
Proof.
  intros Hm. pose proof u53_small as U.
  assert (Hmu : (INR m * u53 <= / 1048576)%R).
  { apply Rle_trans with (bpow radix2 33 * u53)%R.
    - apply Rmult_le_compat_r; [lra|]. rewrite INR_IZR_INZ, <- (IZR_Zpower radix2) by lia. apply IZR_le. exact Hm.
    - unfold u53. rewrite <- bpow_plus. right. reflexivity. }
  assert (L : (1 / 2 <= (1 - u53) ^ m)%R) by (pose proof (bernoulli u53 m ltac:(lra)); lra).
  assert (P : ((1 + u53) ^ m * (1 - u53) ^ m <= 1)%R).
  { rewrite <- Rpow_mult_distr. apply Rle_trans with (1 ^ m)%R; [apply pow_incr; nra|rewrite pow1; lra]. }
  assert (Q : (1 <= (1 + u53) ^ m)%R) by (apply pow_R1_Rle; lra).
  repeat split; auto.
  - apply (pow_one_le (1 - u53) 0 m); [lra|lia].
  - nra.
Qed.

Lemma R64_rel (r : R) : (bpow radix2 (-1022) <= r <= 4)%R ->
  (r * (1 - u53) <= R64 r <= r * (1 + u53))%R /\ (Rabs (R64 r) < big)%R.
Proof.
  intros [Hr Hb]. pose proof u53_small as U.
  assert (P : (0 < r)%R) by (eapply Rlt_le_trans; [apply bpow_gt_0|exact Hr]).
  pose proof (relative_error_N_FLT radix2 (-1074) 53 eq_refl (fun z => negb (Z.even z)) r) as H.
  rewrite Rabs_pos_eq with (x := r) in H by lra. specialize (H Hr).
  change (round radix2 (FLT_exp (-1074) 53) ZnearestE r) with (rnd r) in H.
  replace (/ 2 * bpow radix2 (- (53) + 1))%R with u53 in H
    by (unfold u53; change (-53)%Z with (-1 + (-53 + 1))%Z; rewrite bpow_plus; reflexivity).
  apply Rabs_le_inv in H.
  assert (B : (Rabs (rnd r) < big)%R).
  { rewrite Rabs_pos_eq by nra. apply Rle_lt_trans with (bpow radix2 3); [|apply bpow_lt; lia].
    change (bpow radix2 3) with 8%R. nra. }
  unfold R64. rewrite sat_in by exact B. split; [nra|exact B].
Qed.

Lemma close_mono m n F s : (0 <= F)%R -> m <= n -> close m F s -> close n F s.
Proof.
  intros HF L [A B]. pose proof u53_small as U. split.
  - eapply Rle_trans; [|exact A]. apply Rmult_le_compat_l; auto. apply pow_one_le; [lra|auto].
  - eapply Rle_trans; [exact B|]. apply Rmult_le_compat_l; auto. apply Rle_pow; [lra|auto].
Qed.

Lemma add_close (x y : double) F G m : finite64 x = true -> finite64 y = true -> (0 <= F)%R -> (0 <= G)%R ->
  close m F (B2R x) -> close 1 G (B2R y) -> 1 <= m -> (Z.of_nat (S m) <= 2 ^ 33)%Z ->
  (F + G = 0 \/ bpow radix2 (-53) <= F + G <= 1)%R ->
  finite64 (Badd x y) = true /\ close (S m) (F + G) (B2R (Badd x y)).
Proof.
  intros Fx Fy PF PG Cx Cy L1 L2 R. apply (close_mono 1 m) in Cy; auto.
  destruct (X_add x y Fx Fy) as [E N]. pose proof u53_small as U.
  destruct (pow_u m ltac:(lia)) as (((Q1 & Q2) & Q3 & Q4) & _). destruct Cx as [X1 X2], Cy as [Y1 Y2].
  assert (S1 : ((F + G) * (1 - u53) ^ m <= B2R x + B2R y)%R) by lra.
  assert (S2 : (B2R x + B2R y <= (F + G) * (1 + u53) ^ m)%R) by lra.
  destruct R as [Z|[R1 R2]].
  - assert (S0 : (B2R x + B2R y = 0)%R) by (rewrite Z in S1, S2; lra).
    rewrite S0, R64_0 in E. assert (Fz : finite64 (Badd x y) = true) by (apply fin_X; auto; rewrite E, Rabs_R0; apply big_pos).
    split; auto. rewrite <- X_fin, E, Z by auto. unfold close. split; lra.
  - set (r := (B2R x + B2R y)%R) in * . set (p := ((1 - u53) ^ m)%R) in * . set (o := ((1 + u53) ^ m)%R) in * .
    assert (Hr : (bpow radix2 (-1022) <= r <= 4)%R).
    { split; [|nra]. apply Rle_trans with (bpow radix2 (-53) * / 2)%R; [|nra].
      change (/ 2)%R with (bpow radix2 (-1)). rewrite <- bpow_plus. apply bpow_le. lia. }
    assert (Pr : (0 < r)%R) by (eapply Rlt_le_trans; [apply bpow_gt_0|apply Hr]).
    destruct (R64_rel r Hr) as [[A1 A2] B]. rewrite <- E in A1, A2, B.
    assert (Fz : finite64 (Badd x y) = true) by (apply fin_X; auto).
    split; auto. rewrite X_fin in A1, A2 by auto. unfold close. cbn [pow]. fold p o. split.
    + apply Rle_trans with (r * (1 - u53))%R; [|exact A1].
      replace ((F + G) * ((1 - u53) * p))%R with ((F + G) * p * (1 - u53))%R by ring. apply Rmult_le_compat_r; lra.
    + apply Rle_trans with (r * (1 + u53))%R; [exact A2|].
      replace ((F + G) * ((1 + u53) * o))%R with ((F + G) * o * (1 + u53))%R by ring. apply Rmult_le_compat_r; lra.
Qed.

(** One entry of the normalised pdf. *)
Lemma quot_close c n : c <= n -> 1 <= n -> (Z.of_nat n <= 2 ^ 53)%Z ->
  let y := Bquot (of_nat (A := B64) c) (of_nat (A := B64) n) in
  finite64 y = true /\ close 1 (INR c / INR n) (B2R y).
Proof.
  intros Lc L1 L2 y. destruct (Bz_exact (Z.of_nat c)) as [Ec Fc]; [lia|]. destruct (Bz_exact (Z.of_nat n)) as [En Fn]; [lia|].
  rewrite <- INR_IZR_INZ in Ec, En. change (of_nat (A := B64) c) with (Bz (Z.of_nat c)) in y.
  change (of_nat (A := B64) n) with (Bz (Z.of_nat n)) in y.
  assert (Pn : (1 <= INR n)%R) by (apply (le_INR 1); auto).
  destruct (X_div (Bz (Z.of_nat c)) (Bz (Z.of_nat n)) Fc Fn) as [E N]; [rewrite En; lra|]. fold y in E, N.
  rewrite Ec, En in E.
  assert (In : (0 < / INR n)%R) by (apply Rinv_0_lt_compat; lra).
  destruct c as [|c].
  - simpl INR in * . unfold Rdiv in * . rewrite Rmult_0_l in * . rewrite R64_0 in E.
    assert (Fy : finite64 y = true) by (apply fin_X; auto; rewrite E, Rabs_R0; apply big_pos).
    split; auto. rewrite <- X_fin, E by auto. unfold close. split; lra.
  - assert (Pc : (1 <= INR (S c) <= INR n)%R) by (split; [apply (le_INR 1)|apply le_INR]; lia).
    assert (Hn : (INR n <= bpow radix2 53)%R).
    { rewrite INR_IZR_INZ, <- (IZR_Zpower radix2) by lia. apply IZR_le. exact L2. }
    assert (Hr : (bpow radix2 (-1022) <= INR (S c) / INR n <= 4)%R).
    { split.
      - apply Rle_trans with (/ INR n)%R.
        + apply Rle_trans with (bpow radix2 (- (53))); [apply bpow_le; lia|]. rewrite bpow_opp. apply Rinv_le; lra.
        + unfold Rdiv. nra.
      - apply Rle_trans with 1%R; [|lra]. apply Rmult_le_reg_r with (INR n); [lra|].
        unfold Rdiv. rewrite Rmult_assoc, Rinv_l; lra. }
    destruct (R64_rel _ Hr) as [A B]. rewrite <- E in A, B.
    assert (Fy : finite64 y = true) by (apply fin_X; auto).
    split; auto. rewrite X_fin in A by auto. unfold close. rewrite !pow_1. exact A.
Qed.

Lemma unit_or_zero c n : c <= n -> 1 <= n -> (Z.of_nat n <= 2 ^ 53)%Z ->
  (INR c / INR n = 0 \/ bpow radix2 (-53) <= INR c / INR n <= 1)%R.
Proof.
  intros Lc L1 L2. assert (Pn : (1 <= INR n)%R) by (apply (le_INR 1); auto).
  destruct c as [|c]; [left; unfold Rdiv; simpl; ring|right].
  assert (Pc : (1 <= INR (S c) <= INR n)%R) by (split; [apply (le_INR 1)|apply le_INR]; lia).
  assert (Hn : (INR n <= bpow radix2 53)%R).
  { rewrite INR_IZR_INZ, <- (IZR_Zpower radix2) by lia. apply IZR_le. exact L2. }
  assert (In : (0 < / INR n)%R) by (apply Rinv_0_lt_compat; lra). split.
  - apply Rle_trans with (/ INR n)%R; [|unfold Rdiv; nra].
    change (-53)%Z with (- (53))%Z. rewrite bpow_opp. apply Rinv_le; lra.
  - apply Rmult_le_reg_r with (INR n); [lra|]. unfold Rdiv. rewrite Rmult_assoc, Rinv_l; lra.
Qed.

Lemma from_close n : 1 <= n -> (Z.of_nat n <= 2 ^ 53)%Z -> forall cs (acc : double) pre m,
  finite64 acc = true -> close m (INR pre / INR n) (B2R acc) -> 1 <= m -> (Z.of_nat (m + length cs) <= 2 ^ 33)%Z ->
  pre + list_sum cs <= n ->
  forall j s, nth_error (partial_sum_from (A := B64) acc
                (map (fun c => Bquot (of_nat (A := B64) c) (of_nat (A := B64) n)) cs)) j = Some s ->
  finite64 s = true /\ close (m + S j) (INR (pre + below cs (S j)) / INR n) (B2R s).
Proof.
  intros L1 L2. induction cs as [|c cs IH]; intros acc pre m Fa Ca Lm Ll Ls j s Es; [destruct j; discriminate|].
  simpl list_sum in Ls. simpl length in Ll. cbn [map partial_sum_from] in Es.
  assert (Pn : (1 <= INR n)%R) by (apply (le_INR 1); auto).
  destruct (quot_close c n ltac:(lia) L1 L2) as [Fy Cy].
  assert (Split : (INR (pre + c) / INR n = INR pre / INR n + INR c / INR n)%R) by (rewrite plus_INR; unfold Rdiv; ring).
  destruct (add_close acc (Bquot (of_nat (A := B64) c) (of_nat (A := B64) n)) (INR pre / INR n) (INR c / INR n) m) as [Fs Cs]; auto.
  - apply nonneg_div; [apply pos_INR|lra].
  - apply nonneg_div; [apply pos_INR|lra].
  - lia.
  - rewrite <- Split. apply unit_or_zero; auto. lia.
  - rewrite <- Split in Cs. change (acc +. _)%num with (Badd acc (Bquot (of_nat (A := B64) c) (of_nat (A := B64) n))) in Es.
    destruct j as [|j].
    + injection Es as <-. unfold below. cbn [firstn list_sum fold_right]. rewrite !Nat.add_0_r, Nat.add_1_r. auto.
    + cbn [nth_error] in Es. destruct (IH _ (pre + c) (S m) Fs Cs ltac:(lia) ltac:(lia) ltac:(lia) j s Es) as [G1 G2].
      split; auto. replace (m + S (S j)) with (S m + S j) by lia.
      replace (pre + below (c :: cs) (S (S j))) with (pre + c + below cs (S j)) by (unfold below; simpl; lia). exact G2.
Qed.

(** Entry k of the normalised cdf. *)
Lemma cdf_close (h : hist B64) : h_total h = counts_sum h -> 1 <= h_total h ->
  (Z.of_nat (hist_size h) <= 2 ^ 32)%Z -> (Z.of_nat (h_total h) <= 2 ^ 53)%Z ->
  forall k s, nth_error (hist_cdf h true) k = Some s ->
  finite64 (s : double) = true /\ close (S k) (INR (below (map b_count (h_bins h)) (S k)) / INR (h_total h)) (B2R (s : double)).
Proof.
  intros T L1 Ln Lt k s Es. unfold counts_sum in T. unfold hist_size in Ln. rewrite <- (map_length b_count) in Ln.
  unfold hist_cdf, hist_pdf in Es.
  rewrite <- (map_map b_count (fun c => div (of_nat c) (of_nat (A := B64) (h_total h)))) in Es.
  revert T Ln Es. generalize (map b_count (h_bins h)) as cs. intros [|c cs] T Ln Es; [destruct k; discriminate|].
  cbn [map partial_sum] in Es. simpl list_sum in T. simpl length in Ln.
  change (div (of_nat c) (of_nat (A := B64) (h_total h))) with (Bquot (of_nat (A := B64) c) (of_nat (A := B64) (h_total h))) in Es.
  destruct (quot_close c (h_total h) ltac:(lia) L1 Lt) as [Fy Cy].
  destruct k as [|k].
  - injection Es as <-. unfold below. cbn [firstn list_sum fold_right]. rewrite Nat.add_0_r. auto.
  - cbn [nth_error] in Es.
    destruct (from_close (h_total h) L1 Lt cs _ c 1 Fy Cy ltac:(lia) ltac:(lia) ltac:(lia) k s Es) as [G1 G2].
    split; auto. 
Qed.

Lemma close_error m F s : (0 <= F)%R -> (Z.of_nat m <= 2 ^ 33)%Z -> close m F s ->
  (Rabs (s - F) <= INR m * bpow radix2 (-52) * F)%R.
Proof.
  intros PF Lm [A B]. pose proof u53_small as U. destruct (pow_u m Lm) as (((Q1 & Q2) & Q3 & Q4) & Q5).
  assert (E52 : (bpow radix2 (-52) = 2 * u53)%R) by (unfold u53; change (-52)%Z with (1 + -53)%Z; rewrite bpow_plus; reflexivity).
  assert (M : (0 <= INR m)%R) by apply pos_INR. pose proof (bernoulli u53 m ltac:(lra)) as Be.
  assert (P : ((1 + u53) ^ m * (1 - u53) ^ m <= 1)%R).
  { rewrite <- Rpow_mult_distr. apply Rle_trans with (1 ^ m)%R; [apply pow_incr; nra|rewrite pow1; lra]. }
  assert (Up : ((1 + u53) ^ m <= 1 + 2 * (INR m * u53))%R).
  { set (o := ((1 + u53) ^ m)%R) in * . set (p := ((1 - u53) ^ m)%R) in * . set (d := (INR m * u53)%R) in * .
    assert (0 <= d)%R by (unfold d; nra). clearbody o p d.
    assert (o * (1 - d) <= 1)%R by nra.
    assert (1 <= (1 + 2 * d) * (1 - d))%R by nra. nra. }
  rewrite E52. set (o := ((1 + u53) ^ m)%R) in * . set (p := ((1 - u53) ^ m)%R) in * .
  replace (INR m * (2 * u53) * F)%R with (F * (2 * (INR m * u53)))%R by ring.
  set (d := (INR m * u53)%R) in * . assert (0 <= d)%R by (unfold d; nra). clearbody o p d.
  apply Rabs_le. split; nra.
Qed.

Lemma cdf_error (N W : nat) (xs : list double) (h : hist B64) (k : nat) :
  update_all hist_update (hist_new N W true) xs = Ret h -> length xs <= W ->
  (Z.of_nat N <= 2 ^ 32)%Z -> (Z.of_nat (length xs) <= 2 ^ 53)%Z -> k < hist_size h ->
  let F := (INR (list_sum (firstn (S k) (map b_count (h_bins h)))) / INR (length xs))%R in
  exists s : double, nth_error (hist_cdf h true) k = Some s /\ finite64 s = true /\
    (Rabs (B2R s - F) <= INR (S k) * bpow radix2 (-52) * F)%R.
Proof.
  intros E L Ln Lt Lk F.
  assert (E' := E). rewrite <- calls_updates in E'. pose proof (proj1 (proj2 (proj2 (run_basic _ _ _ _ E')))) as Sb.
  destruct (proj2 (run_counts _ _ _ _ E) L) as [C T].
  assert (L1 : 1 <= length xs). { destruct xs; [injection E as <-; cbn in Lk; lia|simpl; lia]. }
  assert (Len : length (hist_cdf h true) = length (h_bins h)) by apply cdf_length.
  destruct (nth_error (hist_cdf h true) k) as [s|] eqn:Es.
  - exists s. split; auto. assert (Lz : (Z.of_nat (hist_size h) <= 2 ^ 32)%Z) by (unfold hist_size in * ; cbn [num B64] in * ; lia).
    destruct (cdf_close h ltac:(congruence) ltac:(rewrite T; exact L1) Lz ltac:(rewrite T; exact Lt) k s Es) as [Fs Cs].
    split; auto. rewrite T in Cs. apply close_error; auto; [|lia].
    apply nonneg_div; apply pos_INR.
  - apply nth_error_None in Es. unfold hist_size in Lk. lia.
Qed.

Lemma cdf_of_data (N W : nat) (xs : list double) (h : hist B64) (k : nat) (b : bin B64) :
  update_all hist_update (hist_new N W true) xs = Ret h -> length xs <= W ->
  Forall (fun x => finite64 x = true /\ (Rabs (B2R x) <= bpow radix2 1022)%R) xs -> separated (A := B64) xs ->
  (Z.of_nat N <= 2 ^ 32)%Z -> (Z.of_nat (length xs) <= 2 ^ 53)%Z -> nth_error (h_bins h) k = Some b ->
  let F := (INR (upto (B2R (b_right b : double)) (map B2R xs)) / INR (length xs))%R in
  exists s : double, nth_error (hist_cdf h true) k = Some s /\ finite64 s = true /\
    (Rabs (B2R s - F) <= INR (S k) * bpow radix2 (-52) * F)%R.
Proof.
  intros E L Fx Sx Ln Lt Ek F. assert (Lk : k < hist_size h) by (unfold hist_size; apply nth_error_Some; congruence).
  pose proof (cdf_error N W xs h k E L Ln Lt Lk) as H. cbv zeta in H.
  fold (below (map b_count (h_bins h)) (S k)) in H. rewrite (upto_B64 N W xs h k b E L Fx Sx Ek) in H. exact H.
Qed.

(** ** The entries increase strictly *)

Lemma add_grows (x y : double) : finite64 x = true -> finite64 y = true -> (0 <= B2R x <= 2)%R ->
  (bpow radix2 (-51) <= B2R y <= 2)%R -> (B2R x < R64 (B2R x + B2R y))%R.
Proof.
  intros Fx Fy Hx [Hy Hy2]. destruct (R64_rel (B2R x + B2R y)) as [[A _] _].
  - split; [|lra]. apply Rle_trans with (bpow radix2 (-51)); [apply bpow_le; lia|lra].
  - eapply Rlt_le_trans; [|exact A].
    assert (E : (bpow radix2 (-51) = 4 * u53)%R) by (unfold u53; change (-51)%Z with (2 + -53)%Z; rewrite bpow_plus; reflexivity).
    pose proof u53_small as U. nra.
Qed.

Lemma from_increasing (l : list double) : forall acc, finite64 acc = true -> (0 <= B2R acc <= 2)%R ->
  Forall (fun y => finite64 y = true /\ (bpow radix2 (-51) <= B2R y <= 2)%R) l ->
  Forall (fun s : double => finite64 s = true /\ (B2R s <= 2)%R) (partial_sum_from (A := B64) acc l) ->
  Forall (fun s : double => (B2R acc < B2R s)%R) (partial_sum_from (A := B64) acc l) /\
  StronglySorted (fun x y : double => (B2R x < B2R y)%R) (partial_sum_from (A := B64) acc l).
Proof.
  induction l as [|y l IH]; intros acc Fa Ha F G; [repeat constructor|].
  inversion_clear F as [|? ? [Fy Py] F']. cbn [partial_sum_from] in * . change (acc +. y)%num with (Badd acc y) in * .
  inversion_clear G as [|? ? [Fs Ps] G']. destruct (X_add acc y Fa Fy) as [Ex _]. rewrite X_fin in Ex by auto.
  pose proof (add_grows acc y Fa Fy Ha Py) as Gr. rewrite <- Ex in Gr.
  destruct (IH (Badd acc y)) as [H1 H2]; auto; [lra|].
  split; constructor; auto. eapply Forall_impl; [|exact H1]. cbn beta. intros; lra.
Qed.

Lemma cdf_increasing (h : hist B64) : h_total h = counts_sum h -> Forall (fun b => 1 <= b_count b) (h_bins h) ->
  (Z.of_nat (hist_size h) <= 2 ^ 32)%Z -> (Z.of_nat (h_total h) <= 2 ^ 50)%Z ->
  Forall (fun s : double => finite64 s = true /\ (0 < B2R s)%R) (hist_cdf h true : list double) /\
  StronglySorted (fun x y : double => (B2R x < B2R y)%R) (hist_cdf h true : list double).
Proof.
  intros T Pos Ln Lt. destruct (h_bins h) as [|b0 bs0] eqn:Eb.
  - unfold hist_cdf, hist_pdf. rewrite Eb. split; constructor.
  - assert (L1 : 1 <= h_total h).
    { rewrite T. unfold counts_sum. rewrite Eb. inversion_clear Pos. simpl. lia. }
    rewrite <- Eb in Pos. clear b0 bs0 Eb.
    assert (Fin : Forall (fun s : double => finite64 s = true /\ (B2R s <= 2)%R) (hist_cdf h true : list double)).
    { apply List.Forall_forall. intros s Is. apply In_nth_error in Is as [k Ek].
      destruct (cdf_close h T L1 Ln ltac:(lia) k s Ek) as [Fs [_ Cs]]. split; auto.
      assert (Lk : k < length (hist_cdf h true)).
      { apply nth_error_Some. intros Hn. assert (K := eq_trans (eq_sym Ek) Hn). discriminate K. }
      rewrite cdf_length in Lk.
      unfold hist_size in Ln. destruct (pow_u (S k) ltac:(lia)) as ((_ & Q3 & Q4) & _).
      assert (Lb : below (map b_count (h_bins h)) (S k) <= h_total h).
      { rewrite T. unfold counts_sum, below. generalize (map b_count (h_bins h)) as l. generalize (S k) as m.
        induction m as [|m IHm]; intros [|x l]; simpl; try lia. specialize (IHm l). lia. }
      destruct (unit_or_zero _ _ Lb L1 ltac:(lia)) as [Z|Z]; nra. }
    assert (Ent : Forall (fun y : double => finite64 y = true /\ (bpow radix2 (-51) <= B2R y <= 2)%R)
                    (hist_pdf h true false : list double)).
    { unfold hist_pdf. apply List.Forall_forall. intros y Iy. apply in_map_iff in Iy as (b & <- & Ib).
      assert (Lc : 1 <= b_count b <= h_total h).
      { split; [apply (proj1 (List.Forall_forall _ _) Pos b Ib)|]. rewrite T. unfold counts_sum.
        apply in_split in Ib as (l & r & E). rewrite E, map_app, list_sum_app. simpl. lia. }
      destruct (quot_close (b_count b) (h_total h) (proj2 Lc) L1 ltac:(lia)) as [Fy [C1 C2]]. split; [exact Fy|].
      change (div _ _) with (Bquot (of_nat (A := B64) (b_count b)) (of_nat (A := B64) (h_total h))).
      rewrite !pow_1 in C1, C2. pose proof u53_small as U.
      assert (Pn : (1 <= INR (h_total h))%R) by (apply (le_INR 1); auto).
      assert (Hn : (INR (h_total h) <= bpow radix2 50)%R).
      { rewrite INR_IZR_INZ, <- (IZR_Zpower radix2) by lia. apply IZR_le. exact Lt. }
      assert (Pc : (1 <= INR (b_count b) <= INR (h_total h))%R) by (split; [apply (le_INR 1)|apply le_INR]; lia).
      assert (R1 : (bpow radix2 (-50) <= INR (b_count b) / INR (h_total h) <= 1)%R).
      { assert (In : (0 < / INR (h_total h))%R) by (apply Rinv_0_lt_compat; lra). split.
        - apply Rle_trans with (/ INR (h_total h))%R; [|unfold Rdiv; nra].
          change (-50)%Z with (- (50))%Z. rewrite bpow_opp. apply Rinv_le; lra.
        - apply Rmult_le_reg_r with (INR (h_total h)); [lra|]. unfold Rdiv. rewrite Rmult_assoc, Rinv_l; lra. }
      assert (E50 : (bpow radix2 (-50) = 2 * bpow radix2 (-51))%R) by (change (-50)%Z with (1 + -51)%Z; rewrite bpow_plus; reflexivity).
      pose proof (bpow_gt_0 radix2 (-51)). split; nra. }
    unfold hist_cdf in * . destruct (hist_pdf h true false) as [|y l]; [split; constructor|].
    cbn [partial_sum] in * . inversion_clear Ent as [|? ? [Fy Py] Ent']. inversion_clear Fin as [|? ? _ Fin'].
    pose proof (bpow_gt_0 radix2 (-51)) as B51.
    destruct (from_increasing l y Fy ltac:(lra) Ent' Fin') as [H1 H2]. split; constructor; auto.
    + split; auto. lra.
    + apply List.Forall_forall. intros s Is. pose proof (proj1 (List.Forall_forall _ _) H1 s Is) as G. cbn beta in G.
      pose proof (proj1 (List.Forall_forall _ _) Fin' s Is) as [G' _]. split; auto. lra.
Qed.

(** ** quantile undoes cdf *)

Lemma quantile_inverts_B64 (N W : nat) (xs : list double) (h : hist B64) (k : nat) (b : bin B64) (s : double) :
  update_all hist_update (hist_new N W true) xs = Ret h -> length xs <= W ->
  (Z.of_nat N <= 2 ^ 32)%Z -> (Z.of_nat (length xs) <= 2 ^ 50)%Z ->
  nth_error (h_bins h) k = Some b -> nth_error (hist_cdf h true) k = Some s -> (B2R s <= 1)%R ->
  hist_quantile h s = Ret (b_left b).
Proof.
  intros E L Ln Lt Eb Es S1.
  assert (E' := E). rewrite <- calls_updates in E'. pose proof (proj1 (proj2 (proj2 (run_basic _ _ _ _ E')))) as Sb.
  destruct (proj2 (run_counts _ _ _ _ E) L) as [C T]. pose proof (run_positive N W xs h E L) as Pos.
  assert (Lz : (Z.of_nat (hist_size h) <= 2 ^ 32)%Z) by (unfold hist_size in * ; cbn [num B64] in * ; lia).
  assert (T' : h_total h = counts_sum h) by congruence.
  assert (T50 : (Z.of_nat (h_total h) <= 2 ^ 50)%Z) by (rewrite T; exact Lt).
  destruct (cdf_increasing h T' Pos Lz T50) as [Fin Inc].
  assert (Lk : k < length (h_bins h)) by (apply nth_error_Some; congruence).
  assert (Get : forall j x, nth_error (hist_cdf h true) j = Some x -> finite64 (x : double) = true /\ (0 < B2R (x : double))%R).
  { intros j x Ej. apply (proj1 (List.Forall_forall _ _) Fin). apply (nth_error_In _ _ Ej). }
  destruct (Get k s Es) as [Fs Ps].
  assert (Lt_iff : forall x y : double, finite64 x = true -> finite64 y = true -> (Bltb x y = true <-> (B2R x < B2R y)%R)).
  { intros x y Fx Fy. rewrite X_ltb by auto using fin_nan. now rewrite !X_fin. }
  assert (Hq : ltb s (zero (A := B64)) || ltb (of_Z 1%Z) s = false).
  { unfold zero. cbn [ltb of_Z B64]. destruct (Bz_exact 0) as [E0 F0]; [lia|]. destruct (Bz_exact 1) as [E1 F1]; [lia|].
    apply orb_false_iff. split.
    - destruct (Bltb s (Bz 0)) eqn:K; auto. apply Lt_iff in K; auto. rewrite E0 in K. lra.
    - destruct (Bltb (Bz 1) s) eqn:K; auto. apply Lt_iff in K; auto. rewrite E1 in K. lra. }
  destruct (lower_bound_spec (hist_cdf h true) s) as (i & El & Li & P1 & P2).
  { intros j j' x y Lj Ej Ej' H. cbn [ltb B64] in * . destruct (Get _ _ Ej) as [Fx _]. destruct (Get _ _ Ej') as [Fy _].
    pose proof (sorted_nth _ _ Inc j j' x y Lj Ej Ej') as M. cbn beta in M.
    apply Lt_iff in H; auto. apply Lt_iff; auto. lra. }
  assert (Ei : i = k).
  { destruct (lt_eq_lt_dec i k) as [[Lik|Eik]|Lik]; auto; exfalso.
    - destruct (nth_error (hist_cdf h true) i) as [x|] eqn:Ex; [|apply nth_error_None in Ex; rewrite cdf_length in Ex; lia].
      pose proof (P2 i x (le_n i) Ex) as H. cbn [ltb B64] in H. destruct (Get _ _ Ex) as [Fx _].
      pose proof (sorted_nth _ _ Inc i k x s Lik Ex Es) as M. cbn beta in M. apply Lt_iff in M; auto. congruence.
    - pose proof (P1 k s Lik Es) as H. cbn [ltb B64] in H. apply Lt_iff in H; auto. lra. }
  subst i. destruct (quantile_shape h s k Hq El Li) as (_ & Eq); [rewrite cdf_length; lia|].
  assert (Ep : position (hist_cdf h true) s k = k).
  { unfold position. rewrite cdf_length. destruct (Nat.eqb_spec k (length (h_bins h))); [lia|].
    destruct (Nat.eqb_spec k 0) as [->|_]; auto. rewrite Es. cbn [ltb B64].
    destruct (Bltb s s) eqn:K; auto. apply Lt_iff in K; auto. lra. }
  rewrite Ep in Eq. rewrite (Eq s b Es Eb).
  destruct default_eps_ok as [Fe Pe]. destruct (B_refl s default_eps Fs Fe) as (_ & R & _); [lra|]. now rewrite R.
Qed.

(** ** The density is never negative and never NaN *)

Lemma density_B64 (h : hist B64) nz : 1 <= h_total h -> (Z.of_nat (h_total h) < 2 ^ 64)%Z ->
  Forall (fun b : bin B64 => (Z.of_nat (b_count b) < 2 ^ 64)%Z /\ finite64 (b_left b) = true /\ finite64 (b_right b) = true)
    (h_bins h) ->
  Forall nonneg (hist_pdf h nz true).
Proof.
  intros L1 L2 F. unfold hist_pdf. cbn [num B64]. rewrite Forall_map. eapply Forall_impl; [|exact F]. cbn beta.
  intros [l r c] (Hc & Fl & Fr). cbn [b_left b_right b_count] in * . unfold zero. cbn [leb of_Z sub div mul B64].
  destruct (of_nat_ok (h_total h) L1 L2) as [Ft Pt]. set (t := of_nat (A := B64) (h_total h)) in * .
  destruct (of_nat_nonneg c Hc) as [Fc Pc]. set (y := of_nat (A := B64) c) in * . clearbody t y.
  destruct (X_sub r l Fr Fl) as [Ew Nw]. set (w0 := Bsub r l) in * . destruct (Bz_exact 0) as [E0 F0]; [lia|].
  destruct (Bz_exact 1) as [E1 F1]; [lia|].
  assert (W : let w := if Bleb w0 (Bz 0) then Bz 1 else w0 in nan w = false /\ (0 < X w)%R).
  { cbv zeta. destruct (Bleb w0 (Bz 0)) eqn:K.
    - rewrite X_fin, E1 by auto. split; [now apply fin_nan|lra].
    - split; auto. destruct (Rle_or_lt (X w0) 0) as [H|H]; auto.
      assert (Bleb w0 (Bz 0) = true) by (apply X_leb; auto using fin_nan; rewrite (X_fin (Bz 0)), E0 by auto; auto). congruence. }
  cbv zeta in W. set (w := if Bleb w0 (Bz 0) then Bz 1 else w0) in * . destruct W as [Nww Pw]. clearbody w. clear w0 Ew Nw.
  change (nonneg (Bquot y (Bmul t w))).
  assert (M : nan (Bmul t w) = false /\ (0 < X (Bmul t w))%R).
  { destruct (finite64 w) eqn:Fw.
    - destruct (X_mul t w Ft Fw) as [Em Nm]. split; auto. rewrite Em. rewrite (X_fin w Fw) in Pw.
      apply Rlt_le_trans with (B2R w); auto. rewrite <- (R64_B2R w) at 1. apply R64_le.
      assert (Pt' : (1 <= B2R (t : double))%R) by apply Pt. nra.
    - destruct w as [s|s| |s m e B]; try discriminate. destruct s; [cbn in Pw; pose proof big_pos; lra|].
      destruct t as [s'|s'| |s' m' e' B']; try discriminate; [cbn in Pt; lra|].
      destruct s'; [|split; [reflexivity|apply big_pos]].
      exfalso. cbn [num B64] in Pt. assert (B2R (B754_finite true m' e' B') < 0)%R by (apply F2R_lt_0; reflexivity). lra. }
  destruct M as [Nm Pm]. set (d := Bmul t w) in * . clearbody d. clear w Nww Pw t Ft Pt.
  destruct (finite64 d) eqn:Fd.
  - rewrite (X_fin d Fd) in Pm. destruct (X_div y d Fc Fd) as [Eq Nq]; [lra|]. split; auto. rewrite Eq.
    rewrite <- R64_0. apply R64_le. apply nonneg_div; lra.
  - destruct d as [s|s| |s m e B]; try discriminate.
    assert (Z : exists s1, Bquot y (B754_infinity s) = B754_zero s1).
    { destruct y as [s'|s'| |s' m' e' B']; try discriminate; eexists; reflexivity. }
    destruct Z as [s1 ->]. split; [reflexivity|]. rewrite X_fin by reflexivity. cbn. lra.
Qed.

(** ** Concrete runs *)

Definition tiny : double := @B754_finite 53 1024 false 1 (-1074) eq_refl.

Lemma density_overflow : exists (h : hist B64) (d : double),
  update_all hist_update (hist_new (A := B64) 1 10 true) [B754_zero false; tiny] = Ret h /\
  hist_pdf h true true = [d] /\ d = B754_infinity false.
Proof.
  assert (H : ok (update_all hist_update (hist_new (A := B64) 1 10 true) [B754_zero false; tiny])
    (fun h => match hist_pdf h true true with [B754_infinity false] => true | _ => false end) = true)
    by (vm_compute; reflexivity).
  apply ok_true in H as (h & E & H). destruct (hist_pdf h true true) as [|d [|? ?]] eqn:Ep; [discriminate H| |].
  - exists h, d. split; auto. split; auto. destruct d as [s|[]| |]; try discriminate H. reflexivity.
  - destruct d as [s|[]| |]; discriminate H.
Qed.

Lemma cdf_above_one : exists (h : hist B64) (s : double),
  update_all hist_update (hist_new (A := B64) 9 9 true) (map Bz [1; 2; 3; 4; 5; 6; 7; 8; 9]%Z) = Ret h /\
  nth_error (hist_cdf h true) (hist_size h - 1) = Some s /\ Bltb (Bz 1) s = true /\
  hist_quantile h s = Throw RuntimeError.
Proof.
  assert (H : ok (update_all hist_update (hist_new (A := B64) 9 9 true) (map Bz [1; 2; 3; 4; 5; 6; 7; 8; 9]%Z))
    (fun h => match nth_error (hist_cdf h true) (hist_size h - 1) with
              | Some s => Bltb (Bz 1) s && match hist_quantile h s with Throw RuntimeError => true | _ => false end
              | None => false end) = true) by (vm_compute; reflexivity).
  apply ok_true in H as (h & E & H). destruct (nth_error (hist_cdf h true) (hist_size h - 1)) as [s|] eqn:Es; [|discriminate H].
  apply andb_prop in H as [H1 H2]. exists h, s. split; [exact E|]. split; [exact Es|]. split; [exact H1|]. clear E.
  destruct (hist_quantile h s) as [|[]|]; try discriminate H2. reflexivity.
Qed.
