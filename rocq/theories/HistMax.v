(** Quantiles beyond the data. *)

From Coq Require Import List Sorting.Sorted Arith Bool Lia ZArith Reals Lra.
From Flocq Require Import Core.Core IEEE754.BinarySingleNaN.
From Verif Require Import Outcome Arith Utils IBin Histogram Spec ListFacts HistSpec UtilsFacts HistFacts
  FloatSpec FloatFacts UtilsMono HistOrder HistStreams HistQuant HistWitness.
Import ListNotations.
Local Open Scope nat_scope.

Lemma quantile_skewed (a b q : R) N W n : definitelyLessThan (A := RA) a b default_eps = true ->
  2 <= N -> 1 <= n -> S n <= W -> (1.001 / INR (S n) <= q < 1)%R ->
  exists h, update_all hist_update (hist_new (A := RA) N W true) (a :: repeat b n) = Ret h /\
    hist_quantile h q = Ret (a + INR n / INR N)%R.
Proof.
  intros Hab HN Hn HW Hq.
  destruct (drift_run (A := RA) a b N W n) as (h & E & Lv & Eb & T); auto; try lia.
  { destruct (definitelyLessThan (A := RA) b b default_eps) eqn:K; auto. apply RA_less_lt in K; [lra|]. unfold default_eps, lit. cbn. lra. }
  { cbn. apply Rleb_true. lra. }
  exists h. split; auto.
  replace (Nat.leb (S n) W) with true in Eb by (symmetry; now apply Nat.leb_le).
  replace (Nat.min n (2 * W)) with n in Eb by lia.
  assert (Hn' : (2 <= INR (S n))%R) by (apply (le_INR 2); lia).
  assert (Ip : (0 < / INR (S n))%R) by (apply Rinv_0_lt_compat; lra).
  assert (Q : (0 <= q <= 1)%R) by (unfold Rdiv in Hq; lra).
  destruct (run_quantile_RA N W _ h q E) as (k & c & Sel & Ek & Cases); auto.
  { simpl. rewrite repeat_length. lia. }
  { unfold hist_size. rewrite Eb. auto. }
  rewrite Eb in * . cbn [map b_count] in * .
  assert (F0 : Fcum [1; n] 0 = (/ INR (S n))%R).
  { unfold Fcum, below. cbn [firstn list_sum fold_right]. rewrite !Nat.add_0_r, <- !INR_IZR_INZ. cbn [INR]. rewrite Nat.add_1_l || idtac.
    unfold Rdiv. now rewrite Rmult_1_l. }
  assert (F1 : Fcum [1; n] 1 = 1%R).
  { apply Fcum_last; simpl; lia. }
  assert (k = 0) as ->.
  { destruct Sel as [[_ K]|(_ & K & _)]; auto. destruct k as [|[|k]]; auto; [lra|]. destruct k; discriminate. }
  injection Ek as <-. destruct Cases as [[C _]|(_ & b' & Eb' & C)].
  - exfalso. apply RA_essential in C. rewrite F0 in C. unfold default_eps, lit in C. cbn [RA div of_Z] in C.
    rewrite Rabs_pos_eq in C by (unfold Rdiv in Hq; lra).
    rewrite Rmin_right in C by (rewrite !Rabs_pos_eq; unfold Rdiv in Hq; lra).
    rewrite Rabs_pos_eq in C by lra. unfold Rdiv in Hq. lra.
  - injection Eb' as <-. cbn [b_left b_right b_count] in C. rewrite C. f_equal.
    destruct (Req_EM_T a a) as [_|X]; [|congruence]. cbn [INR]. unfold Rdiv. rewrite Rinv_1. ring.
Qed.

Lemma nat_above (r : R) : exists n, (r < INR n)%R.
Proof.
  exists (Z.to_nat (up r)). destruct (archimed r) as [H _]. apply Rlt_le_trans with (IZR (up r)); [lra|].
  rewrite INR_IZR_INZ. apply IZR_le. lia.
Qed.

Lemma quantile_unbounded (a b q M : R) N : definitelyLessThan (A := RA) a b default_eps = true ->
  2 <= N -> (0 < q < 1)%R ->
  exists n W h v, S n <= W /\
    update_all hist_update (hist_new (A := RA) N W true) (a :: repeat b n) = Ret h /\
    hist_quantile h q = Ret v /\ (M < v)%R.
Proof.
  intros Hab HN Hq.
  assert (N0 : (0 < INR N)%R) by (apply (lt_INR 0); lia).
  destruct (nat_above (1.001 / q)%R) as [n1 H1]. destruct (nat_above ((M - a) * INR N)%R) as [n2 H2].
  set (n := S (n1 + n2)).
  assert (G1 : (INR n1 <= INR (S n))%R) by (apply le_INR; unfold n; lia).
  assert (G2 : (INR n2 <= INR n)%R) by (apply le_INR; unfold n; lia).
  assert (G3 : (0 < INR (S n))%R) by (apply (lt_INR 0); lia).
  destruct (quantile_skewed a b q N (S n) n) as (h & E & Q); auto.
  - unfold n. lia.
  - split; [|tauto]. apply Rmult_le_reg_r with (INR (S n)); auto.
    unfold Rdiv. rewrite Rmult_assoc, Rinv_l, Rmult_1_r by lra.
    assert (K : (1.001 / q * q <= INR (S n) * q)%R) by (apply Rmult_le_compat_r; lra).
    unfold Rdiv in K. rewrite Rmult_assoc, Rinv_l, Rmult_1_r in K by lra. lra.
  - exists n, (S n), h, (a + INR n / INR N)%R. split; [lia|]. split; auto. split; auto.
    assert (K : (M - a < INR n / INR N)%R); [|lra].
    apply Rmult_lt_reg_r with (INR N); auto. unfold Rdiv. rewrite Rmult_assoc, Rinv_l, Rmult_1_r by lra. lra.
Qed.
