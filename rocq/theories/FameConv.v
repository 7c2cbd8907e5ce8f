(** Convergence of WindowedFAME on streams that become constant. *)

From Coq Require Import List Reals ZArith Lra Lia Bool Arith.
From Verif Require Import Outcome Arith Fame FameSpec FameFacts.
Import ListNotations.
Open Scope R_scope.

Lemma fame_near (t : fame RA) (c : R) : f_history t <> 0%nat -> 0 < f_step t ->
  Rabs (c - f_median t) < 2 * f_step t ->
  Rabs (c - f_median (fame_update t c)) < f_step t /\
  f_step (fame_update t c) = f_step t / 2 * (1 + f_epsilon t).
Proof.
  intros H Hs Hd. destruct (fame_move_RA t c H) as [Em Es].
  assert (K : Rabs (c - f_median (fame_update t c)) < f_step t).
  { rewrite Em. unfold sgn. cbn in * . revert Hd. unfold Rabs.
    destruct (Rlt_dec (c - f_median t) 0), (Rlt_dec 0 (c - f_median t)); repeat destruct (Rcase_abs _); lra. }
  split; [exact K|]. rewrite Es. destruct (Rlt_dec _ _); [reflexivity|contradiction].
Qed.

Lemma fame_far (t : fame RA) (c : R) : f_history t <> 0%nat -> 0 < f_step t ->
  2 * f_step t <= Rabs (c - f_median t) ->
  Rabs (c - f_median (fame_update t c)) = Rabs (c - f_median t) - f_step t /\
  f_step (fame_update t c) = f_step t * (1 + f_epsilon t).
Proof.
  intros H Hs Hd. destruct (fame_move_RA t c H) as [Em Es].
  assert (K : Rabs (c - f_median (fame_update t c)) = Rabs (c - f_median t) - f_step t).
  { rewrite Em. unfold sgn. cbn in * . revert Hd. unfold Rabs.
    destruct (Rlt_dec (c - f_median t) 0), (Rlt_dec 0 (c - f_median t)); repeat destruct (Rcase_abs _); lra. }
  split; [exact K|]. rewrite Es. destruct (Rlt_dec _ _) as [L|L]; [rewrite K in L; cbn in *; lra|reflexivity].
Qed.

Lemma next_history {A : arith} (t : fame A) c : f_history (fame_update t c) <> 0%nat.
Proof. unfold fame_update. cbn [f_history]. lia. Qed.
Lemma next_eps {A : arith} (t : fame A) c : f_epsilon (fame_update t c) = f_epsilon t.
Proof. reflexivity. Qed.

(** Once closer than two steps, the distance at least follows the step. *)
Lemma fame_homing k : forall (t : fame RA) (c : R), f_history t <> 0%nat -> 0 < f_step t -> 0 <= f_epsilon t ->
  Rabs (c - f_median t) < 2 * f_step t ->
  Rabs (c - f_median (fame_run t (repeat c k))) < 2 * f_step t * ((1 + f_epsilon t) ^ k / 2 ^ k).
Proof.
  induction k as [|k IH]; intros t c H Hs He Hd.
  - cbn [repeat fame_run fold_left pow]. unfold Rdiv. rewrite Rinv_1. cbn in *; lra.
  - destruct (fame_near t c H Hs Hd) as [D S1]. cbn [repeat]. change (fame_run t (c :: repeat c k)) with (fame_run (fame_update t c) (repeat c k)).
    specialize (IH (fame_update t c) c (next_history t c)). rewrite next_eps, S1 in IH.
    eapply Rlt_le_trans; [apply IH; auto|].
    + cbn in *; nra.
    + cbn in *; nra.
    + right. cbn [pow]. field. apply pow_nonzero. lra.
Qed.

Lemma pow_one e k : 0 <= e -> 1 <= (1 + e) ^ k.
Proof. intros. apply pow_R1_Rle. lra. Qed.

Lemma half_pow_le k j : (k <= j)%nat -> / 2 ^ j <= / 2 ^ k.
Proof. intros. apply Rinv_le_contravar; [apply pow_lt; lra|]. apply Rle_pow; [lra|auto]. Qed.

(** From any distance. *)
Lemma fame_approach n : forall k (t : fame RA) (c : R), f_history t <> 0%nat -> 0 < f_step t -> 0 <= f_epsilon t ->
  Rabs (c - f_median t) < (INR n + 2) * f_step t ->
  Rabs (c - f_median (fame_run t (repeat c (n + k)))) < 2 * f_step t * ((1 + f_epsilon t) ^ (n + k) / 2 ^ k).
Proof.
  induction n as [|n IH]; intros k t c H Hs He Hd.
  - apply fame_homing; auto. cbn in *; lra.
  - destruct (Rlt_dec (Rabs (c - f_median t)) (2 * f_step t)) as [L|L].
    + eapply Rlt_le_trans; [apply fame_homing; auto|]. apply Rmult_le_compat_l; [cbn in *; lra|].
      unfold Rdiv. apply Rmult_le_compat_l; [left; apply pow_lt; cbn in *; lra|]. apply half_pow_le. lia.
    + destruct (fame_far t c H Hs) as [D S1]; [cbn in *; lra|]. cbn [Nat.add repeat].
      change (fame_run t (c :: repeat c (n + k))) with (fame_run (fame_update t c) (repeat c (n + k))).
      specialize (IH k (fame_update t c) c (next_history t c)). rewrite next_eps, S1, D in IH.
      rewrite S_INR in Hd. pose proof (pos_INR n).
      eapply Rlt_le_trans; [apply IH; auto|].
      * cbn in *; nra.
      * cbn in *; nra.
      * right. cbn [pow]. field. apply pow_nonzero. lra.
Qed.

Lemma fame_rate (step eps : R) s (xs : list R) (c : R) n k :
  fame_new (A := RA) step eps = Ret s -> 0 < step -> xs <> [] ->
  let a := fame_run s xs in
  Rabs (c - fame_evaluate a) < (INR n + 2) * f_step a ->
  Rabs (c - fame_evaluate (fame_run s (xs ++ repeat c (n + k)))) < 2 * f_step a * ((1 + eps) ^ (n + k) / 2 ^ k).
Proof.
  intros E Hs Hne a Hd. pose proof (fame_new_ge_RA _ _ _ E) as He. apply fame_new_fields in E.
  assert (Hp : 0 < f_step a) by (apply fame_step_pos_RA; subst s; cbn; lra).
  assert (Ht : f_history a <> 0%nat).
  { unfold a. rewrite fame_history. destruct xs; [congruence|]. simpl. lia. }
  assert (Ee : f_epsilon a = eps) by (unfold a; rewrite fame_eps; subst s; reflexivity).
  replace (fame_run s (xs ++ repeat c (n + k))) with (fame_run a (repeat c (n + k)))
    by (unfold a, fame_run; now rewrite fold_left_app).
  rewrite <- Ee. apply fame_approach; auto. rewrite Ee. tauto.
Qed.

Lemma nat_over (r : R) : exists n, r < INR n.
Proof.
  exists (Z.to_nat (up r)). destruct (archimed r) as [H _]. apply Rlt_le_trans with (IZR (up r)); [lra|].
  rewrite INR_IZR_INZ. apply IZR_le. lia.
Qed.

Lemma fame_converges (step eps : R) s (xs : list R) (c e : R) :
  fame_new (A := RA) step eps = Ret s -> 0 < step -> xs <> [] -> 0 < e ->
  exists N, forall j, (N <= j)%nat -> Rabs (c - fame_evaluate (fame_run s (xs ++ repeat c j))) < e.
Proof.
  intros E Hs Hne He. pose proof (fame_new_ge_RA _ _ _ E) as Hep.
  set (a := fame_run s xs).
  assert (Hp : 0 < f_step a) by (apply fame_step_pos_RA; apply fame_new_fields in E; subst s; cbn; lra).
  destruct (nat_over (Rabs (c - fame_evaluate a) / f_step a)) as [n Hn].
  assert (Hd : Rabs (c - fame_evaluate a) < (INR n + 2) * f_step a).
  { apply Rmult_lt_compat_r with (r := f_step a) in Hn; auto. unfold Rdiv in Hn.
    rewrite Rmult_assoc, Rinv_l, Rmult_1_r in Hn by (cbn in *; lra). cbn in *; nra. }
  set (C := 2 * f_step a * (1 + eps) ^ n).
  assert (C0 : 0 < C) by (unfold C; apply Rmult_lt_0_compat; [cbn in *; lra|apply pow_lt; lra]).
  destruct (pow_lt_1_zero ((1 + eps) / 2)) with (y := e / C) as [M HM].
  { rewrite Rabs_pos_eq; lra. }
  { apply Rdiv_lt_0_compat; auto. }
  exists (n + M)%nat. intros j Hj. replace j with (n + (j - n))%nat by lia. set (k := (j - n)%nat).
  eapply Rlt_le_trans; [apply (fame_rate step eps s xs c n k); auto|].
  specialize (HM k ltac:(unfold k; lia)).
  rewrite Rabs_pos_eq in HM by (apply pow_le; lra).
  replace (2 * f_step (fame_run s xs) * ((1 + eps) ^ (n + k) / 2 ^ k)) with (C * ((1 + eps) / 2) ^ k).
  - apply Rmult_lt_compat_l with (r := C) in HM; auto.
    replace (C * (e / C)) with e in HM by (field; lra). lra.
  - unfold C, Rdiv. fold a. rewrite Rpow_mult_distr, pow_add, <- pow_inv. ring.
Qed.

Lemma fame_rate_case : exists s, fame_new (A := RA) (1 / 10) 0 = Ret s /\
  fame_evaluate (fame_run s [4]) = 4 /\ f_step (fame_run s [4]) = 2 /\
  Rabs (9 - fame_evaluate (fame_run s [4])) < (INR 1 + 2) * f_step (fame_run s [4]).
Proof.
  exists (Fame (A := RA) 0 (1 / 10) 0 0). split.
  - unfold fame_new. cbn. unfold Rltb, Rleb. destruct (Rlt_dec 0 0); [lra|]. destruct (Rle_dec 1 0); [lra|]. reflexivity.
  - set (s0 := Fame (A := RA) 0 (1 / 10) 0 0). change (fame_run s0 [4]) with (fame_update s0 4).
    assert (S1 : f_step (fame_update s0 4) = 2).
    { rewrite fame_first_step_RA by reflexivity. cbn. rewrite (Rabs_pos_eq 4) by lra. rewrite Rmax_left by lra. lra. }
    assert (M1 : fame_evaluate (fame_update s0 4) = 4).
    { unfold fame_evaluate, fame_update. cbn. now rewrite !Rltb_irrefl. }
    rewrite S1, M1. repeat split; auto. rewrite Rabs_pos_eq by lra. simpl. lra.
Qed.
