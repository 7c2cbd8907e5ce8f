(** In what sense WindowedFAME estimates a median, and in what sense not. *)

From Coq Require Import List Reals ZArith Lra Lia Bool Arith.
From Verif Require Import Outcome Arith Fame FameSpec FameFacts FameConv.
Import ListNotations.
Open Scope R_scope.

Ltac inR := match goal with |- ?x = ?y => change (@eq R x y) end.

Lemma step_shrinks (t : fame RA) ys : f_history t <> 0%nat -> 0 < f_step t -> f_epsilon t = 0 ->
  0 < f_step (fame_run t ys) <= f_step t.
Proof.
  revert t. induction ys as [|y ys IH]; intros t H Hs He.
  - cbn. cbn in Hs. lra.
  - change (fame_run t (y :: ys)) with (fame_run (fame_update t y) ys).
    destruct (fame_move_RA t y H) as [_ Es]. rewrite He in Es.
    assert (K : 0 < f_step (fame_update t y) <= f_step t) by (rewrite Es; destruct (Rlt_dec _ _); cbn in *; lra).
    destruct (IH (fame_update t y) (next_history t y) (proj1 K) ltac:(now rewrite next_eps)) as [A B]. cbn in *; lra.
Qed.

Lemma fame_balance_from ys : forall t : fame RA, f_history t <> 0%nat -> 0 < f_step t -> f_epsilon t = 0 ->
  f_step (fame_run t ys) = f_step t ->
  f_median (fame_run t ys) = f_median t + f_step t * (INR (larger t ys) - INR (smaller t ys)).
Proof.
  induction ys as [|y ys IH]; intros t H Hs He E.
  - cbn. cbn in Hs. lra.
  - change (fame_run t (y :: ys)) with (fame_run (fame_update t y) ys) in * .
    destruct (fame_move_RA t y H) as [Em Es]. rewrite He in Es.
    assert (K : 0 < f_step (fame_update t y) <= f_step t) by (rewrite Es; destruct (Rlt_dec _ _); cbn in *; lra).
    pose proof (step_shrinks (fame_update t y) ys (next_history t y) (proj1 K) ltac:(now rewrite next_eps)) as Sh.
    assert (E1 : f_step (fame_update t y) = f_step t) by (apply Rle_antisym; cbn in *; lra).
    rewrite IH; [|apply next_history|apply K|now rewrite next_eps|now rewrite E1].
    rewrite E1, Em. cbn [larger smaller]. rewrite !plus_INR. unfold fame_evaluate, sgn.
    change (num RA) with R in * .
    destruct (Rlt_dec (y - f_median t) 0), (Rlt_dec 0 (y - f_median t)), (Rlt_dec (f_median t) y), (Rlt_dec y (f_median t)); cbn [INR]; lra.
Qed.

Lemma fame_app {A : arith} (s : fame A) xs ys : fame_run s (xs ++ ys) = fame_run (fame_run s xs) ys.
Proof. apply fold_left_app. Qed.

Lemma fame_balance (step : R) s (xs ys : list R) : fame_new (A := RA) step 0 = Ret s -> 0 < step -> xs <> [] ->
  let a := fame_run s xs in
  let b := fame_run s (xs ++ ys) in
  f_step b = f_step a ->
  fame_evaluate b = fame_evaluate a + f_step a * (INR (larger a ys) - INR (smaller a ys)).
Proof.
  intros E0 Hs Hx. cbv zeta. rewrite fame_app. apply fame_new_fields in E0. subst s.
  intros E. apply fame_balance_from; auto.
  - rewrite fame_history. destruct xs; [congruence|cbn; lia].
  - apply fame_step_pos_RA; cbn; lra.
  - apply fame_eps.
Qed.

Lemma fame_median (step : R) s (x1 : R) (xs ys : list R) (lo hi : R) : fame_new (A := RA) step 0 = Ret s -> 0 < step ->
  Forall (fun x => lo <= x <= hi) (x1 :: xs ++ ys) ->
  let a := fame_run s (x1 :: xs) in
  let b := fame_run s (x1 :: xs ++ ys) in
  f_step b = f_step a ->
  Rabs (INR (larger a ys) - INR (smaller a ys)) <= (hi - lo + 2 * Rmax step (Rabs x1 / 2)) / f_step a.
Proof.
  intros E0 Hs HF. cbv zeta. intros E.
  pose proof (fame_balance step s (x1 :: xs) ys E0 Hs ltac:(discriminate)) as B. cbv zeta in B. cbn [app] in B. specialize (B E).
  pose proof (fame_range_exact step s x1 (xs ++ ys) lo hi E0 HF) as R1.
  assert (HF1 : Forall (fun x => lo <= x <= hi) (x1 :: xs)).
  { rewrite app_comm_cons in HF. now apply Forall_app in HF as [HF _]. }
  pose proof (fame_range_exact step s x1 xs lo hi E0 HF1) as R2.
  apply fame_new_fields in E0.
  assert (P : 0 < f_step (fame_run s (x1 :: xs))) by (subst s; apply fame_step_pos_RA; cbn; lra).
  set (a := fame_run s (x1 :: xs)) in * . set (b := fame_run s (x1 :: xs ++ ys)) in * . set (S := Rmax step (Rabs x1 / 2)) in * .
  set (d := INR (larger a ys) - INR (smaller a ys)) in * . clearbody d a b S. change (num RA) with R in * .
  apply Rmult_le_reg_r with (f_step a); [exact P|]. unfold Rdiv. rewrite Rmult_assoc, Rinv_l, Rmult_1_r by lra.
  rewrite <- (Rabs_right (f_step a)) at 1 by lra. rewrite <- Rabs_mult. apply Rabs_le. lra.
Qed.

(** k more observations equal to the estimate divide the step by 2^k. *)
Lemma zeros_halve k (t : fame RA) : f_history t <> 0%nat -> 0 < f_step t -> f_epsilon t = 0 ->
  let t' := fame_run t (repeat (f_median t) k) in
  f_median t' = f_median t /\ f_step t' = f_step t / 2 ^ k /\ f_history t' <> 0%nat.
Proof.
  cbv zeta. revert t. induction k as [|k IH]; intros t H Hs He.
  - cbn [repeat fame_run fold_left pow]. repeat split; auto. inR. change (f_step t = f_step t / 1). unfold Rdiv. now rewrite Rinv_1, Rmult_1_r.
  - cbn [repeat]. change (fame_run t (f_median t :: repeat (f_median t) k)) with (fame_run (fame_update t (f_median t)) (repeat (f_median t) k)).
    destruct (fame_move_RA t (f_median t) H) as [Em Es]. rewrite He in Es.
    assert (E1 : f_median (fame_update t (f_median t)) = f_median t).
    { rewrite Em. unfold sgn. change (num RA) with R in * . rewrite Rminus_diag_eq by auto. destruct (Rlt_dec 0 0); [lra|]. ring. }
    assert (E2 : f_step (fame_update t (f_median t)) = f_step t / 2).
    { rewrite Es, E1. change (num RA) with R in * . rewrite Rminus_diag_eq, Rabs_R0 by auto. destruct (Rlt_dec 0 (f_step t)); [inR; field|contradiction]. }
    destruct (IH (fame_update t (f_median t)) (next_history _ _)) as (A & B & C).
    + rewrite E2. cbn in *; lra.
    + now rewrite next_eps.
    + rewrite E1 in A, B, C. split; [exact A|]. split; [|exact C]. rewrite B, E2. cbn [pow]. inR; field. apply pow_nonzero. lra.
Qed.

(** Far away observations move the estimate by one step each. *)
Lemma far_moves n (t : fame RA) (c : R) : f_history t <> 0%nat -> 0 < f_step t -> f_epsilon t = 0 ->
  f_median t + (INR n + 1) * f_step t <= c ->
  f_median (fame_run t (repeat c n)) = f_median t + INR n * f_step t.
Proof.
  revert t. induction n as [|n IH]; intros t H Hs He Hc.
  - cbn [repeat fame_run fold_left INR]. inR. now rewrite Rmult_0_l, Rplus_0_r.
  - cbn [repeat]. change (fame_run t (c :: repeat c n)) with (fame_run (fame_update t c) (repeat c n)).
    rewrite S_INR in Hc |- * . pose proof (pos_INR n). change (num RA) with R in * .
    destruct (fame_move_RA t c H) as [Em Es]. rewrite He in Es.
    assert (E1 : f_median (fame_update t c) = f_median t + f_step t).
    { rewrite Em. unfold sgn. change (num RA) with R in * . destruct (Rlt_dec (c - f_median t) 0); [nra|]. destruct (Rlt_dec 0 (c - f_median t)); [ring|nra]. }
    assert (E2 : f_step (fame_update t c) = f_step t).
    { rewrite Es, E1. change (num RA) with R in * . match goal with |- context [if ?d then _ else _] => destruct d as [L|L] end; [|rewrite Rplus_0_r; apply Rmult_1_r].
      rewrite Rabs_right in L; nra. }
    rewrite IH; [rewrite E1, E2; inR; ring|apply next_history|now rewrite E2|now rewrite next_eps|].
    rewrite E1, E2. change (num RA) with R in * . lra.
Qed.

Lemma fame_misses (k : nat) (c : R) s : fame_new (A := RA) (1 / 10) 0 = Ret s -> 1 <= c ->
  fame_evaluate (fame_run s (repeat 0 (S k) ++ repeat c (5 * 2 ^ k))) = 1 / 2.
Proof.
  intros E0 Hc. apply fame_new_fields in E0. subst s. rewrite fame_app. unfold fame_evaluate.
  cbn [repeat]. change (fame_run ?s (0 :: ?l)) with (fame_run (fame_update s 0) l).
  set (t := fame_update _ 0).
  assert (Ht : f_history t <> 0%nat) by apply next_history.
  assert (Em : f_median t = 0) by (apply (fame_first (A := RA) Rltb_irrefl); reflexivity).
  assert (Es : f_step t = 1 / 10).
  { unfold t. rewrite fame_first_step_RA by reflexivity. cbn [f_step f_epsilon].
    rewrite Rabs_R0, Rmax_right by lra. inR. lra. }
  assert (Ee : f_epsilon t = 0) by reflexivity. clearbody t.
  destruct (zeros_halve k t Ht) as (A & B & C); [rewrite Es; lra|auto|]. rewrite Em in A, B, C. rewrite Es in B.
  change (@repeat (num RA)) with (@repeat R) in * . set (u := fame_run t (repeat 0 k)) in * . assert (Eu : f_epsilon u = 0) by (unfold u; rewrite fame_eps; auto). clearbody u.
  assert (P : 0 < 2 ^ k) by (apply pow_lt; lra). assert (P1 : 1 <= 2 ^ k) by (apply pow_R1_Rle; lra).
  assert (N : INR (5 * 2 ^ k) = 5 * 2 ^ k).
  { rewrite mult_INR, pow_INR. replace (INR 5) with 5 by (cbn [INR]; lra). replace (INR 2) with 2 by (cbn [INR]; lra). reflexivity. }
  assert (S1 : 0 < f_step u) by (rewrite B; apply Rdiv_lt_0_compat; lra).
  rewrite far_moves; auto.
  - rewrite A, B, N. inR; field. lra.
  - rewrite A, B, N. change (num RA) with R. apply Rle_trans with (1 / 2 + 1 / 10); [|lra].
    replace (0 + (5 * 2 ^ k + 1) * (1 / 10 / 2 ^ k)) with (1 / 2 + 1 / 10 * / 2 ^ k) by (field; lra).
    assert (/ 2 ^ k <= 1) by (rewrite <- Rinv_1; apply Rinv_le_contravar; lra). lra.
Qed.

(** Cases. *)
Lemma fame_balance_case : exists s, fame_new (A := RA) (1 / 10) 0 = Ret s /\
  f_step (fame_run s ([0] ++ [10; -10; 10])) = f_step (fame_run s [0]) /\ larger (fame_run s [0]) [10; -10; 10] = 2%nat.
Proof.
  exists (Fame (A := RA) 0 (1 / 10) 0 0). split.
  - unfold fame_new. cbn. unfold Rltb, Rleb. destruct (Rlt_dec 0 0); [lra|]. destruct (Rle_dec 1 0); [lra|]. reflexivity.
  - rewrite fame_app. set (t := fame_run _ [0]).
    assert (Ht : f_history t <> 0%nat) by (cbn; lia).
    assert (Em : f_median t = 0) by (apply (fame_first (A := RA) Rltb_irrefl); reflexivity).
    assert (Es : f_step t = 1 / 10).
    { unfold t. change (fame_run ?s [0]) with (fame_update s 0). rewrite fame_first_step_RA by reflexivity. cbn [f_step f_epsilon].
      rewrite Rabs_R0, Rmax_right by lra. inR. lra. }
    assert (Ee : f_epsilon t = 0) by reflexivity. clearbody t.
    assert (M : forall (u : fame RA) x, f_history u <> 0%nat -> f_epsilon u = 0 -> f_step u = 1 / 10 -> Rabs (x - f_median u) > 1 ->
      f_history (fame_update u x) <> 0%nat /\ f_epsilon (fame_update u x) = 0 /\ f_step (fame_update u x) = 1 / 10 /\
      f_median (fame_update u x) = f_median u + sgn (x - f_median u) * (1 / 10)).
    { intros u x Hu Eu Su Hx. destruct (fame_move_RA u x Hu) as [Fm Fs]. split; [apply next_history|]. split; [now rewrite next_eps|].
      rewrite Fs, Fm, Eu, Su. split; [|reflexivity]. change (num RA) with R in * .
      match goal with |- context [if ?d then _ else _] => destruct d as [L|L] end; [|lra].
      revert L Hx. unfold sgn, Rabs. destruct (Rlt_dec (x - f_median u) 0), (Rlt_dec 0 (x - f_median u)); repeat destruct (Rcase_abs _); lra. }
    cbn [fame_run fold_left larger]. unfold fame_evaluate.
    destruct (M t 10 Ht Ee Es) as (H1 & E1 & S1 & M1); [rewrite Em; rewrite Rabs_right; lra|]. rewrite Em in M1. unfold sgn in M1.
    destruct (Rlt_dec (10 - 0) 0); [lra|]. destruct (Rlt_dec 0 (10 - 0)); [|lra].
    set (t1 := fame_update t 10) in * . clearbody t1.
    destruct (M t1 (-10) H1 E1 S1) as (H2 & E2 & S2 & M2); [rewrite M1; rewrite Rabs_left; lra|]. rewrite M1 in M2. unfold sgn in M2.
    destruct (Rlt_dec (-10 - (0 + 1 * (1 / 10))) 0); [|lra].
    set (t2 := fame_update t1 (-10)) in * . clearbody t2.
    destruct (M t2 10 H2 E2 S2) as (H3 & E3 & S3 & M3); [rewrite M2; rewrite Rabs_right; lra|].
    rewrite S3, Es. split; [reflexivity|]. change (num RA) with R in * .
    rewrite Em, M1, M2. destruct (Rlt_dec 0 10); [|lra]. destruct (Rlt_dec (0 + 1 * (1 / 10)) (-10)); [lra|].
    destruct (Rlt_dec (0 + 1 * (1 / 10) + -1 * (1 / 10)) 10); [reflexivity|lra].
Qed.

Lemma fame_misses_median (k : nat) (c : R) s : fame_new (A := RA) (1 / 10) 0 = Ret s -> 1 <= c ->
  exists xs,
    length xs = (k + 1 + count_occ Req_EM_T xs c)%nat /\ count_occ Req_EM_T xs c = (5 * 2 ^ k)%nat /\
    fame_evaluate (fame_run s xs) = 1 / 2.
Proof.
  intros E Hc. exists (repeat 0 (S k) ++ repeat c (5 * 2 ^ k)).
  assert (Z : forall n, count_occ Req_EM_T (repeat 0 n) c = 0%nat).
  { induction n; cbn [repeat count_occ]; [reflexivity|]. destruct (Req_EM_T 0 c); [lra|auto]. }
  assert (C : forall n, count_occ Req_EM_T (repeat c n) c = n).
  { induction n; cbn [repeat count_occ]; [reflexivity|]. destruct (Req_EM_T c c); [now rewrite IHn|congruence]. }
  rewrite count_occ_app, Z, C, app_length, !repeat_length. split; [cbn [Nat.add]; lia|]. split; [reflexivity|].
  now apply fame_misses.
Qed.
