(** WindowedFAME with a step of zero. *)

From Coq Require Import List Reals ZArith Lra Lia Bool Arith.
From Flocq Require Import Core.Core IEEE754.BinarySingleNaN.
From Verif Require Import Outcome Arith Fame FameSpec FloatSpec FloatFacts UtilsFacts FameFacts.
Import ListNotations.
Open Scope R_scope.

Definition zero64 (x : double) : bool := match x with B754_zero _ => true | _ => false end.

Lemma zero_times (x y : double) : zero64 x = true -> finite64 y = true -> zero64 (Bmul x y) = true.
Proof. destruct x; try discriminate. destruct y; try discriminate; reflexivity. Qed.

Lemma zero_sum (x y : double) : zero64 x = true -> zero64 y = true ->
  zero64 (Badd x y) = true /\ zero64 (Bsub x y) = true.
Proof.
  destruct x as [a| | |]; try discriminate. destruct y as [b| | |]; try discriminate.
  intros _ _. destruct a, b; split; reflexivity.
Qed.

Lemma abs_below_zero (x y : double) : zero64 y = true -> Bltb (Babs x) y = false.
Proof. destruct y as [b| | |]; try discriminate. intros _. destruct x; reflexivity. Qed.

Lemma dead_step (t : fame B64) (x : double) : f_history t <> 0%nat ->
  zero64 (f_median t) = true -> zero64 (f_step t) = true -> finite64 (Badd (Bz 1) (f_epsilon t)) = true ->
  zero64 (f_median (fame_update t x)) = true /\ zero64 (f_step (fame_update t x)) = true.
Proof.
  intros H Zm Zs Fe. unfold fame_update. apply Nat.eqb_neq in H. rewrite H.
  cbn [f_median f_step negb andb B64 ltb sub add mul div fabs of_Z].
  destruct (zero_sum _ _ Zm Zs) as [Z1 Z2]. rewrite abs_below_zero by exact Zs. split.
  - destruct (Bltb x (f_median t)); [exact Z2|]. destruct (Bltb (f_median t) x); auto.
  - apply zero_times; auto.
Qed.

Lemma one_plus (eps : double) : nan eps = false -> 0 <= X eps < 1 -> finite64 (Badd (Bz 1) eps) = true.
Proof.
  intros Hn He. assert (P53 : 1 < big) by (change 1 with (bpow radix2 0); apply bpow_lt; lia).
  assert (F : finite64 eps = true) by (apply fin_X; auto; rewrite Rabs_pos_eq; lra).
  destruct (Bz_exact 1) as [E1 F1]; [lia|]. destruct (X_add _ _ F1 F) as [HX Hn1].
  rewrite E1, <- (X_fin _ F) in HX. destruct (R64_small (1 + X eps) 1) as [H1 H2]; [lia| |].
  - rewrite Rabs_pos_eq by lra. change (bpow radix2 1) with 2. lra.
  - apply fin_X; auto. rewrite HX, H1. eapply Rle_lt_trans; [exact H2|]. apply bpow_lt. lia.
Qed.

Lemma fame_dead (step eps : double) s (z : double) (xs : list double) :
  fame_new (A := B64) step eps = Ret s -> nan eps = false -> Bltb (Bz 0) step = false -> zero64 z = true ->
  zero64 (fame_evaluate (fame_run s (z :: xs))) = true.
Proof.
  intros E Hn Hs Hz. destruct (fame_new_B64 step eps) as [Ht _].
  assert (He : 0 <= X eps < 1).
  { destruct (Rlt_le_dec (X eps) 0) as [L|L]; [exfalso|].
    - assert (K : fame_new (A := B64) step eps = Throw InvalidArgument) by (apply Ht; auto). congruence.
    - split; auto. destruct (Rlt_le_dec (X eps) 1) as [G|G]; auto. exfalso.
      assert (K : fame_new (A := B64) step eps = Throw InvalidArgument) by (apply Ht; auto). congruence. }
  pose proof (one_plus eps Hn He) as F1. apply fame_new_fields in E.
  assert (K : let t := fame_run s (z :: xs) in
    f_history t <> 0%nat /\ zero64 (f_median t) = true /\ zero64 (f_step t) = true /\ f_epsilon t = eps).
  { cbv zeta. induction xs as [|x xs IH] using rev_ind.
    - subst s. change (fame_run (Fame (of_Z 0) step eps 0) [z]) with (fame_update (A := B64) (Fame (of_Z 0) step eps 0) z).
      unfold fame_update. cbn [f_median f_step f_history f_epsilon Nat.eqb negb andb Nat.add]. split; [lia|].
      destruct z as [b| | |]; try discriminate. split; [destruct b; reflexivity|]. split; [|reflexivity].
      apply zero_times; auto. unfold max_. cbn [B64 fabs div of_Z ltb].
      replace (Bltb (Bquot (Babs (B754_zero b)) (Bz 2)) step) with (Bltb (Bz 0) step).
      + rewrite Hs. reflexivity.
      + reflexivity.
    - destruct IH as (H1 & H2 & H3 & H4). rewrite app_comm_cons, fame_run_snoc.
      set (t := fame_run s (z :: xs)) in * . destruct (dead_step t x H1 H2 H3) as [Z1 Z2]; [now rewrite H4|].
      repeat split; auto. unfold fame_update. cbn [f_history]. lia. }
  destruct K as (_ & Z & _). exact Z.
Qed.
