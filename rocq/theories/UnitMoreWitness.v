(** Concrete runs for PUnitMore.v. *)

From Coq Require Import List Reals ZArith Bool Arith Lra Lia.
From Flocq Require Import Core.Core IEEE754.BinarySingleNaN.
From Verif Require Import Outcome Arith Histogram Fame P2 Spec FameSpec FloatSpec FloatFacts AskSpec UnitSpec UnitNum UnitFameSpec.
Import ListNotations.

Lemma zero_measured k e : measured k e (Bz 0).
Proof. split; [reflexivity|left; reflexivity]. Qed.

Lemma int_measured z k e : (1 <= z <= 2 ^ 53)%Z -> (0 <= e)%Z -> (53 <= e)%Z -> (- e <= k <= e - 53)%Z -> measured k e (Bz z).
Proof.
  intros Hz H0 He Hk. destruct (Bz_exact z) as [E F]; [lia|]. split; [exact F|]. rewrite E. right.
  rewrite Rabs_pos_eq by (apply IZR_le; lia).
  assert (L : (bpow radix2 0 <= IZR z <= bpow radix2 53)%R).
  { change (bpow radix2 0) with (IZR 1). change (bpow radix2 53) with (IZR (2 ^ 53)). split; apply IZR_le; lia. }
  pose proof (bpow_gt_0 radix2 k) as Pk. destruct L as [L1 L2].
  repeat split.
  - eapply Rle_trans; [|exact L1]. apply bpow_le. lia.
  - eapply Rle_trans; [exact L2|]. apply bpow_le. lia.
  - apply Rle_trans with (bpow radix2 0 * bpow radix2 k)%R; [rewrite <- bpow_plus; apply bpow_le; lia|]. apply Rmult_le_compat_r; lra.
  - apply Rle_trans with (bpow radix2 53 * bpow radix2 k)%R; [apply Rmult_le_compat_r; lra|]. rewrite <- bpow_plus. apply bpow_le; lia.
Qed.

Definition zeros_then_one : list double := repeat (Bz 0) 1100 ++ [Bz 1].

Lemma fame_long_runs :
  Beqb (fame_evaluate (fame_run (Fame (A := B64) (Bz 0) (Bz 1) (Bz 0) 0) zeros_then_one)) (Bz 0) = true /\
  Beqb (fame_evaluate (fame_run (Fame (A := B64) (Bz 0) (ldexp64 100 (Bz 1)) (Bz 0) 0) (map (ldexp64 100) zeros_then_one))) (Bz 0) = false /\
  Beqb (ldexp64 100 (fame_evaluate (fame_run (Fame (A := B64) (Bz 0) (Bz 1) (Bz 0) 0) zeros_then_one))) (Bz 0) = true.
Proof. vm_compute. auto. Qed.

Lemma fame_long_refuted : exists (k : Z) (xs : list double) (s0 s0' : fame B64),
  Forall (measured k 200) (Bz 1 :: xs) /\
  fame_new (A := B64) (Bz 1) (Bz 0) = Ret s0 /\ fame_new (A := B64) (ldexp64 k (Bz 1)) (Bz 0) = Ret s0' /\
  fame_evaluate (fame_run s0' (map (ldexp64 k) xs)) <> ldexp64 k (fame_evaluate (fame_run s0 xs)).
Proof.
  exists 100%Z, zeros_then_one, (Fame (A := B64) (Bz 0) (Bz 1) (Bz 0) 0), (Fame (A := B64) (Bz 0) (ldexp64 100 (Bz 1)) (Bz 0) 0).
  split; [|split; [reflexivity|split; [reflexivity|]]].
  - constructor; [apply int_measured; lia|]. apply Forall_app. split.
    + apply Forall_forall. intros y Hy. apply repeat_spec in Hy. subst y. apply zero_measured.
    + constructor; [apply int_measured; lia|constructor].
  - destruct fame_long_runs as (_ & B & C). intros E.
    assert (K : Beqb (ldexp64 100 (fame_evaluate (fame_run (Fame (A := B64) (Bz 0) (Bz 1) (Bz 0) 0) zeros_then_one))) (Bz 0) = false)
      by (exact (eq_trans (eq_sym (f_equal (fun z : double => Beqb z (Bz 0)) E)) B)).
    exact (Bool.diff_true_false (eq_trans (eq_sym C) K)).
Qed.

Definition three : list double := [Bz 1; Bz 2; Bz 4].
Definition quant (ys : list double) : outcome double :=
  let* h := update_all hist_update (hist_new (A := B64) 10 100 true) ys in hist_quantile h (@lit B64 1 2).
Definition odiff (a b : outcome double) : bool :=
  match a, b with Ret x, Ret y => negb (Beqb x y) && Beqb y y | _, _ => false end.

Lemma quantile_runs : odiff (quant (map (ldexp64 1) three)) (omap (ldexp64 1) (quant three)) = true.
Proof. vm_compute. reflexivity. Qed.

Lemma hist_quantile_refuted : exists (k : Z) (xs : list double) (v v' : double),
  Forall (measured k 800) xs /\ quant xs = Ret v /\ quant (map (ldexp64 k) xs) = Ret v' /\ v' <> ldexp64 k v.
Proof.
  pose proof quantile_runs as H. unfold odiff in H.
  destruct (quant (map (ldexp64 1) three)) as [v'| |] eqn:E1; [|discriminate|discriminate].
  destruct (quant three) as [v| |] eqn:E2; [|discriminate|discriminate].
  cbn [omap bind] in H. exists 1%Z, three, v, v'.
  split; [repeat (constructor; [apply int_measured; lia|]); constructor|]. split; [exact E2|]. split; [exact E1|].
  intros ->. apply andb_prop in H as [H1 H2]. rewrite H2 in H1. discriminate H1.
Qed.

Lemma unit_more_example :
  measured (-10) 300 (@lit B64 1 2) /\ Forall (measured (-10) 300) [Bz 1536; Bz 0; Bz 12345678] /\
  Forall (measured_pos (-10) 500) [Bz 1536; Bz 700; Bz 12345678; Bz 3; Bz 5; Bz 9] /\
  (exists s0, fame_new (A := B64) (@lit B64 1 2) (@lit B64 1 4) = Ret s0).
Proof.
  split; [|split; [|split]].
  - split; [reflexivity|]. right. assert (E : B2R (@lit B64 1 2) = bpow radix2 (-1)).
    { change (B2R (@lit B64 1 2)) with (F2R (Float radix2 4503599627370496 (-53))). unfold F2R. cbn [Fnum Fexp].
      change (IZR 4503599627370496) with (IZR (radix2 ^ 52)). rewrite IZR_Zpower by lia. rewrite <- bpow_plus. reflexivity. }
    rewrite E, Rabs_pos_eq by apply bpow_ge_0. rewrite <- bpow_plus. repeat split; apply bpow_le; lia.
  - constructor; [apply int_measured; lia|]. constructor; [apply zero_measured|]. constructor; [apply int_measured; lia|constructor].
  - repeat (constructor; [split; [apply int_measured; lia|match goal with |- (0 < B2R (Bz ?z))%R => destruct (Bz_exact z) as [E _]; [lia|rewrite E; apply IZR_lt; lia] end]|]).
    constructor.
  - eexists. reflexivity.
Qed.
