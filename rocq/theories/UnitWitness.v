(** Data that meet the hypotheses of C116, and changes of unit that are not powers
    of two. *)

From Coq Require Import List Reals ZArith Bool Arith Lra Lia.
From Flocq Require Import Core.Core IEEE754.BinarySingleNaN.
From Verif Require Import Outcome Arith Utils IBin Histogram Mean Spec FloatSpec FloatFacts AskSpec P2Witness UnitSpec UnitNum.
Import ListNotations.
Local Open Scope nat_scope.

Lemma integer_measured (z k e : Z) : (1 <= z <= 2 ^ 53)%Z -> (53 <= e)%Z -> (- e <= k <= 0)%Z -> measured_pos k e (Bz z).
Proof.
  intros Hz He Hk. destruct (Bz_exact z) as [E F]; [lia|]. unfold measured_pos, measured. rewrite E.
  assert (L : (1 <= IZR z)%R) by (apply IZR_le; lia). split; [|lra]. split; [exact F|].
  assert (U : (IZR z <= bp 53)%R) by (rewrite <- (IZR_Zpower radix2) by lia; apply IZR_le; exact (proj2 Hz)).
  pose proof (bpow_le radix2 53 e ltac:(lia)) as B1. pose proof (bpow_le radix2 (- e) 0 ltac:(lia)) as B2.
  pose proof (bpow_le radix2 (- e) k ltac:(lia)) as B3. pose proof (bpow_le radix2 k 0 ltac:(lia)) as B4.
  change (bp 0) with 1%R in B2, B4. pose proof (bpow_gt_0 radix2 k).
  right. rewrite Rabs_pos_eq by lra. repeat split; try lra; nra.
Qed.

Lemma unit_example :
  Forall (measured_pos (-10) 300) [Bz 1536; Bz 700; Bz 12345678] /\
  Forall (measured (-10) 800) [Bz 1536; Bz 700; Bz 12345678] /\
  ldexp64 (-10) (Bz 1536) = @lit B64 3 2 /\ ldexp64 (-10) (Bz 12345678) = Bquot (Bz 12345678) (Bz 1024).
Proof.
  split; [repeat (constructor; [apply integer_measured; lia|]); constructor|].
  split; [repeat (constructor; [apply (integer_measured _ (-10) 800); lia|]); constructor|].
  split; apply B2SF_inj; vm_compute; reflexivity.
Qed.

Lemma any_unit_hist :
  exists (c : double) (xs : list double) (h h' : hist B64), c = Bz 1000 /\ xs = [@lit B64 9999 10000; Bz 1] /\
    update_all hist_update (hist_new (A := B64) 10 100 true) xs = Ret h /\
    update_all hist_update (hist_new (A := B64) 10 100 true) (map (Bmul c) xs) = Ret h' /\
    hist_size h = 1 /\ hist_size h' = 2.
Proof.
  assert (T1 : ok (update_all hist_update (hist_new (A := B64) 10 100 true) [@lit B64 9999 10000; Bz 1]) (fun h => Nat.eqb (hist_size h) 1) = true) by (vm_compute; reflexivity).
  assert (T2 : ok (update_all hist_update (hist_new (A := B64) 10 100 true) (map (Bmul (Bz 1000)) [@lit B64 9999 10000; Bz 1])) (fun h => Nat.eqb (hist_size h) 2) = true) by (vm_compute; reflexivity).
  apply ok_true in T1 as (h & E1 & S1). apply ok_true in T2 as (h' & E2 & S2). apply Nat.eqb_eq in S1, S2.
  exists (Bz 1000), [@lit B64 9999 10000; Bz 1], h, h'. repeat (split; [first [reflexivity|assumption]|]). exact S2.
Qed.

Lemma any_unit_mean :
  exists (c : double) (xs : list double) (s s' : mean B64), c = Bz 10 /\ xs = [@lit B64 1 10; @lit B64 2 10] /\
    update_all mean_update (mean_new (A := B64) 100) xs = Ret s /\
    update_all mean_update (mean_new (A := B64) 100) (map (Bmul c) xs) = Ret s' /\
    mean_evaluate s' <> Bmul c (mean_evaluate s).
Proof.
  set (c := Bz 10). set (xs := [@lit B64 1 10; @lit B64 2 10]).
  assert (T : ok (update_all mean_update (mean_new (A := B64) 100) xs) (fun s =>
            ok (update_all mean_update (mean_new (A := B64) 100) (map (Bmul c) xs)) (fun s' =>
              negb (@eqb B64 (mean_evaluate s') (Bmul c (mean_evaluate s))) && @eqb B64 (mean_evaluate s') (mean_evaluate s'))) = true) by (vm_compute; reflexivity).
  apply ok_true in T as (s & E1 & T). apply ok_true in T as (s' & E2 & T). apply andb_prop in T as [T1 T2].
  exists c, xs, s, s'. repeat (split; [first [reflexivity|assumption]|]).
  intros E. apply negb_true_iff in T1. change (num B64) with double in * . rewrite <- E in T1. rewrite T1 in T2. discriminate T2.
Qed.
