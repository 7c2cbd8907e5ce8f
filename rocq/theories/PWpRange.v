(** Property theorems C127: how far windowed quantile estimates leave the data. *)

From Coq Require Import List Reals ZArith Lra Lia Bool.
From Flocq Require Import Core.Core IEEE754.BinarySingleNaN.
From Verif Require Import Outcome Arith P2 Spec AskSpec FloatSpec P2Float P2Witness WpRange.
Import ListNotations.
Open Scope R_scope.

(** C127. Data between lo and hi: before the window is full the answer lies
    between them, afterwards at most (n mod windowSize) spreads outside. *)
Theorem C127_windowed_p2_range :
  forall (lo hi q : R) (W : nat) (xs : list R),
    0 < q < 1 -> (4 <= W)%nat -> (5 <= length xs)%nat -> (Z.of_nat (length xs) <= 2 ^ 31)%Z ->
    Forall (fun x => lo <= x <= hi) xs ->
    exists r, ask (wp2_new (A := RA) q W) wp2_update wp2_evaluate xs = Ret r /\
      let k := if Nat.ltb (length xs) W then 0 else INR (length xs mod W) in
      lo - k * (hi - lo) <= r <= hi + k * (hi - lo).
Proof. exact wp2_range. Qed.
Print Assumptions C127_windowed_p2_range.

(** Reached on either side (a < b or b < a), for every window size from 7 on. *)
Theorem C127_windowed_p2_range_reached :
  forall (q a b : R) (W : nat),
    0 < q < 1 -> (7 <= W)%nat -> (Z.of_nat (2 * W) <= 2 ^ 31)%Z ->
    ask (wp2_new (A := RA) q W) wp2_update wp2_evaluate (repeat a (W + 1) ++ repeat b (W - 2)) =
    Ret (b - INR ((W + 1 + (W - 2)) mod W) * (a - b)) /\ ((W + 1 + (W - 2)) mod W = W - 1)%nat.
Proof. exact wp2_reached. Qed.
Print Assumptions C127_windowed_p2_range_reached.

(** The first block decides, with a negative weight, long after it has left the
    window: e is the estimate of StreamingP2Quantile on it. *)
Theorem C127_windowed_p2_calm :
  forall (q : R) (W : nat) (xs : list R) (c : R) (m : nat),
    0 < q < 1 -> length xs = (W + 1)%nat -> (5 <= m)%nat -> (m + 2 <= W)%nat -> (Z.of_nat (W + 1 + m) <= 2 ^ 31)%Z ->
    exists e, ask (p2_new (A := RA) q) p2_update p2_evaluate xs = Ret e /\
      ask (wp2_new (A := RA) q W) wp2_update wp2_evaluate (xs ++ repeat c m) = Ret (c - (INR m + 1) * (e - c)).
Proof. exact wp2_calm. Qed.
Print Assumptions C127_windowed_p2_calm.

Theorem C127_iqr_range :
  forall (lo hi ql qh : R) (W : nat) (xs : list R),
    0 < ql < 1 -> 0 < qh < 1 -> (4 <= W)%nat -> (5 <= length xs)%nat -> (Z.of_nat (length xs) <= 2 ^ 31)%Z ->
    Forall (fun x => lo <= x <= hi) xs ->
    exists r, ask (iqr_new_range (A := RA) ql qh W) iqr_update iqr_evaluate xs = Ret r /\
      let k := if Nat.ltb (length xs) W then 0 else INR (length xs mod W) in
      Rabs r <= (2 * k + 1) * (hi - lo).
Proof. exact iqr_range. Qed.
Print Assumptions C127_iqr_range.

(** Data that have become constant: the answer is a negative multiple of the
    spread of the first block. *)
Theorem C127_iqr_calm :
  forall (ql qh : R) (W : nat) (xs : list R) (c : R) (m : nat),
    0 < ql < 1 -> 0 < qh < 1 -> length xs = (W + 1)%nat -> (5 <= m)%nat -> (m + 2 <= W)%nat ->
    (Z.of_nat (W + 1 + m) <= 2 ^ 31)%Z ->
    exists el eh, ask (p2_new (A := RA) ql) p2_update p2_evaluate xs = Ret el /\
      ask (p2_new (A := RA) qh) p2_update p2_evaluate xs = Ret eh /\
      ask (iqr_new_range (A := RA) ql qh W) iqr_update iqr_evaluate (xs ++ repeat c m) = Ret (- (INR m + 1) * (eh - el)).
Proof. exact iqr_calm. Qed.
Print Assumptions C127_iqr_calm.

(** The default quartiles in doubles: 1 to 8 and then five times 9. *)
Theorem C127_iqr_calm_double_refuted :
  exists (W : nat) (xs : list double) (s0 s s' : iqr B64) (v : double),
    iqr_new (A := B64) W = Ret s0 /\ update_all iqr_update s0 xs = Ret s /\ iqr_evaluate s = Ret (s', v) /\
    Forall (fun x => Bleb (Bz 1) x = true /\ Bleb x (Bz 9) = true) xs /\ Bleb v (Bz (-12)) = true.
Proof. exact iqr_calm_double. Qed.
Print Assumptions C127_iqr_calm_double_refuted.

Example C127_example :
  Forall (fun x => 0 <= x <= 1) (repeat 0 8 ++ repeat 1 5) /\
  ask (wp2_new (A := RA) (1 / 2) 7) wp2_update wp2_evaluate (repeat 0 8 ++ repeat 1 5) = Ret 7.
Proof. exact wp2_seven. Qed.
