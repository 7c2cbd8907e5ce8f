(** Property theorems C129: the double mean while nothing has left the window. *)

From Coq Require Import List Reals ZArith Bool.
From Flocq Require Import Core.Core IEEE754.BinarySingleNaN.
From Verif Require Import Outcome Arith Mean Spec MeanSpec FloatSpec MeanRel VarRel.
Import ListNotations.
Open Scope R_scope.

(** C129. The error is measured by the average magnitude of the observations,
    not by the largest one. *)
Theorem C129_mean_error_average :
  forall (W : nat) (xs : list double),
    (W = 0 \/ length xs <= W)%nat -> xs <> [] -> Forall (fun x => finite64 x = true) xs ->
    rsum (map (fun x => Rabs (B2R x)) xs) <= bpow radix2 1000 -> (Z.of_nat (length xs) <= 2 ^ 51)%Z ->
    exists s, update_all (mean_update (A := B64)) (mean_new W) xs = Ret s /\
      finite64 (mean_evaluate (A := B64) s) = true /\
      Rabs (B2R (mean_evaluate (A := B64) s) - avg (map B2R xs))
        <= (INR (length xs) + 1) * bpow radix2 (-52) * avg (map (fun x => Rabs (B2R x)) xs) + bpow radix2 (-1075).
Proof. exact mean_rel. Qed.
Print Assumptions C129_mean_error_average.

(** So it is a relative error for data that are not negative. *)
Theorem C129_mean_error_relative :
  forall (W : nat) (xs : list double),
    (W = 0 \/ length xs <= W)%nat -> xs <> [] -> Forall (fun x => finite64 x = true /\ 0 <= B2R x) xs ->
    rsum (map B2R xs) <= bpow radix2 1000 -> (Z.of_nat (length xs) <= 2 ^ 51)%Z ->
    exists s, update_all (mean_update (A := B64)) (mean_new W) xs = Ret s /\
      finite64 (mean_evaluate (A := B64) s) = true /\
      Rabs (B2R (mean_evaluate (A := B64) s) - avg (map B2R xs))
        <= (INR (length xs) + 1) * bpow radix2 (-52) * avg (map B2R xs) + bpow radix2 (-1075).
Proof. exact mean_rel_pos. Qed.
Print Assumptions C129_mean_error_relative.

Example C129_example : (3 = 0 \/ length [Bz 1; Bz 4; Bz 3] <= 3)%nat /\ [Bz 1; Bz 4; Bz 3] <> [] /\
  Forall (fun x => finite64 x = true /\ 0 <= B2R x) [Bz 1; Bz 4; Bz 3] /\
  rsum (map B2R [Bz 1; Bz 4; Bz 3]) <= bpow radix2 1000.
Proof. exact mean_rel_case. Qed.

(** The variance: the error is measured by the mean square of the observations. *)
Theorem C129_variance_error_mean_square :
  forall (W : nat) (xs : list double),
    (W = 0 \/ length xs <= W)%nat -> xs <> [] -> Forall (fun x => finite64 x = true) xs ->
    bpow radix2 (-1000) <= avg (map (fun x => B2R x * B2R x) xs) ->
    rsum (map (fun x => B2R x * B2R x) xs) <= bpow radix2 999 -> (Z.of_nat (length xs) <= 2 ^ 48)%Z ->
    exists s, update_all (variance_update (A := B64)) (variance_new W) xs = Ret s /\
      finite64 (variance_evaluate (A := B64) s) = true /\
      Rabs (B2R (variance_evaluate (A := B64) s) - pvar (map B2R xs))
        <= (INR (length xs) + 1) * bpow radix2 (-49) * avg (map (fun x => B2R x * B2R x) xs).
Proof. exact var_rel. Qed.
Print Assumptions C129_variance_error_mean_square.

Example C129_variance_example : (3 = 0 \/ length [Bz 1; Bz 4; Bz 3] <= 3)%nat /\
  bpow radix2 (-1000) <= avg (map (fun x => B2R x * B2R x) [Bz 1; Bz 4; Bz 3]) /\
  rsum (map (fun x => B2R x * B2R x) [Bz 1; Bz 4; Bz 3]) <= bpow radix2 999.
Proof. exact var_rel_case. Qed.

(** Constant data are not reproduced: the mean of three times 0.1 exceeds 0.1. *)
Theorem C129_constant_refuted :
  exists s, update_all (mean_update (A := B64)) (mean_new 0) [tenth; tenth; tenth] = Ret s /\
    Bltb tenth (mean_evaluate (A := B64) s) = true.
Proof. exact tenths. Qed.
Print Assumptions C129_constant_refuted.

(** Once the window slides half of the average of positive data can be lost. *)
Theorem C129_sliding_refuted :
  exists s, update_all (mean_update (A := B64)) (mean_new 2) [Bz (2 ^ 53); Bz 1; Bz 1] = Ret s /\
    B2R (mean_evaluate (A := B64) s) = / 2 /\ avg (map B2R (window_of 2 [Bz (2 ^ 53); Bz 1; Bz 1])) = 1.
Proof. exact half_lost. Qed.
Print Assumptions C129_sliding_refuted.
