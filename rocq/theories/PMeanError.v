(** Properties C73-C75: rounding error of StreamingMean and StreamingVariance. *)

From Coq Require Import List Reals ZArith Lra Lia Bool Arith.
From Flocq Require Import Core.Core IEEE754.BinarySingleNaN.
From Verif Require Import Outcome Arith Mean Spec MeanSpec FloatSpec MeanError MeanGrowth VarError.
Import ListNotations.
Open Scope R_scope.

(** C73: an error bound for every stream of bounded doubles. *)
Theorem C73_mean_error_bound :
  forall (W : nat) (B : R) (xs : list double),
    0 <= B -> xs <> [] -> Forall (fun x => finite64 x = true /\ Rabs (B2R x) <= B) xs ->
    INR (length (window_of W xs)) * B <= bpow radix2 1000 -> (Z.of_nat (length xs) <= 2 ^ 51)%Z ->
    exists s, update_all (mean_update (A := B64)) (mean_new W) xs = Ret s /\
      finite64 (mean_evaluate (A := B64) s) = true /\
      Rabs (B2R (mean_evaluate (A := B64) s) - avg (map B2R (window_of W xs)))
        <= (2 * INR (length xs) + 1) * bpow radix2 (-52) * B + bpow radix2 (-1075).
Proof. exact mean_error. Qed.
Print Assumptions C73_mean_error_bound.

Example C73_example : 0 <= 4 /\ [Bz 1; Bz 4; Bz (-3)] <> [] /\
  Forall (fun x => finite64 x = true /\ Rabs (B2R x) <= 4) [Bz 1; Bz 4; Bz (-3)] /\
  INR (length (window_of 2 [Bz 1; Bz 4; Bz (-3)])) * 4 <= bpow radix2 1000.
Proof. exact mean_error_case. Qed.

(** C74: the error is not a function of the window: on some stream in [1/2, 1)
    it grows at every step, although the window holds two observations. *)
Theorem C74_mean_error_grows_refuted :
  exists item : nat -> double,
    (forall k, finite64 (item k) = true /\ / 2 <= B2R (item k) < 1) /\
    forall k, (Z.of_nat k <= 2 ^ 51)%Z ->
      exists s, update_all (mean_update (A := B64)) (mean_new 2) (map item (seq 0 (S k))) = Ret s /\
        finite64 (mean_evaluate (A := B64) s) = true /\
        B2R (mean_evaluate (A := B64) s) - avg (map B2R (window_of 2 (map item (seq 0 (S k))))) =
          INR k * bpow radix2 (-54).
Proof. exact (ex_intro _ drift_item (conj drift_item_range mean_growth)). Qed.
Print Assumptions C74_mean_error_grows_refuted.

Example C74_example :
  match update_all (mean_update (A := B64)) (mean_new 2) (map drift_item (seq 0 18)) with
  | Ret s => Beqb (mean_evaluate (A := B64) s) (lit (A := B64) (2 ^ 52 + 10) (2 ^ 53)) | _ => false end = true.
Proof. vm_compute. reflexivity. Qed.

(** C75: the variance; the second part bounds how negative it can get. *)
Theorem C75_variance_error_bound :
  forall (W : nat) (B : R) (xs : list double),
    bpow radix2 (-500) <= B -> xs <> [] -> Forall (fun x => finite64 x = true /\ Rabs (B2R x) <= B) xs ->
    INR (length (window_of W xs)) * (B * B) <= bpow radix2 999 -> (Z.of_nat (length xs) <= 2 ^ 48)%Z ->
    exists s, update_all (variance_update (A := B64)) (variance_new W) xs = Ret s /\
      finite64 (variance_evaluate (A := B64) s) = true /\
      Rabs (B2R (variance_evaluate (A := B64) s) - pvar (map B2R (window_of W xs)))
        <= (INR (length xs) + 1) * bpow radix2 (-49) * (B * B) /\
      - ((INR (length xs) + 1) * bpow radix2 (-49) * (B * B)) <= B2R (variance_evaluate (A := B64) s).
Proof. exact variance_error_sign. Qed.
Print Assumptions C75_variance_error_bound.

(** The error is not small relative to the variance. *)
Theorem C75_variance_cancellation_refuted :
  exists (x y : double) s, finite64 x = true /\ finite64 y = true /\
    update_all (variance_update (A := B64)) (variance_new 0) [x; y] = Ret s /\
    B2R (variance_evaluate (A := B64) s) = 0 /\ pvar (map B2R [x; y]) = / 4.
Proof. exact variance_cancels. Qed.
Print Assumptions C75_variance_cancellation_refuted.

Example C75_example : bpow radix2 (-500) <= 4 /\
  Forall (fun x => finite64 x = true /\ Rabs (B2R x) <= 4) [Bz 1; Bz 4; Bz (-3)] /\
  INR (length (window_of 2 [Bz 1; Bz 4; Bz (-3)])) * (4 * 4) <= bpow radix2 999.
Proof. exact variance_error_case. Qed.
