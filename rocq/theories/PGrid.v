(** C123: mean and variance of data on a grid are drift-free in doubles. *)

From Coq Require Import List Reals ZArith.
From Flocq Require Import Core.Core IEEE754.BinarySingleNaN.
From Verif Require Import Outcome Arith Mean Spec MeanSpec FloatSpec GridSpec MeanFacts GridFacts.
Import ListNotations.
Open Scope R_scope.

(** Multiples of 2^e (say prices in quarters) by integers up to B, B times the
    window at most 2^53, streams of any length: the result is the average of the
    window, rounded once. *)
Theorem C123_mean :
  forall (W : nat) (e B : Z) (xs : list double),
    (-1074 <= e <= 970)%Z -> (1 <= B)%Z -> xs <> [] -> Forall (grid e B) xs ->
    (B * Z.of_nat (kept W xs) <= 2 ^ 53)%Z ->
    exists s, update_all (mean_update (A := B64)) (mean_new W) xs = Ret s /\
      finite64 (mean_evaluate (A := B64) s) = true /\
      B2R (mean_evaluate (A := B64) s) = rnd (avg (map B2R (window_of W xs))).
Proof. exact mean_grid. Qed.
Print Assumptions C123_mean.

(** So it lies between the observations in the window; the mean of a constant
    window is that constant. *)
Theorem C123_mean_in_range :
  forall (W : nat) (e B : Z) (xs : list double) (lo hi : double),
    (-1074 <= e <= 970)%Z -> (1 <= B)%Z -> xs <> [] -> Forall (grid e B) xs ->
    (B * Z.of_nat (kept W xs) <= 2 ^ 53)%Z ->
    Forall (fun x => B2R lo <= B2R x <= B2R hi) (window_of W xs) ->
    exists s, update_all (mean_update (A := B64)) (mean_new W) xs = Ret s /\
      finite64 (mean_evaluate (A := B64) s) = true /\ B2R lo <= B2R (mean_evaluate (A := B64) s) <= B2R hi.
Proof. exact mean_grid_range. Qed.
Print Assumptions C123_mean_in_range.

(** Raising observations never lowers it, also when the window slides (without
    the grid this fails, C122). *)
Theorem C123_mean_monotone :
  forall (W : nat) (e B : Z) (xs ys : list double),
    (-1074 <= e <= 970)%Z -> (1 <= B)%Z -> Forall (grid e B) xs -> Forall (grid e B) ys ->
    (B * Z.of_nat (kept W xs) <= 2 ^ 53)%Z -> Forall2 (fun x y => B2R x <= B2R y) xs ys ->
    exists s t, update_all (mean_update (A := B64)) (mean_new W) xs = Ret s /\
      update_all (mean_update (A := B64)) (mean_new W) ys = Ret t /\
      B2R (mean_evaluate (A := B64) s) <= B2R (mean_evaluate (A := B64) t).
Proof. exact mean_grid_mono. Qed.
Print Assumptions C123_mean_monotone.

(** The variance: a function of the window alone, with four roundings. *)
Theorem C123_variance :
  forall (W : nat) (e B : Z) (xs : list double),
    (-1074 <= 2 * e <= 970)%Z -> (1 <= B)%Z -> xs <> [] -> Forall (grid e B) xs ->
    (B * B * Z.of_nat (kept W xs) <= 2 ^ 53)%Z ->
    let w := map B2R (window_of W xs) in
    exists s, update_all (variance_update (A := B64)) (variance_new W) xs = Ret s /\
      finite64 (variance_evaluate (A := B64) s) = true /\
      B2R (variance_evaluate (A := B64) s) =
        rnd (rnd (avg (map (fun r => r * r) w)) - rnd (rnd (avg w) * rnd (avg w))).
Proof. exact variance_grid. Qed.
Print Assumptions C123_variance.

(** Zero when the window is constant. *)
Theorem C123_variance_constant :
  forall (W : nat) (e B : Z) (xs : list double) (c : double),
    (-1074 <= 2 * e <= 970)%Z -> (1 <= B)%Z -> xs <> [] -> Forall (grid e B) xs ->
    (B * B * Z.of_nat (kept W xs) <= 2 ^ 53)%Z -> Forall (fun x => x = c) (window_of W xs) ->
    exists s, update_all (variance_update (A := B64)) (variance_new W) xs = Ret s /\
      finite64 (variance_evaluate (A := B64) s) = true /\ B2R (variance_evaluate (A := B64) s) = 0.
Proof. exact variance_grid_constant. Qed.
Print Assumptions C123_variance_constant.

(** With 2^k observations in the window: the population variance without any
    rounding error. *)
Theorem C123_variance_exact :
  forall (W : nat) (e B k : Z) (xs : list double),
    (-1074 <= 2 * (e - k))%Z -> (2 * e <= 970)%Z -> (0 <= k)%Z -> (1 <= B)%Z ->
    Forall (grid e B) xs -> (B * B * Z.of_nat (kept W xs) <= 2 ^ 53)%Z ->
    Z.of_nat (length (window_of W xs)) = (2 ^ k)%Z -> (B * B * 2 ^ (2 * k) <= 2 ^ 52)%Z ->
    exists s, update_all (variance_update (A := B64)) (variance_new W) xs = Ret s /\
      finite64 (variance_evaluate (A := B64) s) = true /\
      B2R (variance_evaluate (A := B64) s) = pvar (map B2R (window_of W xs)).
Proof. exact variance_grid_exact. Qed.
Print Assumptions C123_variance_exact.

(** Quarters up to 1000: with these e and B windows of up to 2^28 observations
    are allowed, and 2^14 for the exact variance. *)
Example C123_example :
  Forall (grid (-2) 4000) (map (fun z => Bquot (Bz z) (Bz 4)) [1; 10; 3999]%Z) /\
  (4000 * 4000 * 2 ^ 28 <= 2 ^ 53)%Z /\ (4000 * 4000 * 2 ^ (2 * 14) <= 2 ^ 52)%Z.
Proof. split; [exact grid_data|]. split; apply Z.leb_le; reflexivity. Qed.

(** Refuted off the grid: the mean of three observations 0.1 is larger than
    0.1. (Their variance is negative, C39.) *)
Theorem C123_constant_mean_refuted :
  exists s,
    update_all (mean_update (A := B64)) (mean_new 3) (repeat (lit 1 10) 3 : list double) = Ret s /\
    ltb (a := B64) (lit 1 10) (mean_evaluate s) = true.
Proof. exact constant_mean_refuted. Qed.
Print Assumptions C123_constant_mean_refuted.
