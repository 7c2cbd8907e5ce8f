(** C121: of a far observation WindowedFAME and StreamingMAD see only the side. *)

From Coq Require Import List Reals ZArith.
From Flocq Require Import Core.Core IEEE754.BinarySingleNaN.
From Verif Require Import Outcome Arith Fame FameSpec FloatSpec FameFarSpec FameFar.
Import ListNotations.
Open Scope R_scope.

(** Two streams with the same first observation; k observations are far, on the
    same side in both. The complete states are equal, and the k far observations
    move the estimate at most k + 1 first steps out of the range of the others. *)
Theorem C121_only_the_side_counts :
  forall (step : R) s (x1 : R) (xs ys : list R) (lo hi : R) (k : nat),
    fame_new (A := RA) step 0 = Ret s -> lo <= x1 <= hi ->
    let S := Rmax step (Rabs x1 / 2) in
    same_but_far (fun x : R => x) (fun x => lo <= x <= hi) (lo - (INR k + 3) * S) (hi + (INR k + 3) * S) k xs ys ->
    fame_run s (x1 :: xs) = fame_run s (x1 :: ys) /\
    lo - (INR k + 1) * S <= fame_evaluate (fame_run s (x1 :: xs)) <= hi + (INR k + 1) * S.
Proof. exact fame_far. Qed.
Print Assumptions C121_only_the_side_counts.

(** First observation 2, step 1: one observation 7 or 1000000. *)
Example C121_only_the_side_counts_example :
  same_but_far (fun x : R => x) (fun x => 0 <= x <= 2) (0 - (INR 1 + 3) * 1) (2 + (INR 1 + 3) * 1) 1
    [1; 7; 2] [1; 1000000; 2].
Proof. exact far_data. Qed.

(** In doubles; a far observation may be infinite. *)
Theorem C121_only_the_side_counts_double :
  forall (step : double) s (x1 : double) (xs ys : list double) (lo hi : R) (k : nat),
    fame_new (A := B64) step (Bz 0) = Ret s -> finite64 step = true ->
    (finite64 x1 = true /\ lo <= B2R x1 <= hi) ->
    let S := Rmax (B2R step) (rnd (Rabs (B2R x1) / 2)) in
    climb S hi (k + 1) <= bpow radix2 1023 -> climb S (- lo) (k + 1) <= bpow radix2 1023 ->
    Forall (fun x => nan x = false) xs -> Forall (fun x => nan x = false) ys ->
    same_but_far X (fun x => finite64 x = true /\ lo <= B2R x <= hi)
      (- (climb S (- lo) (k + 1) + S)) (climb S hi (k + 1) + S) k xs ys ->
    fame_run s (x1 :: xs) = fame_run s (x1 :: ys) /\
    finite64 (fame_evaluate (fame_run s (x1 :: xs))) = true /\
    - climb S (- lo) k <= B2R (fame_evaluate (fame_run s (x1 :: xs))) <= climb S hi k.
Proof. exact fame_far_double. Qed.
Print Assumptions C121_only_the_side_counts_double.

(** Step 1, first observation 2: one observation 7 or infinity. *)
Example C121_only_the_side_counts_double_example :
  Rmax (B2R (Bz 1)) (rnd (Rabs (B2R (Bz 2)) / 2)) = 1 /\
  same_but_far X (fun x => finite64 x = true /\ 0 <= B2R x <= 2) (- (climb 1 (- 0) 2 + 1)) (climb 1 2 2 + 1) 1
    [Bz 0; Bz 7; Bz 2] [Bz 0; B754_infinity false; Bz 2] /\
  climb 1 2 2 <= bpow radix2 1023 /\ climb 1 (- 0) 2 <= bpow radix2 1023.
Proof. exact far_data_double. Qed.

Theorem C121_mad_only_the_side_counts :
  forall s (x1 : R) (xs ys : list R) (lo hi : R) (k : nat),
    mad_new (A := RA) = Ret s -> lo <= x1 <= hi ->
    let S := Rmax (1 / 10) (Rabs x1 / 2) in
    let K := hi - lo + (2 * INR k + 4) * S + (INR k + 3) * (1 / 10) in
    same_but_far (fun x : R => x) (fun x => lo <= x <= hi) (lo - K) (hi + K) k xs ys ->
    mad_run s (x1 :: xs) = mad_run s (x1 :: ys) /\
    mad_evaluate (mad_run s (x1 :: xs)) <= hi - lo + (INR k + 1) * S + (INR k + 1) * (1 / 10).
Proof. exact mad_far. Qed.
Print Assumptions C121_mad_only_the_side_counts.

(** First observation 2, range [0, 2]: K = 2 + 6 + 4/10 is below 10. *)
Example C121_mad_only_the_side_counts_example :
  same_but_far (fun x : R => x) (fun x => 0 <= x <= 2) (0 - 10) (2 + 10) 1 [1; -20; 2] [1; -3000; 2].
Proof. exact far_data_mad. Qed.

(** Refuted for the first observation: its size sets the step. *)
Theorem C121_first_observation_refuted :
  exists s, fame_new (A := B64) (lit 1 10) (Bz 0) = Ret s /\
    Beqb (fame_evaluate (fame_run s (map Bz [1000; 0]%Z : list B64)))
         (fame_evaluate (fame_run s (map Bz [2000; 0]%Z : list B64))) = false.
Proof. exact first_matters. Qed.
Print Assumptions C121_first_observation_refuted.
