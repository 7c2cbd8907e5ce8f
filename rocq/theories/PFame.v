(** Properties C52-C56, C63, C65: WindowedFAME and StreamingMAD. *)

From Coq Require Import List Reals ZArith Lra Lia Bool Arith.
From Flocq Require Import Core.Core IEEE754.BinarySingleNaN.
From Verif Require Import Outcome Arith Fame FameSpec FloatSpec FameFacts Defaults.
Import ListNotations.
Open Scope R_scope.

(** C52. NaN as epsilon is accepted. *)
Theorem C52_fame_constructor :
  forall step eps : double,
    (fame_new (A := B64) step eps = Throw InvalidArgument <->
       nan eps = false /\ (X eps < 0 \/ 1 <= X eps)) /\
    (forall s, fame_new (A := B64) step eps = Ret s ->
       fame_evaluate s = B754_zero false /\ f_step s = step /\ f_epsilon s = eps /\ f_history s = 0%nat).
Proof. exact fame_new_B64. Qed.
Print Assumptions C52_fame_constructor.

Theorem C52_fame_first_observation :
  forall (step eps : double) s (x : double),
    fame_new (A := B64) step eps = Ret s -> fame_evaluate (fame_run s [x]) = x.
Proof. exact (fun step eps s x E => fame_constant_B64 step eps s x 0 E). Qed.
Print Assumptions C52_fame_first_observation.

Example C52_example :
  match fame_new (A := B64) (lit 1 10) (Bz 0) with Ret _ => true | _ => false end = true /\
  match fame_new (A := B64) (lit 1 10) (Bz 1) with Throw InvalidArgument => true | _ => false end = true /\
  match fame_new (A := B64) (lit 1 10) (Bz (-1)) with Throw InvalidArgument => true | _ => false end = true /\
  match fame_new (A := B64) (lit 1 10) (Bquot (Bz 0) (Bz 0)) with Ret _ => true | _ => false end = true.
Proof. repeat split; vm_compute; reflexivity. Qed.

(** C53, exact arithmetic. *)
Theorem C53_fame_moves_one_step :
  forall (step eps : R) s (xs : list R) (x : R),
    fame_new (A := RA) step eps = Ret s -> 0 < step -> xs <> [] ->
    let a := fame_run s xs in
    let b := fame_run s (xs ++ [x]) in
    fame_evaluate b = fame_evaluate a + sgn (x - fame_evaluate a) * f_step a /\
    0 < f_step a /\
    f_step b = (if Rlt_dec (Rabs (x - fame_evaluate b)) (f_step a) then f_step a / 2 else f_step a) * (1 + eps) /\
    (eps = 0 -> f_step b <= f_step a).
Proof. exact fame_move. Qed.
Print Assumptions C53_fame_moves_one_step.

Example C53_example : exists s, fame_new (A := RA) (1 / 10) (1 / 2) = Ret s.
Proof.
  unfold fame_new. cbn. unfold Rltb, Rleb.
  destruct (Rlt_dec (1 / 2) 0); [lra|]. destruct (Rle_dec 1 (1 / 2)); [lra|]. simpl. eauto.
Qed.

(** C54, exact and in doubles. *)
Theorem C54_fame_range_exact :
  forall (step : R) s (x1 : R) (xs : list R) (lo hi : R),
    fame_new (A := RA) step 0 = Ret s ->
    Forall (fun x => lo <= x <= hi) (x1 :: xs) ->
    lo - Rmax step (Rabs x1 / 2) <= fame_evaluate (fame_run s (x1 :: xs)) <= hi + Rmax step (Rabs x1 / 2).
Proof. exact fame_range_exact. Qed.
Print Assumptions C54_fame_range_exact.

Theorem C54_fame_range_double :
  forall (step : double) s (x1 : double) (xs : list double) (lo hi : R),
    fame_new (A := B64) step (Bz 0) = Ret s ->
    finite64 step = true -> B2R step <= bpow radix2 1022 ->
    - bpow radix2 1022 <= lo -> hi <= bpow radix2 1022 ->
    Forall (fun x => finite64 x = true /\ lo <= B2R x <= hi) (x1 :: xs) ->
    let S := Rmax (B2R step) (rnd (Rabs (B2R x1) / 2)) in
    let r := fame_evaluate (fame_run s (x1 :: xs)) in
    finite64 r = true /\ rnd (lo - S) <= B2R r <= rnd (hi + S).
Proof. exact fame_range_double. Qed.
Print Assumptions C54_fame_range_double.

(** The data range itself is left: after 4, 3 the estimate is 2. *)
Example C54_example :
  match fame_new (A := B64) (lit 1 10) (Bz 0) with
  | Ret s => Beqb (fame_evaluate (fame_run s (map Bz [4; 3]%Z : list B64))) (Bz 2)
  | _ => false end = true.
Proof. vm_compute. reflexivity. Qed.

(** C55, any double, step and epsilon. *)
Theorem C55_fame_constant :
  forall (step eps : double) s (c : double) (n : nat),
    fame_new (A := B64) step eps = Ret s -> fame_evaluate (fame_run s (repeat c (S n))) = c.
Proof. exact fame_constant_B64. Qed.
Print Assumptions C55_fame_constant.

Example C55_example :
  match fame_new (A := B64) (lit 1 10) (lit 1 2) with
  | Ret s => Beqb (fame_evaluate (fame_run s (repeat (lit 7 3 : B64) 20))) (lit (A := B64) 7 3)
  | _ => false end = true.
Proof. vm_compute. reflexivity. Qed.

(** C56: a non-negative integer multiple of the step [0.1 / 2^j]. *)
Theorem C56_mad_multiple_of_step :
  forall (xs : list R) s, mad_new (A := RA) = Ret s ->
    exists k j : nat,
      mad_evaluate (mad_run s xs) = INR k * (1 / 10 / 2 ^ j) /\
      f_step (a_error (mad_run s xs)) = 1 / 10 / 2 ^ j.
Proof. exact mad_multiple_RA. Qed.
Print Assumptions C56_mad_multiple_of_step.

Theorem C56_mad_nonnegative_exact :
  forall (xs : list R) s, mad_new (A := RA) = Ret s -> 0 <= mad_evaluate (mad_run s xs).
Proof. exact mad_nonneg_RA. Qed.
Print Assumptions C56_mad_nonnegative_exact.

Theorem C56_mad_nonnegative_double_refuted :
  exists s, mad_new (A := B64) = Ret s /\
    Bltb (mad_evaluate (mad_run s (map Bz [8; 0; 2; 4; 2; 1; 1; 1]%Z : list B64))) (Bz 0) = true.
Proof. exact mad_negative. Qed.
Print Assumptions C56_mad_nonnegative_double_refuted.

(** A constant stream has deviation zero. *)
Theorem C56_mad_constant :
  forall s (c : double) (n : nat), finite64 c = true -> mad_new (A := B64) = Ret s ->
    finite64 (mad_evaluate (mad_run s (repeat c n))) = true /\
    B2R (mad_evaluate (mad_run s (repeat c n))) = 0.
Proof. exact mad_constant_B64. Qed.
Print Assumptions C56_mad_constant.

Example C56_example : exists s, mad_new (A := RA) = Ret s.
Proof.
  unfold mad_new, fame_new. cbn. unfold Rltb, Rleb.
  destruct (Rlt_dec 0 0); [lra|]. destruct (Rle_dec 1 0); [lra|]. simpl. eauto.
Qed.

(** C63: once the step has underflowed to zero no data moves the estimate. *)
Theorem C63_fame_freezes :
  forall (step : double) s (c : double) (n : nat) (ys : list double),
    fame_new (A := B64) step (Bz 0) = Ret s ->
    finite64 step = true -> finite64 c = true -> (2100 <= n)%nat ->
    let r := fame_evaluate (fame_run s (repeat c n ++ ys)) in
    finite64 r = true /\ B2R r = B2R c.
Proof. exact fame_freezes_new. Qed.
Print Assumptions C63_fame_freezes.

(** Default step: the later observations 100, ..., 100 do not move the estimate
    off 1 after 1100 ones already. *)
Example C63_example :
  match fame_new (A := B64) (lit 1 10) (Bz 0) with
  | Ret s => Beqb (fame_evaluate (fame_run s (repeat (Bz 1 : B64) 1100 ++ repeat (Bz 100 : B64) 50))) (Bz 1)
  | _ => false end = true.
Proof. vm_compute. reflexivity. Qed.

(** C65. [f] is a fresh estimator with the default parameters. *)
Theorem C65_mad_composition :
  forall (A : arith) (f : fame A) (s : mad A) xs,
    fame_new (lit 1 10) (of_Z 0) = Ret f -> mad_new = Ret s ->
    mad_evaluate (mad_run s xs) = fame_evaluate (fame_run f (deviations f xs)) /\
    a_history (mad_run s xs) = length xs.
Proof. exact @mad_two_fames. Qed.
Print Assumptions C65_mad_composition.

Theorem C65_mad_default_parameters :
  exists s, mad_new (A := B64) = Ret s /\
    B2R (f_step (a_score s)) = rnd (1 / 10) /\ B2R (f_step (a_error s)) = rnd (1 / 10) /\
    B2R (f_epsilon (a_score s)) = 0 /\ B2R (f_epsilon (a_error s)) = 0 /\
    B2R (f_median (a_score s)) = 0 /\ B2R (f_median (a_error s)) = 0.
Proof. exact mad_default. Qed.
Print Assumptions C65_mad_default_parameters.

(** Both constructors succeed in doubles; the deviations of 4, 8, 6 are
    computed with the medians 4, 6, 6. *)
Example C65_example :
  match fame_new (A := B64) (lit 1 10) (of_Z 0), mad_new (A := B64) with
  | Ret f, Ret s =>
      match deviations f (map Bz [4; 8; 6]%Z : list B64) with
      | [a; b; c] => Beqb a (Bz 0) && Beqb b (Bz 2) && Beqb c (Bz 0)
      | _ => false end
  | _, _ => false end = true.
Proof. vm_compute. reflexivity. Qed.
