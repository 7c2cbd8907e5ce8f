(** Property C99: reflecting the data, in doubles. *)

From Coq Require Import List Arith Bool ZArith.
From Flocq Require Import IEEE754.BinarySingleNaN.
From Verif Require Import Outcome Arith IBin Histogram Mean Fame P2 Spec FloatSpec FameSpec MirrorSpec
  P2Witness HistWitness Mirror.
Import ListNotations.

(** C99: on negated data, whatever it contains, the mean is negated ... *)
Theorem C99_mean_reflection :
  forall (windowSize : nat) (xs ys : list double) (s : mean B64), Forall2 opposite xs ys ->
    update_all mean_update (mean_new (A := B64) windowSize) xs = Ret s ->
    exists t : mean B64, update_all mean_update (mean_new (A := B64) windowSize) ys = Ret t /\
      opposite (mean_evaluate s) (mean_evaluate t).
Proof. exact mean_reflection. Qed.
Print Assumptions C99_mean_reflection.

(** ... the variance is the same double ... *)
Theorem C99_variance_reflection :
  forall (windowSize : nat) (xs ys : list double) (s : variance B64), Forall2 opposite xs ys ->
    update_all variance_update (variance_new (A := B64) windowSize) xs = Ret s ->
    exists t : variance B64, update_all variance_update (variance_new (A := B64) windowSize) ys = Ret t /\
      variance_evaluate t = variance_evaluate s.
Proof. exact variance_reflection. Qed.
Print Assumptions C99_variance_reflection.

(** ... the FAME estimate is negated ... *)
Theorem C99_fame_reflection :
  forall (stepSize epsilon : double) (xs ys : list double) (s : fame B64), Forall2 opposite xs ys ->
    fame_new (A := B64) stepSize epsilon = Ret s ->
    opposite (fame_evaluate (fame_run s xs)) (fame_evaluate (fame_run s ys)).
Proof. exact fame_reflection. Qed.
Print Assumptions C99_fame_reflection.

(** ... and the MAD is the same double. *)
Theorem C99_mad_reflection :
  forall (xs ys : list double) (s : mad B64), Forall2 opposite xs ys -> mad_new (A := B64) = Ret s ->
    mad_evaluate (mad_run s ys) = mad_evaluate (mad_run s xs).
Proof. exact mad_reflection. Qed.
Print Assumptions C99_mad_reflection.

(** Data to which this applies, with a NaN, infinities and zeros. *)
Example C99_example :
  Forall2 opposite [B754_nan; B754_infinity true; B754_zero false; Bz 3] [B754_nan; B754_infinity false; B754_zero false; Bz (-3)] /\
  match update_all mean_update (mean_new (A := B64) 2) [B754_nan; B754_infinity true; B754_zero false; Bz 3] with Ret _ => True | _ => False end.
Proof.
  split; [|vm_compute; exact I].
  repeat constructor; (left; split; reflexivity) || (right; vm_compute; reflexivity).
Qed.

(** The P2 median is not symmetric: 4 for 1, 2, 4, ..., 64 (whose median is 8), and
    less than -9 for their negatives. *)
Theorem C99_p2_reflection_refuted :
  exists (s t s' t' : p2 B64) (a b : double),
    p2_stream (lit 1 2) [1; 2; 4; 8; 16; 32; 64]%Z = Ret s /\ p2_evaluate s = Ret (s', a) /\
    p2_stream (lit 1 2) (map Z.opp [1; 2; 4; 8; 16; 32; 64]%Z) = Ret t /\ p2_evaluate t = Ret (t', b) /\
    Beqb a (Bz 4) = true /\ Bltb b (Bz (-9)) = true.
Proof. exact p2_not_mirrored. Qed.
Print Assumptions C99_p2_reflection_refuted.

(** Neither are the bins: of 0, 1, 2 as of 0, -1, -2 the two leftmost share a bin. *)
Theorem C99_histogram_reflection_refuted :
  exists (h g : hist B64) (b1 b2 c1 c2 : bin B64),
    hist_stream 2 3 [0; 1; 2]%Z = Ret h /\ hist_stream 2 3 [0; -1; -2]%Z = Ret g /\
    h_bins h = [b1; b2] /\ h_bins g = [c1; c2] /\
    b_count b1 = 2 /\ b_count b2 = 1 /\ b_count c1 = 2 /\ b_count c2 = 1.
Proof. exact hist_not_mirrored. Qed.
Print Assumptions C99_histogram_reflection_refuted.
