(** Properties C81-C82: WindowedFAME and StreamingMAD in another unit. *)

From Coq Require Import List Reals Lra Lia.
From Verif Require Import Outcome Arith Fame FameSpec FameScale.
Import ListNotations.
Open Scope R_scope.

(** C81: exact arithmetic; [c] may be negative. *)
Theorem C81_fame_scale :
  forall (c step eps : R) s s' (xs : list R), c <> 0 ->
    fame_new (A := RA) step eps = Ret s -> fame_new (A := RA) (Rabs c * step) eps = Ret s' ->
    fame_evaluate (fame_run s' (map (Rmult c) xs)) = c * fame_evaluate (fame_run s xs).
Proof. exact (fun c step eps s s' xs H => fame_scale c H step eps s s' xs). Qed.
Print Assumptions C81_fame_scale.

Example C81_example : exists s s', fame_new (A := RA) (1 / 10) 0 = Ret s /\
  fame_new (A := RA) (Rabs (-3) * (1 / 10)) 0 = Ret s'.
Proof. exact fame_both. Qed.

(** C82: each observation after the first adds at most 0.1, whatever the data. *)
Theorem C82_mad_speed_limit :
  forall s (x : R) (xs : list R), mad_new (A := RA) = Ret s ->
    0 <= mad_evaluate (mad_run s (x :: xs)) <= INR (length xs) / 10.
Proof. exact mad_speed. Qed.
Print Assumptions C82_mad_speed_limit.

Theorem C82_mad_scale_refuted :
  forall s, mad_new (A := RA) = Ret s ->
    mad_evaluate (mad_run s [4; 10]) = 1 / 10 /\ mad_evaluate (mad_run s (map (Rmult 1000) [4; 10])) <= 1 / 10.
Proof. exact mad_not_scaled. Qed.
Print Assumptions C82_mad_scale_refuted.

Theorem C82_mad_negate :
  forall s (xs : list R), mad_new (A := RA) = Ret s ->
    mad_evaluate (mad_run s (map (Rmult (-1)) xs)) = mad_evaluate (mad_run s xs).
Proof. exact mad_negate. Qed.
Print Assumptions C82_mad_negate.

Example C82_example : exists s, mad_new (A := RA) = Ret s.
Proof. exact mad_exists. Qed.
