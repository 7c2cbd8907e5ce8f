(** Property: where the median estimate settles (C94). [map x (seq 0 n)] are the
    first n observations of the infinite stream x. *)

From Coq Require Import List Reals.
From Verif Require Import Outcome Arith Fame FameSpec FameTrack.
Import ListNotations.
Open Scope R_scope.

(** C94. With epsilon 0 (the default): when the observations stay in an interval
    from some time on, the estimate comes as close to that interval as one likes,
    whatever was observed before and whatever the step is by then. *)
Theorem C94_fame_settles :
  forall (step eps : R) s (x : nat -> R),
    fame_new (A := RA) step eps = Ret s -> 0 < step ->
    forall (lo hi : R) (T : nat) (e : R),
      eps = 0 -> (forall t, (T <= t)%nat -> lo <= x t <= hi) -> 0 < e ->
      exists N, forall n, (N <= n)%nat -> lo - e <= fame_evaluate (fame_run s (map x (seq 0 n))) <= hi + e.
Proof. exact fame_settles. Qed.
Print Assumptions C94_fame_settles.

(** With a positive epsilon the step grows again, and the estimate only stays
    within a multiple of the width. *)
Theorem C94_fame_settles_growing :
  forall (step eps : R) s (x : nat -> R),
    fame_new (A := RA) step eps = Ret s -> 0 < step ->
    forall (L d : R) (T : nat),
      0 < eps -> 0 < d -> (forall t, (T <= t)%nat -> Rabs (x t - L) <= d) ->
      exists N, forall n, (N <= n)%nat ->
        Rabs (fame_evaluate (fame_run s (map x (seq 0 n))) - L) <= (2 / eps + 3) * d.
Proof. exact fame_settles_growing. Qed.
Print Assumptions C94_fame_settles_growing.

(** So every convergent stream is followed to its limit, for every epsilon the
    constructor accepts. *)
Theorem C94_fame_follows_limits :
  forall (step eps : R) s (x : nat -> R),
    fame_new (A := RA) step eps = Ret s -> 0 < step ->
    forall L : R, Un_cv x L -> Un_cv (fun n => fame_evaluate (fame_run s (map x (seq 0 n)))) L.
Proof. exact fame_tracks. Qed.
Print Assumptions C94_fame_follows_limits.

(** StreamingMAD then tends to zero, and otherwise to at most the width. *)
Theorem C94_mad_vanishes :
  forall s (x : nat -> R) (L : R), mad_new (A := RA) = Ret s -> Un_cv x L ->
    Un_cv (fun n => mad_evaluate (mad_run s (map x (seq 0 n)))) 0.
Proof. exact mad_vanishes. Qed.
Print Assumptions C94_mad_vanishes.

Theorem C94_mad_settles :
  forall s (x : nat -> R) (lo hi : R) (T : nat) (e : R), mad_new (A := RA) = Ret s ->
    (forall t, (T <= t)%nat -> lo <= x t <= hi) -> 0 < e ->
    exists N, forall n, (N <= n)%nat -> mad_evaluate (mad_run s (map x (seq 0 n))) <= hi - lo + e.
Proof. exact mad_settles. Qed.
Print Assumptions C94_mad_settles.

Example C94_example :
  (exists s, fame_new (A := RA) (1 / 10) (1 / 2) = Ret s /\ Un_cv (fun n => 7 + / (INR n + 1)) 7) /\
  (exists s, fame_new (A := RA) (1 / 10) 0 = Ret s) /\ (exists s, mad_new (A := RA) = Ret s).
Proof. exact (conj track_case settle_case). Qed.
