(** C124: WindowedFAME in doubles computes exactly what real arithmetic would,
    as long as the step stays on the grid of the data. *)

From Coq Require Import List Reals ZArith.
From Flocq Require Import Core.Core IEEE754.BinarySingleNaN.
From Verif Require Import Outcome Arith Fame FameSpec FloatSpec GridSpec FameGridFacts.
Import ListNotations.
Open Scope R_scope.

(** Observations and first step are multiples of 2^g, and so is the step the
    real-arithmetic run ends with (it has been halved no further than 2^g):
    median and step agree. With this the theorems about FAME over the reals (C54,
    C76, C87) speak about the doubles. *)
Theorem C124_fame :
  forall (g B C : Z) (step x : double) (xs : list double) (s : fame B64) (t : fame RA),
    (-1073 <= g <= 970)%Z -> (0 <= B)%Z -> (0 <= C)%Z -> (2 * B + 2 * C <= 2 ^ 53)%Z ->
    finite64 step = true -> Forall (grid g B) (x :: xs) -> on_grid g C (Rmax (Rabs (B2R x) / 2) (B2R step)) ->
    fame_new (A := B64) step (Bz 0) = Ret s -> fame_new (A := RA) (B2R step) 0 = Ret t ->
    (exists K, on_grid g K (f_step (fame_run t (map B2R (x :: xs) : list RA)))) ->
    finite64 (f_median (fame_run s (x :: xs))) = true /\ finite64 (f_step (fame_run s (x :: xs))) = true /\
    B2R (f_median (fame_run s (x :: xs))) = f_median (fame_run t (map B2R (x :: xs) : list RA)) /\
    B2R (f_step (fame_run s (x :: xs))) = f_step (fame_run t (map B2R (x :: xs) : list RA)).
Proof. exact fame_grid_exact. Qed.
Print Assumptions C124_fame.

(** For short streams no knowledge of the run is needed. *)
Theorem C124_fame_short :
  forall (e B C : Z) (step x : double) (xs : list double) (s : fame B64) (t : fame RA),
    (-1073 + Z.of_nat (length xs) <= e <= 970)%Z -> (0 <= B)%Z -> (0 <= C)%Z ->
    ((2 * B + 2 * C) * 2 ^ Z.of_nat (length xs) <= 2 ^ 53)%Z ->
    finite64 step = true -> Forall (grid e B) (x :: xs) -> on_grid e C (Rmax (Rabs (B2R x) / 2) (B2R step)) ->
    fame_new (A := B64) step (Bz 0) = Ret s -> fame_new (A := RA) (B2R step) 0 = Ret t ->
    finite64 (f_median (fame_run s (x :: xs))) = true /\ finite64 (f_step (fame_run s (x :: xs))) = true /\
    B2R (f_median (fame_run s (x :: xs))) = f_median (fame_run t (map B2R (x :: xs) : list RA)) /\
    B2R (f_step (fame_run s (x :: xs))) = f_step (fame_run t (map B2R (x :: xs) : list RA)).
Proof. exact fame_short_exact. Qed.
Print Assumptions C124_fame_short.

(** Up to 31 integers of up to 2^20, integer step. *)
Theorem C124_integers :
  forall (c : Z) (zs : list Z) (s : fame B64) (t : fame RA),
    (Z.abs c <= 2 ^ 20)%Z -> Forall (fun z => (Z.abs z <= 2 ^ 20)%Z) zs -> (1 <= length zs <= 31)%nat ->
    fame_new (A := B64) (Bz c) (Bz 0) = Ret s -> fame_new (A := RA) (IZR c) 0 = Ret t ->
    B2R (fame_evaluate (fame_run s (map Bz zs : list B64))) = fame_evaluate (fame_run t (map IZR zs : list RA)).
Proof. exact fame_integers. Qed.
Print Assumptions C124_integers.

(** Longer streams of small integers leave the grid: after 60 halvings the
    doubles lose the step. *)
Theorem C124_long_refuted :
  exists (zs : list Z) (s : fame B64) (t : fame RA),
    Forall (fun z => (2 <= z <= 4)%Z) zs /\ length zs = 63%nat /\
    fame_new (A := B64) (Bz 1) (Bz 0) = Ret s /\ fame_new (A := RA) 1 0 = Ret t /\
    f_median (fame_run s (map Bz zs : list B64)) = Bz 3 /\ 3 < f_median (fame_run t (map IZR zs : list RA)).
Proof. exact fame_long_differs. Qed.
Print Assumptions C124_long_refuted.

Example C124_example : exists s, fame_new (A := B64) (Bz 1) (Bz 0) = Ret s /\
  fame_evaluate (fame_run s (map Bz [10; 30; 12; 14; -7; 11; 8]%Z : list B64)) = Bquot (Bz 75) (Bz 8).
Proof. eexists. split; [reflexivity|]. apply B2SF_inj. vm_compute. reflexivity. Qed.
