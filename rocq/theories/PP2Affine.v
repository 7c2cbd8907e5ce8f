(** Property C78: a change of the unit of measurement. *)

From Coq Require Import List Reals Lra Lia.
From Verif Require Import Outcome Arith P2 AskSpec P2Affine.
Import ListNotations.
Open Scope R_scope.

(** C78: in exact arithmetic and from five observations on, measuring in other
    units ([a > 0]) changes the quantile estimates and the IQR accordingly. *)
Theorem C78_p2_affine :
  forall (a b q : R) (xs : list R), 0 < a -> (5 <= length xs)%nat ->
    ask (p2_new (A := RA) q) p2_update p2_evaluate (map (fun x => a * x + b) xs) =
    omap (fun v => a * v + b) (ask (p2_new (A := RA) q) p2_update p2_evaluate xs).
Proof. exact (fun a b q xs Ha => p2_affine a b Ha q xs). Qed.
Print Assumptions C78_p2_affine.

Theorem C78_windowed_p2_affine :
  forall (a b q : R) (W : nat) (xs : list R), 0 < a -> (4 <= W)%nat -> (5 <= length xs)%nat ->
    ask (wp2_new (A := RA) q W) wp2_update wp2_evaluate (map (fun x => a * x + b) xs) =
    omap (fun v => a * v + b) (ask (wp2_new (A := RA) q W) wp2_update wp2_evaluate xs).
Proof. exact (fun a b q W xs Ha => wp2_affine a b Ha q W xs). Qed.
Print Assumptions C78_windowed_p2_affine.

Theorem C78_iqr_affine :
  forall (a b lo hi : R) (W : nat) (xs : list R), 0 < a -> (4 <= W)%nat -> (5 <= length xs)%nat ->
    ask (iqr_new_range (A := RA) lo hi W) iqr_update iqr_evaluate (map (fun x => a * x + b) xs) =
    omap (fun v => a * v) (ask (iqr_new_range (A := RA) lo hi W) iqr_update iqr_evaluate xs).
Proof. exact (fun a b lo hi W xs Ha => iqr_affine a b Ha lo hi W xs). Qed.
Print Assumptions C78_iqr_affine.

(** With fewer observations the answer may be one of the initial zeros, whatever
    the unit. *)
Theorem C78_p2_affine_small_refuted :
  exists (q : R) (xs : list R), 0 < q < 1 /\ xs <> [] /\
    ask (p2_new (A := RA) q) p2_update p2_evaluate xs = Ret 0 /\
    ask (p2_new (A := RA) q) p2_update p2_evaluate (map (fun x => 1 * x + 1) xs) = Ret 0.
Proof. exact (ex_intro _ (1 / 2) (ex_intro _ [1] (conj half_range (conj one_nonempty p2_small_shift)))). Qed.
Print Assumptions C78_p2_affine_small_refuted.

(** The answers compared above exist. *)
Example C78_example :
  ask (p2_new (A := RA) (1 / 2)) p2_update p2_evaluate [5; 1; 4; 2; 3] = Ret 3.
Proof. exact p2_five. Qed.
