(** Properties C36-C40: StreamingMean and StreamingVariance. *)

From Coq Require Import List Reals ZArith Lra Lia Bool Arith.
From Flocq Require Import Core.Core IEEE754.BinarySingleNaN.
From Verif Require Import Outcome Arith Mean Spec MeanSpec FloatSpec MeanFacts.
Import ListNotations.
Open Scope R_scope.

(** C36: exact arithmetic; [avg [] = 0]. *)
Theorem C36_mean_is_window_average :
  forall (W : nat) (xs : list R),
    exists s, update_all (mean_update (A := RA)) (mean_new W) xs = Ret s /\
      mean_evaluate (A := RA) s = avg (window_of W xs).
Proof. exact mean_exact. Qed.
Print Assumptions C36_mean_is_window_average.

Example C36_example : avg (window_of 2 [1; 2; 4]) = 3 /\ avg (window_of 0 [1; 2; 6]) = 3.
Proof. unfold avg, window_of, lastn; simpl. split; lra. Qed.

(** C37: any arithmetic, bit for bit. *)
Theorem C37_mean_window_contents :
  forall (A : arith) (W : nat) (xs : list A),
    exists s, update_all mean_update (mean_new W) xs = Ret s /\
      mn_window s = (if Nat.ltb 0 W then Some (lastn W xs) else None) /\
      mn_history s = length xs.
Proof. exact @mean_window_facts. Qed.
Print Assumptions C37_mean_window_contents.

Example C37_example : lastn 3 [1; 2; 3; 4; 5] = [3; 4; 5] /\ length (lastn 3 [1;2;3;4;5]) = 3%nat.
Proof. split; reflexivity. Qed.

(** C38: integer observations are averaged with a single rounding. *)
Theorem C38_mean_of_integers_correctly_rounded :
  forall (W : nat) (B : Z) (zs : list Z), (1 <= B)%Z -> zs <> [] ->
    Forall (fun z => Z.abs z <= B)%Z zs ->
    (B * Z.of_nat (match W with O => length zs | _ => W end) <= 2 ^ 53)%Z ->
    exists s, update_all (mean_update (A := B64)) (mean_new W) (map Bz zs) = Ret s /\
      finite64 (mean_evaluate (A := B64) s) = true /\
      B2R (mean_evaluate (A := B64) s) =
        rnd (IZR (zsum (window_of W zs)) / INR (length (window_of W zs))).
Proof. exact mean_int. Qed.
Print Assumptions C38_mean_of_integers_correctly_rounded.

Example C38_example :
  (1 <= 1000000)%Z /\ Forall (fun z => Z.abs z <= 1000000)%Z [5; -7; 1000000; 3]%Z /\
  (1000000 * Z.of_nat 3 <= 2 ^ 53)%Z /\ zsum (window_of 3 [5; -7; 1000000; 3]%Z) = 999996%Z.
Proof. repeat split; try lia. repeat constructor; simpl; lia. Qed.

(** The running sum does not forget: mean of two ones reported as one half. *)
Theorem C38_mean_drift_refuted :
  exists x y s : double, exists st,
    finite64 x = true /\ finite64 y = true /\
    update_all (mean_update (A := B64)) (mean_new 2) [x; y; y] = Ret st /\
    Beqb (mean_evaluate (A := B64) st) s = true /\ Beqb y (Bmul (Bz 2) s) = true /\
    Beqb y (Bz 1) = true.
Proof. exact mean_drift. Qed.
Print Assumptions C38_mean_drift_refuted.

(** One NaN makes every later result NaN; one infinity does from the moment it
    leaves the window. *)
Theorem C38_mean_contaminated_forever_refuted :
  forall (W : nat) (pre post : list double) (x : double), (1 <= W)%nat ->
    finite64 x = false -> (nan x = false -> (W <= length post)%nat) ->
    exists s, update_all (mean_update (A := B64)) (mean_new W) (pre ++ x :: post) = Ret s /\
      mean_evaluate (A := B64) s = B754_nan.
Proof. exact mean_contaminated. Qed.
Print Assumptions C38_mean_contaminated_forever_refuted.

Example C38_example_infinity :
  match update_all (mean_update (A := B64)) (mean_new 2) [Bz 1; B754_infinity false; Bz 1; Bz 2] with
  | Ret s => is_nan (mean_evaluate (A := B64) s) | _ => false end = true.
Proof. vm_compute. reflexivity. Qed.

(** C39: exact arithmetic. *)
Theorem C39_variance_is_population_variance :
  forall (W : nat) (xs : list R),
    exists s, update_all (variance_update (A := RA)) (variance_new W) xs = Ret s /\
      variance_evaluate (A := RA) s = pvar (window_of W xs) /\
      0 <= variance_evaluate (A := RA) s /\
      (variance_evaluate (A := RA) s = 0 <->
         forall x y, In x (window_of W xs) -> In y (window_of W xs) -> x = y).
Proof.
  exact (fun W xs =>
    match variance_exact W xs with
    | ex_intro _ s (conj E V) =>
        ex_intro _ s (conj E (conj V (conj
          (eq_ind_r (fun v => 0 <= v) (pvar_nonneg _) V)
          (eq_ind_r (fun v => v = 0 <-> _) (pvar_zero _) V))))
    end).
Qed.
Print Assumptions C39_variance_is_population_variance.

Example C39_example : pvar (window_of 2 [7; 1; 3]) = 1.
Proof. unfold pvar, avg, window_of, lastn; simpl. lra. Qed.

(** In doubles three observations of 0.1 have a negative variance. *)
Theorem C39_variance_negative_in_doubles_refuted :
  exists st, update_all (variance_update (A := B64)) (variance_new 0)
               [lit (A := B64) 1 10; lit (A := B64) 1 10; lit (A := B64) 1 10] = Ret st /\
    Bltb (variance_evaluate (A := B64) st) (Bz 0) = true.
Proof. exact variance_negative. Qed.
Print Assumptions C39_variance_negative_in_doubles_refuted.

(** C40: whatever was observed, in any arithmetic. *)
Theorem C40_variance_public_state_not_maintained :
  forall (A : arith) (W : nat) (xs : list A),
    exists s, update_all variance_update (variance_new W) xs = Ret s /\
      va_window s = (if Nat.ltb 0 W then Some [] else None) /\ va_history s = 0%nat.
Proof. exact @variance_public_window. Qed.
Print Assumptions C40_variance_public_state_not_maintained.

Example C40_example : exists s,
  update_all (variance_update (A := RA)) (variance_new 2) [1; 2; 3] = Ret s /\
  va_window s = Some [] /\ mn_history (va_mean s) = 3%nat.
Proof. eexists. split; [reflexivity|]. split; reflexivity. Qed.
