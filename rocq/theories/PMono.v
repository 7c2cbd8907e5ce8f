(** C122: larger observations and larger estimates. *)

From Coq Require Import List Reals ZArith.
From Flocq Require Import Core.Core IEEE754.BinarySingleNaN.
From Verif Require Import Outcome Arith Mean P2 Fame Spec FameSpec FloatSpec MeanFacts P2Witness MonoFacts.
Import ListNotations.
Local Open Scope nat_scope.

(** Exact: raising observations never lowers the mean of the window. *)
Theorem C122_mean :
  forall (W : nat) (xs ys : list R), Forall2 Rle xs ys ->
    exists s t, update_all (mean_update (A := RA)) (mean_new W) xs = Ret s /\
      update_all (mean_update (A := RA)) (mean_new W) ys = Ret t /\
      (mean_evaluate (A := RA) s <= mean_evaluate (A := RA) t)%R.
Proof. exact mean_mono. Qed.
Print Assumptions C122_mean.

Example C122_mean_example : Forall2 Rle [0; 5; 2]%R [1; 5; 7]%R.
Proof. exact mono_data. Qed.

(** In doubles until the first observation leaves the window (never, for
    windowSize 0): no NaN appears and rounding keeps the order, also when a sum
    overflows. *)
Theorem C122_mean_double :
  forall (W : nat) (xs ys : list double),
    Forall2 (fun x y => finite64 x = true /\ finite64 y = true /\ (B2R x <= B2R y)%R) xs ys ->
    W = 0 \/ length xs <= W -> (Z.of_nat (length xs) <= 2 ^ 53)%Z ->
    exists s t, update_all (mean_update (A := B64)) (mean_new W) xs = Ret s /\
      update_all (mean_update (A := B64)) (mean_new W) ys = Ret t /\
      nan (mean_evaluate (A := B64) s) = false /\ nan (mean_evaluate (A := B64) t) = false /\
      (X (mean_evaluate (A := B64) s) <= X (mean_evaluate (A := B64) t))%R.
Proof. exact mean_mono_double. Qed.
Print Assumptions C122_mean_double.

Example C122_mean_double_example :
  Forall2 (fun x y => finite64 x = true /\ finite64 y = true /\ (B2R x <= B2R y)%R) [Bz 0; Bz 5] [Bz 1; Bz 5].
Proof. exact mono_data_double. Qed.

(** Refuted once the window slides: the larger first observation absorbs the
    second one, and subtracting it leaves 0. *)
Theorem C122_sliding_double_refuted :
  exists s t,
    update_all (mean_update (A := B64)) (mean_new 2) [Bz 0; Bz 1; Bz 0] = Ret s /\
    update_all (mean_update (A := B64)) (mean_new 2) [Bz (2 ^ 53); Bz 1; Bz 0] = Ret t /\
    ltb (a := B64) (mean_evaluate t) (mean_evaluate s) = true.
Proof. exact slide_refuted. Qed.
Print Assumptions C122_sliding_double_refuted.

(** Up to five observations raising some never lowers the P2 estimate. *)
Theorem C122_p2_five :
  forall (q : R) (s0 : p2 RA) (xs ys : list R) s v s',
    p2_new (A := RA) q = Ret s0 -> length xs <= 5 -> Forall2 Rle xs ys ->
    update_all p2_update s0 xs = Ret s -> p2_evaluate s = Ret (s', v) ->
    exists t t' w, update_all p2_update s0 ys = Ret t /\ p2_evaluate t = Ret (t', w) /\ (v <= w)%R.
Proof. exact small_mono_RA. Qed.
Print Assumptions C122_p2_five.

Theorem C122_p2_five_double :
  forall (q : double) (s0 : p2 B64) (xs ys : list double) s v s',
    p2_new (A := B64) q = Ret s0 -> length xs <= 5 ->
    Forall2 (fun x y => nan x = false /\ nan y = false /\ (X x <= X y)%R) xs ys ->
    update_all p2_update s0 xs = Ret s -> p2_evaluate s = Ret (s', v) ->
    exists t t' w, update_all p2_update s0 ys = Ret t /\ p2_evaluate t = Ret (t', w) /\
      nan v = false /\ nan w = false /\ (X v <= X w)%R.
Proof. exact small_mono_B64. Qed.
Print Assumptions C122_p2_five_double.

Example C122_p2_five_double_example :
  Forall2 (fun x y => nan x = false /\ nan y = false /\ (X x <= X y)%R) [Bz 0; Bz 5] [Bz 1; B754_infinity false] /\
  exists s0 s s' v, p2_new (A := B64) Bhalf = Ret s0 /\
    update_all p2_update s0 [Bz 0; Bz 5] = Ret s /\ p2_evaluate s = Ret (s', v).
Proof. exact (conj mono_data_inf mono_run_data). Qed.

(** Refuted beyond: raising one of seven observations from 2 to 4 lowers the
    estimate of the median by more than 2. *)
Theorem C122_p2_refuted :
  exists s t s' t' v w,
    p2_stream Bhalf [8; 0; 2; 8; 0; 3; 3]%Z = Ret s /\ p2_stream Bhalf [8; 0; 4; 8; 0; 3; 3]%Z = Ret t /\
    p2_evaluate s = Ret (s', v) /\ p2_evaluate t = Ret (t', w) /\ ltb (a := B64) (Badd w (Bz 2)) v = true.
Proof. exact p2_mono_refuted. Qed.
Print Assumptions C122_p2_refuted.

(** Refuted for FAME after two observations. *)
Theorem C122_fame_refuted :
  exists s, fame_new (A := B64) (Bz 1) (Bz 0) = Ret s /\
    ltb (a := B64) (fame_evaluate (fame_run s [Bz 9; Bz 8])) (fame_evaluate (fame_run s [Bz 7; Bz 8])) = true.
Proof. exact fame_mono_refuted. Qed.
Print Assumptions C122_fame_refuted.
