(** The P2 algorithm as published (Jain and Chlamtac, CACM 28(10), 1985), over
    the reals and independent of the model of StreamingP2Quantile.cc. A marker
    is a point (position, height); positions are counted from 0, as in the code,
    instead of from 1. *)

From Coq Require Import List Reals ZArith.
From Flocq Require Import Core.Core.
Import ListNotations.
Open Scope R_scope.

Definition marker : Type := (Z * R)%type.
Definition m_at (m : marker) : R := IZR (fst m).

(** The straight line through two markers. *)
Definition line2 (a b : marker) (t : R) : R :=
  snd a + (snd b - snd a) * (t - m_at a) / (m_at b - m_at a).

(** The parabola through three markers (Lagrange form). *)
Definition parabola3 (a b c : marker) (t : R) : R :=
  snd a * ((t - m_at b) * (t - m_at c)) / ((m_at a - m_at b) * (m_at a - m_at c)) +
  snd b * ((t - m_at a) * (t - m_at c)) / ((m_at b - m_at a) * (m_at b - m_at c)) +
  snd c * ((t - m_at a) * (t - m_at b)) / ((m_at c - m_at a) * (m_at c - m_at b)).

(** The five markers. *)
Definition markers : Type := nat -> marker.
Definition set_marker (ms : markers) (i : nat) (m : marker) : markers :=
  fun j => if Nat.eqb j i then m else ms j.

(** Step B.1-B.2: the extreme markers take the new minimum and maximum, and the
    markers above the observation move one position up. *)
Definition jc_observe (ms : markers) (x : R) : markers := fun i =>
  let '(n, h) := ms i in
  match i with
  | 0%nat => (n, Rmin h x)
  | 4%nat => ((n + 1)%Z, Rmax h x)
  | _ => ((if Rlt_bool x h then n + 1 else n)%Z, h)
  end.

(** The fraction of the observations that should lie below marker i. *)
Definition jc_fraction (q : R) (i : nat) : R :=
  match i with 0%nat => 0 | 1%nat => q / 2 | 2%nat => q | 3%nat => (1 + q) / 2 | _ => 1 end.

(** The ideal position of marker i after N observations. *)
Definition jc_ideal (q : R) (N : nat) (i : nat) : R := INR (N - 1) * jc_fraction q i.

(** Step B.3: a marker between [a] and [c] that is off by one or more moves by
    one position, if there is room; its new height comes from the parabola, or
    from a line when the parabola leaves the interval of its neighbours. *)
Definition jc_height (a b c : marker) (t : R) (alt : R) : R :=
  let v := parabola3 a b c t in
  if (Rlt_bool (snd a) v && Rlt_bool v (snd c))%bool then v else alt.

Definition jc_move (ideal : R) (a b c : marker) : marker :=
  if (Rle_bool (m_at b + 1) ideal && Z.ltb (fst b + 1) (fst c))%bool then
    ((fst b + 1)%Z, jc_height a b c (m_at b + 1) (line2 b c (m_at b + 1)))
  else if (Rle_bool ideal (m_at b - 1) && Z.ltb (fst a) (fst b - 1))%bool then
    ((fst b - 1)%Z, jc_height a b c (m_at b - 1) (line2 a b (m_at b - 1)))
  else b.

Definition jc_adjust (q : R) (N : nat) (ms : markers) (i : nat) : markers :=
  set_marker ms i (jc_move (jc_ideal q N i) (ms (i - 1)%nat) (ms i) (ms (i + 1)%nat)).

(** The paper adjusts markers 2, 3, 4 in this order; the repository does so only
    for quantiles of at least one half. *)
Definition jc_order (q : R) : list nat :=
  if Rle_bool (1 / 2) q then [1; 2; 3]%nat else [3; 2; 1]%nat.

(** Observation number N (N > 5). *)
Definition jc_step (q : R) (N : nat) (ms : markers) (x : R) : markers :=
  fold_left (jc_adjust q N) (jc_order q) (jc_observe ms x).

(** Step A: the first five observations, in ascending order. *)
Definition jc_start (five : list R) : markers := fun i => (Z.of_nat i, nth i five 0).

Fixpoint jc_run (q : R) (N : nat) (ms : markers) (xs : list R) : markers :=
  match xs with
  | [] => ms
  | x :: xs' => jc_run q (S N) (jc_step q (S N) ms x) xs'
  end.
