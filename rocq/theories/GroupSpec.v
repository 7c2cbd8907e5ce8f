(** Vocabulary: data that fall into groups. *)

From Coq Require Import List Reals Arith.
From Flocq Require Import Core.Core IEEE754.BinarySingleNaN.
From Verif Require Import Outcome Arith IBin Histogram FloatSpec.
Import ListNotations.
Local Open Scope nat_scope.

(** How many observations belong to group [k]. *)
Definition members {X : Type} (g : X -> nat) (k : nat) (xs : list X) : nat :=
  length (filter (fun x => Nat.eqb (g x) k) xs).

(** [g] sorts the data into the groups 0 .. n-1 in increasing order; no group is wider
    than [width]; values of different groups differ by more than the tolerance of one
    part in ten thousand, and by more than [width] with the same margin. *)
Definition groupedR (n : nat) (width : R) (g : R -> nat) (xs : list R) : Prop :=
  forall x y, In x xs -> In y xs ->
    g x < n /\ (Rabs x <= bpow radix2 1022)%R /\
    (g x = g y -> (Rabs (x - y) <= width)%R) /\
    (g x < g y -> (width < (y - x) * (1 - 1 / 10000))%R /\ (Rmax (Rabs x) (Rabs y) * (1 / 10000) < y - x)%R).

(** The same for doubles, with wider margins for rounding: different groups are twice
    as far apart as one group is wide, and one part in two thousand of the values. *)
Definition groupedB (n : nat) (width : R) (g : double -> nat) (xs : list double) : Prop :=
  forall x y, In x xs -> In y xs ->
    g x < n /\ finite64 x = true /\ (Rabs (B2R x) <= bpow radix2 1022)%R /\
    (g x = g y -> (Rabs (B2R x - B2R y) <= width)%R) /\
    (g x < g y -> (2 * width <= B2R y - B2R x)%R /\ (Rmax (Rabs (B2R x)) (Rabs (B2R y)) * (1 / 2000) <= B2R y - B2R x)%R /\
      (bpow radix2 (-1000) <= B2R y - B2R x)%R).

(** Every bin lies inside one group, the bins come in the order of the groups, and the
    counts of the bins of each group add up to the number of its members. *)
Definition bins_in_groups {A : arith} (g : A -> nat) (xs : list A) (bins : list (bin A)) : Prop :=
  Forall (fun b => In (b_left b) xs /\ In (b_right b) xs /\ g (b_left b) = g (b_right b)) bins /\
  (forall l b m c r, bins = l ++ b :: m ++ c :: r -> g (b_left b) <= g (b_left c)) /\
  (forall k, list_sum (map b_count (filter (fun b => Nat.eqb (g (b_left b)) k) bins)) = members g k xs).

(** One bin for each group, counting its members. *)
Definition one_bin_each {A : arith} (n : nat) (g : A -> nat) (xs : list A) (h : hist A) : Prop :=
  map (fun b => g (b_left b)) (h_bins h) = seq 0 n /\
  hist_binCounts h = Ret (map (fun k => members g k xs) (seq 0 n)).
