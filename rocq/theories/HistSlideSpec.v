(** Vocabulary for the statement about the histogram's window. *)

From Coq Require Import List Sorting.Sorted Arith.
From Verif Require Import Outcome Arith Histogram Spec HistSpec.
Import ListNotations.

(** Every value that appears for the first time exceeds all earlier ones. *)
Definition rising_news {A : arith} (xs : list A) : Prop :=
  forall l x r, xs = l ++ x :: r ->
    (exists y, In y l /\ eqb x y = true) \/ (forall y, In y l -> ltb y x = true).

(** The report lists the distinct values of [xs] in increasing order; all but the
    first are counted exactly over the last [m] observations, the first at most
    that often. *)
Definition counts_last {A : arith} (m : nat) (xs : list A) (h : hist A) : Prop :=
  exists vs cs, hist_report h = combine (map (fun v => (v, v)) vs) cs /\ length cs = length vs /\
    StronglySorted (fun a b => ltb a b = true) vs /\ incl vs xs /\
    (forall x, In x xs -> exists v, In v vs /\ eqb x v = true) /\
    forall k v c, nth_error vs k = Some v -> nth_error cs k = Some c ->
      c <= occurrences v (lastn m xs) /\ (k <> 0 -> c = occurrences v (lastn m xs)).

(** The same with all counts exact. *)
Definition counts_exactly {A : arith} (m : nat) (xs : list A) (h : hist A) : Prop :=
  exists vs cs, hist_report h = combine (map (fun v => (v, v)) vs) cs /\ length cs = length vs /\
    StronglySorted (fun a b => ltb a b = true) vs /\ incl vs xs /\
    (forall x, In x xs -> exists v, In v vs /\ eqb x v = true) /\
    cs = map (fun v => occurrences v (lastn m xs)) vs.
