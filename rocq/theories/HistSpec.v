(** Vocabulary for the statements about histograms. *)

From Coq Require Import List Sorting.Sorted Arith ZArith Reals.
From Verif Require Import Outcome Arith Utils IBin Histogram FloatSpec.
Import ListNotations.
Local Open Scope nat_scope.

(** Arbitrary sequences of mutating calls. *)
Inductive hist_op (A : arith) : Type :=
| HUpdate (x : A)
| HReset.
Arguments HUpdate {A} x.
Arguments HReset {A}.

Definition hist_call {A : arith} (h : hist A) (o : hist_op A) : outcome (hist A) :=
  match o with
  | HUpdate x => hist_update h x
  | HReset => Ret (hist_reset h)
  end.

Fixpoint hist_calls {A : arith} (h : hist A) (os : list (hist_op A)) : outcome (hist A) :=
  match os with
  | [] => Ret h
  | o :: os' => let* h' := hist_call h o in hist_calls h' os'
  end.

(** All the values passed to update. *)
Fixpoint hist_items {A : arith} (os : list (hist_op A)) : list A :=
  match os with
  | [] => []
  | HUpdate x :: os' => x :: hist_items os'
  | HReset :: os' => hist_items os'
  end.

(** Those since the last reset. *)
Fixpoint since_reset {A : arith} (acc : list A) (os : list (hist_op A)) : list A :=
  match os with
  | [] => acc
  | HUpdate x :: os' => since_reset (acc ++ [x]) os'
  | HReset :: os' => since_reset [] os'
  end.

Definition counts_sum {A : arith} (h : hist A) : nat := list_sum (map b_count (h_bins h)).

(** Left edges strictly increasing. *)
Definition lefts_increasing {A : arith} (bins : list (bin A)) : Prop :=
  StronglySorted (fun a b => ltb (b_left a) (b_left b) = true) bins.

(** Occurrences of a value, up to the arithmetic's equality. *)
Definition occurrences {A : arith} (v : A) (xs : list A) : nat :=
  length (filter (fun y => eqb y v) xs).

(** The item falls into an existing bin: the position found by the search holds
    a bin starting at or below it. *)
Definition falls_in {A : arith} (h : hist A) (x : A) : bool :=
  if Nat.eqb (h_total h) 0 then false
  else match hist_binSearch h x with
       | Ret i => match nth_error (h_bins h) i with Some b => leb (b_left b) x | None => false end
       | _ => false
       end.

(** How many of the calls insert a bin. *)
Fixpoint inserts {A : arith} (h : hist A) (os : list (hist_op A)) : nat :=
  match os with
  | [] => 0
  | o :: os' =>
      match o with HUpdate x => if falls_in h x then 0 else 1 | HReset => 0 end +
      match hist_call h o with Ret h' => inserts h' os' | _ => 0 end
  end.

(** Any two values are equal or definitely different. *)
Definition separated {A : arith} (xs : list A) : Prop :=
  forall x y, In x xs -> In y xs ->
    eqb x y = true \/ definitelyLessThan x y default_eps = true \/ definitelyLessThan y x default_eps = true.

(** At most [N] distinct values: strictly increasing lists of values are no longer than [N]. *)
Definition few {A : arith} (N : nat) (xs : list A) : Prop :=
  forall vs, StronglySorted (fun a b => ltb a b = true) vs -> incl vs xs -> length vs <= N.

(** The distance merge minimises. *)
Definition gap {A : arith} (b c : bin A) : A := sub (b_right c) (b_right b).

(** Count of the first [k] bins. *)
Definition below (cs : list nat) (k : nat) : nat := list_sum (firstn k cs).

(** The empirical distribution function of the counts. *)
Definition Fcum (cs : list nat) (k : nat) : R := (IZR (Z.of_nat (below cs (S k))) / IZR (Z.of_nat (list_sum cs)))%R.

(** The position the code selects: the first bin when q does not exceed its
    share, otherwise the last bin whose cumulated share does not exceed q. *)
Definition selected (cs : list nat) (q : R) (k : nat) : Prop :=
  (q <= Fcum cs 0)%R /\ k = 0 \/
  (Fcum cs 0 < q)%R /\ (Fcum cs k <= q)%R /\ (forall j, k < j -> j < length cs -> (q < Fcum cs j)%R).

(** Sum of reals. *)
Fixpoint Rsum (l : list R) : R := match l with [] => 0%R | x :: l' => (x + Rsum l')%R end.

(** The width used by the density: 1 for bins without positive width. *)
Definition widthR (b : bin RA) : R := if Rle_dec (b_right b - b_left b) 0 then 1%R else (b_right b - b_left b)%R.

(** Not NaN and at least zero. *)
Definition nonneg (x : double) : Prop := nan x = false /\ (0 <= X x)%R.
