(** Property C100: PyStreamingHistogram from Python values to Python values. *)

From Coq Require Import List Sorting.Sorted Arith Bool ZArith Reals.
From Flocq Require Import Core.Core IEEE754.BinarySingleNaN.
From Verif Require Import Outcome Arith Utils IBin Histogram HistSpec HistExactSpec FloatSpec
  PyFloat Cython PyHist PyHistSpec PyHistFacts.
Import ListNotations.
Local Open Scope nat_scope.

(** C100: after any calls with finite numbers, report() returns a dict with one
    entry for every bin, in order; no two of its keys compare equal. *)
Theorem C100_report_is_a_faithful_dict :
  forall (truth : pyval -> bool) (numBins windowSize : nat) (ms : list py_hist_method) (h : hist B64),
    1 <= windowSize ->
    py_hist_calls truth (hist_new numBins windowSize true) ms = Ret h -> forallb finite_method ms = true ->
    py_hist_call truth h PyReport = Ret (h, inl (RDict (map entry (h_bins h)))) /\
    StronglySorted (fun a b => same_key (fst a) (fst b) = false) (map entry (h_bins h)).
Proof. exact python_report. Qed.
Print Assumptions C100_report_is_a_faithful_dict.

(** C100: update with a list of separated floats that fits into the window, then
    report(): disjoint intervals in increasing order, each with the number of
    elements of the list inside it; bin_counts() and size() agree with the dict;
    empty() is true for the empty list only, and full() is its negation. *)
Theorem C100_update_then_report :
  forall (truth : pyval -> bool) (numBins windowSize : nat) (xs : list double),
    1 <= numBins -> length xs <= windowSize ->
    Forall (fun x => finite64 x = true /\ (Rabs (B2R x) <= bpow radix2 1022)%R) xs -> separated (A := B64) xs ->
    exists h d,
      py_hist_call truth (hist_new numBins windowSize true) (PyUpdate (PyIter (map PyFloat xs))) = Ret (h, inl RNone) /\
      py_hist_call truth h PyReport = Ret (h, inl (RDict d)) /\
      py_hist_call truth h PyBinCounts = Ret (h, inl (RList (map (fun e => RInt (Z.of_nat (snd e))) d))) /\
      py_hist_call truth h PySize = Ret (h, inl (RInt (Z.of_nat (length d)))) /\
      py_hist_call truth h PyEmpty = Ret (h, inl (RBool (Nat.eqb (length xs) 0))) /\
      py_hist_call truth h PyFull = Ret (h, inl (RBool (Nat.ltb 0 (length xs)))) /\
      length d <= numBins /\ list_sum (map snd d) = length xs /\
      Forall (fun e => let '((l, r), c) := e in
        (B2R l <= B2R r)%R /\ c = inside (B2R l) (B2R r) (map B2R xs)) d /\
      StronglySorted (fun a b => (B2R (snd (fst a)) < B2R (fst (fst b)))%R) d.
Proof. exact python_end_to_end. Qed.
Print Assumptions C100_update_then_report.

(** C100: quantile() raises what its argument or the C++ method raises. *)
Theorem C100_quantile :
  forall (truth : pyval -> bool) (h : hist B64) (v : pyval),
    py_hist_call truth h (PyQuantile v) =
    match as_double v with
    | inr e => Ret (h, inr e)
    | inl q =>
        match hist_quantile h q with
        | Ret x => Ret (h, inl (RFloat x))
        | Throw e => Ret (h, inr (translate e))
        | Undef u => Undef u
        end
    end.
Proof. exact python_quantile. Qed.
Print Assumptions C100_quantile.

(** C100: asking a new histogram for a median is undefined behaviour inside the
    interpreter, not an exception. *)
Theorem C100_quantile_of_new_refuted :
  forall (truth : pyval -> bool) (numBins windowSize : nat),
    py_hist_call truth (hist_new numBins windowSize true) (PyQuantile (PyFloat (lit (A := B64) 1 2))) = Undef OutOfBounds.
Proof. exact python_new_quantile. Qed.
Print Assumptions C100_quantile_of_new_refuted.

(** A session: update([3, 1.5, None]) raises TypeError, update([3, 4]), quantile(2)
    raises RuntimeError, and report() has the keys (1.5, 1.5), (3, 4) for two bins. *)
Example C100_example :
  let ms := [PyUpdate (PyIter [PyInt 3; PyFloat (lit (A := B64) 3 2); PyNone]); PyUpdate (PyIter [PyInt 3; PyInt 4]);
             PyQuantile (PyInt 2); PyBinCounts] in
  forallb finite_method ms = true /\
  match py_hist_calls (fun _ => true) (hist_new 2 10 true) ms with
  | Ret h => match py_hist_call (fun _ => true) h PyReport with
             | Ret (_, inl (RDict [((a, b), c); ((a', b'), c')])) =>
                 (Beqb a (lit (A := B64) 3 2) && Beqb b a && Nat.eqb c 1 &&
                  Beqb a' (Bz 3) && Beqb b' (Bz 4) && Nat.eqb c' 3) = true
             | _ => False
             end
  | _ => False
  end.
Proof. vm_compute. auto. Qed.
