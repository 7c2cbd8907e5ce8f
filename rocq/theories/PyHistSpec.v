(** Vocabulary for PyStreamingHistogram. *)

From Coq Require Import List Bool.
From Verif Require Import Arith IBin Cython PyHist.
Import ListNotations.

(** The numbers in an argument of update are finite. *)
Fixpoint finite_val (v : pyval) : bool :=
  match v with
  | PyFloat x => finite64 x
  | PyIter vs => forallb finite_val vs
  | _ => true
  end.
Definition finite_method (m : py_hist_method) : bool :=
  match m with PyUpdate v => finite_val v | _ => true end.

(** What a bin should look like in the dict of report. *)
Definition entry (b : bin B64) : (double * double) * nat := ((b_left b, b_right b), b_count b).
