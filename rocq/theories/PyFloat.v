(** Model of the Cython wrappers PyRingBuffer and PyLinkedList
    (tools/cython/kml/data_structures/RingBuffer.pyx, LinkedList.pyx). Both
    instantiate the C++ template at C [float] (RingBuffer.pyx:39-45,
    LinkedList.pyx:39-45), while Python floats are doubles. *)

From Coq Require Import List ZArith Bool.
From Flocq Require Import Core.Core IEEE754.BinarySingleNaN.
From Verif Require Import Outcome Calls Arith RingBuffer LinkedList.
Import ListNotations.

Definition single := binary_float 24 128.
Definition prec_gt_0_24 : Prec_gt_0 24 := eq_refl.
Definition prec_lt_emax_24 : Prec_lt_emax 24 128 := eq_refl.

(** Conversion of the argument of update: double to float, round to nearest even,
    overflow to infinity (what IEC 60559 hardware does; the C++ standard leaves
    overflow undefined). *)
Definition to_single (x : double) : single :=
  match x with
  | B754_zero s => B754_zero s
  | B754_infinity s => B754_infinity s
  | B754_nan => B754_nan
  | B754_finite s m e _ =>
      binary_normalize 24 128 prec_gt_0_24 prec_lt_emax_24 mode_NE (cond_Zopp s (Zpos m)) e s
  end.

(** Conversion of the result of pop: float to double. *)
Definition to_double (x : single) : double :=
  match x with
  | B754_zero s => B754_zero s
  | B754_infinity s => B754_infinity s
  | B754_nan => B754_nan
  | B754_finite s m e _ =>
      binary_normalize 53 1024 prec_gt_0_53 prec_lt_emax_53 mode_NE (cond_Zopp s (Zpos m)) e s
  end.

(** The arguments and results of one call through the wrapper. *)
Definition py_arg (c : rcall double) : rcall single :=
  match c with
  | CUpdate x => CUpdate (to_single x)
  | CPop => CPop
  | CReset => CReset
  | CSize => CSize
  | CEmpty => CEmpty
  | CFull => CFull
  end.
Definition py_result (o : rout single) : rout double :=
  match o with
  | OUnit => OUnit
  | OVal x => OVal (to_double x)
  | ONum n => ONum n
  | OBool b => OBool b
  end.

(** [float()] is 0. *)
Definition float_zero : single := B754_zero false.

(** RingBuffer.pyx:47-112. *)
Definition py_ring_call (s : ring single) (c : rcall double) : outcome (ring single * rout double) :=
  let* (s', o) := rb_call float_zero s (py_arg c) in Ret (s', py_result o).

(** LinkedList.pyx:47-112. *)
Definition py_list_call (s : llist single) (c : rcall double) : outcome (llist single * rout double) :=
  let* (s', o) := ll_call float_zero s (py_arg c) in Ret (s', py_result o).

(** A history of calls. *)
Fixpoint py_run {S : Type} (call : S -> rcall double -> outcome (S * rout double)) (s : S) (cs : list (rcall double))
  : outcome (S * list (rout double)) :=
  match cs with
  | [] => Ret (s, [])
  | c :: cs' =>
      let* (s1, o) := call s c in
      let* (s2, os) := py_run call s1 cs' in
      Ret (s2, o :: os)
  end.
