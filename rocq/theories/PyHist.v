(** Model of the methods of PyStreamingHistogram
    (tools/cython/kml/data_structures/histograms/StreamingHistogram.pyx:55-179)
    and of the conversion of their results to Python objects. All C++ methods
    are declared [except +] in StreamingHistogram.pxd:17-29. *)

From Coq Require Import List ZArith Bool.
From Flocq Require Import IEEE754.BinarySingleNaN.
From Verif Require Import Outcome Arith IBin Histogram PyFloat Cython.
Import ListNotations.

(** Python objects as results. A dict is a list of its entries in the order of
    insertion. *)
Inductive pyobj : Type :=
| RNone
| RBool (b : bool)
| RInt (z : Z)
| RFloat (x : double)
| RList (l : list pyobj)
| RDict (entries : list ((double * double) * nat)).

(** Two tuples of fresh floats are the same key of a dict if they compare equal;
    equal floats have equal hashes. *)
Definition same_key (k1 k2 : double * double) : bool :=
  Beqb (fst k1) (fst k2) && Beqb (snd k1) (snd k2).
(** [d[k] = v]. *)
Fixpoint dict_set (d : list ((double * double) * nat)) (k : double * double) (v : nat)
  : list ((double * double) * nat) :=
  match d with
  | [] => [(k, v)]
  | (k', v') :: d' => if same_key k' k then (k', v) :: d' else (k', v') :: dict_set d' k v
  end.
(** What Cython generates for [std::map] (Cython/Utility/CppConvert.pyx,
    map.to_py): the entries are assigned in the order of the map. *)
Definition dict_of_map (m : list ((double * double) * nat)) : list ((double * double) * nat) :=
  fold_left (fun d e => dict_set d (fst e) (snd e)) m [].

Inductive py_hist_method : Type :=
| PyUpdate (item : pyval)
| PyPdf (normalize density : pyval)
| PyCdf (normalize : pyval)
| PyQuantile (q_tile : pyval)
| PyBinCounts
| PyReport
| PyReset
| PyEmpty
| PyFull
| PySize.

Section Methods.
  (** The truth value of a Python object; only that of numbers and None matters
      below. *)
  Context (truth : pyval -> bool).

  (** A call: the state afterwards and the result or exception. As in [py_update],
      an exception of the C++ update is kept as [Throw], since it leaves the
      object in a state the model does not describe. *)
  Definition py_hist_call (h : hist B64) (m : py_hist_method) : outcome (hist B64 * result pyobj) :=
    let observe (o : outcome (result pyobj)) := let* r := o in Ret (h, r) in
    match m with
    | PyUpdate item =>                                   (* lines 55-67 *)
        let* (h', e) := py_update as_double hist_update h item in
        Ret (h', match e with None => inl RNone | Some e => inr e end)
    | PyPdf n d => Ret (h, inl (RList (map RFloat (hist_pdf h (truth n) (truth d)))))   (* 69-85 *)
    | PyCdf n => Ret (h, inl (RList (map RFloat (hist_cdf h (truth n)))))               (* 87-101 *)
    | PyQuantile q =>                                    (* 103-116 *)
        observe (try_ (as_double q) (fun q => cpp (let* v := hist_quantile h q in Ret (RFloat v))))
    | PyBinCounts =>                                     (* 118-126 *)
        observe (cpp (let* cs := hist_binCounts h in Ret (RList (map (fun c => RInt (Z.of_nat c)) cs))))
    | PyReport => Ret (h, inl (RDict (dict_of_map (hist_report h))))                    (* 128-137 *)
    | PyReset => Ret (hist_reset h, inl RNone)           (* 139-144 *)
    | PyEmpty => Ret (h, inl (RBool (hist_empty h)))     (* 146-155 *)
    | PyFull => Ret (h, inl (RBool (hist_full h)))       (* 157-166 *)
    | PySize => Ret (h, inl (RInt (Z.of_nat (hist_size h))))                            (* 168-176 *)
    end.

  Fixpoint py_hist_calls (h : hist B64) (ms : list py_hist_method) : outcome (hist B64) :=
    match ms with
    | [] => Ret h
    | m :: ms' => let* (h', _) := py_hist_call h m in py_hist_calls h' ms'
    end.
End Methods.
