(** Model of the Cython wrapper classes (tools/cython/kml): argument conversion,
    the constructors, the update methods and the lifetime of the wrapped C++
    object. Line numbers are those of the .pyx files.

    The argument annotations (Optional, Union, ...) are taken as documentation,
    as Cython 0.29 (the minimum of pyproject.toml) does for these types; conversions happen
    where a Python object is passed to a C++ parameter. *)

From Coq Require Import List ZArith NArith Bool.
From Flocq Require Import Core.Core IEEE754.BinarySingleNaN.
From Verif Require Import Outcome Arith Histogram Mean P2 Fame Entropy RingBuffer LinkedList PyFloat.
Import ListNotations.

(** Python values as far as the wrappers look at them. [PyIter] is any finite
    iterable (list, tuple, string, generator, ...), by its elements; [PyOther] is
    neither iterable nor a number. *)
Inductive pyval : Type :=
| PyFloat (x : double)
| PyInt (z : Z)
| PyNone
| PyOther
| PyIter (elements : list pyval).

Inductive pyexn : Type := TypeError | OverflowError | ValueError | PyRuntimeError.

(** A converted value or an exception. *)
Definition result (X : Type) : Type := (X + pyexn)%type.

(** PyFloat_AsDouble: ints are rounded to nearest even, too large ones raise. *)
Definition as_double (v : pyval) : result double :=
  match v with
  | PyFloat x => inl x
  | PyInt z => if finite64 (Bz z) then inl (Bz z) else inr OverflowError
  | _ => inr TypeError
  end.

(** Conversion to a C float: to double, then narrowed. *)
Definition as_single (v : pyval) : result single :=
  match as_double v with
  | inl x => inl (to_single x)
  | inr e => inr e
  end.

Section Sizes.
  (** What becomes of a float passed as a size: truncated by some Cython
      versions, rejected by others; left open. *)
  Context (float_size : double -> result N).

(** __Pyx_PyInt_As_uint64_t. *)
Definition as_uint64 (v : pyval) : result N :=
  match v with
  | PyInt z => if (Z.leb 0 z && Z.ltb z (2 ^ 64))%bool then inl (Z.to_N z) else inr OverflowError
  | PyFloat x => float_size x
  | _ => inr TypeError
  end.
Definition as_size (v : pyval) : result nat :=
  match as_uint64 v with inl n => inl (N.to_nat n) | inr e => inr e end.

(** [except +]: std::invalid_argument becomes ValueError, other std exceptions
    RuntimeError. *)
Definition translate (e : exn) : pyexn :=
  match e with InvalidArgument => ValueError | RuntimeError => PyRuntimeError end.

Definition try_ {X Y : Type} (r : result X) (k : X -> outcome (result Y)) : outcome (result Y) :=
  match r with inl x => k x | inr e => Ret (inr e) end.
Definition cpp {X : Type} (o : outcome X) : outcome (result X) :=
  match o with
  | Ret x => Ret (inl x)
  | Throw e => Ret (inr (translate e))
  | Undef u => Undef u
  end.

(** ** Constructors ([__cinit__]) *)

(** StreamingMean.pyx:40-41. *)
Definition py_mean (window_size : pyval) : outcome (result (mean B64)) :=
  try_ (as_size window_size) (fun w => Ret (inl (mean_new w))).
(** StreamingVariance.pyx:40-41. *)
Definition py_variance (window_size : pyval) : outcome (result (variance B64)) :=
  try_ (as_size window_size) (fun w => Ret (inl (variance_new w))).
(** StreamingP2Quantile.pyx:39-40. *)
Definition py_p2 (quantile : pyval) : outcome (result (p2 B64)) :=
  try_ (as_double quantile) (fun q => cpp (p2_new (A := B64) q)).
(** WindowedP2Quantile.pyx:38-39. *)
Definition py_wp2 (quantile window_size : pyval) : outcome (result (wp2 B64)) :=
  try_ (as_double quantile) (fun q =>
  try_ (as_size window_size) (fun w => cpp (wp2_new (A := B64) q w))).
(** StreamingIQR.pyx:45-50. *)
Definition py_iqr (low high window_size : pyval) : outcome (result (iqr B64)) :=
  match low, high with
  | PyNone, _ | _, PyNone => try_ (as_size window_size) (fun w => cpp (iqr_new (A := B64) w))
  | _, _ =>
      try_ (as_double low) (fun l =>
      try_ (as_double high) (fun h =>
      try_ (as_size window_size) (fun w => cpp (iqr_new_range (A := B64) l h w))))
  end.
(** WindowedFAME.pyx:45-47. *)
Definition py_fame (step_size epsilon : pyval) : outcome (result (fame B64)) :=
  try_ (as_double step_size) (fun s =>
  try_ (as_double epsilon) (fun e => cpp (fame_new (A := B64) s e))).
(** StreamingMAD.pyx:36-37. *)
Definition py_mad : outcome (result (mad B64)) := cpp (mad_new (A := B64)).
(** StreamingEntropy.pyx:45-47. *)
Definition py_entropy (window_size num_bins : pyval) : outcome (result (entropy B64)) :=
  try_ (as_size window_size) (fun w =>
  try_ (as_size num_bins) (fun n => cpp (entropy_new w n))).
(** StreamingHistogram.pyx:51-53, decay_type left at its default WINDOW. *)
Definition py_hist (num_bins window_size : pyval) : outcome (result (hist B64)) :=
  try_ (as_size num_bins) (fun n =>
  try_ (as_size window_size) (fun w => Ret (inl (hist_new (A := B64) n w true)))).
(** RingBuffer.pyx:42-43. *)
Definition py_ring (window_size : pyval) : outcome (result (ring single)) :=
  try_ (as_uint64 window_size) (fun w => Ret (inl (rb_new w))).
(** LinkedList.pyx:42-43. *)
Definition py_list (window_size : pyval) : outcome (result (llist single)) :=
  try_ (as_size window_size) (fun w => Ret (inl (ll_new w))).

End Sizes.

(** ** update *)

(** The state of the object afterwards, and the exception if one was raised by
    an argument conversion. An exception thrown by the C++ update itself is kept
    as [Throw]. *)
Section Update.
  Context {S E : Type} (convert : pyval -> result E) (update : S -> E -> outcome S).

  (** [self.c_X.update(i)]. *)
  Definition py_update_one (s : S) (v : pyval) : outcome (S * option pyexn) :=
    match convert v with
    | inl x => let* s' := update s x in Ret (s', None)
    | inr e => Ret (s, Some e)
    end.

  (** [for i in item: self.c_X.update(i)]. *)
  Fixpoint py_update_each (s : S) (vs : list pyval) : outcome (S * option pyexn) :=
    match vs with
    | [] => Ret (s, None)
    | v :: vs' =>
        let* (s', e) := py_update_one s v in
        match e with
        | None => py_update_each s' vs'
        | Some _ => Ret (s', e)
        end
    end.

  (** RingBuffer.pyx:45-59, LinkedList.pyx:45-59, StreamingHistogram.pyx:55-67,
      StreamingMAD.pyx:39-51, StreamingEntropy.pyx:49-62, StreamingIQR.pyx:52-65,
      StreamingMean.pyx:43-56, StreamingP2Quantile.pyx:42-54,
      StreamingVariance.pyx:43-56, WindowedFAME.pyx:49-61,
      WindowedP2Quantile.pyx:41-53. *)
  Definition py_update (s : S) (item : pyval) : outcome (S * option pyexn) :=
    match item with
    | PyIter vs => py_update_each s vs
    | v => py_update_one s v
    end.
End Update.

(** ** Lifetime *)

Inductive pyclass : Type :=
| CMean | CVariance | CP2 | CWP2 | CIQR | CFame | CMad | CEntropy
| CHistogram | CRingBuffer | CLinkedList.

Definition class_eqb (a b : pyclass) : bool :=
  match a, b with
  | CMean, CMean | CVariance, CVariance | CP2, CP2 | CWP2, CWP2 | CIQR, CIQR
  | CFame, CFame | CMad, CMad | CEntropy, CEntropy | CHistogram, CHistogram
  | CRingBuffer, CRingBuffer | CLinkedList, CLinkedList => true
  | _, _ => false
  end.

(** Whether the class defines [__dealloc__]: StreamingMean.pyx:69,
    StreamingVariance.pyx:69, StreamingP2Quantile.pyx:67, WindowedP2Quantile.pyx:66,
    StreamingIQR.pyx:78, WindowedFAME.pyx:73, StreamingMAD.pyx:64,
    StreamingEntropy.pyx:75; absent from StreamingHistogram.pyx, RingBuffer.pyx
    and LinkedList.pyx. *)
Definition has_dealloc (c : pyclass) : bool :=
  match c with
  | CHistogram | CRingBuffer | CLinkedList => false
  | _ => true
  end.

(** Live Python objects and live C++ objects, per class. *)
Record heap : Type := Heap { py_live : pyclass -> nat; cpp_live : pyclass -> nat }.

Inductive event : Type :=
| Construct (c : pyclass)       (* a constructor call that succeeds *)
| Fail (c : pyclass)            (* a constructor call that raises: [del NULL] *)
| Collect (c : pyclass).        (* the reference count of an object drops to 0 *)

Definition set_count (f : pyclass -> nat) (c : pyclass) (n : nat) : pyclass -> nat :=
  fun d => if class_eqb d c then n else f d.

Definition lifetime (h : heap) (e : event) : option heap :=
  match e with
  | Construct c =>
      Some (Heap (set_count (py_live h) c (py_live h c + 1)) (set_count (cpp_live h) c (cpp_live h c + 1)))
  | Fail c => Some h
  | Collect c =>
      match py_live h c with
      | O => None                (* nothing to collect *)
      | S n =>
          Some (Heap (set_count (py_live h) c n)
                     (if has_dealloc c then set_count (cpp_live h) c (cpp_live h c - 1) else cpp_live h))
      end
  end.

Definition no_objects : heap := Heap (fun _ => 0%nat) (fun _ => 0%nat).
Fixpoint lifetimes (h : heap) (es : list event) : option heap :=
  match es with
  | [] => Some h
  | e :: es' => match lifetime h e with Some h' => lifetimes h' es' | None => None end
  end.
