(** Properties C62, C66-C68: the Python classes. *)

From Coq Require Import List ZArith NArith Reals Bool.
From Flocq Require Import Core.Core IEEE754.BinarySingleNaN.
From Verif Require Import Outcome Calls Arith RingBuffer LinkedList Spec FloatSpec Mean Histogram P2 Fame Entropy
  PyFloat PyFloatSpec PyFloatFacts Cython CythonSpec CythonFacts P2Witness.
Import ListNotations.
Local Open Scope nat_scope.

(** Whatever the client calls, a PyRingBuffer answers like the drop-oldest queue
    fed with the items rounded to single precision. *)
Theorem C62_ring_rounds_items :
  exists f : double -> double, (forall x, through_single x (f x)) /\
    forall (W : nat) (cs : list (rcall double)), 1 <= W -> (N.of_nat W < 2 ^ 64)%N ->
      exists s, py_run py_ring_call (rb_new (N.of_nat W)) cs =
        Ret (s, snd (q_run W (B754_zero false : double) [] (map (call_with f) cs))).
Proof. exact py_ring_spec. Qed.
Print Assumptions C62_ring_rounds_items.

Theorem C62_list_rounds_items :
  exists f : double -> double, (forall x, through_single x (f x)) /\
    forall (W : nat) (cs : list (rcall double)), resets_ok W (B754_zero false) [] cs ->
      exists s, py_run py_list_call (ll_new W) cs =
        Ret (s, snd (q0_run W (B754_zero false : double) [] (map (call_with f) cs))).
Proof. exact py_list_spec. Qed.
Print Assumptions C62_list_rounds_items.

(** Inserting one item and popping it gives the item back exactly when it is
    NaN, infinite, or a single precision value. *)
Theorem C62_update_then_pop :
  forall x : double, exists y, through_single x y /\
    (forall W, 1 <= W -> (N.of_nat W < 2 ^ 64)%N ->
       exists s, py_run py_ring_call (rb_new (N.of_nat W)) [CUpdate x; CPop] = Ret (s, [OUnit; OVal y])) /\
    (forall W, exists s, py_run py_list_call (ll_new W) [CUpdate x; CPop] = Ret (s, [OUnit; OVal y])) /\
    (y = x <-> (finite64 x = true ->
                generic_format radix2 fexp32 (B2R x) /\ (Rabs (B2R x) < bpow radix2 128)%R)).
Proof. exact py_single_item. Qed.
Print Assumptions C62_update_then_pop.

(** 0.1 does not come back. *)
Theorem C62_tenth_not_preserved_refuted :
  exists y : double,
    (forall W, 1 <= W -> (N.of_nat W < 2 ^ 64)%N ->
       exists s, py_run py_ring_call (rb_new (N.of_nat W)) [CUpdate (lit (A := B64) 1 10); CPop]
                 = Ret (s, [OUnit; OVal y])) /\
    @eqb B64 y (lit 1 10) = false.
Proof. exact tenth_changes. Qed.
Print Assumptions C62_tenth_not_preserved_refuted.

(** 0.5 comes back, 2^127 * 2 becomes infinity, the oldest of three is dropped. *)
Example C62_example :
  ok (py_run py_ring_call (rb_new 2) [CUpdate (Bz 7); CUpdate (lit (A := B64) 1 2); CUpdate (Bz (2 ^ 128)); CPop; CPop; CSize])
     (fun r => match snd r with
               | [OUnit; OUnit; OUnit; OVal a; OVal b; ONum n] =>
                   @eqb B64 a (lit 1 2) && negb (finite64 b) && N.eqb n 0
               | _ => false
               end) = true.
Proof. vm_compute. reflexivity. Qed.

Example C62_example_list : resets_ok 2 (B754_zero false) [] [CUpdate (Bz 1); CReset; CUpdate (Bz 2); CPop].
Proof. cbn [resets_ok q0_call q_call fst app]. repeat split; discriminate. Qed.

(** C66: update with Python values. [convert] is the argument conversion of the
    class ([as_double] or [as_single]), [update] its C++ update. *)
Theorem C66_iterable_of_numbers :
  forall (S E : Type) (convert : pyval -> result E) (update : S -> E -> outcome S) vs xs s,
    Forall2 (fun v x => convert v = inl x) vs xs ->
    py_update convert update s (PyIter vs) = bind (update_all update s xs) (fun s' => Ret (s', None)).
Proof. exact @py_update_numbers. Qed.
Print Assumptions C66_iterable_of_numbers.

(** An element that is not a number raises after the elements before it took effect. *)
Theorem C66_not_atomic :
  forall (S E : Type) (convert : pyval -> result E) (update : S -> E -> outcome S) vs xs s s' bad e rest,
    Forall2 (fun v x => convert v = inl x) vs xs ->
    update_all update s xs = Ret s' -> convert bad = inr e ->
    py_update convert update s (PyIter (vs ++ bad :: rest)) = Ret (s', Some e).
Proof. exact @py_update_stops. Qed.
Print Assumptions C66_not_atomic.

(** No other result is possible. *)
Theorem C66_iterable_inversion :
  forall (S E : Type) (convert : pyval -> result E) (update : S -> E -> outcome S) vs s s' o,
    py_update convert update s (PyIter vs) = Ret (s', o) ->
    exists xs k, k <= length vs /\ Forall2 (fun v x => convert v = inl x) (firstn k vs) xs /\
      update_all update s xs = Ret s' /\
      match o with
      | None => k = length vs
      | Some e => exists bad, nth_error vs k = Some bad /\ convert bad = inr e
      end.
Proof. exact @each_inv. Qed.
Print Assumptions C66_iterable_inversion.

(** A float is passed on unchanged; an int is rounded to the nearest double, or
    raises OverflowError; everything else raises TypeError and changes nothing. *)
Theorem C66_scalars :
  (forall x, as_double (PyFloat x) = inl x) /\
  (forall z x, as_double (PyInt z) = inl x <-> x = Bz z /\ (Rabs (rnd (IZR z)) < big)%R) /\
  (forall z, as_double (PyInt z) = inr OverflowError <-> (big <= Rabs (rnd (IZR z)))%R) /\
  (forall z, (Rabs (rnd (IZR z)) < big)%R -> B2R (Bz z) = rnd (IZR z) /\ finite64 (Bz z) = true) /\
  (forall z, (Z.abs z <= 2 ^ 53)%Z -> B2R (Bz z) = IZR z) /\
  (forall (S E : Type) (convert : pyval -> result E) (update : S -> E -> outcome S) s v,
     (forall vs, v <> PyIter vs) ->
     py_update convert update s v =
       match convert v with
       | inl x => bind (update s x) (fun s' => Ret (s', None))
       | inr e => Ret (s, Some e)
       end) /\
  as_double PyNone = inr TypeError /\ as_double PyOther = inr TypeError /\
  (forall vs, as_double (PyIter vs) = inr TypeError).
Proof. exact py_scalars. Qed.
Print Assumptions C66_scalars.

(** The containers of floats: the same conversion, then rounded to single precision. *)
Theorem C66_single_conversion :
  forall v : pyval, match as_double v with
    | inl x => exists y, as_single v = inl y /\ through_single x (to_double y)
    | inr e => as_single v = inr e
    end.
Proof. exact single_conversion. Qed.
Print Assumptions C66_single_conversion.

(** A mean after update([1, 2.5, None, 4]): TypeError, but 1 and 2.5 have been
    counted. *)
Example C66_example :
  match py_update as_double (mean_update (A := B64)) (mean_new 5)
          (PyIter [PyInt 1; PyFloat (lit (A := B64) 5 2); PyNone; PyInt 4]) with
  | Ret (s, Some TypeError) => Nat.eqb (mn_history s) 2 && @eqb B64 (mn_sum s) (lit 7 2)
  | _ => false
  end = true.
Proof. vm_compute. reflexivity. Qed.

(** C67: constructors. [fs] is the treatment of a float given as a size. The documented default [window_size=None] always fails. *)
Theorem C67_none_window_refuted :
  forall fs : double -> result N,
  py_mean fs PyNone = Ret (inr TypeError) /\ py_variance fs PyNone = Ret (inr TypeError) /\
  (forall q x, as_double q = inl x -> py_wp2 fs q PyNone = Ret (inr TypeError)) /\
  (forall lo hi, is_none lo \/ is_none hi -> py_iqr fs lo hi PyNone = Ret (inr TypeError)) /\
  (forall lo hi x y, as_double lo = inl x -> as_double hi = inl y -> py_iqr fs lo hi PyNone = Ret (inr TypeError)) /\
  py_ring fs PyNone = Ret (inr TypeError) /\ py_list fs PyNone = Ret (inr TypeError).
Proof. exact none_window. Qed.
Print Assumptions C67_none_window_refuted.

(** Sizes: exactly the ints in [0, 2^64) are accepted (floats aside, which
    Cython versions treat differently). *)
Theorem C67_window_argument :
  forall (fs : double -> result N) v, (forall x, v <> PyFloat x) ->
    (forall n, as_uint64 fs v = inl n <-> v = PyInt (Z.of_N n) /\ (Z.of_N n < 2 ^ 64)%Z) /\
    (as_uint64 fs v = inr OverflowError <-> exists z, v = PyInt z /\ (z < 0 \/ 2 ^ 64 <= z)%Z) /\
    (as_uint64 fs v = inr TypeError <-> forall z, v <> PyInt z).
Proof. exact as_uint64_spec. Qed.
Print Assumptions C67_window_argument.

(** A range of which only one end is given is ignored. *)
Theorem C67_one_sided_iqr_ignored :
  forall (fs : double -> result N) lo hi w, is_none lo \/ is_none hi -> py_iqr fs lo hi w = py_iqr fs PyNone PyNone w.
Proof. exact one_sided_iqr. Qed.
Print Assumptions C67_one_sided_iqr_ignored.

Theorem C67_rejected_parameters :
  (forall v q, as_double v = inl q ->
     (py_p2 v = Ret (inr ValueError) <-> p2_new (A := B64) q = Throw InvalidArgument) /\
     (forall s, py_p2 v = Ret (inl s) <-> p2_new (A := B64) q = Ret s)) /\
  (forall v w st ep, as_double v = inl st -> as_double w = inl ep ->
     (py_fame v w = Ret (inr ValueError) <-> fame_new (A := B64) st ep = Throw InvalidArgument) /\
     (forall s, py_fame v w = Ret (inl s) <-> fame_new (A := B64) st ep = Ret s)).
Proof. exact (conj py_p2_rejects py_fame_rejects). Qed.
Print Assumptions C67_rejected_parameters.

Theorem C67_defaults_that_work :
  forall fs : double -> result N,
  (exists s, py_p2 (PyFloat (lit (A := B64) 1 2)) = Ret (inl s)) /\
  (exists s, py_fame (PyFloat (lit (A := B64) 1 10)) (PyFloat (Bz 0)) = Ret (inl s)) /\
  (exists s, py_mad = Ret (inl s)) /\
  (exists s, py_entropy fs (PyInt 100) (PyInt 0) = Ret (inl s) /\ e_wsize s = 100 /\ h_numBins (e_hist s) = 8) /\
  (forall n, (0 <= n < 2 ^ 64)%Z -> exists s, py_hist fs (PyInt n) (PyInt 100) = Ret (inl s) /\
     h_numBins s = Z.to_nat n /\ h_windowSize s = 100).
Proof. exact defaults_work. Qed.
Print Assumptions C67_defaults_that_work.

Example C67_example :
  match py_iqr (fun _ => inr TypeError) (PyFloat (lit (A := B64) 1 10)) PyNone (PyInt 7) with
  | Ret (inl s) => @eqb B64 (p_quantile (w_p2 (i_low s))) (lit 1 4)
  | _ => false
  end = true /\
  match py_p2 (PyInt 1) with Ret (inr ValueError) => true | _ => false end = true.
Proof. split; vm_compute; reflexivity. Qed.

(** C68: C++ objects alive after any sequence of constructions and collections.
    Of the eight statistics: as many as Python objects. Of the three data
    structures: as many as were ever constructed. *)
Theorem C68_lifetime :
  forall es h c, lifetimes no_objects es = Some h ->
    py_live h c + collected c es = constructed c es /\
    cpp_live h c =
      match c with
      | CHistogram | CRingBuffer | CLinkedList => constructed c es
      | _ => py_live h c
      end.
Proof. exact lifetimes_table. Qed.
Print Assumptions C68_lifetime.

Example C68_example :
  match lifetimes no_objects [Construct CMean; Fail CMean; Construct CRingBuffer; Collect CRingBuffer;
                              Construct CRingBuffer; Collect CMean; Collect CRingBuffer] with
  | Some h => (py_live h CRingBuffer, cpp_live h CRingBuffer, py_live h CMean, cpp_live h CMean)
  | None => (9, 9, 9, 9)
  end = (0, 2, 0, 0).
Proof. reflexivity. Qed.
