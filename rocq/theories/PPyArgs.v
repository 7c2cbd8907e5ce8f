(** C67, C100: constructor arguments arrive unchanged; dict and std::map keys. *)

From Coq Require Import List ZArith NArith Reals.
From Flocq Require Import IEEE754.BinarySingleNaN.
From Verif Require Import Outcome Arith FloatSpec FloatFacts Mean P2 Fame Entropy Histogram
  RingBuffer LinkedList PyFloat Cython PyHist PyArgSpec PyArgFacts.
Import ListNotations.
Local Open Scope nat_scope.

(** C67: an object that is constructed has the parameters it was given. *)
Theorem C67_arguments_arrive :
  forall (fs : double -> result N) (n : Z), (0 <= n < 2 ^ 64)%Z ->
  (exists s, py_mean fs (PyInt n) = Ret (inl s) /\ mn_wsize s = Z.to_nat n) /\
  (exists s, py_variance fs (PyInt n) = Ret (inl s) /\ mn_wsize (va_mean s) = Z.to_nat n /\ mn_wsize (va_sq s) = Z.to_nat n) /\
  (forall q s, py_wp2 fs q (PyInt n) = Ret (inl s) -> as_double q = inl (p_quantile (w_p2 s)) /\ w_wsize s = Z.to_nat n) /\
  (forall lo hi s, lo <> PyNone -> hi <> PyNone -> py_iqr fs lo hi (PyInt n) = Ret (inl s) ->
     as_double lo = inl (p_quantile (w_p2 (i_low s))) /\ as_double hi = inl (p_quantile (w_p2 (i_high s))) /\
     w_wsize (i_low s) = Z.to_nat n /\ w_wsize (i_high s) = Z.to_nat n) /\
  (forall s, py_iqr fs PyNone PyNone (PyInt n) = Ret (inl s) ->
     p_quantile (w_p2 (i_low s)) = lit (A := B64) 1 4 /\ p_quantile (w_p2 (i_high s)) = lit (A := B64) 3 4 /\
     w_wsize (i_low s) = Z.to_nat n /\ w_wsize (i_high s) = Z.to_nat n) /\
  (forall b s, (0 < b < 2 ^ 64)%Z -> py_entropy fs (PyInt n) (PyInt b) = Ret (inl s) ->
     e_wsize s = Z.to_nat n /\ h_numBins (e_hist s) = Z.to_nat b /\ h_windowSize (e_hist s) = Z.to_nat n) /\
  (forall b, (0 <= b < 2 ^ 64)%Z -> exists s, py_hist fs (PyInt b) (PyInt n) = Ret (inl s) /\
     h_numBins s = Z.to_nat b /\ h_windowSize s = Z.to_nat n) /\
  (exists s, py_ring fs (PyInt n) = Ret (inl s) /\ rb_window s = Z.to_N n) /\
  (exists s, py_list fs (PyInt n) = Ret (inl s) /\ ll_window s = Z.to_nat n).
Proof. exact arguments_arrive. Qed.
Print Assumptions C67_arguments_arrive.

Theorem C67_fame_arguments_arrive :
  forall (v w : pyval) (s : fame B64), py_fame v w = Ret (inl s) ->
    as_double v = inl (f_step s) /\ as_double w = inl (f_epsilon s).
Proof. exact fame_arguments. Qed.
Print Assumptions C67_fame_arguments_arrive.

Example C67_arguments_example :
  (exists s, py_wp2 (fun _ => inr TypeError) (PyFloat (lit (A := B64) 1 2)) (PyInt 7) = Ret (inl s)) /\
  (exists s, py_iqr (fun _ => inr TypeError) (PyFloat (lit (A := B64) 1 10)) (PyFloat (lit (A := B64) 9 10)) (PyInt 7) = Ret (inl s)) /\
  (exists s, py_entropy (fun _ => inr TypeError) (PyInt 7) (PyInt 3) = Ret (inl s)) /\
  (exists s, py_fame (PyInt 1) (PyInt 0) = Ret (inl s)).
Proof. repeat split; eexists; reflexivity. Qed.

(** C100: assigning to a key of the dict replaces the value of the key that
    compares equal, or adds the key; no other entry changes and keys stay
    distinct. *)
Theorem C100_dict_assignment :
  forall (d : list ((double * double) * nat)) (k : double * double) (v : nat),
    Forall (fun e => number_key (fst e)) d -> number_key k ->
    ForallOrdPairs (fun a b => ~ equal_keys (fst a) (fst b)) d ->
    (exists k', In (k', v) (dict_set d k v) /\ equal_keys k' k) /\
    (forall k' v', In (k', v') (dict_set d k v) -> equal_keys k' k -> v' = v) /\
    (forall k' v', ~ equal_keys k' k -> In (k', v') (dict_set d k v) <-> In (k', v') d) /\
    ForallOrdPairs (fun a b => ~ equal_keys (fst a) (fst b)) (dict_set d k v).
Proof. exact dict_set_spec. Qed.
Print Assumptions C100_dict_assignment.

(** C100: the map behind report() is ordered by left, then right edge. *)
Theorem C100_map_key_order :
  forall k1 k2 : double * double, number_key k1 -> number_key k2 ->
    (key_lt (A := B64) k1 k2 = true <->
     (X (fst k1) < X (fst k2) \/ (X (fst k1) = X (fst k2) /\ X (snd k1) < X (snd k2)))%R).
Proof. exact key_lt_spec. Qed.
Print Assumptions C100_map_key_order.

Example C100_dict_example :
  number_key (Bz 1, Bz 2) /\ dict_set [((Bz 1, Bz 2), 5); ((Bz 1, Bz 3), 6)] (Bz 1, Bz 3) 7 = [((Bz 1, Bz 2), 5); ((Bz 1, Bz 3), 7)].
Proof. split; [split; reflexivity|reflexivity]. Qed.
