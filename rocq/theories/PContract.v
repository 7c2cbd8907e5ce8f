(** C113: contraction of products and sums into fused multiply-adds. *)

From Coq Require Import List ZArith Arith Bool Reals.
From Flocq Require Import Core.Core IEEE754.BinarySingleNaN.
From Verif Require Import Outcome Arith Histogram Mean P2 Entropy Contract Spec P2Spec MeanSpec HistSpec EntropySpec FloatSpec FloatFacts UtilsFacts P2Witness
  ContractFacts ContractStat ContractEntropy ContractClose.
Import ListNotations.
Local Open Scope R_scope.

(** With no place contracted, the definitions here are those of the other files. *)
Theorem C113_separate :
  (forall (s : p2 B64) (x : double), p2_update_c s (fun _ => false, x) = p2_update (A := B64) s x) /\
  (forall s : wp2 B64, wp2_evaluate_c Separate s = wp2_evaluate (A := B64) s) /\
  (forall s : variance B64, variance_evaluate_c false s = variance_evaluate (A := B64) s) /\
  (forall log2 (s : entropy B64) (x : double),
     entropy_update_c log2 s (false, false, x) = entropy_update (A := B64) log2 s x).
Proof. exact (conj p2_separate (conj wp2_separate (conj variance_separate entropy_separate))). Qed.
Print Assumptions C113_separate.

(** StreamingP2Quantile: whatever is contracted, the estimate stays within the range
    of the data (C42), the outer heights are the extremes and the heights ascend. *)
Theorem C113_p2_bracket :
  forall (q : double) s0 (cxs : list ((nat -> bool) * double)),
    p2_new (A := B64) q = Ret s0 -> nan q = false ->
    (5 <= length cxs)%nat -> (Z.of_nat (length cxs) <= 2 ^ 31)%Z ->
    Forall (fun x => finite64 x = true) (map snd cxs) ->
    (forall x y, In x (map snd cxs) -> In y (map snd cxs) -> rnd (B2R y - B2R x) < big) ->
    exists s v lo hi h1 h2 h3,
      update_all p2_update_c s0 cxs = Ret s /\ p2_evaluate s = Ret (s, v) /\
      In lo (map snd cxs) /\ In hi (map snd cxs) /\ (forall x, In x (map snd cxs) -> B2R lo <= B2R x <= B2R hi) /\
      finite64 v = true /\ B2R lo <= B2R v <= B2R hi /\
      p_heights s = [lo; h1; h2; h3; hi] /\ ascending [lo; h1; h2; h3; hi] /\
      strictly_increasing (p_pos s) /\ nth 0 (p_pos s) (-1)%Z = 0%Z /\ nth 4 (p_pos s) (-1)%Z = (Z.of_nat (length cxs) - 1)%Z.
Proof. exact p2_bracket_c. Qed.
Print Assumptions C113_p2_bracket.

(** This needs no property of parabolic at all: any function in its place, even a
    different one in each call, gives the same. *)
Theorem C113_p2_bracket_any_formula :
  forall (q : double) s0 gxs,
    p2_new (A := B64) q = Ret s0 -> nan q = false ->
    (5 <= length gxs)%nat -> (Z.of_nat (length gxs) <= 2 ^ 31)%Z ->
    Forall (fun x => finite64 x = true) (map snd gxs) ->
    (forall x y, In x (map snd gxs) -> In y (map snd gxs) -> rnd (B2R y - B2R x) < big) ->
    exists s v lo hi h1 h2 h3,
      update_all p2_update_any s0 gxs = Ret s /\ p2_evaluate s = Ret (s, v) /\
      In lo (map snd gxs) /\ In hi (map snd gxs) /\ (forall x, In x (map snd gxs) -> B2R lo <= B2R x <= B2R hi) /\
      finite64 v = true /\ B2R lo <= B2R v <= B2R hi /\
      p_heights s = [lo; h1; h2; h3; hi] /\ ascending [lo; h1; h2; h3; hi] /\
      strictly_increasing (p_pos s) /\ nth 0 (p_pos s) (-1)%Z = 0%Z /\ nth 4 (p_pos s) (-1)%Z = (Z.of_nat (length gxs) - 1)%Z.
Proof. exact p2_bracket_any. Qed.
Print Assumptions C113_p2_bracket_any_formula.

(** Constant data is still reproduced. *)
Theorem C113_p2_constant :
  forall (q : double) s0 (c : double) (choices : list (nat -> bool)),
    p2_new (A := B64) q = Ret s0 -> nan q = false -> finite64 c = true ->
    (5 <= length choices)%nat -> (Z.of_nat (length choices) <= 2 ^ 31)%Z ->
    exists s v, update_all p2_update_c s0 (map (fun b => (b, c)) choices) = Ret s /\ p2_evaluate s = Ret (s, v) /\
      finite64 v = true /\ B2R v = B2R c.
Proof. exact p2_constant_c. Qed.
Print Assumptions C113_p2_constant.

(** The contraction in line 48 changes nothing, for any accepted quantile. *)
Theorem C113_p2_desired_same :
  forall (q : double) s0 c,
    p2_new (A := B64) q = Ret s0 -> add_mul c (Bz 2) (Bz 2) q = Badd (Bz 2) (Bmul (Bz 2) q).
Proof. exact desired_same. Qed.
Print Assumptions C113_p2_desired_same.

(** But the estimate is not the same: seven small integers suffice for a difference
    of more than 1. *)
Theorem C113_p2_same_estimate_refuted :
  exists (q : double) s0 (xs : list Z) s t u v,
    p2_new (A := B64) q = Ret s0 /\ Forall (fun z => (0 <= z <= 48)%Z) xs /\ length xs = 7%nat /\
    update_all (p2_update (A := B64)) s0 (map Bz xs) = Ret s /\
    update_all p2_update_c s0 (map (fun z => (fun _ => true, Bz z)) xs) = Ret t /\
    p2_evaluate s = Ret (s, u) /\ p2_evaluate t = Ret (t, v) /\
    finite64 u = true /\ finite64 v = true /\ 1 < B2R u - B2R v.
Proof. exact p2_differs. Qed.
Print Assumptions C113_p2_same_estimate_refuted.

(** StreamingVariance: the error bound of C75 holds with and without contraction. *)
Theorem C113_variance_error_bound :
  forall W B (c : bool) (xs : list double),
    bpow radix2 (-500) <= B -> xs <> [] ->
    Forall (fun x => finite64 x = true /\ Rabs (B2R x) <= B) xs ->
    INR (length (window_of W xs)) * (B * B) <= bpow radix2 999 -> (Z.of_nat (length xs) <= 2 ^ 48)%Z ->
    exists s, update_all (variance_update (A := B64)) (variance_new W) xs = Ret s /\
      finite64 (variance_evaluate_c c s) = true /\
      Rabs (B2R (variance_evaluate_c c s) - pvar (map B2R (window_of W xs)))
        <= (INR (length xs) + 1) * bpow radix2 (-49) * (B * B).
Proof. exact variance_error_c. Qed.
Print Assumptions C113_variance_error_bound.

(** One observation: without contraction the variance is exactly 0, with it it is the
    rounding error of the square. *)
Theorem C113_variance_one_observation :
  forall W (x : double),
    finite64 x = true -> finite64 (Bmul x x) = true ->
    exists s, update_all (variance_update (A := B64)) (variance_new W) [x] = Ret s /\
      finite64 (variance_evaluate_c false s) = true /\ B2R (variance_evaluate_c false s) = 0 /\
      finite64 (variance_evaluate_c true s) = true /\
      B2R (variance_evaluate_c true s) = rnd (rnd (B2R x * B2R x) - B2R x * B2R x).
Proof. exact variance_one. Qed.
Print Assumptions C113_variance_one_observation.

(** So it may be negative, and not by little. *)
Theorem C113_variance_nonnegative_refuted :
  exists (x : double) s, finite64 x = true /\
    update_all (variance_update (A := B64)) (variance_new 0) [x] = Ret s /\ B2R (variance_evaluate_c true s) = -1.
Proof. exact variance_one_negative. Qed.
Print Assumptions C113_variance_nonnegative_refuted.

(** WindowedP2Quantile: at a multiple of windowSize the previous estimate has weight 0
    and the current one is returned, whichever product is fused. *)
Theorem C113_wp2_window_end :
  forall c (s : wp2 B64) p (v : double),
    (1 <= w_wsize s <= w_history s)%nat -> (w_history s mod w_wsize s = 0)%nat ->
    p2_evaluate (w_p2 s) = Ret (p, v) -> finite64 (w_previous s) = true -> finite64 v = true ->
    exists s' r, wp2_evaluate_c c s = Ret (s', r) /\ finite64 r = true /\ B2R r = B2R v.
Proof. exact wp2_end_c. Qed.
Print Assumptions C113_wp2_window_end.

(** Before windowSize observations nothing is contracted. *)
Theorem C113_wp2_early :
  forall c (s : wp2 B64),
    (w_history s < w_wsize s)%nat -> wp2_evaluate_c c s = wp2_evaluate (A := B64) s.
Proof. exact wp2_early_c. Qed.
Print Assumptions C113_wp2_early.

(** StreamingEntropy: the error bound of C95 holds whatever is contracted in which call. *)
Theorem C113_entropy_error_bound :
  forall (log2 : double -> double) (eta : R) W N B (cxs : list (bool * bool * double)),
    let xs := map snd cxs in
    0 <= eta ->
    (forall x : double, finite64 x = true -> bpow radix2 (-40) <= B2R x <= 1 ->
       finite64 (log2 x) = true /\ Rabs (B2R (log2 x) - log2R (B2R x)) <= eta) ->
    (1 <= N /\ B = N \/ N = 0 /\ 1 <= W /\ B = Nat.log2_up W + 1)%nat ->
    (length xs <= W)%nat -> (Z.of_nat (length xs) <= 2 ^ 40)%Z -> INR (length xs) * eta <= 1 ->
    Forall (fun x => finite64 x = true) xs -> separated (A := B64) xs -> few (A := B64) B xs ->
    exists e0 e, entropy_new (A := B64) W N = Ret e0 /\ update_all (entropy_update_c log2) e0 cxs = Ret e /\
      finite64 (entropy_evaluate e) = true /\
      forall vs, NoDup vs -> (forall v, In v vs <-> In v (map B2R xs)) ->
        Rabs (B2R (entropy_evaluate e) - shannon (map B2R xs) vs)
          <= INR (length xs + 1) / 2 * (3 * eta + bpow radix2 (-42)).
Proof. exact entropy_error_c. Qed.
Print Assumptions C113_entropy_error_bound.

(** Outside the window decrement runs too: its two compilations differ by at most
    2^-44 in one call. *)
Theorem C113_entropy_decrement_close :
  forall (log2 : double -> double) (c1 c2 : bool) (h : hist B64) (ent : double) (i : nat) (z1 : double),
    (forall y : double, finite64 y = true -> / 2 <= B2R y <= 1 -> Rabs (B2R (log2 y)) <= 1) ->
    (2 <= h_total h)%nat -> (Z.of_nat (h_total h) <= 2 ^ 53)%Z ->
    entropy_decrement_c log2 c1 h ent i = Ret z1 -> finite64 z1 = true -> Rabs (B2R z1) <= 60 ->
    exists z2, entropy_decrement_c log2 c2 h ent i = Ret z2 /\ finite64 z2 = true /\
      Rabs (B2R z2 - B2R z1) <= bpow radix2 (-44).
Proof. exact decrement_close. Qed.
Print Assumptions C113_entropy_decrement_close.

(** But constant data no longer has entropy exactly 0 (C95_constant_data_exact). *)
Theorem C113_entropy_constant_refuted :
  exists (log2 : double -> double) (x : double) e0 e,
    (forall y : double, finite64 y = true -> 0 < B2R y <= 1 -> finite64 (log2 y) = true) /\
    (forall y : double, finite64 y = true -> B2R y = 1 -> B2R (log2 y) = 0) /\ finite64 x = true /\
    entropy_new (A := B64) 3 2 = Ret e0 /\ update_all (entropy_update_c log2) e0 (repeat (false, true, x) 3) = Ret e /\
    finite64 (entropy_evaluate e) = true /\ B2R (entropy_evaluate e : double) <> 0.
Proof. exact entropy_constant_c. Qed.
Print Assumptions C113_entropy_constant_refuted.

Example C113_p2_example : exists s0, p2_new (A := B64) Bhalf = Ret s0 /\
  let xs := map Bz [5; 1; 4; 2; 3; 7]%Z in
  Forall (fun x => finite64 x = true) xs /\ (5 <= length xs)%nat /\
  (forall x y, In x xs -> In y xs -> rnd (B2R y - B2R x) < big).
Proof. exact p2_bracket_case. Qed.

Example C113_variance_example : finite64 (Bz 3) = true /\ finite64 (Bmul (Bz 3) (Bz 3)) = true.
Proof. split; vm_compute; reflexivity. Qed.

(** The state after four observations in windows of two. *)
Example C113_wp2_example : exists (s : wp2 B64) p v, (1 <= w_wsize s <= w_history s)%nat /\ (w_history s mod w_wsize s = 0)%nat /\
  p2_evaluate (w_p2 s) = Ret (p, v) /\ finite64 (w_previous s) = true /\ finite64 v = true.
Proof. exact wp2_case. Qed.

Example C113_entropy_example : let xs := map snd (map (fun z => (true, true, Bz z)) [2; 1; 2]%Z) in
  Forall (fun x => finite64 x = true) xs /\ separated (A := B64) xs /\ few (A := B64) 2 xs.
Proof. exact EntropyRound.error_case. Qed.

Example C113_decrement_example : exists (log2 : double -> double) (h : hist B64) (ent : double) i z,
  (forall y : double, finite64 y = true -> / 2 <= B2R y <= 1 -> Rabs (B2R (log2 y)) <= 1) /\
  (2 <= h_total h)%nat /\ (Z.of_nat (h_total h) <= 2 ^ 53)%Z /\
  entropy_decrement_c log2 true h ent i = Ret z /\ finite64 z = true /\ Rabs (B2R z) <= 60.
Proof. exact decrement_case. Qed.
