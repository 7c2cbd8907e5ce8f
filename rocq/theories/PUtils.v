(** Properties C14-C19: tolerance comparisons, xlogx, bins.
    [B2R] is Flocq's real value of a double. *)

From Coq Require Import ZArith Reals Lra Bool.
From Flocq Require Import Core.Core IEEE754.BinarySingleNaN.
From Verif Require Import Outcome Arith Utils IBin FloatSpec FloatFacts UtilsFacts UtilsMono.
Open Scope R_scope.

(** What the four predicates mean in exact arithmetic. *)
Theorem C14_exact_meaning :
  forall a b e : R,
    (approximatelyEqual (A := RA) a b e = true <-> Rabs (a - b) <= Rmax (Rabs a) (Rabs b) * e) /\
    (essentiallyEqual (A := RA) a b e = true <-> Rabs (a - b) <= Rmin (Rabs a) (Rabs b) * e) /\
    (definitelyLessThan (A := RA) a b e = true <-> Rmax (Rabs a) (Rabs b) * e < b - a) /\
    (definitelyGreaterThan (A := RA) a b e = true <-> Rmax (Rabs a) (Rabs b) * e < a - b).
Proof. exact RA_exact. Qed.
Print Assumptions C14_exact_meaning.

(** C14: exactly one of less, greater, approximately equal, for all finite doubles. *)
Theorem C14_trichotomy :
  forall a b e : double,
    finite64 a = true -> finite64 b = true -> finite64 e = true -> 0 <= B2R e ->
    let l := definitelyLessThan (A := B64) a b e in
    let g := definitelyGreaterThan (A := B64) a b e in
    let q := approximatelyEqual (A := B64) a b e in
    (l = true /\ g = false /\ q = false) \/ (l = false /\ g = true /\ q = false) \/
    (l = false /\ g = false /\ q = true).
Proof. exact B_trichotomy. Qed.
Print Assumptions C14_trichotomy.

(** Greater is less with swapped arguments, for all doubles, even NaN. *)
Theorem C14_greater_is_less_swapped :
  forall a b e : double,
    definitelyGreaterThan (A := B64) a b e = definitelyLessThan (A := B64) b a e.
Proof. exact B_greater_less. Qed.
Print Assumptions C14_greater_is_less_swapped.

(** The difference of these two finite doubles overflows. *)
Example C14_example_overflow :
  let m := Bopp Bdblmax in
  finite64 m = true /\ finite64 Bdblmax = true /\
  finite64 (Bsub Bdblmax m) = false /\
  definitelyLessThan (A := B64) m Bdblmax default_eps = true.
Proof. repeat split; vm_compute; reflexivity. Qed.

Example C14_eps_example : finite64 (@default_eps B64) = true /\ 0 <= B2R (@default_eps B64).
Proof. exact default_eps_ok. Qed.

(** Outside the finite doubles all three can be false. *)
Theorem C14_infinite_or_nan_undecided_refuted :
  exists a b : double,
    definitelyLessThan (A := B64) a b default_eps = false /\
    definitelyGreaterThan (A := B64) a b default_eps = false /\
    approximatelyEqual (A := B64) a b default_eps = false /\
    a = b /\ a = B754_infinity false.
Proof. exact infinite_undecided. Qed.
Print Assumptions C14_infinite_or_nan_undecided_refuted.

(** C15 *)
Theorem C15_symmetric :
  forall a b e : double,
    approximatelyEqual (A := B64) a b e = approximatelyEqual (A := B64) b a e /\
    essentiallyEqual (A := B64) a b e = essentiallyEqual (A := B64) b a e.
Proof. exact (fun a b e => conj (B_approx_sym a b e) (B_essential_sym a b e)). Qed.
Print Assumptions C15_symmetric.

Theorem C15_reflexive :
  forall a e : double, finite64 a = true -> finite64 e = true -> 0 <= B2R e ->
    approximatelyEqual (A := B64) a a e = true /\ essentiallyEqual (A := B64) a a e = true.
Proof. exact (fun a e Fa Fe He => let '(conj x (conj y _)) := B_refl a e Fa Fe He in conj x y). Qed.
Print Assumptions C15_reflexive.

Theorem C15_essential_implies_approximate :
  forall a b e : double,
    finite64 a = true -> finite64 b = true -> finite64 e = true -> 0 <= B2R e ->
    essentiallyEqual (A := B64) a b e = true -> approximatelyEqual (A := B64) a b e = true.
Proof. exact B_ess_approx. Qed.
Print Assumptions C15_essential_implies_approximate.

Example C15_example :
  essentiallyEqual (A := B64) one (lit 10001 10000) default_eps = true /\
  essentiallyEqual (A := B64) one (lit 10002 10000) default_eps = false.
Proof. split; vm_compute; reflexivity. Qed.

(** C16 *)
Theorem C16_less_is_compatible_and_asymmetric :
  forall a b e : double,
    finite64 a = true -> finite64 b = true -> finite64 e = true -> 0 <= B2R e ->
    definitelyLessThan (A := B64) a a e = false /\
    (definitelyLessThan (A := B64) a b e = true ->
       B2R a < B2R b /\ definitelyLessThan (A := B64) b a e = false).
Proof.
  exact (fun a b e Fa Fb Fe He =>
    conj (let '(conj _ (conj _ z)) := B_refl a e Fa Fe He in z)
         (fun H => conj (B_less_lt a b e Fa Fb Fe He H) (B_asym a b e Fa Fb Fe He H))).
Qed.
Print Assumptions C16_less_is_compatible_and_asymmetric.

Theorem C16_less_transitive_exact :
  forall a b c e : R, 0 <= e < 1 ->
    definitelyLessThan (A := RA) a b e = true -> definitelyLessThan (A := RA) b c e = true ->
    definitelyLessThan (A := RA) a c e = true.
Proof. exact RA_less_trans. Qed.
Print Assumptions C16_less_transitive_exact.

Theorem C16_less_monotone_exact :
  forall a a' b b' e : R, 0 <= e < 1 -> a' <= a -> b <= b' ->
    definitelyLessThan (A := RA) a b e = true -> definitelyLessThan (A := RA) a' b' e = true.
Proof. exact RA_less_mono. Qed.
Print Assumptions C16_less_monotone_exact.

(** The same for doubles, rounding and overflow included. *)
Theorem C16_less_transitive :
  forall e : double, finite64 e = true -> 0 <= B2R e <= / 8 ->
  forall a b c : double, finite64 a = true -> finite64 b = true -> finite64 c = true ->
    definitelyLessThan (A := B64) a b e = true -> definitelyLessThan (A := B64) b c e = true ->
    definitelyLessThan (A := B64) a c e = true.
Proof. exact less_trans. Qed.
Print Assumptions C16_less_transitive.

Theorem C16_less_monotone :
  forall e : double, finite64 e = true -> 0 <= B2R e <= / 8 ->
  forall a a' b b' : double,
    finite64 a = true -> finite64 a' = true -> finite64 b = true -> finite64 b' = true ->
    B2R a' <= B2R a -> B2R b <= B2R b' ->
    definitelyLessThan (A := B64) a b e = true -> definitelyLessThan (A := B64) a' b' e = true.
Proof. exact less_mono. Qed.
Print Assumptions C16_less_monotone.

Example C16_eps_example : 0 <= B2R (default_eps (A := B64)) <= / 8 /\ 0 <= B2R (bin_eps (A := B64)) <= / 8.
Proof. exact (conj default_small bin_small). Qed.

(** Incomparability is not transitive: 1, 1.00009, 1.00018. *)
Theorem C16_not_a_strict_weak_order_refuted :
  exists a b c : double,
    finite64 a = true /\ finite64 b = true /\ finite64 c = true /\
    definitelyLessThan (A := B64) a b default_eps = false /\
    definitelyLessThan (A := B64) b a default_eps = false /\
    definitelyLessThan (A := B64) b c default_eps = false /\
    definitelyLessThan (A := B64) c b default_eps = false /\
    definitelyLessThan (A := B64) a c default_eps = true.
Proof. exact not_strict_weak. Qed.
Print Assumptions C16_not_a_strict_weak_order_refuted.

Example C16_example :
  definitelyLessThan (A := B64) (Bz 1) (Bz 2) default_eps = true /\
  definitelyLessThan (A := B64) (Bz 2) (Bz 3) default_eps = true.
Proof. split; vm_compute; reflexivity. Qed.

(** C17: [X x] is the value of [x], plus or minus 2^1024 for the infinities. *)
Theorem C17_xlogx :
  forall (log2 : double -> double) (x : double),
    (xlogx (A := B64) log2 x = Throw RuntimeError <-> nan x = false /\ X x < 0) /\
    (nan x = false -> X x = 0 -> xlogx (A := B64) log2 x = Ret (B754_zero false)) /\
    (nan x = true \/ 0 < X x -> xlogx (A := B64) log2 x = Ret (Bmul x (log2 x))) /\
    (nan x = true -> Bmul x (log2 x) = B754_nan).
Proof. exact xlogx_B64. Qed.
Print Assumptions C17_xlogx.

Example C17_example :
  (match xlogx (A := B64) (fun x => x) (Bz (-3)) with Throw RuntimeError => true | _ => false end = true) /\
  (match xlogx (A := B64) (fun x => x) (Bz 3) with Ret y => Beqb y (Bz 9) | _ => false end = true).
Proof. split; vm_compute; reflexivity. Qed.

(** C18 *)
Theorem C18_sum_counts :
  forall (A : arith) (x y : bin A),
    b_count (bin_add x y) = (b_count x + b_count y)%nat /\
    bin_add_assign x y = (bin_add x y, bin_add x y).
Proof. exact (fun A x y => conj (bin_add_count A x y) eq_refl). Qed.
Print Assumptions C18_sum_counts.

Theorem C18_sum_edges :
  forall x y : bin B64, fin_bin x -> fin_bin y ->
    let r := bin_add x y in
    (b_left r = b_left x \/ b_left r = b_left y) /\
    (b_right r = b_right x \/ b_right r = b_right y) /\
    (definitelyLessThan (A := B64) (b_left x) (b_left y) bin_eps = true \/
     definitelyLessThan (A := B64) (b_left y) (b_left x) bin_eps = true ->
       B2R (b_left r) = Rmin (B2R (b_left x)) (B2R (b_left y))) /\
    (definitelyLessThan (A := B64) (b_right x) (b_right y) bin_eps = true \/
     definitelyLessThan (A := B64) (b_right y) (b_right x) bin_eps = true ->
       B2R (b_right r) = Rmax (B2R (b_right x)) (B2R (b_right y))) /\
    (approximatelyEqual (A := B64) (b_left x) (b_left y) bin_eps = true -> b_left r = b_left x) /\
    (approximatelyEqual (A := B64) (b_right x) (b_right y) bin_eps = true -> b_right r = b_right x).
Proof. exact bin_add_edges. Qed.
Print Assumptions C18_sum_edges.

Theorem C18_sum_hull_exact :
  forall x y : bin RA,
    let r := bin_add x y in
    Rmin (b_left x) (b_left y) <= b_left r <=
      Rmin (b_left x) (b_left y) + Rmax (Rabs (b_left x)) (Rabs (b_left y)) * (1 / 1000000) /\
    Rmax (b_right x) (b_right y) - Rmax (Rabs (b_right x)) (Rabs (b_right y)) * (1 / 1000000)
      <= b_right r <= Rmax (b_right x) (b_right y).
Proof. exact bin_add_hull_RA. Qed.
Print Assumptions C18_sum_hull_exact.

(** A bin [2,3] plus [1,5]; and a hull that is cut: 1 plus 1 - 10^-7. *)
Example C18_example :
  (let r := bin_add (Bin (A := B64) (Bz 2) (Bz 3) 4) (Bin (A := B64) (Bz 1) (Bz 5) 2) in
   (Beqb (b_left r) (Bz 1) && Beqb (b_right r) (Bz 5) && Nat.eqb (b_count r) 6)%bool = true) /\
  (let z := lit (A := B64) 9999999 10000000 in
   (Bltb z (Bz 1) &&
    Beqb (b_left (bin_add (Bin (A := B64) (Bz 1) (Bz 1) 1) (Bin (A := B64) z z 1))) (Bz 1))%bool = true).
Proof. split; vm_compute; reflexivity. Qed.

(** C19 *)
Theorem C19_counts_ignored :
  forall (A : arith) (l r l' r' : A) c1 c2 c1' c2',
    bin_eq (Bin l r c1) (Bin l' r' c2) = bin_eq (Bin l r c1') (Bin l' r' c2') /\
    bin_lt (Bin l r c1) (Bin l' r' c2) = bin_lt (Bin l r c1') (Bin l' r' c2').
Proof. exact bin_counts_ignored. Qed.
Print Assumptions C19_counts_ignored.

Theorem C19_equality_and_order_exact :
  forall x y : bin RA,
    (bin_eq x y = true <->
      Rabs (b_left x - b_left y) <= Rmin (Rabs (b_left x)) (Rabs (b_left y)) * (1 / 10000) /\
      Rabs (b_right x - b_right y) <= Rmin (Rabs (b_right x)) (Rabs (b_right y)) * (1 / 10000)) /\
    (bin_lt x y = true <->
      Rmax (Rabs (b_left x)) (Rabs (b_left y)) * (1 / 10000) < b_left y - b_left x).
Proof. exact (fun x y => conj (bin_eq_RA x y) (bin_lt_RA x y)). Qed.
Print Assumptions C19_equality_and_order_exact.

Theorem C19_equality_and_order_doubles :
  forall x y : bin B64, fin_bin x -> fin_bin y ->
    bin_eq x x = true /\ bin_eq x y = bin_eq y x /\ bin_lt x x = false /\
    (bin_lt x y = true ->
       B2R (b_left x) < B2R (b_left y) /\ bin_lt y x = false /\ bin_eq x y = false).
Proof.
  exact (fun x y Hx Hy => conj (proj1 (bin_eq_B64 x y Hx)) (conj (proj2 (bin_eq_B64 x y Hx))
           (bin_lt_B64 x y Hx Hy))).
Qed.
Print Assumptions C19_equality_and_order_doubles.

Example C19_example :
  fin_bin (Bin (A := B64) (Bz 1) (Bz 2) 3) /\
  bin_lt (Bin (A := B64) (Bz 1) (Bz 2) 3) (Bin (A := B64) (Bz 2) (Bz 2) 1) = true.
Proof. repeat split; vm_compute; reflexivity. Qed.
