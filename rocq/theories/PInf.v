(** C114: infinite observations. *)

From Coq Require Import List ZArith Bool Arith.
From Flocq Require Import IEEE754.BinarySingleNaN.
From Verif Require Import Outcome Arith Utils IBin Histogram Mean P2 Fame Spec FloatSpec FameSpec P2Witness NanSpec InfFacts.
Import ListNotations.
Local Open Scope nat_scope.

Local Notation pinf := (B754_infinity false : double).
Local Notation ninf := (B754_infinity true : double).

(** Histogram: the largest number there is, plus infinity, is counted in the lowest bin. *)
Theorem C114_histogram_plus_infinity_counted_lowest :
  forall N W (xs : list double) (h : hist B64), xs <> [] -> nans xs = 0 -> length xs < W ->
    update_all hist_update (hist_new (A := B64) N W true) xs = Ret h ->
    exists b r h', h_bins h = b :: r /\ hist_update h pinf = Ret h' /\
      h_bins h' = Bin (b_left b) (b_right b) (b_count b + 1) :: r.
Proof. exact hist_pinf. Qed.
Print Assumptions C114_histogram_plus_infinity_counted_lowest.

(** If the first observation is minus infinity, one bin takes everything that follows. *)
Theorem C114_histogram_minus_infinity_first :
  forall N W (xs : list double), 1 <= N -> length xs < W -> nans xs = 0 ->
    exists h, update_all hist_update (hist_new (A := B64) N W true) (ninf :: xs) = Ret h /\
      h_bins h = [Bin ninf ninf (S (length xs))].
Proof. exact hist_ninf_first. Qed.
Print Assumptions C114_histogram_minus_infinity_first.

(** Later it gets a bin of its own in front. *)
Theorem C114_histogram_minus_infinity_later :
  forall N W (xs : list double) (h : hist B64) b r, length xs < W ->
    update_all hist_update (hist_new (A := B64) N W true) xs = Ret h -> h_bins h = b :: r -> b_left b <> ninf ->
    length (h_bins h) < N ->
    exists h', hist_update h ninf = Ret h' /\ h_bins h' = Bin ninf ninf 1 :: b :: r.
Proof. exact hist_ninf_new. Qed.
Print Assumptions C114_histogram_minus_infinity_later.

(** From then on it also counts every number that no other bin lies below: no further
    new bin ever appears to the left of the others. *)
Theorem C114_histogram_minus_infinity_takes :
  forall N W (xs : list double) (h : hist B64) rt c r (x : double), length xs < W ->
    update_all hist_update (hist_new (A := B64) N W true) xs = Ret h -> h_bins h = Bin ninf rt c :: r -> nan x = false ->
    (forall d, In d r -> definitelyLessThan (b_left d) x default_eps = false) ->
    exists h', hist_update h x = Ret h' /\ h_bins h' = Bin ninf rt (c + 1) :: r.
Proof. exact hist_ninf_takes. Qed.
Print Assumptions C114_histogram_minus_infinity_takes.

(** With a single bin, an infinity on the wrong side of any other number leaves merge
    without a pair of bins: the index is out of bounds. *)
Theorem C114_histogram_one_bin_undefined :
  forall W (x : double), 2 <= W -> nan x = false ->
    (x <> ninf -> update_all hist_update (hist_new (A := B64) 1 W true) [x; ninf] = Undef OutOfBounds) /\
    (x <> pinf -> update_all hist_update (hist_new (A := B64) 1 W true) [pinf; x] = Undef OutOfBounds).
Proof. exact (fun W x HW N => conj (hist_ninf_one_bin W x HW N) (hist_pinf_one_bin W x HW N)). Qed.
Print Assumptions C114_histogram_one_bin_undefined.

(** Mean: after an observation that is not finite the result is never finite again,
    whatever the window and however much follows. *)
Theorem C114_mean_never_finite :
  forall W (pre post : list double) (x : double) s, finite64 x = false ->
    update_all mean_update (mean_new (A := B64) W) (pre ++ x :: post) = Ret s -> finite64 (mean_evaluate s) = false.
Proof. exact mean_never_finite. Qed.
Print Assumptions C114_mean_never_finite.

(** Variance: for that the square need only overflow, as that of 2^512 does; and once
    the window has moved past the observation the result is NaN. *)
Theorem C114_variance_never_finite :
  forall W (pre post : list double) (x : double), finite64 (Bmul x x) = false ->
    exists s, update_all (variance_update (A := B64)) (variance_new W) (pre ++ x :: post) = Ret s /\
      finite64 (variance_evaluate (A := B64) s) = false.
Proof. exact variance_never_finite. Qed.
Print Assumptions C114_variance_never_finite.

Theorem C114_variance_nan_forever :
  forall W (pre post : list double) (x : double), 1 <= W -> finite64 (Bmul x x) = false -> W <= length post ->
    exists s, update_all (variance_update (A := B64)) (variance_new W) (pre ++ x :: post) = Ret s /\
      variance_evaluate (A := B64) s = B754_nan.
Proof. exact variance_nan_forever. Qed.
Print Assumptions C114_variance_nan_forever.

(** P2: an estimate that is not finite stays so for every continuation. *)
Theorem C114_p2_never_finite :
  forall (s s' : p2 B64) (xs : list double), 5 < p_history s -> update_all p2_update s xs = Ret s' ->
    (exists v, p2_evaluate s = Ret (s, v) /\ finite64 v = false) ->
    exists v, p2_evaluate s' = Ret (s', v) /\ finite64 v = false.
Proof. exact p2_inf_forever. Qed.
Print Assumptions C114_p2_never_finite.

(** One infinite observation among small numbers brings this about: the median of
    1, ..., 6, infinity, 7 is reported as infinity and no continuation repairs it. *)
Theorem C114_p2_forgets_an_infinity_refuted :
  exists s0 s, p2_new (A := B64) (Bquot (Bz 1) (Bz 2)) = Ret s0 /\
    update_all p2_update s0 (map Bz [1; 2; 3; 4; 5; 6]%Z ++ [pinf; Bz 7]) = Ret s /\
    (exists v, p2_evaluate s = Ret (s, v) /\ eqb (a := B64) v pinf = true) /\
    forall ys s', update_all p2_update s ys = Ret s' -> exists v, p2_evaluate s' = Ret (s', v) /\ finite64 v = false.
Proof. exact p2_one_inf. Qed.
Print Assumptions C114_p2_forgets_an_infinity_refuted.

(** Three more and it is NaN for good. *)
Theorem C114_p2_infinity_becomes_nan_refuted :
  exists s0 s, p2_new (A := B64) (Bquot (Bz 1) (Bz 2)) = Ret s0 /\
    update_all p2_update s0 (map Bz [1; 2; 3; 4; 5; 6]%Z ++ pinf :: map Bz [7; 8; 9; 10]%Z) = Ret s /\
    forall ys s', update_all p2_update s ys = Ret s' -> exists v, p2_evaluate s' = Ret (s', v) /\ nan v = true.
Proof. exact p2_inf_to_nan. Qed.
Print Assumptions C114_p2_infinity_becomes_nan_refuted.

(** FAME: a first observation that is not finite spoils every estimate. *)
Theorem C114_fame_first_not_finite :
  forall (step eps : double) s0 (x : double) (xs : list double), fame_new (A := B64) step eps = Ret s0 ->
    finite64 x = false -> finite64 (fame_evaluate (fame_run s0 (x :: xs))) = false.
Proof. exact fame_never_finite. Qed.
Print Assumptions C114_fame_first_not_finite.

(** A later infinity cannot be told from any number on the same side that is at least a
    step beyond the new estimate: the same state, bit for bit. *)
Theorem C114_fame_later_infinity :
  forall (s : fame B64) (y : double), 0 < f_history s ->
    (Bltb (f_median s) y = true -> Bltb (Babs (Bsub y (Badd (f_median s) (f_step s)))) (f_step s) = false ->
     fame_update s pinf = fame_update s y) /\
    (Bltb y (f_median s) = true -> Bltb (Babs (Bsub y (Bsub (f_median s) (f_step s)))) (f_step s) = false ->
     fame_update s ninf = fame_update s y).
Proof. exact (fun s y H => conj (fun A B => fame_pinf s y H (conj A B)) (fun A B => fame_ninf s y H (conj A B))). Qed.
Print Assumptions C114_fame_later_infinity.

(** So with StreamingMAD, if both of its estimators see it as that far. *)
Theorem C114_mad_later_infinity :
  forall (s : mad B64) (y : double), 0 < f_history (a_score s) -> 0 < f_history (a_error s) ->
    let m := fame_evaluate (fame_update (a_score s) y) in
    let d := Babs (Bsub y m) in
    finite64 m = true ->
    Bltb (f_median (a_error s)) d = true ->
    Bltb (Babs (Bsub d (Badd (f_median (a_error s)) (f_step (a_error s))))) (f_step (a_error s)) = false ->
    (Bltb (f_median (a_score s)) y = true ->
     Bltb (Babs (Bsub y (Badd (f_median (a_score s)) (f_step (a_score s))))) (f_step (a_score s)) = false ->
     mad_update s pinf = mad_update s y) /\
    (Bltb y (f_median (a_score s)) = true ->
     Bltb (Babs (Bsub y (Bsub (f_median (a_score s)) (f_step (a_score s))))) (f_step (a_score s)) = false ->
     mad_update s ninf = mad_update s y).
Proof.
  exact (fun s y H1 H2 F A B => conj (fun C D => mad_pinf s y H1 H2 F (conj C D) (conj A B))
    (fun C D => mad_ninf s y H1 H2 F (conj C D) (conj A B))).
Qed.
Print Assumptions C114_mad_later_infinity.

(** 5, 7, 9 in three bins, then plus infinity: the bin of 5 holds two. 5, 7, minus
    infinity, 1 in four bins: 1 is counted with minus infinity. The square of 2^512
    overflows. An estimator at 10 with step 1 cannot tell infinity from 100; nor can a
    MAD estimator after 10, 11, 12. *)
Example C114_example :
  ok (update_all hist_update (hist_new (A := B64) 3 9 true) [Bz 5; Bz 7; Bz 9; pinf])
     (fun h => match h_bins h with
               | [a; b; c] => eqb (a := B64) (b_left a) (Bz 5) && Nat.eqb (b_count a) 2 && Nat.eqb (b_count c) 1
               | _ => false end) = true /\
  ok (update_all hist_update (hist_new (A := B64) 4 9 true) [Bz 5; Bz 7; ninf; Bz 1])
     (fun h => match h_bins h with
               | [a; b; c] => eqb (a := B64) (b_left a) ninf && Nat.eqb (b_count a) 2 && eqb (a := B64) (b_left b) (Bz 5)
               | _ => false end) = true /\
  finite64 (Bz (2 ^ 512)) && negb (finite64 (Bmul (Bz (2 ^ 512)) (Bz (2 ^ 512)))) = true /\
  (let s := Fame (A := B64) (Bz 10) (Bz 1) (Bz 0) 3 in let y := Bz 100 in
   Bltb (f_median s) y && negb (Bltb (Babs (Bsub y (Badd (f_median s) (f_step s)))) (f_step s))) = true /\
  ok (mad_new (A := B64)) (fun s0 => let s := mad_run s0 [Bz 10; Bz 11; Bz 12] in let y := Bz 100 in
   let m := fame_evaluate (fame_update (a_score s) y) in let d := Babs (Bsub y m) in
   Nat.ltb 0 (f_history (a_score s)) && Nat.ltb 0 (f_history (a_error s)) && finite64 m &&
   Bltb (f_median (a_error s)) d &&
   negb (Bltb (Babs (Bsub d (Badd (f_median (a_error s)) (f_step (a_error s))))) (f_step (a_error s))) &&
   Bltb (f_median (a_score s)) y &&
   negb (Bltb (Babs (Bsub y (Badd (f_median (a_score s)) (f_step (a_score s))))) (f_step (a_score s)))) = true.
Proof. vm_compute. repeat split; reflexivity. Qed.
