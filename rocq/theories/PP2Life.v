(** Property: how long a WindowedP2Quantile lives (C91). *)

From Coq Require Import List Reals ZArith.
From Flocq Require Import IEEE754.BinarySingleNaN.
From Verif Require Import Outcome Arith P2 P2Spec Spec FloatSpec P2Witness P2WinLife.
Import ListNotations.

(** C91: with a window, every observation that is not among the first five of its
    block of W + 1 advances the last marker for good; the estimator lives until
    that [int] overflows. *)
Theorem C91_wp2_lifetime :
  forall (q : double) W s0 (xs : list double),
    wp2_new (A := B64) q W = Ret s0 -> nan q = false -> (1 <= W)%nat ->
    Forall (fun x => nan x = false) xs ->
    if Z.leb (4 + Z.of_nat (late W (length xs))) (2 ^ 31 - 1)
    then exists s, update_all wp2_update s0 xs = Ret s /\
                   nth 4 (p_pos (w_p2 s)) 0%Z = (4 + Z.of_nat (late W (length xs)))%Z
    else update_all wp2_update s0 xs = Undef IntOverflow.
Proof. exact wp2_life. Qed.
Print Assumptions C91_wp2_lifetime.

(** What [late] comes to: each full block of W + 1 adds W - 4. *)
Theorem C91_late_count :
  forall W n, (4 <= W)%nat -> late W n = (n / (W + 1) * (W - 4) + (n mod (W + 1) - 5))%nat.
Proof. exact late_closed. Qed.
Print Assumptions C91_late_count.

(** A window of at most four never overflows: the markers never move. *)
Theorem C91_wp2_small_window :
  forall (q : double) W s0 (xs : list double),
    wp2_new (A := B64) q W = Ret s0 -> nan q = false -> (1 <= W <= 4)%nat ->
    Forall (fun x => nan x = false) xs ->
    exists s, update_all wp2_update s0 xs = Ret s /\ p_pos (w_p2 s) = [0; 1; 2; 3; 4]%Z.
Proof. exact wp2_immortal. Qed.
Print Assumptions C91_wp2_small_window.

(** Window 6: after fourteen observations the last marker claims to be at 8
    although a fresh block has just begun; window 3: never moves. *)
Example C91_example :
  late 6 14 = 4%nat /\
  ok (let* s0 := wp2_new (A := B64) Bhalf 6 in update_all wp2_update s0 (map Bz [3; 1; 4; 1; 5; 9; 2; 6; 5; 3; 5; 8; 9; 7]%Z))
     (fun s => andb (Z.eqb (nth 4 (p_pos (w_p2 s)) 0%Z) 8) (Nat.eqb (p_history (w_p2 s)) 0)) = true /\
  ok (let* s0 := wp2_new (A := B64) Bhalf 3 in update_all wp2_update s0 (map Bz [3; 1; 4; 1; 5; 9; 2; 6; 5; 3; 5; 8; 9; 7]%Z))
     (fun s => Z.eqb (nth 4 (p_pos (w_p2 s)) 0%Z) 4) = true /\
  (exists xs : list double, (2 ^ 31 - 1 < 4 + Z.of_nat (late 6 (length xs)))%Z /\ Forall (fun x => nan x = false) xs).
Proof. exact wp2_life_case. Qed.
