(** Model of the update calls with the history counter m_historyCount and the
    expression m_windowSize + 1 taken modulo 2^64 (IStreaming.h:89-94: both are
    size_t). The other models count without bound. *)

From Coq Require Import List Arith NArith Bool.
From Verif Require Import Outcome Arith Mean P2 Fame.
Import ListNotations.

(** The value a size_t holds after a computation whose true result is [n]. *)
Definition u64 (n : nat) : nat := N.to_nat (N.modulo (N.of_nat n) (2 ^ 64)).

Section Wrap.
  Context {A : arith}.

  (** StreamingMean.cc:28. *)
  Definition wrap_mean (s : mean A) : mean A :=
    Mean (mn_window s) (mn_wsize s) (u64 (mn_history s)) (mn_sum s).
  (** StreamingMean.cc:16-30. *)
  Definition mean_update64 (s : mean A) (x : A) : outcome (mean A) :=
    let* s' := mean_update s x in Ret (wrap_mean s').

  (** StreamingVariance.cc:24-28. *)
  Definition variance_update64 (s : variance A) (x : A) : outcome (variance A) :=
    let* m := mean_update64 (va_mean s) x in
    let* q := mean_update64 (va_sq s) (x *. x) in
    Ret (Variance (va_window s) (va_wsize s) (va_history s) m q).

  (** WindowedFAME.cc:24-49; the counter is in line 48. *)
  Definition fame_update64 (s : fame A) (x : A) : fame A :=
    let s' := fame_update s x in
    Fame (f_median s') (f_step s') (f_epsilon s') (u64 (f_history s')).

  (** StreamingMAD.cc:25-30. *)
  Definition mad_update64 (s : mad A) (x : A) : mad A :=
    let sc := fame_update64 (a_score s) x in
    let er := fame_update64 (a_error s) (fabs (x -. fame_evaluate sc)) in
    Mad sc er (u64 (a_history s + 1)).

  (** WindowedP2Quantile.cc:22-34: the counter (line 24) and the divisor of the
      remainder (line 28) wrap; a remainder by zero is UB. The counter of the
      inner estimator is left unbounded, its marker positions overflow first. *)
  Definition wp2_update64 (s : wp2 A) (x : A) : outcome (wp2 A) :=
    let c := u64 (S (w_history s)) in
    let* p := p2_update (w_p2 s) x in
    if Nat.ltb 0 (w_wsize s) then
      if Nat.eqb (u64 (w_wsize s + 1)) 0 then Undef DivByZero
      else if Nat.eqb (c mod u64 (w_wsize s + 1)) 0 then
        let* (p', v) := p2_evaluate p in
        Ret (WP2 (p2_clear p') v (w_wsize s) c)
      else Ret (WP2 p (w_previous s) (w_wsize s) c)
    else Ret (WP2 p (w_previous s) (w_wsize s) c).
End Wrap.
