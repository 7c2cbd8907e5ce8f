(** Model of IStreaming<double>, StreamingMean and StreamingVariance
    (tools/cpp/KML/include/IStreaming.{h,tcc},
     src/statistics/summary/StreamingMean.cc, StreamingVariance.cc). *)

From Coq Require Import List ZArith.
From Verif Require Import Outcome Arith.
Import ListNotations.

Section Mean.
  Context {A : arith}.

  (** IStreaming.h:84-94 and StreamingMean.h:48. [mn_window] is [None] when
      m_window is null. *)
  Record mean : Type := Mean {
    mn_window : option (list A);   (* *m_window, front first *)
    mn_wsize : nat;                (* m_windowSize *)
    mn_history : nat;              (* m_historyCount *)
    mn_sum : A                     (* m_sum *)
  }.

  (** IStreaming.tcc:7-15: a window exists only for windowSize > 0. *)
  Definition new_window {X} (windowSize : nat) : option (list X) :=
    if Nat.ltb 0 windowSize then Some [] else None.

  (** StreamingMean.cc:11-14. *)
  Definition mean_new (windowSize : nat) : mean :=
    Mean (new_window windowSize) windowSize 0 (of_Z 0).

  (** StreamingMean.cc:16-30. *)
  Definition mean_update (s : mean) (x : A) : outcome mean :=
    let* (window, sum) :=
      (match mn_window s with
       | None => Ret (None, mn_sum s)
       | Some w =>
           if Nat.ltb (mn_wsize s) (length w + 1) then
             match w with
             | [] => Undef OutOfBounds          (* front() of an empty deque *)
             | f :: w' => Ret (Some (w' ++ [x]), mn_sum s -. f)
             end
           else Ret (Some (w ++ [x]), mn_sum s)
       end) in
    Ret (Mean window (mn_wsize s) (mn_history s + 1) (sum +. x)).

  (** StreamingMean.cc:32-43. *)
  Definition mean_evaluate (s : mean) : A :=
    if Nat.eqb (mn_history s) 0 then of_Z 0
    else match mn_window s with
         | Some w => mn_sum s /. of_nat (length w)
         | None => mn_sum s /. of_nat (mn_history s)
         end.

  (** StreamingVariance.h:74-79 plus its own IStreaming members. *)
  Record variance : Type := Variance {
    va_window : option (list A);   (* *m_window of the object itself *)
    va_wsize : nat;
    va_history : nat;
    va_mean : mean;                (* *m_mean *)
    va_sq : mean                   (* *m_sumSquared *)
  }.

  (** StreamingVariance.cc:11-16. *)
  Definition variance_new (windowSize : nat) : variance :=
    Variance (new_window windowSize) windowSize 0
             (mean_new windowSize) (mean_new windowSize).

  (** StreamingVariance.cc:24-28: the object's own window and counter are not
      touched. *)
  Definition variance_update (s : variance) (x : A) : outcome variance :=
    let* m := mean_update (va_mean s) x in
    let* q := mean_update (va_sq s) (x *. x) in
    Ret (Variance (va_window s) (va_wsize s) (va_history s) m q).

  (** StreamingVariance.cc:30-34. *)
  Definition variance_evaluate (s : variance) : A :=
    let m := mean_evaluate (va_mean s) in
    mean_evaluate (va_sq s) -. (m *. m).
End Mean.
Arguments mean : clear implicits.
Arguments variance : clear implicits.
