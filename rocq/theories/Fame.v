(** Model of WindowedFAME and StreamingMAD
    (tools/cpp/KML/src/statistics/summary/WindowedFAME.cc,
     src/metrics/StreamingMAD.cc). *)

From Coq Require Import List ZArith Bool.
From Verif Require Import Outcome Arith.

Section Fame.
  Context {A : arith}.

  (** WindowedFAME.h:46-56. *)
  Record fame : Type := Fame {
    f_median : A;       (* m_median *)
    f_step : A;         (* m_stepSize *)
    f_epsilon : A;      (* m_epsilon *)
    f_history : nat     (* m_historyCount *)
  }.

  (** WindowedFAME.cc:14-22. *)
  Definition fame_new (stepSize epsilon : A) : outcome fame :=
    if (epsilon <?. of_Z 0) || (epsilon >=?. of_Z 1) then Throw InvalidArgument
    else Ret (Fame (of_Z 0) stepSize epsilon 0).

  (** WindowedFAME.cc:24-49. *)
  Definition fame_update (s : fame) (x : A) : fame :=
    let first := Nat.eqb (f_history s) 0 in
    let median0 := if first then x else f_median s in
    let step0 := if first then max_ (fabs x /. of_Z 2) (f_step s) else f_step s in
    let median1 := if median0 >?. x then median0 -. step0
                   else if median0 <?. x then median0 +. step0
                   else median0 in
    let step1 := if negb first && (fabs (x -. median1) <?. step0)
                 then step0 /. of_Z 2 else step0 in
    Fame median1 (step1 *. (of_Z 1 +. f_epsilon s)) (f_epsilon s) (f_history s + 1).

  (** WindowedFAME.cc:51. *)
  Definition fame_evaluate (s : fame) : A := f_median s.

  (** StreamingMAD.h:69-74 plus the IStreaming counter. *)
  Record mad : Type := Mad {
    a_score : fame;     (* *m_scoreMedian *)
    a_error : fame;     (* *m_errorMedian *)
    a_history : nat
  }.

  (** StreamingMAD.cc:13-17 with the default arguments stepSize = 0.1,
      epsilon = 0.0 of WindowedFAME.h:28. *)
  Definition mad_new : outcome mad :=
    let* s := fame_new (lit 1 10) (of_Z 0) in
    let* e := fame_new (lit 1 10) (of_Z 0) in
    Ret (Mad s e 0).

  (** StreamingMAD.cc:25-30. *)
  Definition mad_update (s : mad) (x : A) : mad :=
    let sc := fame_update (a_score s) x in
    let er := fame_update (a_error s) (fabs (x -. fame_evaluate sc)) in
    Mad sc er (a_history s + 1).

  (** StreamingMAD.cc:32. *)
  Definition mad_evaluate (s : mad) : A := fame_evaluate (a_error s).
End Fame.
Arguments fame : clear implicits.
Arguments mad : clear implicits.
