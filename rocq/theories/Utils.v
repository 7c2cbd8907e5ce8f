(** Model of KML::Utils (tools/cpp/KML/src/utils/Utils.cc,
    include/utils/Utils.h). *)

From Coq Require Import ZArith Bool.
From Verif Require Import Outcome Arith.

Section Utils.
  Context {A : arith}.

  (** The default argument 0.0001 of every comparison (Utils.h:14-30). *)
  Definition default_eps : A := lit 1 10000.

  (** Utils.cc:17-21. *)
  Definition approximatelyEqual (a b epsilon : A) : bool :=
    fabs (a -. b) <=?.
      ((if fabs a <?. fabs b then fabs b else fabs a) *. epsilon).

  (** Utils.cc:23-27. *)
  Definition essentiallyEqual (a b epsilon : A) : bool :=
    fabs (a -. b) <=?.
      ((if fabs b <?. fabs a then fabs b else fabs a) *. epsilon).

  (** Utils.cc:29-32. *)
  Definition definitelyGreaterThan (a b epsilon : A) : bool :=
    ((if fabs a <?. fabs b then fabs b else fabs a) *. epsilon) <?. (a -. b).

  (** Utils.cc:34-37. *)
  Definition definitelyLessThan (a b epsilon : A) : bool :=
    ((if fabs a <?. fabs b then fabs b else fabs a) *. epsilon) <?. (b -. a).

  (** Utils.cc:39-52; std::log2 is the parameter. The line printed before the
      throw is not modelled. *)
  Definition xlogx (log2 : A -> A) (item : A) : outcome A :=
    if item <?. zero then Throw RuntimeError
    else if zero =?. item then Ret zero
    else Ret (item *. log2 item).
End Utils.
