(** Model of KML::DataStructures::IBin<double>
    (tools/cpp/KML/include/data_structures/histograms/IBin.{h,tcc}). *)

From Coq Require Import ZArith Bool.
From Verif Require Import Outcome Arith Utils.

Section IBin.
  Context {A : arith}.

  (** IBin.h:89-99; constructor IBin.tcc:11-15; copies and moves
      (IBin.tcc:23-63) copy the three fields, i.e. are the identity on the
      record. *)
  Record bin : Type := Bin {
    b_left : A;      (* m_left *)
    b_right : A;     (* m_right *)
    b_count : nat    (* m_count *)
  }.

  (** 0.000001, IBin.tcc:69,73. *)
  Definition bin_eps : A := lit 1 1000000.

  (** IBin.tcc:65-80. *)
  Definition bin_add (this rhs : bin) : bin :=
    let left := if definitelyLessThan (b_left rhs) (b_left this) bin_eps
                then b_left rhs else b_left this in
    let right := if definitelyGreaterThan (b_right rhs) (b_right this) bin_eps
                 then b_right rhs else b_right this in
    Bin left right (b_count this + b_count rhs).

  (** IBin.tcc:82-87: the new value of [*this], also returned by value. *)
  Definition bin_add_assign (this other : bin) : bin * bin :=
    let r := bin_add this other in (r, r).

  (** IBin.tcc:89-93. *)
  Definition bin_lt (this rhs : bin) : bool :=
    definitelyLessThan (b_left this) (b_left rhs) default_eps.

  (** IBin.tcc:95-100. *)
  Definition bin_eq (this rhs : bin) : bool :=
    essentiallyEqual (b_left this) (b_left rhs) default_eps &&
    essentiallyEqual (b_right this) (b_right rhs) default_eps.

  (** IBin.tcc:109-113. *)
  Definition bin_getCount (this : bin) : nat := b_count this.
End IBin.
Arguments bin : clear implicits.
