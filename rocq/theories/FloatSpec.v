(** Vocabulary for statements about doubles. *)

From Coq Require Import ZArith Reals Bool.
From Flocq Require Import Core.Core IEEE754.BinarySingleNaN.
From Verif Require Import Arith IBin.
Open Scope R_scope.

Definition big : R := bpow radix2 1024.
Definition fexp64 : Z -> Z := SpecFloat.fexp 53 1024.
Definition rnd (r : R) : R := round radix2 fexp64 ZnearestE r.
Definition sat (r : R) : R :=
  if Rlt_bool (Rabs r) big then r else if Rlt_bool r 0 then - big else big.
(** Rounding to a double or to plus or minus [big], which stands for infinity. *)
Definition R64 (r : R) : R := sat (rnd r).
(** The value of a double, infinities being plus or minus [big]. *)
Definition X (x : double) : R :=
  match x with
  | B754_infinity s => if s then - big else big
  | _ => B2R x
  end.
Definition nan (x : double) : bool := is_nan x.

(** A bin whose edges are finite. *)
Definition fin_bin (b : bin B64) : Prop := finite64 (b_left b) = true /\ finite64 (b_right b) = true.
