(** Vocabulary for the statements about the Python containers. *)

From Coq Require Import List ZArith Reals.
From Flocq Require Import Core.Core IEEE754.BinarySingleNaN.
From Verif Require Import Outcome Calls Arith.
Import ListNotations.

(** The values of the single precision format (without bound on the exponent
    above), and rounding to it. *)
Definition fexp32 : Z -> Z := FLT_exp (-149) 24.
Definition round32 (r : R) : R := round radix2 fexp32 ZnearestE r.

(** The double that comes back when [x] went through a C float: NaN, infinities
    and zeros unchanged; otherwise the rounded value, with the sign of [x]; or
    infinity when that has magnitude 2^128 or more. *)
Definition through_single (x y : double) : Prop :=
  (finite64 x = false /\ y = x) \/
  (finite64 x = true /\ Bsign y = Bsign x /\
   ((Rabs (round32 (B2R x)) < bpow radix2 128)%R /\ finite64 y = true /\ B2R y = round32 (B2R x) \/
    (bpow radix2 128 <= Rabs (round32 (B2R x)))%R /\ y = B754_infinity (Bsign x))).

(** The same call with its item replaced. *)
Definition call_with {X : Type} (f : X -> X) (c : rcall X) : rcall X :=
  match c with CUpdate x => CUpdate (f x) | _ => c end.
