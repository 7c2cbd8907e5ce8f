(** Vocabulary: data on a grid, i.e. multiples of one power of two. *)

From Coq Require Import List Reals ZArith.
From Flocq Require Import Core.Core IEEE754.BinarySingleNaN.
From Verif Require Import Arith FloatSpec.
Open Scope R_scope.

(** A multiple of 2^e by an integer of magnitude at most [B]. *)
Definition on_grid (e B : Z) (r : R) : Prop := exists m, (Z.abs m <= B)%Z /\ r = IZR m * bpow radix2 e.

Definition grid (e B : Z) (x : double) : Prop := finite64 x = true /\ on_grid e B (B2R x).

(** The number of observations whose sum the estimator keeps. *)
Definition kept {X : Type} (W : nat) (xs : list X) : nat := match W with O => length xs | _ => W end.
