(** Vocabulary for the slow-adaptation theorem of P2. *)

From Coq Require Import List Reals.
Import ListNotations.

(** One observation -1, then m zeros, then n ones. *)
Definition shift_stream (m n : nat) : list R := (-1)%R :: repeat 0%R m ++ repeat 1%R n.

(** [v] is the order statistic number [k] (from 0): at most [k] items are below it
    and more than [k] items are not above it. *)
Definition order_statistic (xs : list R) (k : nat) (v : R) : Prop :=
  length (filter (fun x => if Rlt_dec x v then true else false) xs) <= k <
  length (filter (fun x => if Rle_dec x v then true else false) xs).
