(** Vocabulary: a WindowedFAME in another unit. *)

From Coq Require Import ZArith List.
From Verif Require Import Outcome Arith Fame FloatSpec UnitSpec.

(** Estimate and step in the other unit; epsilon has none. *)
Definition ldexp_fame (k : Z) (s : fame B64) : fame B64 :=
  Fame (A := B64) (ldexp64 k (f_median s)) (ldexp64 k (f_step s)) (f_epsilon s) (f_history s).

(** Estimate and step far from the smallest and largest doubles in both units. *)
Definition fame_measured (k : Z) (s : fame B64) : Prop :=
  measured k 800 (f_median s) /\ measured k 800 (f_step s).
