(** Vocabulary: one complete use of an estimator, and acting on its answer. *)

From Coq Require Import List Reals.
From Verif Require Import Outcome Spec.

(** The complete computation: construct, feed the stream, ask once. *)
Definition ask {S} (new : outcome S) (upd : S -> R -> outcome S) (ev : S -> outcome (S * R)) (xs : list R) : outcome R :=
  let* s := new in let* s' := update_all upd s xs in let* (_, v) := ev s' in Ret v.

(** Acting on the value if there is one. *)
Definition omap {X Y} (g : X -> Y) (o : outcome X) : outcome Y := bind o (fun a => Ret (g a)).
