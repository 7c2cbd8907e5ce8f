(** What is said about the work of a call. *)

From Coq Require Import List.
From Verif Require Import Outcome Work.

(** The result without the count. *)
Definition answer {X} (m : work X) : outcome X := let* (x, _) := m in Ret x.

(** If the call returns, it has made at most [n] accesses. *)
Definition at_most {X} (n : nat) (m : work X) : Prop := forall x c, m = Ret (x, c) -> c <= n.
(** If the call returns, it has made at least [n] accesses. *)
Definition at_least {X} (n : nat) (m : work X) : Prop := forall x c, m = Ret (x, c) -> n <= c.
