(** The call alphabet of the two windowed containers (IDataStructure.h:25-62,
    RingBuffer.h, LinkedList.h): what a client can call and what it gets back. *)

From Coq Require Import NArith.

(** Calls a client can make, and what each returns. *)
Inductive rcall (T : Type) : Type :=
| CUpdate (x : T)
| CPop
| CReset
| CSize
| CEmpty
| CFull.
Arguments CUpdate {T} x.
Arguments CPop {T}.
Arguments CReset {T}.
Arguments CSize {T}.
Arguments CEmpty {T}.
Arguments CFull {T}.

Inductive rout (T : Type) : Type :=
| OUnit
| OVal (x : T)
| ONum (n : N)
| OBool (b : bool).
Arguments OUnit {T}.
Arguments OVal {T} x.
Arguments ONum {T} n.
Arguments OBool {T} b.
