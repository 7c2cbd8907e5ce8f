(** Vocabulary for stating what concurrent executions of a LinkedList do. *)

From Coq Require Import List.
From Verif Require Import Calls LinkedListConc.
Import ListNotations.

(** The data members of a LinkedList that are written; nodes are left out, so
    [lrace] below is a sufficient condition for a data race. *)
Inductive lplace : Type := LAtHead | LAtTail | LAtSize | LAtHistory.

(** What a call in progress does next to a data member, and whether it writes. *)
Definition lnext_access {T} (p : lprog T) : option (lplace * bool) :=
  match p with
  | LReadHead _ => Some (LAtHead, false)
  | LReadTail _ => Some (LAtTail, false)
  | LReadSize _ => Some (LAtSize, false)
  | LReadHist _ => Some (LAtHistory, false)
  | LWriteHead _ _ => Some (LAtHead, true)
  | LWriteTail _ _ => Some (LAtTail, true)
  | LWriteSize _ _ => Some (LAtSize, true)
  | LWriteHist _ _ => Some (LAtHistory, true)
  | _ => None
  end.

(** Two threads, in the middle of the calls [a] and [b], are both about to access
    the same data member, one of them writing. *)
Definition lrace {T} (c : lconfig T) (a b : rcall T) : Prop :=
  exists i j ti tj p q l w w',
    i <> j /\ nth_error (lc_threads c) i = Some ti /\ nth_error (lc_threads c) j = Some tj /\
    lt_cur ti = Some (a, p) /\ lt_cur tj = Some (b, q) /\
    lnext_access p = Some (l, w) /\ lnext_access q = Some (l, w') /\ (w = true \/ w' = true).

(** All calls completed so far by all threads. *)
Definition completed {T} (c : lconfig T) : nat := length (concat (map lt_done (lc_threads c))).
