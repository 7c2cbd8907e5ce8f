(** What queues do when copies throw, for C125. *)

From Coq Require Import List NArith Arith.
From Verif Require Import Calls Spec ThrowCopy.
Import ListNotations.

Section Spec.
  Context {T : Type} (W : nat) (dflt : T).

  (** A queue of capacity W, oldest first. A failed assignment reaches the oldest
      element of a full queue and nothing else. *)
  Definition rq_event (q : list T) (e : ring_event T) : list T * option (rout T) :=
    match e with
    | RCall c => let '(q', o) := q_call W dflt q c in (q', Some o)
    | RAssignThrows _ None => (q, None)
    | RAssignThrows _ (Some j) => (if Nat.eqb (length q) W then j :: tl q else q, None)
    | RCopyThrows => (q, None)
    | RReturnThrows => (tl q, None)
    end.

  Fixpoint rq_events (q : list T) (es : list (ring_event T)) : list T * list (option (rout T)) :=
    match es with
    | [] => (q, [])
    | e :: es' => let '(q1, o) := rq_event q e in let '(q2, os) := rq_events q1 es' in (q2, o :: os)
    end.

  (** A queue of capacity W + k whose size is reported k too small, modulo 2^64;
      every eviction that throws adds one to k. *)
  Definition lq_update (q : list T) (k : nat) (ev : evict) (x : T) : list T * nat * option (rout T) :=
    if Nat.eqb (length q) (W + k) then
      match ev with
      | EvictOk => (tl q ++ [x], k, Some OUnit)
      | EvictCopyThrows => (q ++ [x], S k, None)
      | EvictReturnThrows => (tl q ++ [x], S k, None)
      end
    else (q ++ [x], k, Some OUnit).

  Definition lq_event (q : list T) (k : nat) (e : list_event T) : list T * nat * option (rout T) :=
    match e with
    | LCall (CUpdate x) => lq_update q k EvictOk x
    | LCall CPop => (tl q, k, Some (OVal (hd dflt q)))
    | LCall CReset => ([], 0, Some OUnit)
    | LCall CSize => (q, k, Some (ONum ((N.of_nat (length q) + (2 ^ 64 - N.of_nat k)) mod 2 ^ 64)%N))
    | LCall CEmpty => (q, k, Some (OBool (Nat.eqb (length q) 0)))
    | LCall CFull => (q, k, Some (OBool (negb (Nat.eqb (length q) 0))))
    | LNodeThrows _ => (q, k, None)
    | LEvictThrows ev x => lq_update q k ev x
    | LCopyThrows => (q, k, None)
    | LReturnThrows => (tl q, k, None)
    end.

  Fixpoint lq_events (q : list T) (k : nat) (es : list (list_event T)) : list T * nat * list (option (rout T)) :=
    match es with
    | [] => (q, k, [])
    | e :: es' => let '(q1, k1, o) := lq_event q k e in let '(q2, k2, os) := lq_events q1 k1 es' in (q2, k2, o :: os)
    end.

  (** No reset while the list is empty (it dereferences the null head, C10). *)
  Fixpoint lq_resets_ok (q : list T) (k : nat) (es : list (list_event T)) : Prop :=
    match es with
    | [] => True
    | e :: es' =>
        (match e with LCall CReset => q <> [] | _ => True end) /\
        let '(q1, k1, _) := lq_event q k e in lq_resets_ok q1 k1 es'
    end.
End Spec.

(** The calls of a history that do not throw. *)
Fixpoint ring_calls {T} (es : list (ring_event T)) : list (rcall T) :=
  match es with
  | [] => []
  | RCall c :: es' => c :: ring_calls es'
  | _ :: es' => ring_calls es'
  end.

(** What the client was handed. *)
Fixpoint handed {X} (os : list (option X)) : list X :=
  match os with [] => [] | Some o :: os' => o :: handed os' | None :: os' => handed os' end.

(** Assignments that throw leave their target as it was, and results are handed
    out without throwing. *)
Definition strong_events {T} (es : list (ring_event T)) : Prop :=
  Forall (fun e => match e with RAssignThrows _ (Some _) => False | RReturnThrows => False | _ => True end) es.

(** The updates that returned normally. *)
Fixpoint list_done {T} (es : list (list_event T)) (os : list (option (rout T))) : nat :=
  match es, os with
  | (LCall (CUpdate _) | LEvictThrows _ _) :: es', Some _ :: os' => S (list_done es' os')
  | _ :: es', _ :: os' => list_done es' os'
  | _, _ => 0
  end.

Fixpoint list_calls {T} (es : list (list_event T)) : list (rcall T) :=
  match es with
  | [] => []
  | LCall c :: es' => c :: list_calls es'
  | _ :: es' => list_calls es'
  end.

(** Exceptions only while the new node is made, or while a client's pop copies. *)
Definition list_strong {T} (es : list (list_event T)) : Prop :=
  Forall (fun e => match e with LEvictThrows _ _ => False | LReturnThrows => False | _ => True end) es.
