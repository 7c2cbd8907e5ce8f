(** Specification vocabulary for assignments to public members. *)

From Coq Require Import List NArith Arith.
From Verif Require Import Outcome Calls Spec Members.
Import ListNotations.

(** Every assigned window size is at least 1 and at most the one before. *)
Fixpoint shrinking {T} (w : N) (cs : list (mcall T)) : Prop :=
  match cs with
  | [] => True
  | MCall _ :: cs' => shrinking w cs'
  | MWindow w' :: cs' => (1 <= w' <= w)%N /\ shrinking w' cs'
  end.

(** A queue with a changeable window size [w]: an update of a non-empty
    queue evicts the oldest item if and only if the queue holds exactly [w] items. *)
Definition v_act {T} (dflt : T) (wq : nat * list T) (c : mcall T) : nat * list T * rout T :=
  let '(w, q) := wq in
  match c with
  | MWindow w' => ((N.to_nat w', q), OUnit)
  | MCall (CUpdate x) => ((w, match q with
                                 | [] => [x]
                                 | _ :: q' => if Nat.eqb (length q) w then q' ++ [x] else q ++ [x]
                                 end), OUnit)
  | MCall c => ((w, fst (q0_call w dflt q c)), snd (q0_call w dflt q c))
  end.
Fixpoint v_acts {T} (dflt : T) (wq : nat * list T) (cs : list (mcall T)) : nat * list T * list (rout T) :=
  match cs with
  | [] => (wq, [])
  | c :: cs' =>
      let '(wq1, o) := v_act dflt wq c in
      let '(wq2, os) := v_acts dflt wq1 cs' in
      (wq2, o :: os)
  end.

(** No reset while the queue is empty. *)
Fixpoint v_resets_ok {T} (dflt : T) (wq : nat * list T) (cs : list (mcall T)) : Prop :=
  match cs with
  | [] => True
  | c :: cs' =>
      (match c with MCall CReset => snd wq <> [] | _ => True end) /\
      v_resets_ok dflt (fst (v_act dflt wq c)) cs'
  end.
