(** Vocabulary for the statements about Python iterators. *)

From Coq Require Import List Arith Bool.
From Verif Require Import Outcome Cython PyIterate.
Import ListNotations.

(** Making the calls one after the other, with what each returns. *)
Fixpoint call_all {S C O : Type} (call : S -> C -> outcome (S * O)) (s : S) (cs : list C)
  : outcome (S * list O) :=
  match cs with
  | [] => Ret (s, [])
  | c :: cs' =>
      let* (s1, o) := call s c in
      let* (s2, os) := call_all call s1 cs' in
      Ret (s2, o :: os)
  end.

Definition calls_of {C O : Type} (h : list (nat * C * O)) : list C :=
  map (fun x => snd (fst x)) h.
Definition answers_of {C O : Type} (h : list (nat * C * O)) : list O := map snd h.
(** The calls made by one thread. *)
Definition calls_by {C O : Type} (i : nat) (h : list (nat * C * O)) : list C :=
  calls_of (filter (fun x => Nat.eqb (fst (fst x)) i) h).

(** An iterator that yields the values and then goes on as [after]. *)
Fixpoint giving {C O : Type} (vs : list pyval) (after : code C O) : code C O :=
  match vs with
  | [] => after
  | v :: vs' => Give v (giving vs' after)
  end.
(** An iterator that never ends. *)
CoFixpoint endless {C O : Type} (v : pyval) : code C O := Give v (endless v).

(** The values that can be converted, up to the first that cannot, and the
    exception of that one. *)
Fixpoint usable {E : Type} (convert : pyval -> result E) (vs : list pyval) : list E :=
  match vs with
  | [] => []
  | v :: vs' => match convert v with inl x => x :: usable convert vs' | inr _ => [] end
  end.
Fixpoint trouble {E : Type} (convert : pyval -> result E) (vs : list pyval) : option pyexn :=
  match vs with
  | [] => None
  | v :: vs' => match convert v with inl _ => trouble convert vs' | inr e => Some e end
  end.

(** A thread with nothing left to do. *)
Definition over {C O : Type} (t : thread C O) : Prop := now t = Finish /\ waiting t = [].

(** One line: obj.update(vs), ignoring what it raises. *)
Definition feeds {C O : Type} (vs : list pyval) : code C O :=
  UpdateFrom (giving vs Finish) (fun _ => Finish).

(** [a] is an initial part of [b]. *)
Definition initial_part {X : Type} (a b : list X) : Prop := exists c, b = a ++ c.

(** Calls on a statistic. *)
Inductive stat_call (E : Type) : Type := Observe (x : E) | Evaluate.
Arguments Observe {E} x.
Arguments Evaluate {E}.
Definition stat_object {S E O : Type} (update : S -> E -> outcome S) (evaluate : S -> O)
           (s : S) (c : stat_call E) : outcome (S * option O) :=
  match c with
  | Observe x => let* s' := update s x in Ret (s', None)
  | Evaluate => Ret (s, Some (evaluate s))
  end.
(** The observations among the calls. *)
Definition observed {E : Type} (cs : list (stat_call E)) : list E :=
  flat_map (fun c => match c with Observe x => [x] | Evaluate => [] end) cs.

(** The call [update(x)], by the state it leaves. *)
Definition fed {S E C O : Type} (call : S -> C -> outcome (S * O)) (feed : E -> C) (s : S) (x : E)
  : outcome S := let* (s', _) := call s (feed x) in Ret s'.

(** [n] turns of the only thread, with arbitrary answers of the world. *)
Definition alone (n : nat) (turns : list (nat * nat)) : Prop :=
  length turns = n /\ Forall (fun t => fst t = 0) turns.
