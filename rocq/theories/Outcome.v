(** Results of C++ calls.

    Every modelled member function is a total function into [outcome]: it
    returns, throws, or has undefined behaviour. *)

From Coq Require Import List.
Import ListNotations.

(** Kinds of undefined behaviour the modelled code can run into. *)
Inductive ub : Type :=
| NullDeref        (* dereference of a null pointer *)
| BadPointer       (* dereference or delete of a freed / foreign node *)
| OutOfBounds      (* array, vector or deque access outside its elements *)
| UninitRead       (* use of an indeterminate value *)
| DivByZero        (* integer division or modulo by zero *)
| IntOverflow      (* signed integer overflow *)
| BadCast          (* floating to integer conversion out of range *)
| BadPrecondition. (* violated precondition of a standard algorithm *)

(** The two exception classes the library throws. *)
Inductive exn : Type :=
| RuntimeError
| InvalidArgument.

Inductive outcome (A : Type) : Type :=
| Ret (a : A)
| Throw (e : exn)
| Undef (u : ub).
Arguments Ret {A} a.
Arguments Throw {A} e.
Arguments Undef {A} u.

Definition bind {A B : Type} (m : outcome A) (f : A -> outcome B) : outcome B :=
  match m with
  | Ret a => f a
  | Throw e => Throw e
  | Undef u => Undef u
  end.

Declare Scope outcome_scope.
Delimit Scope outcome_scope with outcome.
Notation "'let*' x ':=' m 'in' k" := (bind m (fun x => k))
  (at level 200, x pattern, m at level 100, k at level 200, right associativity)
  : outcome_scope.
Open Scope outcome_scope.

(** Checked element access, [v[i]] on a vector / deque / array
    (std::vector::operator[] has no bounds check: out of range is UB). *)
Definition at_ {A : Type} (v : list A) (i : nat) : outcome A :=
  match nth_error v i with
  | Some a => Ret a
  | None => Undef OutOfBounds
  end.

(** Replace element [i]; out of range leaves the list alone (used only after
    the access has been checked). *)
Fixpoint set_nth {A : Type} (v : list A) (i : nat) (a : A) : list A :=
  match v, i with
  | [], _ => []
  | _ :: t, O => a :: t
  | h :: t, S j => h :: set_nth t j a
  end.

(** Checked store [v[i] = a]. *)
Definition store {A : Type} (v : list A) (i : nat) (a : A) : outcome (list A) :=
  if Nat.ltb i (length v) then Ret (set_nth v i a) else Undef OutOfBounds.

(** [v.erase(v.begin() + i)] for [i < v.size()]. *)
Fixpoint erase_nth {A : Type} (v : list A) (i : nat) : list A :=
  match v, i with
  | [], _ => []
  | _ :: t, O => t
  | h :: t, S j => h :: erase_nth t j
  end.

(** [v.insert(v.begin() + i, a)] for [i <= v.size()]. *)
Fixpoint insert_nth {A : Type} (v : list A) (i : nat) (a : A) : list A :=
  match i, v with
  | O, _ => a :: v
  | S j, h :: t => h :: insert_nth t j a
  | S _, [] => [a]
  end.

(** The batch updates of the two interfaces,
    [for (it = begin; it != end; it++) this->update( *it )]:
    IDataStructure.tcc:18-25 and IStreaming.tcc:23-30. The Cython wrappers run
    the same loop over a Python iterable (e.g. RingBuffer.pyx:56-60). The iterator
    is an index; [fuel] bounds the iterations, running out would be
    [BadPrecondition] and never happens. *)
Fixpoint batch_from {S X : Type} (fuel : nat) (update : S -> X -> outcome S)
         (s : S) (items : list X) (it : nat) : outcome S :=
  if Nat.eqb it (length items) then Ret s
  else match fuel with
       | O => Undef BadPrecondition
       | Datatypes.S f =>
           let* x := at_ items it in
           let* s' := update s x in
           batch_from f update s' items (it + 1)
       end.
Definition batch_update {S X : Type} (update : S -> X -> outcome S)
           (s : S) (items : list X) : outcome S :=
  batch_from (length items) update s items 0.
