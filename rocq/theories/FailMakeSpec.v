(** How much memory a constructor needs and what it loses without it. *)

From Coq Require Import List Bool ZArith.
From Verif Require Import Outcome Arith P2 Fame Entropy Ownership OwnSpec FailMake.
Import ListNotations.

(** A heap whose live blocks have distinct addresses that will not be given out
    again. *)
Definition sound (m : mem) : Prop :=
  NoDup (map fst (m_live m)) /\ Forall (fun p => fst p < m_next m) (m_live m).

Section FailMakeSpec.
  Context {A : arith}.

  (** Requests for the window of an object. *)
  Definition window_requests (w : nat) : nat := if Nat.eqb w 0 then 0 else 2.

  (** FAME rejects its epsilon. *)
  Definition epsilon_rejected (e : A) : bool := (e <?. zero) || (e >=?. of_Z 1).

  (** The arguments are accepted. *)
  Definition accepted (c : class A) : bool :=
    match c with
    | MkP2 q | MkWP2 q _ => negb (rejected q)
    | MkIQRRange l h _ => negb (rejected l) && negb (rejected h)
    | MkFame _ e => negb (epsilon_rejected e)
    | _ => true
    end.

  (** Requests up to the end of the constructor, or to the rejection of an
      argument. *)
  Definition p2_requests (q : A) : nat := if rejected q then 1 else 4.
  Definition requests (c : class A) : nat :=
    match c with
    | MkMean w => 1 + window_requests w
    | MkVariance w => 1 + window_requests w + 2 * (1 + window_requests w)
    | MkP2 q => p2_requests q
    | MkWP2 q w => 1 + window_requests w + p2_requests q
    | MkIQR w => 1 + 2 * (1 + window_requests w + 4)
    | MkIQRRange l h w =>
        1 + (1 + window_requests w + p2_requests l)
          + (if rejected l then 0 else 1 + window_requests w + p2_requests h)
    | MkFame _ _ => 1
    | MkMad => 3
    | MkHist _ _ decay => if decay then 3 else 1
    | MkEntropy w _ => 1 + window_requests w + 3
    end.

  (** What stays allocated when a constructor throws although [n] requests were
      served: the first of two members, if it had been completed. *)
  Definition left_behind (c : class A) (n : nat) : list kind :=
    let window w := if Nat.eqb w 0 then [] else [KDeque] in
    match c with
    | MkVariance w =>
        if Nat.leb (1 + window_requests w + (1 + window_requests w)) n then KMean :: window w else []
    | MkIQR w =>
        if Nat.leb (1 + (1 + window_requests w + 4)) n then KWP2 :: KP2 :: window w else []
    | MkIQRRange l _ w =>
        if negb (rejected l) && Nat.leb (1 + (1 + window_requests w + 4)) n
        then KWP2 :: KP2 :: window w else []
    | MkMad => if Nat.leb 2 n then [KFame] else []
    | _ => []
    end.
End FailMakeSpec.

(** The heap after [k] attempts to construct an object while [n] requests are
    served each time. *)
Fixpoint attempts {A : arith} (c : class A) (n k : nat) (m : mem) : mem :=
  match k with
  | O => m
  | S k' => match fconstruct c (attempts c n k' m) n with
            | Ret (m', _, _) => m'
            | _ => attempts c n k' m
            end
  end.

(** The kinds of the live blocks, and whether the object was made. *)
Definition heap_of {A : arith} (r : outcome (mem * nat * (object A + failure)))
  : option (list kind * bool) :=
  match r with
  | Ret (m, _, inl _) => Some (map snd (m_live m), true)
  | Ret (m, _, inr _) => Some (map snd (m_live m), false)
  | _ => None
  end.
