(** C108: constructors that run out of memory. *)

From Coq Require Import List Permutation ZArith Lia.
From Verif Require Import Outcome Arith Entropy Ownership OwnSpec FailMake FailMakeSpec FailMakeFacts.
Import ListNotations.

(** C108: whatever the heap looks like and however many requests it still serves,
    the constructor of every class ends: with the object, made of the blocks of
    its class, if it accepts its arguments and the memory suffices; with
    std::bad_alloc if it does not suffice; with the exception of its argument check
    otherwise. No delete meets a pointer that is not live, and after an exception
    the heap has gained exactly [left_behind]. *)
Theorem C108_out_of_memory :
  forall (c : class B64) (m : mem) (n : nat),
    sound m -> (forall w k, c = MkEntropy w k -> exists e : entropy B64, entropy_new w k = Ret e) ->
    exists m' n' r, fconstruct c m n = Ret (m', n', r) /\ sound m' /\
      match r with
      | inl o => accepted c = true /\ requests c <= n /\ n' = n - requests c /\
          construct c m = Ret (m', inl o) /\
          Permutation (map snd (m_live m')) (footprint c ++ map snd (m_live m))
      | inr BadAlloc => n < requests c /\
          Permutation (map snd (m_live m')) (left_behind c n ++ map snd (m_live m))
      | inr (OfCode e) => accepted c = false /\ requests c <= n /\
          construct c m = Ret (m', inr e) /\
          Permutation (map snd (m_live m')) (left_behind c n ++ map snd (m_live m))
      end.
Proof. exact out_of_memory. Qed.
Print Assumptions C108_out_of_memory.

(** A program that tries again and again loses as much every time. *)
Theorem C108_attempts_lose :
  forall (c : class B64) (m : mem) (n k : nat),
    sound m -> (forall w j, c = MkEntropy w j -> exists e : entropy B64, entropy_new w j = Ret e) ->
    n < requests c ->
    sound (attempts c n k m) /\
    Permutation (map snd (m_live (attempts c n k m)))
      (concat (repeat (left_behind c n) k) ++ map snd (m_live m)).
Proof. exact attempts_lose. Qed.
Print Assumptions C108_attempts_lose.

(** Three classes lose memory when it runs out: the first of two members, if the
    second cannot be completed. *)
Theorem C108_constructors_leak_refuted :
  heap_of (fconstruct (MkVariance 9 : class B64) mem_empty 6) = Some ([KDeque; KMean], false) /\
  heap_of (fconstruct (MkIQR 9 : class B64) mem_empty 10) = Some ([KP2; KDeque; KWP2], false) /\
  heap_of (fconstruct (MkMad : class B64) mem_empty 2) = Some ([KFame], false).
Proof. exact constructors_leak. Qed.
Print Assumptions C108_constructors_leak_refuted.

Example C108_example :
  sound mem_empty /\ sound (Mem 2 [(1, KBin)]) /\
  heap_of (fconstruct (MkVariance 9 : class B64) mem_empty 8) = Some ([KDeque; KMean], false) /\
  heap_of (fconstruct (MkVariance 9 : class B64) mem_empty 9) = Some ([KDeque; KMean; KDeque; KMean; KDeque; KVariance], true) /\
  heap_of (fconstruct (MkEntropy 7 4 : class B64) mem_empty 5) = Some ([], false) /\
  heap_of (fconstruct (MkP2 (Bz 2) : class B64) mem_empty 5) = Some ([], false) /\
  (exists e : entropy B64, entropy_new 7 4 = Ret e).
Proof.
  split; [split; constructor|]. split; [split; repeat constructor; auto|].
  split; [vm_compute; reflexivity|]. split; [vm_compute; reflexivity|].
  split; [vm_compute; reflexivity|]. split; [vm_compute; reflexivity|].
  eexists. reflexivity.
Qed.
