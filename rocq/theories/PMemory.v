(** Properties C83 and C84: who frees the heap objects of the library. *)

From Coq Require Import List Bool ZArith Permutation.
From Flocq Require Import IEEE754.BinarySingleNaN.
From Verif Require Import Outcome Arith Histogram Mean P2 Fame Entropy HistSpec Ownership OwnSpec OwnFacts.
Import ListNotations.

(** C83: whatever is created, updated and deleted in whatever order, no [delete]
    ever meets a pointer that is not live. *)
Theorem C83_no_bad_delete :
  forall (log2 : B64 -> B64) (cs : list (command B64)),
    commands log2 (mem_empty, []) cs <> Undef BadPointer.
Proof. exact (fun log2 cs => run_clean log2 cs quarter_ok _ _ inv_start). Qed.
Print Assumptions C83_no_bad_delete.

(** C83: without histograms, entropies and half-valid IQR ranges every program
    runs, and the live blocks are those of the objects that still exist. *)
Theorem C83_balanced :
  forall (log2 : B64 -> B64) (cs : list (command B64)),
    Forall (fun c => careful c = true) cs ->
    exists m os, commands log2 (mem_empty, []) cs = Ret (m, os) /\
      Permutation (map snd (m_live m)) (flat_map parts os).
Proof. exact (fun log2 cs => careful_balanced log2 cs quarter_ok). Qed.
Print Assumptions C83_balanced.

(** C83: a constructor that succeeds allocates exactly the blocks of its class,
    whatever the heap looked like. *)
Theorem C83_footprint :
  forall (c : class B64) (m m' : mem) (o : object B64),
    construct c m = Ret (m', inl o) ->
    Permutation (map snd (m_live m')) (footprint c ++ map snd (m_live m)) /\
    Permutation (parts o) (footprint c).
Proof. exact (construct_footprint B64). Qed.
Print Assumptions C83_footprint.

Example C83_footprint_example :
  match construct (MkIQRRange (lit 1 4) (lit 1 2) 4 : class B64) mem_empty with
  | Ret (m, inl o) => length (m_live m) = 7
  | _ => False
  end.
Proof. vm_compute. reflexivity. Qed.

Definition all_classes : list (command B64) :=
  [Create (MkMean 5); Create (MkVariance 3); Create (MkP2 (lit 1 2)); Create (MkP2 (Bz 2)); Create (MkWP2 (lit 1 3) 7);
   Create (MkIQR 4); Create (MkIQRRange (Bz 5) (Bz 6) 4); Create (MkFame (lit 1 10) (Bz 1)); Create (MkFame (lit 1 10) (Bz 0));
   Create MkMad; Touch 2 (Bz 1); Delete 3; Delete 0; Create (MkMean 0); Delete 1].

Example C83_example :
  forallb (fun c => careful c) all_classes = true /\
  match commands (fun x => x) (mem_empty, []) all_classes with
  | Ret (m, os) => map snd (m_live m) =
      [KMean; KFame; KFame; KMad; KFame; KP2; KDeque; KWP2; KP2; KDeque; KWP2; KIQR; KDeque; KMean; KDeque; KMean; KDeque; KVariance] /\
      length os = 5
  | _ => False
  end.
Proof. vm_compute. auto. Qed.

(** Deleting everything leaves nothing. *)
Example C83_example_end :
  match commands (fun x => x) (mem_empty, []) (all_classes ++ repeat (Delete 0) 5) with
  | Ret (m, os) => m_live m = [] /\ length os = 0
  | _ => False
  end.
Proof. vm_compute. auto. Qed.

(** C84: for every program that runs, the live blocks are exactly those of the
    existing objects plus what [lost] attributes to the single commands: the lower
    estimator of an IQR range whose upper bound is rejected, every bin inserted
    into a histogram, and the histogram of every deleted entropy. *)
Theorem C84_leaks :
  forall (log2 : B64 -> B64) (cs : list (command B64)) (m : mem) (os : list (object B64)),
    commands log2 (mem_empty, []) cs = Ret (m, os) ->
    Permutation (map snd (m_live m)) (flat_map parts os ++ all_lost log2 (mem_empty, []) cs).
Proof. exact (fun log2 cs m os => live_blocks log2 cs m os quarter_ok). Qed.
Print Assumptions C84_leaks.

(** C84: creating and deleting k entropies leaves k histograms behind. *)
Theorem C84_entropy_leak :
  forall (log2 : B64 -> B64) (windowSize numBins k : nat), (windowSize = 0 -> numBins <> 0) ->
    exists m, commands log2 (mem_empty, []) (concat (repeat [Create (MkEntropy windowSize numBins); Delete 0] k)) = Ret (m, []) /\
      Permutation (map snd (m_live m)) (concat (repeat [KHist; KIndexDeque] k)).
Proof. exact (fun log2 w n k => entropy_cycles log2 w n k quarter_ok). Qed.
Print Assumptions C84_entropy_leak.

(** C84: a StreamingIQR whose constructor throws can leave a WindowedP2Quantile
    with its estimator and its window behind, although no object exists. *)
Theorem C84_iqr_leak :
  forall log2 : B64 -> B64, exists (cs : list (command B64)) (m : mem),
    commands log2 (mem_empty, []) cs = Ret (m, []) /\
    Permutation (map snd (m_live m)) [KWP2; KDeque; KP2].
Proof. exact iqr_half_valid. Qed.
Print Assumptions C84_iqr_leak.

(** An entropy that is used leaks its bins as well: two values, two bins. *)
Example C84_example :
  match commands (fun x => x) (mem_empty, [])
          [Create (MkEntropy 5 4); Touch 0 (Bz 1); Touch 0 (Bz 2); Touch 0 (Bz 1); Delete 0] with
  | Ret (m, os) => map snd (m_live m) = [KBin; KBin; KIndexDeque; KHist] /\ length os = 0
  | _ => False
  end.
Proof. vm_compute. auto. Qed.
