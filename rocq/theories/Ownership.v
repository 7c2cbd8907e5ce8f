(** Model of who owns which C++ heap object: the constructors and destructors of
    the statistics, the metric and the histogram
    (tools/cpp/KML/include/IStreaming.tcc, src/statistics/summary/*.cc,
     src/metrics/StreamingMAD.cc, histograms/*.tcc).

    Only [new] and [delete] expressions of the library are counted; what the
    standard containers allocate inside is not. *)

From Coq Require Import List ZArith Bool.
From Verif Require Import Outcome Arith Histogram Mean P2 Fame Entropy.
Import ListNotations.

(** What is allocated. *)
Inductive kind : Type :=
| KDeque        (* std::deque<double>, IStreaming.tcc:13 *)
| KIndexDeque   (* std::deque<size_t>, IStreamingHistogram.tcc:27 *)
| KBin          (* IBin<double>, IStreamingHistogram.tcc:249 *)
| KHist         (* StreamingHistogram<double> *)
| KMean | KVariance | KP2 | KWP2 | KIQR | KFame | KMad | KEntropy.

Definition addr : Type := nat.

(** The heap: what is live, and the next address. Addresses are not reused. *)
Record mem : Type := Mem { m_next : addr; m_live : list (addr * kind) }.
Definition mem_empty : mem := Mem 0 [].

Definition alloc (k : kind) (m : mem) : mem * addr :=
  (Mem (S (m_next m)) ((m_next m, k) :: m_live m), m_next m).

Fixpoint remove_addr (a : addr) (l : list (addr * kind)) : option (list (addr * kind)) :=
  match l with
  | [] => None
  | (b, k) :: l' =>
      if Nat.eqb a b then Some l'
      else match remove_addr a l' with Some r => Some ((b, k) :: r) | None => None end
  end.

(** [delete p] for a non-null p: UB unless p is live. *)
Definition delete_ (a : addr) (m : mem) : outcome mem :=
  match remove_addr a (m_live m) with
  | Some l => Ret (Mem (m_next m) l)
  | None => Undef BadPointer
  end.

(** [delete p] for a pointer that may be null. *)
Definition delete_opt (p : option addr) (m : mem) : outcome mem :=
  match p with Some a => delete_ a m | None => Ret m end.

(** An object: its own address, the deque it owns, and its other pointer
    members. *)
Record obj (X : Type) : Type := Obj { o_addr : addr; o_window : option addr; o_members : X }.
Arguments Obj {X}. Arguments o_addr {X}. Arguments o_window {X}. Arguments o_members {X}.

(** A constructor body: a heap and either members or an exception. *)
Definition making (X : Type) : Type := mem -> outcome (mem * (X + exn)).
Definition made {X} (x : X) : making X := fun m => Ret (m, inl x).
Definition and_then {X Y} (f : making X) (g : X -> making Y) : making Y :=
  fun m => let* (m1, r) := f m in
           match r with inl x => g x m1 | inr e => Ret (m1, inr e) end.
(** The argument checks of a constructor, taken from its numeric model. *)
Definition check {Y} (o : outcome Y) : making Y :=
  fun m => match o with
           | Ret y => Ret (m, inl y)
           | Throw e => Ret (m, inr e)
           | Undef u => Undef u
           end.

(** [new T(...)] for a T derived from IStreaming: storage, then the base
    constructor (IStreaming.tcc:6-15), then the body. If the body throws, the
    base is destroyed (IStreaming.tcc:17-21) and the storage released; raw
    pointer members assigned before are not followed. *)
Definition new_object {X} (k : kind) (windowSize : nat) (body : making X) : making (obj X) :=
  fun m =>
    let '(m1, a) := alloc k m in
    let '(m2, b) := (if Nat.ltb 0 windowSize
                     then let '(m', d) := alloc KDeque m1 in (m', Some d)
                     else (m1, None)) in
    let* (m3, r) := body m2 in
    match r with
    | inl x => Ret (m3, inl (Obj a b x))
    | inr e => let* m4 := delete_opt b m3 in
               let* m5 := delete_ a m4 in
               Ret (m5, inr e)
    end.

(** [delete] of such an object: the body of its destructor, then
    IStreaming.tcc:17-21, then the storage. *)
Definition delete_object {X} (body : X -> mem -> outcome mem) (o : obj X) (m : mem) : outcome mem :=
  let* m1 := body (o_members o) m in
  let* m2 := delete_opt (o_window o) m1 in
  delete_ (o_addr o) m2.

(** An implicit destructor body. *)
Definition nothing {X} (_ : X) (m : mem) : outcome mem := Ret m.

Section Ownership.
  Context {A : arith}.
  Context (log2 : A -> A).

  Definition mean_obj : Type := obj unit.
  Definition variance_obj : Type := obj (mean_obj * mean_obj).
  Definition p2_obj : Type := obj (p2 A).
  Definition wp2_obj : Type := obj p2_obj.
  Definition iqr_obj : Type := obj (wp2_obj * wp2_obj).
  Definition fame_obj : Type := obj (fame A).
  Definition mad_obj : Type := obj (fame_obj * fame_obj).
  (** For a histogram [o_window] is its deque of indices. *)
  Definition hist_obj : Type := obj unit.
  Definition entropy_obj : Type := obj (hist_obj * entropy A).

  (** StreamingMean.cc:11-14. *)
  Definition new_mean (windowSize : nat) : making mean_obj := new_object KMean windowSize (made tt).
  Definition delete_mean : mean_obj -> mem -> outcome mem := delete_object nothing.

  (** StreamingVariance.cc:11-16, 18-22. *)
  Definition new_variance (windowSize : nat) : making variance_obj :=
    new_object KVariance windowSize
      (and_then (new_mean windowSize) (fun sq =>
       and_then (new_mean windowSize) (fun mn => made (sq, mn)))).
  Definition delete_variance : variance_obj -> mem -> outcome mem :=
    delete_object (fun '(sq, mn) m => let* m1 := delete_mean sq m in delete_mean mn m1).

  (** StreamingP2Quantile.cc:18-31. *)
  Definition new_p2 (quantile : A) : making p2_obj := new_object KP2 0 (check (p2_new quantile)).
  Definition delete_p2 : p2_obj -> mem -> outcome mem := delete_object nothing.

  (** WindowedP2Quantile.cc:14-20. *)
  Definition new_wp2 (quantile : A) (windowSize : nat) : making wp2_obj :=
    new_object KWP2 windowSize (new_p2 quantile).
  Definition delete_wp2 : wp2_obj -> mem -> outcome mem := delete_object delete_p2.

  (** StreamingIQR.cc:17-28. *)
  Definition new_iqr_range (low high : A) (windowSize : nat) : making iqr_obj :=
    new_object KIQR 0
      (and_then (new_wp2 low windowSize) (fun l =>
       and_then (new_wp2 high windowSize) (fun h => made (l, h)))).
  (** StreamingIQR.cc:11-15. *)
  Definition new_iqr (windowSize : nat) : making iqr_obj :=
    new_iqr_range (lit 1 4) (lit 3 4) windowSize.
  Definition delete_iqr : iqr_obj -> mem -> outcome mem :=
    delete_object (fun '(l, h) m => let* m1 := delete_wp2 l m in delete_wp2 h m1).

  (** WindowedFAME.cc:14-22. *)
  Definition new_fame (stepSize epsilon : A) : making fame_obj :=
    new_object KFame 0 (check (fame_new stepSize epsilon)).
  Definition delete_fame : fame_obj -> mem -> outcome mem := delete_object nothing.

  (** StreamingMAD.cc:13-23. *)
  Definition new_mad : making mad_obj :=
    new_object KMad 0
      (and_then (new_fame (lit 1 10) (of_Z 0)) (fun s =>
       and_then (new_fame (lit 1 10) (of_Z 0)) (fun e => made (s, e)))).
  Definition delete_mad : mad_obj -> mem -> outcome mem :=
    delete_object (fun '(s, e) m => let* m1 := delete_fame s m in delete_fame e m1).

  (** IStreamingHistogram.tcc:20-29, StreamingHistogram.tcc:18-24. *)
  Definition new_hist (decay : bool) : making hist_obj :=
    fun m =>
      let '(m1, a) := alloc KHist m in
      if decay then let '(m2, d) := alloc KIndexDeque m1 in Ret (m2, inl (Obj a (Some d) tt))
      else Ret (m1, inl (Obj a None tt)).
  (** StreamingHistogram.tcc:26-30 empties the vector of bin pointers, so the
      loop of IStreamingHistogram.tcc:81-89 finds no bin to delete. *)
  Definition delete_hist : hist_obj -> mem -> outcome mem := delete_object nothing.

  (** IStreamingHistogram.tcc:249 allocates a bin at every update and line 271
      deletes it again in the case that counts in [h_deletes]. *)
  Definition bin_memory (h h' : hist A) (m : mem) : outcome mem :=
    let '(m1, a) := alloc KBin m in
    if Nat.ltb (h_deletes h) (h_deletes h') then delete_ a m1 else Ret m1.

  (** StreamingEntropy.cc:22-33; StreamingEntropy.h:24-69 declares no
      destructor. *)
  Definition new_entropy (windowSize numBins : nat) : making entropy_obj :=
    new_object KEntropy windowSize
      (and_then (check (entropy_new windowSize numBins)) (fun e =>
       and_then (new_hist true) (fun h => made (h, e)))).
  Definition delete_entropy : entropy_obj -> mem -> outcome mem := delete_object nothing.

  (** ** Programs that create, use and delete objects *)

  Inductive class : Type :=
  | MkMean (windowSize : nat)
  | MkVariance (windowSize : nat)
  | MkP2 (quantile : A)
  | MkWP2 (quantile : A) (windowSize : nat)
  | MkIQR (windowSize : nat)
  | MkIQRRange (low high : A) (windowSize : nat)
  | MkFame (stepSize epsilon : A)
  | MkMad
  | MkHist (numBins windowSize : nat) (decay : bool)
  | MkEntropy (windowSize numBins : nat).

  Inductive object : Type :=
  | OMean (o : mean_obj)
  | OVariance (o : variance_obj)
  | OP2 (o : p2_obj)
  | OWP2 (o : wp2_obj)
  | OIQR (o : iqr_obj)
  | OFame (o : fame_obj)
  | OMad (o : mad_obj)
  | OHist (o : hist_obj) (h : hist A)
  | OEntropy (o : entropy_obj).

  Definition construct (c : class) : making object :=
    match c with
    | MkMean w => and_then (new_mean w) (fun o => made (OMean o))
    | MkVariance w => and_then (new_variance w) (fun o => made (OVariance o))
    | MkP2 q => and_then (new_p2 q) (fun o => made (OP2 o))
    | MkWP2 q w => and_then (new_wp2 q w) (fun o => made (OWP2 o))
    | MkIQR w => and_then (new_iqr w) (fun o => made (OIQR o))
    | MkIQRRange l h w => and_then (new_iqr_range l h w) (fun o => made (OIQR o))
    | MkFame s e => and_then (new_fame s e) (fun o => made (OFame o))
    | MkMad => and_then new_mad (fun o => made (OMad o))
    | MkHist n w d => and_then (new_hist d) (fun o => made (OHist o (hist_new n w d)))
    | MkEntropy w n => and_then (new_entropy w n) (fun o => made (OEntropy o))
    end.

  Definition destroy (o : object) (m : mem) : outcome mem :=
    match o with
    | OMean o => delete_mean o m
    | OVariance o => delete_variance o m
    | OP2 o => delete_p2 o m
    | OWP2 o => delete_wp2 o m
    | OIQR o => delete_iqr o m
    | OFame o => delete_fame o m
    | OMad o => delete_mad o m
    | OHist o _ => delete_hist o m
    | OEntropy o => delete_entropy o m
    end.

  (** Effect of [update(x)] on the heap. Only the histogram's updates (and those
      of the entropy, through its histogram) execute [new] or [delete]. *)
  Definition touch (o : object) (x : A) (m : mem) : outcome (mem * object) :=
    match o with
    | OHist ho h =>
        let* h' := hist_update h x in
        let* m' := bin_memory h h' m in
        Ret (m', OHist ho h')
    | OEntropy (Obj a b (ho, e)) =>
        let* e' := entropy_update log2 e x in
        let* m' := bin_memory (e_hist e) (e_hist e') m in
        Ret (m', OEntropy (Obj a b (ho, e')))
    | o => Ret (m, o)
    end.

  Inductive command : Type :=
  | Create (c : class)           (* an exception of the constructor is caught *)
  | Touch (i : nat) (x : A)      (* update the i-th live object *)
  | Delete (i : nat).            (* delete the i-th live object *)

  (** A command naming an object that does not exist does nothing. *)
  Definition command_step (s : mem * list object) (c : command) : outcome (mem * list object) :=
    let '(m, os) := s in
    match c with
    | Create c =>
        let* (m', r) := construct c m in
        Ret (m', match r with inl o => os ++ [o] | inr _ => os end)
    | Touch i x =>
        match nth_error os i with
        | None => Ret s
        | Some o => let* (m', o') := touch o x m in Ret (m', set_nth os i o')
        end
    | Delete i =>
        match nth_error os i with
        | None => Ret s
        | Some o => let* m' := destroy o m in Ret (m', erase_nth os i)
        end
    end.

  Fixpoint commands (s : mem * list object) (cs : list command) : outcome (mem * list object) :=
    match cs with
    | [] => Ret s
    | c :: cs' => let* s' := command_step s c in commands s' cs'
    end.
End Ownership.
Arguments class : clear implicits.
Arguments object : clear implicits.
Arguments command : clear implicits.
