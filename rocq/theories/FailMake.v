(** Constructors that run out of memory. The constructors of [Ownership] again,
    on a heap that serves a given number of further requests and then throws
    std::bad_alloc for ever. A request is a [new] expression of the library or
    the storage a standard container allocates for itself (one request for each
    container, however many blocks the implementation asks for). *)

From Coq Require Import List ZArith Bool.
From Verif Require Import Outcome Arith Histogram Mean P2 Fame Entropy Ownership.
Import ListNotations.

(** What a constructor can throw. *)
Inductive failure : Type := BadAlloc | OfCode (e : exn).

(** A heap and the number of requests it will still serve. *)
Definition fmaking (X : Type) : Type := mem -> nat -> outcome (mem * nat * (X + failure)).
Definition fmade {X} (x : X) : fmaking X := fun m n => Ret (m, n, inl x).
Definition fthen {X Y} (f : fmaking X) (g : X -> fmaking Y) : fmaking Y :=
  fun m n => let* (s, r) := f m n in
             let '(m1, n1) := s in
             match r with inl x => g x m1 n1 | inr e => Ret (m1, n1, inr e) end.
Definition fcheck {Y} (o : outcome Y) : fmaking Y :=
  fun m n => match o with
             | Ret y => Ret (m, n, inl y)
             | Throw e => Ret (m, n, inr (OfCode e))
             | Undef u => Undef u
             end.

(** Storage of a container that its destructor will release. *)
Definition frequest : fmaking unit :=
  fun m n => match n with O => Ret (m, O, inr BadAlloc) | S n' => Ret (m, n', inl tt) end.

(** [new T(...)]: storage, then the constructor; if that throws the storage is
    released ([expr.new]). *)
Definition fnew {X} (k : kind) (body : fmaking X) : fmaking (addr * X) :=
  fun m n =>
    match n with
    | O => Ret (m, O, inr BadAlloc)
    | S n' =>
        let '(m1, a) := alloc k m in
        let* (s, r) := body m1 n' in
        let '(m2, n2) := s in
        match r with
        | inl x => Ret (m2, n2, inl (a, x))
        | inr e => let* m3 := delete_ a m2 in Ret (m3, n2, inr e)
        end
    end.

(** A base or member constructor [f] followed by the body of the constructor; if
    the body throws, [undo] destroys the base ([except.ctor]). *)
Definition fguard {X Y} (f : fmaking X) (undo : X -> mem -> outcome mem) (body : fmaking Y)
  : fmaking (X * Y) :=
  fun m n =>
    let* (s, r) := f m n in
    let '(m1, n1) := s in
    match r with
    | inr e => Ret (m1, n1, inr e)
    | inl x =>
        let* (s, r) := body m1 n1 in
        let '(m2, n2) := s in
        match r with
        | inl y => Ret (m2, n2, inl (x, y))
        | inr e => let* m3 := undo x m2 in Ret (m3, n2, inr e)
        end
    end.

(** IStreaming.tcc:6-15: a deque unless windowSize is 0. *)
Definition fbase (windowSize : nat) : fmaking (option addr) :=
  if Nat.ltb 0 windowSize
  then fthen (fnew KDeque frequest) (fun p => fmade (Some (fst p)))
  else fmade None.

(** [new T(...)] for a T derived from IStreaming; IStreaming.tcc:17-21 destroys
    the base. *)
Definition fobject {X} (k : kind) (windowSize : nat) (body : fmaking X) : fmaking (obj X) :=
  fthen (fnew k (fguard (fbase windowSize) delete_opt body))
        (fun p => let '(a, (w, x)) := p in fmade (Obj a w x)).

Section FailMake.
  Context {A : arith}.

  (** StreamingMean.cc:11-14. *)
  Definition fnew_mean (windowSize : nat) : fmaking mean_obj := fobject KMean windowSize (fmade tt).

  (** StreamingVariance.cc:11-16: two raw pointers. *)
  Definition fnew_variance (windowSize : nat) : fmaking variance_obj :=
    fobject KVariance windowSize
      (fthen (fnew_mean windowSize) (fun sq =>
       fthen (fnew_mean windowSize) (fun mn => fmade (sq, mn)))).

  (** StreamingP2Quantile.cc:18-31: the check, then three vectors. *)
  Definition fnew_p2 (quantile : A) : fmaking (p2_obj (A := A)) :=
    fobject KP2 0
      (fthen (fcheck (p2_new quantile)) (fun p =>
       fthen frequest (fun _ => fthen frequest (fun _ => fthen frequest (fun _ => fmade p))))).

  (** WindowedP2Quantile.cc:14-18. *)
  Definition fnew_wp2 (quantile : A) (windowSize : nat) : fmaking (wp2_obj (A := A)) :=
    fobject KWP2 windowSize (fnew_p2 quantile).

  (** StreamingIQR.cc:17-22 and 11-15. *)
  Definition fnew_iqr_range (low high : A) (windowSize : nat) : fmaking (iqr_obj (A := A)) :=
    fobject KIQR 0
      (fthen (fnew_wp2 low windowSize) (fun l =>
       fthen (fnew_wp2 high windowSize) (fun h => fmade (l, h)))).
  Definition fnew_iqr (windowSize : nat) : fmaking (iqr_obj (A := A)) :=
    fnew_iqr_range (lit 1 4) (lit 3 4) windowSize.

  (** WindowedFAME.cc:14-22. *)
  Definition fnew_fame (stepSize epsilon : A) : fmaking (fame_obj (A := A)) :=
    fobject KFame 0 (fcheck (fame_new stepSize epsilon)).

  (** StreamingMAD.cc:13-17. *)
  Definition fnew_mad : fmaking (mad_obj (A := A)) :=
    fobject KMad 0
      (fthen (fnew_fame (lit 1 10) (of_Z 0)) (fun s =>
       fthen (fnew_fame (lit 1 10) (of_Z 0)) (fun e => fmade (s, e)))).

  (** IStreamingHistogram.tcc:20-29, StreamingHistogram.tcc:18-24. *)
  Definition fnew_hist (decay : bool) : fmaking hist_obj :=
    fthen (fnew KHist (if decay then fthen (fnew KIndexDeque frequest) (fun p => fmade (Some (fst p)))
                       else fmade None))
          (fun p => fmade (Obj (fst p) (snd p) tt)).

  (** StreamingEntropy.cc:22-33. *)
  Definition fnew_entropy (windowSize numBins : nat) : fmaking (entropy_obj (A := A)) :=
    fobject KEntropy windowSize
      (fthen (fcheck (entropy_new windowSize numBins)) (fun e =>
       fthen (fnew_hist true) (fun h => fmade (h, e)))).

  Definition fconstruct (c : class A) : fmaking (object A) :=
    match c with
    | MkMean w => fthen (fnew_mean w) (fun o => fmade (OMean o))
    | MkVariance w => fthen (fnew_variance w) (fun o => fmade (OVariance o))
    | MkP2 q => fthen (fnew_p2 q) (fun o => fmade (OP2 o))
    | MkWP2 q w => fthen (fnew_wp2 q w) (fun o => fmade (OWP2 o))
    | MkIQR w => fthen (fnew_iqr w) (fun o => fmade (OIQR o))
    | MkIQRRange l h w => fthen (fnew_iqr_range l h w) (fun o => fmade (OIQR o))
    | MkFame s e => fthen (fnew_fame s e) (fun o => fmade (OFame o))
    | MkMad => fthen fnew_mad (fun o => fmade (OMad o))
    | MkHist n w d => fthen (fnew_hist d) (fun o => fmade (OHist o (hist_new n w d)))
    | MkEntropy w n => fthen (fnew_entropy w n) (fun o => fmade (OEntropy o))
    end.
End FailMake.
