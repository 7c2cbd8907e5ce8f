(** C115: StreamingEntropy when updates end with std::bad_alloc. *)

From Coq Require Import List Reals ZArith Bool Arith.
From Flocq Require Import IEEE754.BinarySingleNaN.
From Verif Require Import Outcome Arith Utils IBin Histogram Entropy Spec HistSpec EntropySpec FloatSpec P2Witness AllocFail EntropyFail EntropyFailSpec EntropyFailFacts.
Import ListNotations.
Local Open Scope nat_scope.

(** If only push_back on the own window fails, the failing calls leave no trace. *)
Theorem C115_push_failures_harmless :
  forall (A : arith) (log2 : A -> A) (s : entropy A) (es : list (ent_event A)), (exists w, e_window s = Some w) ->
    Forall (fun e => match e with EntFailPush _ | EntHist (HistOk _) => True | _ => False end) es ->
    update_all (ent_react log2) s es =
    update_all (entropy_update log2) s (flat_map (fun e => match e with EntHist e => [event_item e] | EntFailPush _ => [] end) es).
Proof. exact @push_failures. Qed.
Print Assumptions C115_push_failures_harmless.

(** While the window has room for every call that got past push_back, failing
    allocations in the histogram only lose observations: entropy, bins and counts are
    those of a run without failures over what was kept. *)
Theorem C115_inside_window :
  forall (A : arith) (log2 : A -> A) (windowSize numBins : nat) (e0 : entropy A) (es : list (ent_event A)) (s : entropy A), 1 <= windowSize ->
    entropy_new windowSize numBins = Ret e0 -> pushes es <= windowSize -> indices_recorded es ->
    update_all (ent_react log2) e0 es = Ret s ->
    exists xs t, kept es xs /\ update_all (entropy_update log2) e0 xs = Ret t /\
      entropy_evaluate s = entropy_evaluate t /\ h_bins (e_hist s) = h_bins (e_hist t) /\ h_total (e_hist s) = h_total (e_hist t) /\
      e_history s = e_history t.
Proof. exact @failures_inside. Qed.
Print Assumptions C115_inside_window.

(** Exact arithmetic, well separated values and enough bins: the calls return and the
    result is the Shannon entropy of what was kept. *)
Theorem C115_inside_window_shannon :
  forall (windowSize numBins B : nat) (es : list (ent_event RA)),
    1 <= numBins /\ B = numBins \/ numBins = 0 /\ 1 <= windowSize /\ B = Nat.log2_up windowSize + 1 -> 1 <= windowSize ->
    pushes es <= windowSize -> indices_recorded es -> separated (A := RA) (items es) -> few (A := RA) B (items es) ->
    exists e0 s xs, entropy_new (A := RA) windowSize numBins = Ret e0 /\ update_all (ent_react log2R) e0 es = Ret s /\ kept es xs /\
      forall vs, NoDup vs -> (forall v, In v vs <-> In v xs) -> entropy_evaluate s = shannon xs vs.
Proof. exact failures_shannon. Qed.
Print Assumptions C115_inside_window_shannon.

Example C115_inside_window_example :
  let es : list (ent_event RA) := [EntHist (HistOk (A := RA) 2%R); EntHist (HistFailBins (A := RA) 1%R); EntFailPush (A := RA) 2%R] in
  pushes es = 2 /\ indices_recorded es /\ items es = [2; 1; 2]%R /\ kept es [2%R].
Proof. cbn. split; [reflexivity|]. split; [repeat constructor|]. split; [reflexivity|]. repeat constructor. Qed.

(** An observation whose index the histogram could not record is counted, but the
    change of the entropy is left out. The error is what was left out; each later
    call that succeeds scales it by n / (n + 1), n being the observations before. *)
Theorem C115_lost_indices :
  forall (windowSize numBins B : nat) (es : list (ent_event RA)),
    1 <= numBins /\ B = numBins \/ numBins = 0 /\ 1 <= windowSize /\ B = Nat.log2_up windowSize + 1 -> 1 <= windowSize ->
    only_indices_lost es -> length es <= windowSize -> separated (A := RA) (items es) -> few (A := RA) B (items es) ->
    exists e0 s, entropy_new (A := RA) windowSize numBins = Ret e0 /\ update_all (ent_react log2R) e0 es = Ret s /\
      entropy_evaluate s = (entropy_of (items es) - missed [] 0 es)%R.
Proof. exact lost_indices. Qed.
Print Assumptions C115_lost_indices.

Theorem C115_one_lost_index :
  forall (windowSize numBins B : nat) (xs : list R) (y : R) (zs : list R),
    1 <= numBins /\ B = numBins \/ numBins = 0 /\ 1 <= windowSize /\ B = Nat.log2_up windowSize + 1 ->
    length xs + S (length zs) <= windowSize -> separated (A := RA) (xs ++ y :: zs) -> few (A := RA) B (xs ++ y :: zs) ->
    exists e0 s, entropy_new (A := RA) windowSize numBins = Ret e0 /\
      update_all (ent_react log2R) e0 (map (fun z => EntHist (HistOk (A := RA) z)) xs ++ EntHist (HistFailWindow (A := RA) y) ::
        map (fun z => EntHist (HistOk (A := RA) z)) zs) = Ret s /\
      entropy_evaluate s = (entropy_of (xs ++ y :: zs) -
        INR (length xs + 1) / INR (length (xs ++ y :: zs)) * (entropy_of (xs ++ [y]) - entropy_of xs))%R.
Proof. exact one_lost. Qed.
Print Assumptions C115_one_lost_index.

(** So the result is the entropy neither of all observations nor of those whose
    calls succeeded: 2, then a failing 1, then 2 give log2 3 - 4/3. *)
Theorem C115_entropy_of_some_stream_refuted :
  exists windowSize numBins (es : list (ent_event RA)) e0 s,
    only_indices_lost es /\ length es <= windowSize /\ separated (A := RA) (items es) /\ few (A := RA) numBins (items es) /\
    entropy_new (A := RA) windowSize numBins = Ret e0 /\ update_all (ent_react log2R) e0 es = Ret s /\
    items es = [2; 1; 2]%R /\
    entropy_evaluate s = (log2R 3 - 4 / 3)%R /\ entropy_evaluate s <> entropy_of [2; 1; 2]%R /\ entropy_evaluate s <> entropy_of [2; 2]%R.
Proof. exact lost_refuted. Qed.
Print Assumptions C115_entropy_of_some_stream_refuted.

(** Whatever fails, the histogram goes through its own events, to which C103 applies. *)
Theorem C115_histogram_events :
  forall (A : arith) (log2 : A -> A) (es : list (ent_event A)) (s s' : entropy A), update_all (ent_react log2) s es = Ret s' ->
    update_all hist_react (e_hist s) (hist_part es) = Ret (e_hist s').
Proof. exact @hist_events. Qed.
Print Assumptions C115_histogram_events.

(** Doubles, with any log2 that maps 1 to 0: an observation, allocations of bins that
    fail until the window is full, an observation. The window then drops the only
    observation the histogram holds, the decrement divides zero by zero, and the result
    is NaN whatever follows. *)
Theorem C115_nan_for_good :
  forall (log2 : double -> double) (windowSize numBins : nat) (e0 : entropy B64) (x y : double) (zs : list double)
      (es : list (ent_event B64)) (s : entropy B64),
    Beqb (log2 (Bz 1)) (Bz 0) = true -> entropy_new (A := B64) windowSize numBins = Ret e0 -> 2 <= windowSize ->
    S (length zs) = windowSize ->
    update_all (ent_react (A := B64) log2) e0
      (EntHist (HistOk (A := B64) x) :: map (fun z => EntHist (HistFailNew (A := B64) z)) zs ++ EntHist (HistOk (A := B64) y) :: es) = Ret s ->
    nan (entropy_evaluate s) = true.
Proof. exact entropy_poisoned. Qed.
Print Assumptions C115_nan_for_good.

Example C115_nan_for_good_example :
  ok (let* e0 := entropy_new (A := B64) 2 3 in
      update_all (ent_react (A := B64) (fun _ => Bz 0)) e0
        [EntHist (HistOk (A := B64) (Bz 1)); EntHist (HistFailNew (A := B64) (Bz 2)); EntHist (HistOk (A := B64) (Bz 2));
         EntHist (HistOk (A := B64) (Bz 1)); EntHist (HistOk (A := B64) (Bz 1))]) (fun s => nan (entropy_evaluate s)) = true.
Proof. vm_compute. reflexivity. Qed.

(** Worse: the failing call has left the position of a bin that was never inserted.
    An observation, failing ones of which the first is definitely greater, the first
    observation again: the call after that reads past the end of m_bins, whatever it
    observes and whether or not it would fail itself. *)
Theorem C115_dangling_index :
  forall (log2 : double -> double) (windowSize numBins : nat) (e0 : entropy B64) (x z : double) (zs : list double) (s : entropy B64),
    Beqb (log2 (Bz 1)) (Bz 0) = true -> entropy_new (A := B64) windowSize numBins = Ret e0 -> S (S (length zs)) = windowSize ->
    finite64 x = true -> definitelyLessThan (A := B64) x z default_eps = true ->
    update_all (ent_react (A := B64) log2) e0
      (EntHist (HistOk (A := B64) x) :: map (fun z => EntHist (HistFailNew (A := B64) z)) (z :: zs) ++ [EntHist (HistOk (A := B64) x)]) = Ret s ->
    forall e, ent_react (A := B64) log2 s (EntHist e) = Undef OutOfBounds.
Proof. exact entropy_dangling. Qed.
Print Assumptions C115_dangling_index.

Example C115_dangling_index_example_less : definitelyLessThan (A := B64) (Bz 1) (Bz 2) default_eps = true.
Proof. vm_compute. reflexivity. Qed.
Example C115_dangling_index_example :
  ok (let* e0 := entropy_new (A := B64) 2 3 in
      update_all (ent_react (A := B64) (fun _ => Bz 0)) e0
        [EntHist (HistOk (A := B64) (Bz 1)); EntHist (HistFailNew (A := B64) (Bz 2)); EntHist (HistOk (A := B64) (Bz 1))]) (fun _ => true) = true.
Proof. vm_compute. reflexivity. Qed.
