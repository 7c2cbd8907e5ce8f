(** Streams of calls with failing allocations: which observations remain. *)

From Coq Require Import List Reals.
From Verif Require Import Arith Entropy AllocFail EntropyFail EntropySpec.
Import ListNotations.
Local Open Scope nat_scope.

(** What is left of a stream of calls: the observation of a call that succeeds, and
    that of one whose bin could not be stored if it needed none. *)
Inductive kept {A : arith} : list (ent_event A) -> list A -> Prop :=
| KNil : kept [] []
| KPush x es xs : kept es xs -> kept (EntFailPush x :: es) xs
| KOk x es xs : kept es xs -> kept (EntHist (HistOk x) :: es) (x :: xs)
| KNew x es xs : kept es xs -> kept (EntHist (HistFailNew x) :: es) xs
| KBins x es xs : kept es xs -> kept (EntHist (HistFailBins x) :: es) xs
| KHit x es xs : kept es xs -> kept (EntHist (HistFailBins x) :: es) (x :: xs).

(** Calls that get past the first push_back. *)
Definition pushes {A : arith} (es : list (ent_event A)) : nat :=
  length (filter (fun e => match e with EntHist _ => true | EntFailPush _ => false end) es).

(** No failure of the histogram to record an index. *)
Definition indices_recorded {A : arith} (es : list (ent_event A)) : Prop :=
  Forall (fun e => match e with EntHist (HistFailWindow _) => False | _ => True end) es.

(** The calls that reach the histogram. *)
Definition hist_part {A : arith} (es : list (ent_event A)) : list (hist_event A) :=
  flat_map (fun e => match e with EntHist e => [e] | EntFailPush _ => [] end) es.

(** The observations, whether or not their calls succeed. *)
Definition items {A : arith} (es : list (ent_event A)) : list A :=
  map (fun e => match e with EntFailPush x => x | EntHist e => event_item e end) es.

(** How far the entropy is off after calls that count an observation in the histogram
    but never reach the increment: such a call leaves out the change its observation
    makes; any other shrinks the error by the share of the observations before it. *)
Definition entropy_of (xs : list R) : R := shannon xs (nodup Req_EM_T xs).
Fixpoint missed (ps : list R) (d : R) (es : list (ent_event RA)) : R :=
  match es with
  | [] => d
  | EntHist (HistFailWindow y) :: es => missed (ps ++ [y]) (d + (entropy_of (ps ++ [y]) - entropy_of ps)) es
  | EntHist e :: es => missed (ps ++ [event_item (A := RA) e]) (INR (length ps) / INR (S (length ps)) * d) es
  | EntFailPush _ :: es => missed ps d es
  end.

(** Every call either succeeds or fails to record the histogram's index. *)
Definition only_indices_lost {A : arith} (es : list (ent_event A)) : Prop :=
  Forall (fun e => match e with EntHist (HistOk _) | EntHist (HistFailWindow _) => True | _ => False end) es.
