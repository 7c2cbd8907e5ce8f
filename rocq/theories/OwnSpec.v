(** What the live objects consist of, and what each command loses for ever. *)

From Coq Require Import List Bool ZArith.
From Verif Require Import Outcome Arith Histogram Mean P2 Fame Entropy HistSpec Ownership.
Import ListNotations.

Section OwnSpec.
  Context {A : arith} (log2 : A -> A).

  Definition window_kind (k : kind) (w : option addr) : list kind :=
    match w with Some _ => [k] | None => [] end.

  Definition mean_parts (o : mean_obj) : list kind := KMean :: window_kind KDeque (o_window o).
  Definition p2_parts (o : p2_obj (A := A)) : list kind := KP2 :: window_kind KDeque (o_window o).
  Definition wp2_parts (o : wp2_obj (A := A)) : list kind :=
    KWP2 :: window_kind KDeque (o_window o) ++ p2_parts (o_members o).
  Definition fame_parts (o : fame_obj (A := A)) : list kind := KFame :: window_kind KDeque (o_window o).
  Definition hist_parts (o : hist_obj) : list kind := KHist :: window_kind KIndexDeque (o_window o).

  (** The blocks of a live object, without the bins of histograms. *)
  Definition parts (o : object A) : list kind :=
    match o with
    | OMean o => mean_parts o
    | OVariance o => KVariance :: window_kind KDeque (o_window o) ++
                     mean_parts (fst (o_members o)) ++ mean_parts (snd (o_members o))
    | OP2 o => p2_parts o
    | OWP2 o => wp2_parts o
    | OIQR o => KIQR :: window_kind KDeque (o_window o) ++
                wp2_parts (fst (o_members o)) ++ wp2_parts (snd (o_members o))
    | OFame o => fame_parts o
    | OMad o => KMad :: window_kind KDeque (o_window o) ++
                fame_parts (fst (o_members o)) ++ fame_parts (snd (o_members o))
    | OHist o _ => hist_parts o
    | OEntropy o => KEntropy :: window_kind KDeque (o_window o) ++ hist_parts (fst (o_members o))
    end.

  (** The blocks a new object of a class owns, read off its arguments. *)
  Definition footprint (c : class A) : list kind :=
    let window w := if Nat.eqb w 0 then [] else [KDeque] in
    match c with
    | MkMean w => KMean :: window w
    | MkVariance w => KVariance :: window w ++ KMean :: window w ++ KMean :: window w
    | MkP2 _ => [KP2]
    | MkWP2 _ w => KWP2 :: KP2 :: window w
    | MkIQR w | MkIQRRange _ _ w => KIQR :: KWP2 :: KP2 :: window w ++ KWP2 :: KP2 :: window w
    | MkFame _ _ => [KFame]
    | MkMad => [KMad; KFame; KFame]
    | MkHist _ _ decay => KHist :: (if decay then [KIndexDeque] else [])
    | MkEntropy w _ => KEntropy :: KHist :: KIndexDeque :: window w
    end.

  (** The constructor of the P2 quantile rejects [q]. *)
  Definition rejected (q : A) : bool := (q <=?. zero) || (q >=?. of_Z 1).

  (** Blocks that stay allocated for ever because of one command:
      - a range whose lower bound is accepted and whose upper bound is not loses
        the lower estimator;
      - an update of a histogram that does not find a bin for its value makes a
        bin that is never deleted;
      - deleting an entropy loses its histogram. *)
  Definition lost (s : mem * list (object A)) (c : command A) : list kind :=
    match c with
    | Create (MkIQRRange l h w) =>
        if negb (rejected l) && rejected h
        then KWP2 :: (if Nat.ltb 0 w then [KDeque] else []) ++ [KP2] else []
    | Create _ => []
    | Touch i x =>
        match nth_error (snd s) i with
        | Some (OHist _ h) => if falls_in h x then [] else [KBin]
        | Some (OEntropy o) => if falls_in (e_hist (snd (o_members o))) x then [] else [KBin]
        | _ => []
        end
    | Delete i =>
        match nth_error (snd s) i with
        | Some (OEntropy o) => hist_parts (fst (o_members o))
        | _ => []
        end
    end.

  Fixpoint all_lost (s : mem * list (object A)) (cs : list (command A)) : list kind :=
    match cs with
    | [] => []
    | c :: cs' =>
        lost s c ++ match command_step log2 s c with Ret s' => all_lost s' cs' | _ => [] end
    end.

  (** Programs that keep away from the leaking operations. *)
  Definition careful (c : command A) : bool :=
    match c with
    | Create (MkIQRRange l h w) => rejected l || negb (rejected h)
    | Create (MkHist _ _ _) | Create (MkEntropy _ _) => false
    | _ => true
    end.
End OwnSpec.
