(** Updates of StreamingEntropy that end with std::bad_alloc
    (tools/cpp/KML/src/statistics/summary/StreamingEntropy.cc:35-49): the state they
    leave behind. Two statements allocate: push_back on m_window (line 38) and the
    update of the histogram (line 46), for which see AllocFail.v. None of the code
    catches the exception. *)

From Coq Require Import List ZArith Bool.
From Verif Require Import Outcome Arith IBin Histogram Entropy AllocFail.
Import ListNotations.

Section EntropyFail.
  Context {A : arith} (log2 : A -> A).

  (** Whether the item needs a new bin, i.e. m_bins grows
      (IStreamingHistogram.tcc:253-278). *)
  Definition needs_bin (h : hist A) (x : A) : outcome bool :=
    let* i := hist_binSearch h x in
    if Nat.eqb 0 (h_total h) then Ret true
    else if Nat.eqb i (length (h_bins h)) then Ret true
    else let* b := at_ (h_bins h) i in Ret (negb (x >=?. b_left b)).

  (** The item of a call of the histogram's update, and whether it throws. *)
  Definition event_item (e : hist_event A) : A :=
    match e with HistOk x | HistFailNew x | HistFailBins x | HistFailWindow x => x end.
  Definition throws (h : hist A) (e : hist_event A) : outcome bool :=
    match e with
    | HistOk _ => Ret false
    | HistFailNew _ | HistFailWindow _ => Ret true
    | HistFailBins x => needs_bin h x
    end.

  (** A call: push_back fails, or the histogram's update takes this course. *)
  Inductive ent_event : Type := EntFailPush (x : A) | EntHist (e : hist_event A).
  Definition ent_react (s : entropy A) (e : ent_event) : outcome (entropy A) :=
    match e with
    | EntFailPush x =>
        let* _ := hist_binSearch (e_hist s) x in
        match e_window s with None => Undef NullDeref | Some _ => Ret s end
    | EntHist e =>
        let* l_index := hist_binSearch (e_hist s) (event_item e) in
        match e_window s with
        | None => Undef NullDeref
        | Some w0 =>
            let w1 := w0 ++ [l_index] in
            let* (w2, ent1) :=
              (if Nat.ltb (e_wsize s) (length w1) then
                 match w1 with
                 | [] => Undef OutOfBounds
                 | f :: w' => let* ent' := entropy_decrement log2 (e_hist s) (e_value s) f in
                              Ret (w', ent')
                 end
               else Ret (w1, e_value s)) in
            let* h' := hist_react (e_hist s) e in
            let* t := throws (e_hist s) e in
            if t then Ret (Entropy (Some w2) (e_wsize s) (e_history s) h' ent1)
            else
              let* ent2 := entropy_increment log2 h' ent1 l_index in
              Ret (Entropy (Some w2) (e_wsize s) (S (e_history s)) h' ent2)
        end
    end.
End EntropyFail.
Arguments ent_event : clear implicits.
