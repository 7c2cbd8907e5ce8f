(** Calls that end with std::bad_alloc: the state they leave behind. A failing
    push_back or insert leaves its container unchanged ([deque.modifiers],
    [vector.modifiers]); everything done before it in the call stays done, since
    none of the code catches the exception. Only the containers and [new IBin]
    allocate during an update; RingBuffer, P2, WindowedP2, IQR, FAME and MAD do
    not, and LinkedList::update allocates its node before it changes anything
    (LinkedList.tcc:34). *)

From Coq Require Import List ZArith Bool.
From Verif Require Import Outcome Arith IBin Histogram Mean.
Import ListNotations.

Section AllocFail.
  Context {A : arith}.

  (** StreamingMean.cc:16-30 when push_back fails (line 25); without a window
      nothing is allocated. *)
  Definition mean_update_failing (s : mean A) (x : A) : outcome (mean A) :=
    match mn_window s with
    | None => mean_update s x
    | Some w =>
        if Nat.ltb (mn_wsize s) (length w + 1) then
          match w with
          | [] => Undef OutOfBounds          (* front() of an empty deque *)
          | f :: w' => Ret (Mean (Some w') (mn_wsize s) (mn_history s) (mn_sum s -. f))
          end
        else Ret s
    end.

  (** An update that succeeds, or meets a failing allocation. *)
  Inductive mean_event : Type := MeanOk (x : A) | MeanFail (x : A).
  Definition mean_react (s : mean A) (e : mean_event) : outcome (mean A) :=
    match e with MeanOk x => mean_update s x | MeanFail x => mean_update_failing s x end.

  (** StreamingVariance.cc:24-28: the allocation fails in the first or in the
      second of the two means. *)
  Inductive var_event : Type := VarOk (x : A) | VarFailMean (x : A) | VarFailSquare (x : A).
  Definition var_react (s : variance A) (e : var_event) : outcome (variance A) :=
    match e with
    | VarOk x => variance_update s x
    | VarFailMean x =>
        let* m := mean_update_failing (va_mean s) x in
        let* q := (match mn_window (va_mean s) with
                   | Some _ => Ret (va_sq s)                       (* not reached *)
                   | None => mean_update (va_sq s) (x *. x)        (* nothing failed *)
                   end) in
        Ret (Variance (va_window s) (va_wsize s) (va_history s) m q)
    | VarFailSquare x =>
        let* m := mean_update (va_mean s) x in
        let* q := mean_update_failing (va_sq s) (x *. x) in
        Ret (Variance (va_window s) (va_wsize s) (va_history s) m q)
    end.

  (** IStreamingHistogram.tcc:246-286 when an allocation fails: [new IBin] (line
      249), growing m_bins (lines 256, 263, 276), growing m_window (line 284).
      In the second case the new bin is lost; if the item hits an existing bin
      m_bins does not grow and the update takes its course. *)
  Inductive hist_event : Type :=
  | HistOk (x : A) | HistFailNew (x : A) | HistFailBins (x : A) | HistFailWindow (x : A).
  Definition hist_react (h : hist A) (e : hist_event) : outcome (hist A) :=
    match e with
    | HistOk x => hist_update h x
    | HistFailNew _ => Ret h
    | HistFailBins x =>
        let* i := hist_binSearch h x in
        let lost := Hist (h_numBins h) (h_windowSize h) (h_decay h) (h_bins h) (h_window h)
                         (h_total h) (h_history h) (h_news h + 1) (h_deletes h) in
        if Nat.eqb 0 (h_total h) then Ret lost
        else if Nat.eqb i (length (h_bins h)) then Ret lost
        else let* b := at_ (h_bins h) i in
             if x >=?. b_left b then hist_update h x else Ret lost
    | HistFailWindow x =>
        let l_bin := Bin x x 1 in
        let* i := hist_binSearch h x in
        let* (bins, freed) :=
          (if Nat.eqb 0 (h_total h) then Ret (h_bins h ++ [l_bin], 0)
           else if Nat.eqb i (length (h_bins h)) then Ret (h_bins h ++ [l_bin], 0)
           else
             let* b := at_ (h_bins h) i in
             if x >=?. b_left b
             then Ret (set_nth (h_bins h) i (Bin (b_left b) (b_right b) (b_count b + 1)), 1)
             else Ret (insert_nth (h_bins h) i l_bin, 0)) in
        Ret (Hist (h_numBins h) (h_windowSize h) (h_decay h) bins (h_window h)
                  (h_total h + 1) (h_history h + 1) (h_news h + 1) (h_deletes h + freed))
    end.
End AllocFail.
Arguments mean_event : clear implicits.
Arguments var_event : clear implicits.
Arguments hist_event : clear implicits.
