(** Model of IStreamingHistogram<double> and StreamingHistogram<double>
    (tools/cpp/KML/include/data_structures/histograms/
     IStreamingHistogram.{h,tcc}, StreamingHistogram.{h,tcc}). *)

From Coq Require Import List ZArith Bool.
From Verif Require Import Outcome Arith Utils IBin.
Import ListNotations.

Section Histogram.
  Context {A : arith}.

  (** IStreamingHistogram.h:195-216, IDataStructure.h:67-72. The bins are heap
      objects owned through a vector of pointers; here they are values, plus two
      counters of [new IBin] and [delete] executed on bins. [h_window] is [None]
      when m_window is null (decay type other than WINDOW). *)
  Record hist : Type := Hist {
    h_numBins : nat;               (* m_numBins *)
    h_windowSize : nat;            (* m_windowSize *)
    h_decay : bool;                (* m_decay == WINDOW *)
    h_bins : list (bin A);         (* *m_bins[i] *)
    h_window : option (list nat);  (* *m_window, front first *)
    h_total : nat;                 (* m_totalCount *)
    h_history : nat;               (* m_historyCount *)
    h_news : nat;                  (* bins allocated so far *)
    h_deletes : nat                (* bins deallocated so far *)
  }.

  (** IStreamingHistogram.tcc:20-29, StreamingHistogram.tcc:18-24. Note
      [new std::deque<size_t>(windowSize)]: windowSize zeros. *)
  Definition hist_new (numBins windowSize : nat) (decay : bool) : hist :=
    Hist numBins windowSize decay []
         (if decay then Some (repeat 0 windowSize) else None) 0 0 0 0.

  (** IStreamingHistogram.tcc:340-344, 358-362. *)
  Definition hist_size (h : hist) : nat := length (h_bins h).

  (** IStreamingHistogram.tcc:328-332. *)
  Definition hist_empty (h : hist) : bool := Nat.eqb (length (h_bins h)) 0.

  (** IStreamingHistogram.tcc:334-338. *)
  Definition hist_full (h : hist) : bool := negb (hist_empty h).

  (** IStreamingHistogram.tcc:346-350. *)
  Definition hist_totalCount (h : hist) : nat := h_total h.

  (** IStreamingHistogram.tcc:169-187: the while loop. [fuel] is a bound on the
      number of iterations; [BadPrecondition] would mean it ran out, which never
      happens for [fuel = size + 1]. *)
  Fixpoint bsearch (fuel : nat) (bins : list (bin A)) (b : bin A)
           (low high index : nat) : outcome nat :=
    if Nat.ltb low high then
      match fuel with
      | O => Undef BadPrecondition
      | S f =>
          let* bi := at_ bins index in
          let low' := if bin_lt bi b then index + 1 else low in
          let high' := if bin_lt bi b then high else index in
          bsearch f bins b low' high' ((low' + high') / 2)
      end
    else Ret index.

  Definition hist_binSearch_bin (h : hist) (b : bin A) : outcome nat :=
    let n := length (h_bins h) in
    bsearch (S n) (h_bins h) b 0 n ((0 + n) / 2).

  (** IStreamingHistogram.tcc:189-193. *)
  Definition hist_binSearch (h : hist) (item : A) : outcome nat :=
    hist_binSearch_bin h (Bin item item 1).

  Definition with_bins (h : hist) (bins : list (bin A)) : hist :=
    Hist (h_numBins h) (h_windowSize h) (h_decay h) bins (h_window h)
         (h_total h) (h_history h) (h_news h) (h_deletes h).

  (** IStreamingHistogram.tcc:104-130. The erased bin is not deleted. *)
  Definition hist_decayCounts (h : hist) : outcome hist :=
    if h_decay h then
      if Nat.ltb (h_windowSize h) (h_total h) then
        match h_window h with
        | None => Undef NullDeref
        | Some [] => Undef OutOfBounds          (* front() of an empty deque *)
        | Some (del :: window') =>
            let* b := at_ (h_bins h) del in
            let b' := if Nat.ltb 0 (b_count b)
                      then Bin (b_left b) (b_right b) (b_count b - 1) else b in
            let bins1 := set_nth (h_bins h) del b' in
            let bins2 := if Nat.ltb (h_numBins h) (length bins1)
                         then if Nat.eqb (b_count b') 0
                              then erase_nth bins1 del else bins1
                         else bins1 in
            Ret (Hist (h_numBins h) (h_windowSize h) (h_decay h) bins2 (Some window')
                      (h_total h - 1) (h_history h) (h_news h) (h_deletes h))
        end
      else Ret h
    else Ret h.

  (** IStreamingHistogram.tcc:246-286. *)
  Definition hist_add (h : hist) (item : A) : outcome hist :=
    let l_bin := Bin item item 1 in
    let* l_index := hist_binSearch_bin h l_bin in
    let* (bins, freed) :=
      (if Nat.eqb 0 (h_total h) then Ret (h_bins h ++ [l_bin], 0)
       else if Nat.eqb l_index (length (h_bins h)) then Ret (h_bins h ++ [l_bin], 0)
       else
         let* b := at_ (h_bins h) l_index in
         if item >=?. b_left b
         then Ret (set_nth (h_bins h) l_index
                           (Bin (b_left b) (b_right b) (b_count b + 1)), 1)
         else Ret (insert_nth (h_bins h) l_index l_bin, 0)) in
    match h_window h with
    | None => Undef NullDeref                   (* m_window->push_back *)
    | Some w =>
        hist_decayCounts
          (Hist (h_numBins h) (h_windowSize h) (h_decay h) bins (Some (w ++ [l_index]))
                (h_total h + 1) (h_history h + 1) (h_news h + 1) (h_deletes h + freed))
    end.

  (** IStreamingHistogram.tcc:376-383. Out-of-range indices are UB. The erased
      bin is not deleted. *)
  Definition mergeBins (bins : list (bin A)) (lhs rhs : nat) : outcome (list (bin A)) :=
    let* toMerge := at_ bins rhs in
    let bins1 := erase_nth bins rhs in
    let* l := at_ bins1 lhs in
    Ret (set_nth bins1 lhs (fst (bin_add_assign l toMerge))).

  (** StreamingHistogram.tcc:65-75: the selection loop over adjacent pairs,
      [idx] is the loop index (l_index and i coincide). Returns
      (l_minDiff, l_minIndex). l_minIndex is a double holding a small integer,
      modelled as nat. *)
  Fixpoint min_gap (bins : list (bin A)) (idx : nat) (minDiff : A) (minIndex : nat)
    : A * nat :=
    match bins with
    | b0 :: ((b1 :: _) as rest) =>
        let diff := b_right b1 -. b_right b0 in
        if definitelyLessThan diff minDiff default_eps
        then min_gap rest (S idx) diff idx
        else min_gap rest (S idx) minDiff minIndex
    | _ => (minDiff, minIndex)
    end.

  (** StreamingHistogram.tcc:56-81. *)
  Definition hist_merge (bins : list (bin A)) : outcome (list (bin A) * nat) :=
    let '(_, l_minIndex) := min_gap bins 0 dbl_max (length bins) in
    let* bins' := mergeBins bins l_minIndex (l_minIndex + 1) in
    Ret (bins', l_minIndex).

  (** StreamingHistogram.tcc:32-54. *)
  Definition hist_update (h : hist) (item : A) : outcome hist :=
    let* h1 := hist_add h item in
    if Nat.ltb (h_numBins h1) (length (h_bins h1)) then
      let* (bins', l_mergedIndex) := hist_merge (h_bins h1) in
      let* window' :=
        (if h_decay h1 then
           match h_window h1 with
           | None => Undef NullDeref
           | Some w => Ret (Some (map (fun i => if Nat.eqb i (l_mergedIndex + 1)
                                                then l_mergedIndex else i) w))
           end
         else Ret (h_window h1)) in
      Ret (Hist (h_numBins h1) (h_windowSize h1) (h_decay h1) bins' window'
                (h_total h1) (h_history h1) (h_news h1) (h_deletes h1))
    else Ret h1.

  (** IStreamingHistogram.tcc:320-326: m_totalCount is kept, bins are not deleted. *)
  Definition hist_reset (h : hist) : hist :=
    Hist (h_numBins h) (h_windowSize h) (h_decay h) []
         (match h_window h with Some _ => Some [] | None => None end)
         (h_total h) 0 (h_news h) (h_deletes h).

  (** StreamingHistogram.tcc:26-30 followed by IStreamingHistogram.tcc:81-89:
      the state (in particular the counters) after destruction. *)
  Definition hist_destroy (h : hist) : hist :=
    let h1 := hist_reset h in
    Hist (h_numBins h1) (h_windowSize h1) (h_decay h1) [] None (h_total h1)
         (h_history h1) (h_news h1) (h_deletes h1 + length (h_bins h1)).

  (** IStreamingHistogram.tcc:132-157. *)
  Definition hist_pdf (h : hist) (normalize density : bool) : list A :=
    let normalizer : A := of_nat (h_total h) in
    if density then
      map (fun b =>
             let w0 := b_right b -. b_left b in
             let w := if w0 <=?. zero then of_Z 1 else w0 in
             of_nat (b_count b) /. (normalizer *. w)) (h_bins h)
    else
      let nrm := if normalize then normalizer else of_Z 1 in
      map (fun b => of_nat (b_count b) /. nrm) (h_bins h).

  (** std::partial_sum: first element copied, then running sums. *)
  Fixpoint partial_sum_from (acc : A) (l : list A) : list A :=
    match l with
    | [] => []
    | x :: l' => let acc' := acc +. x in acc' :: partial_sum_from acc' l'
    end.
  Definition partial_sum (l : list A) : list A :=
    match l with
    | [] => []
    | x :: l' => x :: partial_sum_from x l'
    end.

  (** IStreamingHistogram.tcc:159-167. *)
  Definition hist_cdf (h : hist) (normalize : bool) : list A :=
    partial_sum (hist_pdf h normalize false).

  (** std::lower_bound(begin, end, q): position of the first element not [< q].
      Its precondition is that the elements [< q] precede all others. *)
  Fixpoint lower_bound (l : list A) (q : A) : outcome nat :=
    match l with
    | [] => Ret 0
    | x :: l' =>
        if x <?. q then let* i := lower_bound l' q in Ret (S i)
        else if forallb (fun y => negb (y <?. q)) l' then Ret 0
        else Undef BadPrecondition
    end.

  (** IStreamingHistogram.tcc:195-244. *)
  Definition hist_quantile (h : hist) (q : A) : outcome A :=
    if (q <?. zero) || (q >?. of_Z 1) then Throw RuntimeError
    else
      let cdf := hist_cdf h true in
      let n := length cdf in
      let* it0 := lower_bound cdf q in
      let* it :=
        (if Nat.eqb it0 n
         then match n with O => Undef OutOfBounds | S m => Ret m end
         else if Nat.eqb it0 0 then Ret it0
              else let* c := at_ cdf it0 in
                   if c >?. q then Ret (it0 - 1) else Ret it0) in
      let* c := at_ cdf it in
      if essentiallyEqual q c default_eps then
        let* b := at_ (h_bins h) it in Ret (b_left b)
      else
        let* (index, p, width0) :=
          (if Nat.leb n it then Ret (n - 1, of_Z 1, of_Z 0)
           else
             let* c1 := at_ cdf (it + 1) in
             let* b := at_ (h_bins h) it in
             Ret (it, c1 -. c, b_right b -. b_left b)) in
        let total : A := of_nat (h_total h) in
        let width := if width0 =?. of_Z 0 then of_Z 1 /. of_nat (h_numBins h) else width0 in
        let* b := at_ (h_bins h) index in
        Ret (b_left b +. ((width *. p *. total) /. of_nat (b_count b))).

  (** IStreamingHistogram.tcc:288-306. *)
  Definition hist_binCounts (h : hist) : outcome (list nat) :=
    let counts := map b_count (h_bins h) in
    if Nat.eqb (fold_left Nat.add counts 0) (h_total h)
    then Ret counts else Throw RuntimeError.

  (** IStreamingHistogram.tcc:308-318: a std::map keyed by (left, right) in
      lexicographic order; [m[k] = v] overwrites an equivalent key. *)
  Definition key_lt (k1 k2 : A * A) : bool :=
    (fst k1 <?. fst k2) || (negb (fst k2 <?. fst k1) && (snd k1 <?. snd k2)).
  Fixpoint map_assign (m : list ((A * A) * nat)) (k : A * A) (v : nat)
    : list ((A * A) * nat) :=
    match m with
    | [] => [(k, v)]
    | (k', v') :: m' =>
        if key_lt k k' then (k, v) :: m
        else if key_lt k' k then (k', v') :: map_assign m' k v
        else (k', v) :: m'
    end.
  Definition hist_report (h : hist) : list ((A * A) * nat) :=
    fold_left (fun m b => map_assign m (b_left b, b_right b) (b_count b)) (h_bins h) [].

  (** IStreamingHistogram.tcc:364-374: the check lets [index == size] through. *)
  Definition hist_getBin (h : hist) (index : nat) : outcome (bin A) :=
    if Nat.ltb (length (h_bins h)) index then Throw RuntimeError
    else at_ (h_bins h) index.
End Histogram.
Arguments hist : clear implicits.
