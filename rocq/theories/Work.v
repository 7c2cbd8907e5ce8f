(** How much work a call does. The update functions of [Histogram], [Mean] and [P2]
    again, with a count of the accesses to elements of vectors and deques: reading,
    writing, appending, removing or moving one element counts one. Arithmetic on
    values already read is not counted; neither is the occasional reallocation of a
    vector (amortised by the standard library). *)

From Coq Require Import List ZArith Bool.
From Verif Require Import Outcome Arith Utils IBin Histogram Mean P2.
Import ListNotations.

(** A result and the number of accesses. *)
Definition work (X : Type) : Type := outcome (X * nat).
Definition wret {X} (x : X) : work X := Ret (x, 0).
Definition wbind {X Y} (m : work X) (k : X -> work Y) : work Y :=
  let* (x, c) := m in let* (y, d) := k x in Ret (y, c + d).
(** [n] accesses. *)
Definition pay (n : nat) : work unit := Ret (tt, n).
(** No access. *)
Definition free {X} (o : outcome X) : work X := let* x := o in Ret (x, 0).

Notation "'let+' x ':=' m 'in' k" := (wbind m (fun x => k))
  (at level 200, x pattern, m at level 100, k at level 200, right associativity)
  : outcome_scope.

Definition wat {X} (v : list X) (i : nat) : work X := let+ _ := pay 1 in free (at_ v i).
Definition wstore {X} (v : list X) (i : nat) (a : X) : work (list X) :=
  let+ _ := pay 1 in free (store v i a).
Definition wpush {X} (v : list X) (a : X) : work (list X) := let+ _ := pay 1 in wret (v ++ [a]).
(** Writing an element that has just been read. *)
Definition wset {X} (v : list X) (i : nat) (a : X) : work (list X) :=
  let+ _ := pay 1 in wret (set_nth v i a).
(** insert and erase of a vector move the elements behind. *)
Definition winsert {X} (v : list X) (i : nat) (a : X) : work (list X) :=
  let+ _ := pay (length v - i + 1) in wret (insert_nth v i a).
Definition werase {X} (v : list X) (i : nat) : work (list X) :=
  let+ _ := pay (length v - i) in wret (erase_nth v i).

Section Work.
  Context {A : arith}.

  (** ** Histogram *)

  (** IStreamingHistogram.tcc:169-187. *)
  Fixpoint wsearch (fuel : nat) (bins : list (bin A)) (b : bin A) (low high index : nat) : work nat :=
    if Nat.ltb low high then
      match fuel with
      | O => Undef BadPrecondition
      | S f =>
          let+ bi := wat bins index in
          let low' := if bin_lt bi b then index + 1 else low in
          let high' := if bin_lt bi b then high else index in
          wsearch f bins b low' high' ((low' + high') / 2)
      end
    else wret index.
  Definition whist_binSearch_bin (h : hist A) (b : bin A) : work nat :=
    let n := length (h_bins h) in
    wsearch (S n) (h_bins h) b 0 n ((0 + n) / 2).

  (** IStreamingHistogram.tcc:104-130. *)
  Definition whist_decayCounts (h : hist A) : work (hist A) :=
    if h_decay h then
      if Nat.ltb (h_windowSize h) (h_total h) then
        match h_window h with
        | None => Undef NullDeref
        | Some [] => Undef OutOfBounds
        | Some (del :: window') =>
            let+ _ := pay 2 in                          (* front, pop_front *)
            let+ b := wat (h_bins h) del in
            let b' := if Nat.ltb 0 (b_count b)
                      then Bin (b_left b) (b_right b) (b_count b - 1) else b in
            let+ bins1 := wset (h_bins h) del b' in
            let+ bins2 := (if Nat.ltb (h_numBins h) (length bins1)
                           then if Nat.eqb (b_count b') 0
                                then werase bins1 del else wret bins1
                           else wret bins1) in
            wret (Hist (h_numBins h) (h_windowSize h) (h_decay h) bins2 (Some window')
                       (h_total h - 1) (h_history h) (h_news h) (h_deletes h))
        end
      else wret h
    else wret h.

  (** IStreamingHistogram.tcc:246-286. *)
  Definition whist_add (h : hist A) (item : A) : work (hist A) :=
    let l_bin := Bin item item 1 in
    let+ l_index := whist_binSearch_bin h l_bin in
    let+ (bins, freed) :=
      (if Nat.eqb 0 (h_total h) then let+ v := wpush (h_bins h) l_bin in wret (v, 0)
       else if Nat.eqb l_index (length (h_bins h)) then let+ v := wpush (h_bins h) l_bin in wret (v, 0)
       else
         let+ b := wat (h_bins h) l_index in
         if item >=?. b_left b
         then let+ v := wset (h_bins h) l_index (Bin (b_left b) (b_right b) (b_count b + 1)) in
              wret (v, 1)
         else let+ v := winsert (h_bins h) l_index l_bin in wret (v, 0)) in
    match h_window h with
    | None => Undef NullDeref
    | Some w =>
        let+ w' := wpush w l_index in
        whist_decayCounts
          (Hist (h_numBins h) (h_windowSize h) (h_decay h) bins (Some w')
                (h_total h + 1) (h_history h + 1) (h_news h + 1) (h_deletes h + freed))
    end.

  (** IStreamingHistogram.tcc:376-383. *)
  Definition wmergeBins (bins : list (bin A)) (lhs rhs : nat) : work (list (bin A)) :=
    let+ toMerge := wat bins rhs in
    let+ bins1 := werase bins rhs in
    let+ l := wat bins1 lhs in
    wset bins1 lhs (fst (bin_add_assign l toMerge)).

  (** StreamingHistogram.tcc:65-75: two bins per iteration. *)
  Fixpoint wmin_gap (bins : list (bin A)) (idx : nat) (minDiff : A) (minIndex : nat)
    : work (A * nat) :=
    match bins with
    | b0 :: ((b1 :: _) as rest) =>
        let+ _ := pay 2 in
        let diff := b_right b1 -. b_right b0 in
        if definitelyLessThan diff minDiff default_eps
        then wmin_gap rest (S idx) diff idx
        else wmin_gap rest (S idx) minDiff minIndex
    | _ => wret (minDiff, minIndex)
    end.

  (** StreamingHistogram.tcc:56-81. *)
  Definition whist_merge (bins : list (bin A)) : work (list (bin A) * nat) :=
    let+ (_, l_minIndex) := wmin_gap bins 0 dbl_max (length bins) in
    let+ bins' := wmergeBins bins l_minIndex (l_minIndex + 1) in
    wret (bins', l_minIndex).

  (** StreamingHistogram.tcc:44-51: the loop over the window of indices. *)
  Fixpoint wremap (merged : nat) (w : list nat) : work (list nat) :=
    match w with
    | [] => wret []
    | i :: w' =>
        let+ _ := pay 1 in
        let+ j := (if Nat.eqb i (merged + 1) then let+ _ := pay 1 in wret merged else wret i) in
        let+ r := wremap merged w' in
        wret (j :: r)
    end.

  (** StreamingHistogram.tcc:32-54. *)
  Definition whist_update (h : hist A) (item : A) : work (hist A) :=
    let+ h1 := whist_add h item in
    if Nat.ltb (h_numBins h1) (length (h_bins h1)) then
      let+ (bins', l_mergedIndex) := whist_merge (h_bins h1) in
      let+ window' :=
        (if h_decay h1 then
           match h_window h1 with
           | None => Undef NullDeref
           | Some w => let+ w' := wremap l_mergedIndex w in wret (Some w')
           end
         else wret (h_window h1)) in
      wret (Hist (h_numBins h1) (h_windowSize h1) (h_decay h1) bins' window'
                 (h_total h1) (h_history h1) (h_news h1) (h_deletes h1))
    else wret h1.

  (** ** Mean and variance *)

  (** StreamingMean.cc:16-30: front, pop_front and push_back. *)
  Definition wmean_update (s : mean A) (x : A) : work (mean A) :=
    let+ (window, sum) :=
      (match mn_window s with
       | None => wret (None, mn_sum s)
       | Some w =>
           if Nat.ltb (mn_wsize s) (length w + 1) then
             match w with
             | [] => Undef OutOfBounds
             | f :: w' => let+ _ := pay 2 in
                          let+ v := wpush w' x in wret (Some v, mn_sum s -. f)
             end
           else let+ v := wpush w x in wret (Some v, mn_sum s)
       end) in
    wret (Mean window (mn_wsize s) (mn_history s + 1) (sum +. x)).

  (** StreamingVariance.cc:24-28. *)
  Definition wvariance_update (s : variance A) (x : A) : work (variance A) :=
    let+ m := wmean_update (va_mean s) x in
    let+ q := wmean_update (va_sq s) (x *. x) in
    wret (Variance (va_window s) (va_wsize s) (va_history s) m q).

  (** ** P2 *)

  (** StreamingP2Quantile.cc:91-125. *)
  Definition wfindK (h : list A) (x : A) : work (list A * nat) :=
    let+ h0 := wat h 0 in
    let+ h1 := wat h 1 in
    let+ h2 := wat h 2 in
    let+ h3 := wat h 3 in
    let+ h4 := wat h 4 in
    if x <?. h0 then let+ h' := wstore h 0 x in wret (h', 0)
    else if x <?. h1 then wret (h, 0)
    else if x <?. h2 then wret (h, 1)
    else if x <?. h3 then wret (h, 2)
    else if x <?. h4 then wret (h, 3)
    else let+ h' := wstore h 4 x in wret (h', 3).

  (** StreamingP2Quantile.cc:56. *)
  Fixpoint wbump_from (todo i : nat) (n : list Z) : work (list Z) :=
    match todo with
    | O => wret n
    | S t =>
        let+ ni := wat n i in
        let+ ni' := free (to_int (ni + 1)) in
        let+ n' := wstore n i ni' in
        wbump_from t (S i) n'
    end.

  Definition widiff (n : list Z) (i j : nat) : work Z :=
    let+ a := wat n i in
    let+ b := wat n j in
    free (to_int (a - b)).

  (** StreamingP2Quantile.cc:156-165. *)
  Definition wparabolic (h : list A) (n : list Z) (i : nat) (d : A) : work A :=
    let+ hp := wat h (i + 1) in
    let+ hi := wat h i in
    let+ hm := wat h (i - 1) in
    let+ n_pm := widiff n (i + 1) (i - 1) in
    let+ n_im := widiff n i (i - 1) in
    let+ n_pi := widiff n (i + 1) i in
    wret (hi +. (d /. of_Z n_pm) *.
                (((of_Z n_im +. d) *. (hp -. hi)) /. of_Z n_pi +.
                 ((of_Z n_pi -. d) *. (hi -. hm)) /. of_Z n_im)).

  (** StreamingP2Quantile.cc:167-171. *)
  Definition wlinear (h : list A) (n : list Z) (i : nat) (d : Z) : work A :=
    let j := Z.to_nat (Z.of_nat i + d) in
    let+ hi := wat h i in
    let+ hj := wat h j in
    let+ n_ji := widiff n j i in
    wret (hi +. (of_Z d *. (hj -. hi)) /. of_Z n_ji).

  (** StreamingP2Quantile.cc:127-147. *)
  Definition wadjustHeights (desired : list A) (hn : list A * list Z) (i : nat)
    : work (list A * list Z) :=
    let '(h, n) := hn in
    let+ des := wat desired i in
    let+ ni := wat n i in
    let d_pos := des -. of_Z ni in
    let+ gap_up := widiff n (i + 1) i in
    let+ gap_dn := widiff n (i - 1) i in
    if ((d_pos >=?. of_Z 1) && (Z.ltb 1 gap_up)) ||
       ((d_pos <=?. of_Z (-1)) && (Z.ltb gap_dn (-1)))
    then
      let d := copysign d_pos in
      let+ q := wparabolic h n i (of_Z d) in
      let+ hm := wat h (i - 1) in
      let+ hp := wat h (i + 1) in
      let+ h' := (if (hm <?. q) && (q <?. hp)
                  then wstore h i q
                  else let+ v := wlinear h n i d in wstore h i v) in
      let+ ni' := free (to_int (ni + d)) in
      let+ n' := wstore n i ni' in
      wret (h', n')
    else wret (h, n).

  (** std::sort: [sort_work n] accesses for [n] elements, whatever that function is. *)
  Context (sort_work : nat -> nat).
  Definition wstd_sort (l : list A) : work (list A) :=
    let+ _ := pay (sort_work (length l)) in free (std_sort l).

  (** StreamingP2Quantile.cc:33-75. *)
  Definition w_p2_update (s : p2 A) (x : A) : work (p2 A) :=
    let q := p_quantile s in
    if Nat.ltb (p_history s) 5 then
      let+ h := wstore (p_heights s) (p_history s) x in
      let c := S (p_history s) in
      if Nat.eqb c 5 then
        let+ h' := wstd_sort h in
        let+ _ := pay 5 in
        wret (P2 q [of_Z 0; of_Z 2 *. q; of_Z 4 *. q; of_Z 2 +. of_Z 2 *. q; of_Z 4]
                 (p_pos s) h' c)
      else wret (P2 q (p_desired s) (p_pos s) h c)
    else
      let+ (h, k) := wfindK (p_heights s) x in
      let+ n := wbump_from (4 - k) (k + 1) (p_pos s) in
      let cnt : A := of_nat (p_history s) in
      let+ d0 := wat (p_desired s) 0 in
      let+ _ := pay 4 in
      let desired := [d0; cnt *. q /. of_Z 2; cnt *. q;
                      cnt *. (of_Z 1 +. q) /. of_Z 2; cnt] in
      let+ (h', n') :=
        (if q >=?. lit 1 2 then
           let+ a1 := wadjustHeights desired (h, n) 1 in
           let+ a2 := wadjustHeights desired a1 2 in
           wadjustHeights desired a2 3
         else
           let+ a3 := wadjustHeights desired (h, n) 3 in
           let+ a2 := wadjustHeights desired a3 2 in
           wadjustHeights desired a2 1) in
      wret (P2 q desired n' h' (S (p_history s))).
End Work.
