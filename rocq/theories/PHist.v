(** Properties C20-C29 and C32-C35: the streaming histogram.
    [hist_calls h os] runs an arbitrary sequence of updates and resets. *)

From Coq Require Import List Sorting.Sorted Arith Bool Lia ZArith Reals Lra.
From Flocq Require Import Core.Core IEEE754.BinarySingleNaN.
From Verif Require Import Outcome Arith Utils IBin Histogram Spec HistSpec FloatSpec
  HistFacts HistOrder HistStreams HistWitness P2Witness.
Import ListNotations.
Local Open Scope nat_scope.

(** C20, for every arithmetic, so for all doubles including NaN. *)
Theorem C20_size_bounded :
  forall (A : arith) (numBins windowSize : nat) (os : list (hist_op A)) (h : hist A),
    hist_calls (hist_new numBins windowSize true) os = Ret h -> hist_size h <= numBins.
Proof. exact (fun A N W os h E => proj1 (proj2 (proj2 (run_basic N W os h E)))). Qed.
Print Assumptions C20_size_bounded.

Theorem C20_size_never_shrinks :
  forall (A : arith) (numBins windowSize : nat) (os : list (hist_op A)) (h h' : hist A) (x : A),
    hist_calls (hist_new numBins windowSize true) os = Ret h -> hist_update h x = Ret h' ->
    hist_size h <= hist_size h' <= hist_size h + 1.
Proof. exact (fun A N W os h h' x E Eu => size_grows N W os h x h' E Eu). Qed.
Print Assumptions C20_size_never_shrinks.

Example C20_example :
  ok (hist_calls (hist_new (A := B64) 2 3 true)
        (map HUpdate (map Bz [5; 1; 9; 4]%Z) ++ [HReset] ++ map HUpdate (map Bz [7; 8]%Z)))
     (fun h => Nat.eqb (hist_size h) 2) = true.
Proof. vm_compute. reflexivity. Qed.

(** C21 *)
Theorem C21_total_count :
  forall (A : arith) (numBins windowSize : nat) (os : list (hist_op A)) (h : hist A),
    hist_calls (hist_new numBins windowSize true) os = Ret h ->
    hist_totalCount h = Nat.min (length (hist_items os)) windowSize.
Proof. exact (fun A N W os h E => proj1 (proj2 (run_basic N W os h E))). Qed.
Print Assumptions C21_total_count.

Example C21_example :
  ok (hist_calls (hist_new (A := B64) 2 3 true)
        (map HUpdate (map Bz [5; 1]%Z) ++ [HReset] ++ map HUpdate (map Bz [7; 8; 9]%Z)))
     (fun h => Nat.eqb (hist_totalCount h) 3 && Nat.eqb (hist_size h) 2) = true.
Proof. vm_compute. reflexivity. Qed.

(** C22 *)
Theorem C22_counts_in_sync :
  forall (A : arith) (numBins windowSize : nat) (xs : list A) (h : hist A),
    update_all hist_update (hist_new numBins windowSize true) xs = Ret h -> length xs <= windowSize ->
    counts_sum h = length xs /\ hist_totalCount h = length xs /\ hist_binCounts h = Ret (map b_count (h_bins h)).
Proof.
  exact (fun A N W xs h E L => let '(conj a b) := proj2 (run_counts N W xs h E) L in
           conj a (conj b (run_binCounts N W xs h E L))).
Qed.
Print Assumptions C22_counts_in_sync.

Theorem C22_counts_at_least_total :
  forall (A : arith) (numBins windowSize : nat) (xs : list A) (h : hist A),
    update_all hist_update (hist_new numBins windowSize true) xs = Ret h -> hist_totalCount h <= counts_sum h.
Proof. exact (fun A N W xs h E => proj1 (run_counts N W xs h E)). Qed.
Print Assumptions C22_counts_at_least_total.

Example C22_example :
  ok (hist_stream 3 10 [4; 4; 2; 9; 7; 1]%Z) (fun h =>
    Nat.eqb (counts_sum h) 6 && ok (hist_binCounts h) (fun cs => Nat.eqb (length cs) 3)) = true /\
  ok (hist_stream 2 1 [1; 2; 2; 2]%Z) (fun h => Nat.ltb (hist_totalCount h) (counts_sum h)) = true.
Proof. split; vm_compute; reflexivity. Qed.

(** C23 *)
Theorem C23_sliding_corrupts_counts :
  forall (a b : R) (numBins windowSize k : nat),
    definitelyLessThan (A := RA) a b default_eps = true -> 2 <= numBins -> 1 <= windowSize -> windowSize < k ->
    exists h, update_all hist_update (hist_new (A := RA) numBins windowSize true) (a :: repeat b k) = Ret h /\
      hist_binCounts h = Throw RuntimeError.
Proof. exact drift_RA. Qed.
Print Assumptions C23_sliding_corrupts_counts.

Theorem C23_sliding_corrupts_counts_double :
  forall (a b : double) (numBins windowSize k : nat),
    finite64 b = true -> definitelyLessThan (A := B64) a b default_eps = true ->
    2 <= numBins -> 1 <= windowSize -> windowSize < k ->
    exists h, update_all hist_update (hist_new (A := B64) numBins windowSize true) (a :: repeat b k) = Ret h /\
      hist_binCounts h = Throw RuntimeError.
Proof. exact drift_B64. Qed.
Print Assumptions C23_sliding_corrupts_counts_double.

Example C23_example :
  definitelyLessThan (A := B64) (Bz 1) (Bz 2) default_eps = true /\
  ok (hist_stream 2 3 [1; 2; 2; 2]%Z) (fun h => ok (hist_binCounts h) (fun _ => true)) = true /\
  ok (hist_stream 2 3 [1; 2; 2; 2; 2]%Z) (fun h => ok (hist_binCounts h) (fun _ => true)) = false.
Proof. repeat split; vm_compute; reflexivity. Qed.

(** C24 *)
Theorem C24_bins_well_formed :
  forall (numBins windowSize : nat) (os : list (hist_op RA)) (h : hist RA),
    1 <= windowSize -> hist_calls (hist_new numBins windowSize true) os = Ret h ->
    Forall (fun b => (b_left b <= b_right b)%R /\
                     In (b_left b) (since_reset [] os) /\ In (b_right b) (since_reset [] os)) (h_bins h) /\
    StronglySorted (fun a b => (b_left a < b_left b)%R) (h_bins h).
Proof. exact well_formed_RA. Qed.
Print Assumptions C24_bins_well_formed.

Theorem C24_bins_well_formed_double :
  forall (numBins windowSize : nat) (os : list (hist_op B64)) (h : hist B64),
    1 <= windowSize -> hist_calls (hist_new numBins windowSize true) os = Ret h ->
    Forall (fun x : double => finite64 x = true) (hist_items os) ->
    Forall (fun b : bin B64 => (B2R (b_left b) <= B2R (b_right b))%R /\
                     In (b_left b) (since_reset [] os) /\ In (b_right b) (since_reset [] os)) (h_bins h) /\
    StronglySorted (fun a b : bin B64 => (B2R (b_left a) < B2R (b_left b))%R) (h_bins h).
Proof. exact well_formed_B64. Qed.
Print Assumptions C24_bins_well_formed_double.

Example C24_example :
  forallb (fun x => finite64 x) (map Bz [5; 1; 9; 4; 7; 7]%Z) = true /\
  ok (hist_calls (hist_new (A := B64) 3 10 true) (map HUpdate (map Bz [5; 1; 9; 4; 7; 7]%Z)))
     (fun h => Nat.eqb (hist_size h) 3 &&
               existsb (fun b : bin B64 => Bltb (b_left b : double) (b_right b)) (h_bins h)) = true.
Proof. split; vm_compute; reflexivity. Qed.

(** C25 *)
Theorem C25_safe_inside_window :
  forall (numBins windowSize : nat) (xs : list double),
    1 <= numBins -> length xs <= windowSize ->
    Forall (fun x => finite64 x = true /\ (Rabs (B2R x) <= bpow radix2 1022)%R) xs ->
    exists h, update_all hist_update (hist_new (A := B64) numBins windowSize true) xs = Ret h.
Proof. exact moderate_run. Qed.
Print Assumptions C25_safe_inside_window.

Theorem C25_stale_index_refuted :
  exists h : hist B64,
    update_all hist_update (hist_new (A := B64) 2 1 true) (map Bz [1; 10; 20; 20]%Z) = Ret h /\
    hist_update h (Bz 20) = Undef OutOfBounds.
Proof. exact stale_index. Qed.
Print Assumptions C25_stale_index_refuted.

Theorem C25_zero_bins :
  forall (A : arith) (windowSize : nat) (x : A), 1 <= windowSize ->
    hist_update (hist_new 0 windowSize true) x = Undef OutOfBounds.
Proof. exact (fun A W x => zero_bins_undefined W x). Qed.
Print Assumptions C25_zero_bins.

(** Every failure of an update is an out-of-bounds access: updates never throw. *)
Theorem C25_only_out_of_bounds :
  forall (A : arith) (numBins windowSize : nat) (os : list (hist_op A)) (h : hist A) (x : A),
    hist_calls (hist_new numBins windowSize true) os = Ret h ->
    (exists h', hist_update h x = Ret h') \/ hist_update h x = Undef OutOfBounds.
Proof. exact (fun A N W os h x => run_update_outcome N W os h x). Qed.
Print Assumptions C25_only_out_of_bounds.

Example C25_example :
  Forall (fun x => finite64 x = true /\ (Rabs (B2R x) <= bpow radix2 1022)%R) [Bz 0; Bz 1] /\
  ok (hist_stream 2 4 [1; 10; 20; 20]%Z) (fun _ => true) = true.
Proof. exact moderate_example. Qed.

(** C26 *)
Theorem C26_separated_data :
  forall (numBins windowSize : nat) (xs : list R),
    length xs <= windowSize -> separated (A := RA) xs -> few (A := RA) numBins xs ->
    exists h vs, update_all hist_update (hist_new (A := RA) numBins windowSize true) xs = Ret h /\
      StronglySorted Rlt vs /\ (forall v, In v vs <-> In v xs) /\
      hist_report h = map (fun v => ((v, v), count_occ Req_EM_T xs v)) vs /\
      hist_binCounts h = Ret (map (count_occ Req_EM_T xs) vs).
Proof. exact separated_RA. Qed.
Print Assumptions C26_separated_data.

Theorem C26_separated_data_double :
  forall (numBins windowSize : nat) (xs : list double),
    length xs <= windowSize -> Forall (fun x => finite64 x = true) xs ->
    separated (A := B64) xs -> few (A := B64) numBins xs ->
    exists h vs, update_all hist_update (hist_new (A := B64) numBins windowSize true) xs = Ret h /\
      StronglySorted (fun a b : double => (B2R a < B2R b)%R) vs /\ incl vs xs /\
      (forall x, In x xs -> exists v, In v vs /\ B2R x = B2R v) /\
      hist_report h = map (fun v => ((v, v), count_occ Req_EM_T (map B2R xs) (B2R v))) vs /\
      hist_binCounts h = Ret (map (fun v => count_occ Req_EM_T (map B2R xs) (B2R v)) vs).
Proof. exact separated_B64. Qed.
Print Assumptions C26_separated_data_double.

Example C26_example : separated (A := RA) [2; 1; 2]%R /\ few (A := RA) 2 [2; 1; 2]%R.
Proof. exact separated_example. Qed.

(** C28 *)
Theorem C28_binsearch_terminates :
  forall (A : arith) (h : hist A) (x : A),
    exists i, hist_binSearch h x = Ret i /\ i <= hist_size h.
Proof. exact @search_terminates. Qed.
Print Assumptions C28_binsearch_terminates.

Theorem C28_binsearch_insertion_point :
  forall (h : hist RA) (x : R), StronglySorted (fun a b => (b_left a <= b_left b)%R) (h_bins h) ->
    hist_binSearch h x =
    Ret (length (filter (fun b => definitelyLessThan (b_left b) x default_eps) (h_bins h))).
Proof. exact search_RA. Qed.
Print Assumptions C28_binsearch_insertion_point.

Theorem C28_binsearch_insertion_point_double :
  forall (h : hist B64) (x : double), finite64 x = true ->
    Forall (fun b : bin B64 => finite64 (b_left b) = true /\ finite64 (b_right b) = true) (h_bins h) ->
    StronglySorted (fun a b : bin B64 => (B2R (b_left a) <= B2R (b_left b))%R) (h_bins h) ->
    hist_binSearch h x =
    Ret (length (filter (fun b => definitelyLessThan (b_left b) x default_eps) (h_bins h))).
Proof. exact search_B64. Qed.
Print Assumptions C28_binsearch_insertion_point_double.

Example C28_example :
  ok (hist_stream 5 10 [3; 1; 7; 5]%Z) (fun h => ok (hist_binSearch h (Bz 6 : num B64)) (fun i => Nat.eqb i 3)) = true.
Proof. vm_compute. reflexivity. Qed.

(** C29 *)
Theorem C29_merge_closest_pair :
  forall (bins bins' : list (bin RA)) (i : nat), hist_merge bins = Ret (bins', i) ->
    exists l b c r, bins = l ++ b :: c :: r /\ i = length l /\ bins' = l ++ bin_add b c :: r /\
      list_sum (map b_count bins') = list_sum (map b_count bins) /\
      forall l' b' c' r', bins = l' ++ b' :: c' :: r' -> (b_right b' <= b_right c')%R ->
        ((b_right c - b_right b) * (1 - / 10000) <= b_right c' - b_right b')%R.
Proof. exact merge_gap_RA. Qed.
Print Assumptions C29_merge_closest_pair.

(** In doubles: no gap is definitely less than the chosen one. *)
Theorem C29_merge_closest_pair_double :
  forall (bins bins' : list (bin B64)) (i : nat),
    (forall l b c r, bins = l ++ b :: c :: r -> finite64 (gap b c) = true) -> hist_merge bins = Ret (bins', i) ->
    exists l b c r, bins = l ++ b :: c :: r /\ i = length l /\ bins' = l ++ bin_add b c :: r /\
      forall l' b' c' r', bins = l' ++ b' :: c' :: r' ->
        definitelyLessThan (gap b' c') (gap b c) default_eps = false.
Proof. exact merge_choice_B64. Qed.
Print Assumptions C29_merge_closest_pair_double.

Example C29_example :
  ok (hist_merge (A := B64) [Bin (Bz 1) (Bz 1) 1; Bin (Bz 5) (Bz 5) 2; Bin (Bz 6) (Bz 6) 3; Bin (Bz 9) (Bz 9) 4])
     (fun '(bins, i) => Nat.eqb i 1 && Nat.eqb (length bins) 3) = true.
Proof. vm_compute. reflexivity. Qed.

(** C32 *)
Theorem C32_reset_is_not_fresh :
  forall (A : arith) (numBins windowSize : nat) (os : list (hist_op A)) (h : hist A) (xs : list A),
    1 <= windowSize -> hist_calls (hist_new numBins windowSize true) os = Ret h ->
    windowSize <= length (hist_items os) ->
    exists h', update_all hist_update (hist_reset h) xs = Ret h' /\
      hist_totalCount h' = windowSize /\ hist_size h' <= numBins /\
      Forall (fun b => b_count b = 0) (h_bins h') /\
      hist_binCounts h' = Throw RuntimeError.
Proof. exact (fun A N W os h xs => reset_drains N W os h xs). Qed.
Print Assumptions C32_reset_is_not_fresh.

Example C32_example :
  ok (hist_calls (hist_new (A := B64) 2 2 true) (map HUpdate (map Bz [1; 2]%Z))) (fun h =>
  ok (update_all hist_update (hist_reset h) (map Bz [3; 4; 3]%Z)) (fun h' =>
    Nat.eqb (hist_size h') 2 && Nat.eqb (counts_sum h') 0)) = true.
Proof. vm_compute. reflexivity. Qed.

(** C33 *)
Theorem C33_report_one_entry_per_bin :
  forall (numBins windowSize : nat) (os : list (hist_op RA)) (h : hist RA),
    1 <= windowSize -> hist_calls (hist_new numBins windowSize true) os = Ret h ->
    hist_report h = map (fun b => ((b_left b, b_right b), b_count b)) (h_bins h).
Proof. exact report_RA. Qed.
Print Assumptions C33_report_one_entry_per_bin.

Theorem C33_report_one_entry_per_bin_double :
  forall (numBins windowSize : nat) (os : list (hist_op B64)) (h : hist B64),
    1 <= windowSize -> hist_calls (hist_new numBins windowSize true) os = Ret h ->
    Forall (fun x : double => finite64 x = true) (hist_items os) ->
    hist_report h = map (fun b => ((b_left b, b_right b), b_count b)) (h_bins h).
Proof. exact report_B64. Qed.
Print Assumptions C33_report_one_entry_per_bin_double.

(** 1, 2, 1, 3, then a reset, then 4 and 7 in two bins: the report has two entries. *)
Example C33_example :
  let os := map HUpdate (map Bz [1; 2; 1; 3]%Z) ++ HReset :: map HUpdate (map Bz [4; 7; 4]%Z) in
  Forall (fun x : double => finite64 x = true) (hist_items os) /\
  ok (hist_calls (hist_new (A := B64) 2 9 true) os) (fun h => Nat.eqb (length (hist_report h)) 2) = true.
Proof. split; [repeat constructor|vm_compute; reflexivity]. Qed.

Theorem C33_report_loses_entries_refuted :
  exists h : hist B64, update_all hist_update (hist_new (A := B64) 2 0 true) (map Bz [1; 1]%Z) = Ret h /\
    hist_size h = 2 /\ length (hist_report h) = 1.
Proof. exact report_loses. Qed.
Print Assumptions C33_report_loses_entries_refuted.

(** C34 *)
Theorem C34_update_memory :
  forall (A : arith) (numBins windowSize : nat) (os : list (hist_op A)) (h h' : hist A) (x : A),
    hist_calls (hist_new numBins windowSize true) os = Ret h -> hist_update h x = Ret h' ->
    h_news h' = S (h_news h) /\ h_deletes h' = h_deletes h + (if falls_in h x then 1 else 0).
Proof. exact (fun A N W os h h' x => update_memory N W os h x h'). Qed.
Print Assumptions C34_update_memory.

Theorem C34_leak :
  forall (A : arith) (numBins windowSize : nat) (os : list (hist_op A)) (h : hist A),
    hist_calls (hist_new numBins windowSize true) os = Ret h ->
    h_news (hist_destroy h) - h_deletes (hist_destroy h) = inserts (hist_new numBins windowSize true) os /\
    hist_size h <= inserts (hist_new numBins windowSize true) os.
Proof. exact (fun A N W os h => destroy_memory N W os h). Qed.
Print Assumptions C34_leak.

Example C34_example :
  let os := map HUpdate (map Bz [1; 2; 1; 3]%Z) in
  inserts (hist_new (A := B64) 2 5 true) os = 3 /\
  ok (hist_calls (hist_new (A := B64) 2 5 true) os) (fun h => Nat.eqb (h_news h) 4 && Nat.eqb (h_deletes h) 1) = true.
Proof. split; vm_compute; reflexivity. Qed.

(** C35 *)
Theorem C35_infinite_gaps :
  forall bins : list (bin B64), 1 <= length bins ->
    (forall l b c r, bins = l ++ b :: c :: r -> gap b c = B754_infinity false) ->
    hist_merge bins = Undef OutOfBounds.
Proof. exact merge_infinite. Qed.
Print Assumptions C35_infinite_gaps.

Theorem C35_far_apart_doubles :
  forall (a b : double) (windowSize : nat), finite64 a = true -> finite64 b = true ->
    Bsub b a = B754_infinity false -> 2 <= windowSize ->
    exists h, hist_update (hist_new (A := B64) 1 windowSize true) a = Ret h /\ hist_update h b = Undef OutOfBounds.
Proof. exact two_apart_B64. Qed.
Print Assumptions C35_far_apart_doubles.

Example C35_example :
  let a := Bz (- (17 * 10 ^ 307))%Z in let b := Bz (17 * 10 ^ 307)%Z in
  finite64 a = true /\ finite64 b = true /\
  match Bsub b a with B754_infinity false => true | _ => false end = true.
Proof. repeat split; vm_compute; reflexivity. Qed.
