(** Property: the histogram's window after a reset (C93). *)

From Coq Require Import List Reals Arith Bool.
From Flocq Require Import IEEE754.BinarySingleNaN.
From Verif Require Import Outcome Arith IBin Histogram Spec HistSpec HistSlideSpec FloatSpec P2Witness HistWitness HistSlide.
Import ListNotations.
Local Open Scope nat_scope.

(** C93. reset empties the deque but keeps the total count. If n < W observations
    came before it, then from then on the counts are exactly those of the last
    W - n observations, however long the stream. *)
Theorem C93_reset_shortens_window :
  forall (numBins W : nat) (os : list (hist_op B64)) h (xs : list double),
    hist_calls (hist_new numBins W true) os = Ret h -> length (hist_items os) < W ->
    Forall (fun x => finite64 x = true) xs ->
    separated (A := B64) xs -> few (A := B64) numBins xs -> rising_news (A := B64) xs ->
    exists h', update_all hist_update (hist_reset h) xs = Ret h' /\
      counts_exactly (A := B64) (W - length (hist_items os)) xs h' /\
      hist_totalCount h' = Nat.min (length (hist_items os) + length xs) W.
Proof. exact reset_B64. Qed.
Print Assumptions C93_reset_shortens_window.

Theorem C93_reset_shortens_window_exact :
  forall (numBins W : nat) (os : list (hist_op RA)) h (xs : list R),
    hist_calls (hist_new numBins W true) os = Ret h -> length (hist_items os) < W ->
    separated (A := RA) xs -> few (A := RA) numBins xs -> rising_news (A := RA) xs ->
    exists h', update_all hist_update (hist_reset h) xs = Ret h' /\
      counts_exactly (A := RA) (W - length (hist_items os)) xs h' /\
      hist_totalCount h' = Nat.min (length (hist_items os) + length xs) W.
Proof. exact reset_RA. Qed.
Print Assumptions C93_reset_shortens_window_exact.

(** In particular a reset straight after construction repairs the histogram: it
    then counts the last W observations, which without the reset it does not
    (C92), and binCounts agrees with the report instead of throwing. *)
Theorem C93_reset_first_repairs :
  forall (numBins W : nat) (xs : list double),
    1 <= W -> Forall (fun x => finite64 x = true) xs ->
    separated (A := B64) xs -> few (A := B64) numBins xs -> rising_news (A := B64) xs ->
    exists h, update_all hist_update (hist_reset (hist_new (A := B64) numBins W true)) xs = Ret h /\
      counts_exactly (A := B64) W xs h /\
      hist_binCounts h = Ret (map snd (hist_report h)).
Proof. exact reset_first. Qed.
Print Assumptions C93_reset_first_repairs.

(** After any other reset binCounts throws for ever. *)
Theorem C93_bincounts_after_reset :
  forall (numBins W : nat) (os : list (hist_op B64)) h (xs : list double) h',
    hist_calls (hist_new numBins W true) os = Ret h -> length (hist_items os) < W ->
    Forall (fun x => finite64 x = true) xs ->
    separated (A := B64) xs -> few (A := B64) numBins xs -> rising_news (A := B64) xs ->
    update_all hist_update (hist_reset h) xs = Ret h' ->
    (hist_binCounts h' = Throw RuntimeError <-> hist_items os <> []) /\
    (hist_items os = [] -> hist_binCounts h' = Ret (map snd (hist_report h'))).
Proof. exact reset_counts_B64. Qed.
Print Assumptions C93_bincounts_after_reset.

(** And the masses add up to less than one. *)
Theorem C93_mass_after_reset :
  forall (numBins W : nat) (os : list (hist_op RA)) h (xs : list R) h',
    hist_calls (hist_new numBins W true) os = Ret h -> length (hist_items os) < W -> 1 <= length xs ->
    separated (A := RA) xs -> few (A := RA) numBins xs -> rising_news (A := RA) xs ->
    update_all hist_update (hist_reset h) xs = Ret h' ->
    Rsum (hist_pdf h' true false) =
      (INR (Nat.min (length xs) (W - length (hist_items os))) / INR (Nat.min (length (hist_items os) + length xs) W))%R.
Proof. exact reset_mass. Qed.
Print Assumptions C93_mass_after_reset.

(** Until the window is full this needs nothing about the data. *)
Theorem C93_counts_before_full :
  forall (A : arith) (numBins W : nat) (os : list (hist_op A)) h (xs : list A) h',
    hist_calls (hist_new numBins W true) os = Ret h -> length (hist_items os) + length xs <= W ->
    update_all hist_update (hist_reset h) xs = Ret h' ->
    counts_sum h' = length xs /\ h_total h' = length (hist_items os) + length xs.
Proof. exact @reset_early. Qed.
Print Assumptions C93_counts_before_full.

(** One observation, a reset, then 1, 2, 2, 2, 2, 2, 2, 2 with a window of 4: the
    counts are those of the last three, 0 and 3, with a total of 4. *)
Example C93_example :
  Forall (fun x => finite64 x = true) slide_stream /\ separated (A := B64) slide_stream /\
  few (A := B64) 2 slide_stream /\ rising_news (A := B64) slide_stream /\
  ok (hist_calls (hist_new (A := B64) 2 4 true) [HUpdate (Bz 7)]) (fun h =>
  ok (update_all hist_update (hist_reset h) slide_stream) (fun h' =>
    Nat.eqb (hist_totalCount h') 4 && if list_eq_dec Nat.eq_dec (map (@snd _ nat) (hist_report h')) [0; 3] then true else false)) = true.
Proof.
  pose proof slide_case as (H1 & H2 & H3 & H4 & _). repeat (split; [assumption|]). vm_compute. reflexivity.
Qed.
