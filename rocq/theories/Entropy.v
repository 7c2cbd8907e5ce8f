(** Model of StreamingEntropy
    (tools/cpp/KML/src/statistics/summary/StreamingEntropy.cc). *)

From Coq Require Import List ZArith Bool Arith.
From Verif Require Import Outcome Arith Utils IBin Histogram Mean.
Import ListNotations.

Section Entropy.
  Context {A : arith}.
  (** std::log2. *)
  Context (log2 : A -> A).

  (** StreamingEntropy.h:63-68 plus IStreaming members. m_window is a
      deque<double> holding bin indices; indices are small integers, exactly
      representable, modelled as nat. *)
  Record entropy : Type := Entropy {
    e_window : option (list nat);   (* *m_window *)
    e_wsize : nat;                  (* m_windowSize *)
    e_history : nat;                (* m_historyCount *)
    e_hist : hist A;                (* *m_histogram *)
    e_value : A                     (* m_entropy *)
  }.

  (** StreamingEntropy.cc:25-30. ceil(log2(windowSize)) is the integer upper
      binary logarithm. That is exact for 1 <= windowSize <= 2^47 if std::log2
      rounds correctly (C60_rounded_log2); far larger windows can get one bin
      less. For windowSize = 0 the logarithm is -infinity and its conversion to
      size_t is UB. *)
  Definition entropy_bins (windowSize numBins : nat) : outcome nat :=
    if Nat.eqb numBins 0 then
      if Nat.eqb windowSize 0 then Undef BadCast
      else Ret (Nat.max numBins (Nat.log2_up windowSize + 1))
    else Ret numBins.

  (** StreamingEntropy.cc:22-33. *)
  Definition entropy_new (windowSize numBins : nat) : outcome entropy :=
    let* l_bins := entropy_bins windowSize numBins in
    Ret (Entropy (new_window windowSize) windowSize 0
                 (hist_new l_bins windowSize true) (of_Z 0)).

  (** StreamingEntropy.cc:51-67: the new value of m_entropy. The unary minus is
      written [0 - x1]; it differs only in the sign of a zero summand. *)
  Definition entropy_increment (h : hist A) (ent : A) (index : nat) : outcome A :=
    let n : A := of_nat (h_total h) in
    let* b := hist_getBin h index in
    let count : A := of_nat (b_count b) in
    let* x1 := xlogx log2 (count /. n) in
    let* x2 := xlogx log2 (max_ (of_Z 0) (count -. of_Z 1) /. n) in
    let rhs := (of_Z 0 -. x1) +. x2 in
    if of_Z 1 =?. n then Ret rhs
    else
      let lhs := ((n -. of_Z 1) /. n) *. (ent -. log2 ((n -. of_Z 1) /. n)) in
      Ret (lhs +. rhs).

  (** StreamingEntropy.cc:69-79. *)
  Definition entropy_decrement (h : hist A) (ent : A) (index : nat) : outcome A :=
    let n := of_nat (h_total h) -. of_Z 1 in
    let* b := hist_getBin h index in
    let count := max_ (of_Z 0) (of_nat (b_count b) -. of_Z 1) in
    let* x1 := xlogx log2 ((count +. of_Z 1) /. (n +. of_Z 1)) in
    let* x2 := xlogx log2 (count /. (n +. of_Z 1)) in
    Ret (((n +. of_Z 1) /. n) *. ((ent +. x1) -. x2) +. log2 (n /. (n +. of_Z 1))).

  (** StreamingEntropy.cc:35-49. *)
  Definition entropy_update (s : entropy) (x : A) : outcome entropy :=
    let* l_index := hist_binSearch (e_hist s) x in
    match e_window s with
    | None => Undef NullDeref
    | Some w0 =>
        let w1 := w0 ++ [l_index] in
        let* (w2, ent1) :=
          (if Nat.ltb (e_wsize s) (length w1) then
             match w1 with
             | [] => Undef OutOfBounds
             | f :: w' => let* ent' := entropy_decrement (e_hist s) (e_value s) f in
                          Ret (w', ent')
             end
           else Ret (w1, e_value s)) in
        let* h' := hist_update (e_hist s) x in
        let* ent2 := entropy_increment h' ent1 l_index in
        Ret (Entropy (Some w2) (e_wsize s) (S (e_history s)) h' ent2)
    end.

  (** StreamingEntropy.cc:81. *)
  Definition entropy_evaluate (s : entropy) : A := e_value s.
End Entropy.
Arguments entropy : clear implicits.
