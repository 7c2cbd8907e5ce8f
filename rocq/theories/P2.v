(** Model of StreamingP2Quantile, WindowedP2Quantile and StreamingIQR
    (tools/cpp/KML/src/statistics/summary/StreamingP2Quantile.cc,
     WindowedP2Quantile.cc, StreamingIQR.cc). *)

From Coq Require Import List ZArith Bool.
From Verif Require Import Outcome Arith Mean.
Import ListNotations.

(** [int] is 32 bits; signed overflow is UB. *)
Definition int_max : Z := (2 ^ 31 - 1)%Z.
Definition int_min : Z := (- 2 ^ 31)%Z.
Definition to_int (z : Z) : outcome Z :=
  if (Z.leb int_min z && Z.leb z int_max)%bool then Ret z else Undef IntOverflow.

Section P2.
  Context {A : arith}.

  (** std::sort on a vector of doubles, modelled as (stable) insertion sort;
      NaN elements violate the strict weak order precondition. Elements that
      compare equal are indistinguishable except for the sign of zero. *)
  Fixpoint sort_insert (x : A) (l : list A) : list A :=
    match l with
    | [] => [x]
    | y :: l' => if x <?. y then x :: l else y :: sort_insert x l'
    end.
  Definition sort_list (l : list A) : list A := fold_left (fun acc x => sort_insert x acc) l [].
  Definition std_sort (l : list A) : outcome (list A) :=
    if forallb not_nan l then Ret (sort_list l) else Undef BadPrecondition.

  (** StreamingP2Quantile.h:86-101. The vectors always have five elements. *)
  Record p2 : Type := P2 {
    p_quantile : A;             (* m_quantile *)
    p_desired : list A;         (* m_desiredMarkerPosition *)
    p_pos : list Z;             (* m_markerPosition *)
    p_heights : list A;         (* m_heights *)
    p_history : nat             (* m_historyCount *)
  }.

  (** StreamingP2Quantile.cc:18-31. *)
  Definition p2_new (quantile : A) : outcome p2 :=
    if (quantile <=?. zero) || (quantile >=?. of_Z 1) then Throw InvalidArgument
    else Ret (P2 quantile (repeat (of_Z 0) 5) [0; 1; 2; 3; 4]%Z (repeat (of_Z 0) 5) 0).

  (** StreamingP2Quantile.cc:91-125: the position k and the updated heights. *)
  Definition findK (h : list A) (x : A) : outcome (list A * nat) :=
    let* h0 := at_ h 0 in
    let* h1 := at_ h 1 in
    let* h2 := at_ h 2 in
    let* h3 := at_ h 3 in
    let* h4 := at_ h 4 in
    if x <?. h0 then let* h' := store h 0 x in Ret (h', 0)
    else if x <?. h1 then Ret (h, 0)
    else if x <?. h2 then Ret (h, 1)
    else if x <?. h3 then Ret (h, 2)
    else if x <?. h4 then Ret (h, 3)
    else let* h' := store h 4 x in Ret (h', 3).

  (** StreamingP2Quantile.cc:56: [for (i = k+1; i < 5; i++) m_markerPosition[i]++].
      [todo] is the number of remaining iterations. *)
  Fixpoint bump_from (todo i : nat) (n : list Z) : outcome (list Z) :=
    match todo with
    | O => Ret n
    | S t =>
        let* ni := at_ n i in
        let* ni' := to_int (ni + 1) in
        let* n' := store n i ni' in
        bump_from t (S i) n'
    end.

  (** StreamingP2Quantile.cc:149-154. *)
  Definition copysign (number : A) : Z :=
    if number >?. of_Z 0 then 1%Z
    else if number <?. of_Z 0 then (-1)%Z else 0%Z.

  (** [m_markerPosition[i] - m_markerPosition[j]]. *)
  Definition idiff (n : list Z) (i j : nat) : outcome Z :=
    let* a := at_ n i in
    let* b := at_ n j in
    to_int (a - b).

  (** StreamingP2Quantile.cc:156-165, same association as the C++ expression. *)
  Definition parabolic (h : list A) (n : list Z) (i : nat) (d : A) : outcome A :=
    let* hp := at_ h (i + 1) in
    let* hi := at_ h i in
    let* hm := at_ h (i - 1) in
    let* n_pm := idiff n (i + 1) (i - 1) in
    let* n_im := idiff n i (i - 1) in
    let* n_pi := idiff n (i + 1) i in
    Ret (hi +. (d /. of_Z n_pm) *.
               (((of_Z n_im +. d) *. (hp -. hi)) /. of_Z n_pi +.
                ((of_Z n_pi -. d) *. (hi -. hm)) /. of_Z n_im)).

  (** StreamingP2Quantile.cc:167-171; the index [i + d_pos] is computed in double
      from d_pos in {-1, 0, 1} and converted to an integer. *)
  Definition linear (h : list A) (n : list Z) (i : nat) (d : Z) : outcome A :=
    let j := Z.to_nat (Z.of_nat i + d) in
    let* hi := at_ h i in
    let* hj := at_ h j in
    let* n_ji := idiff n j i in
    Ret (hi +. (of_Z d *. (hj -. hi)) /. of_Z n_ji).

  (** StreamingP2Quantile.cc:127-147. The C++ evaluates the two position
      differences lazily; they cannot overflow (positions are nonnegative ints),
      so evaluating both is the same. *)
  Definition adjustHeights (desired : list A) (hn : list A * list Z) (i : nat)
    : outcome (list A * list Z) :=
    let '(h, n) := hn in
    let* des := at_ desired i in
    let* ni := at_ n i in
    let d_pos := des -. of_Z ni in
    let* gap_up := idiff n (i + 1) i in
    let* gap_dn := idiff n (i - 1) i in
    if ((d_pos >=?. of_Z 1) && (Z.ltb 1 gap_up)) ||
       ((d_pos <=?. of_Z (-1)) && (Z.ltb gap_dn (-1)))
    then
      let d := copysign d_pos in
      let* q := parabolic h n i (of_Z d) in
      let* hm := at_ h (i - 1) in
      let* hp := at_ h (i + 1) in
      let* h' := (if (hm <?. q) && (q <?. hp)
                  then store h i q
                  else let* v := linear h n i d in store h i v) in
      let* ni' := to_int (ni + d) in
      let* n' := store n i ni' in
      Ret (h', n')
    else Ret (h, n).

  (** StreamingP2Quantile.cc:33-75. *)
  Definition p2_update (s : p2) (x : A) : outcome p2 :=
    let q := p_quantile s in
    if Nat.ltb (p_history s) 5 then
      let* h := store (p_heights s) (p_history s) x in
      let c := S (p_history s) in
      if Nat.eqb c 5 then
        let* h' := std_sort h in
        Ret (P2 q [of_Z 0; of_Z 2 *. q; of_Z 4 *. q; of_Z 2 +. of_Z 2 *. q; of_Z 4]
                (p_pos s) h' c)
      else Ret (P2 q (p_desired s) (p_pos s) h c)
    else
      let* (h, k) := findK (p_heights s) x in
      let* n := bump_from (4 - k) (k + 1) (p_pos s) in
      let cnt : A := of_nat (p_history s) in
      let* d0 := at_ (p_desired s) 0 in
      let desired := [d0; cnt *. q /. of_Z 2; cnt *. q;
                      cnt *. (of_Z 1 +. q) /. of_Z 2; cnt] in
      let* (h', n') :=
        (if q >=?. lit 1 2 then
           let* a1 := adjustHeights desired (h, n) 1 in
           let* a2 := adjustHeights desired a1 2 in
           adjustHeights desired a2 3
         else
           let* a3 := adjustHeights desired (h, n) 3 in
           let* a2 := adjustHeights desired a3 2 in
           adjustHeights desired a2 1) in
      Ret (P2 q desired n' h' (S (p_history s))).

  (** StreamingP2Quantile.cc:77-89. m_heights is mutable: evaluate may change it. *)
  Definition p2_evaluate (s : p2) : outcome (p2 * A) :=
    if Nat.leb (p_history s) 5 then
      let* h := std_sort (p_heights s) in
      match round_int (fabs (of_nat (p_history s) -. of_Z 1) *. p_quantile s) with
      | None => Undef BadCast
      | Some z =>
          if (Z.leb int_min z && Z.leb z int_max)%bool then
            let* v := (if Z.ltb z 0 then Undef OutOfBounds else at_ h (Z.to_nat z)) in
            Ret (P2 (p_quantile s) (p_desired s) (p_pos s) h (p_history s), v)
          else Undef BadCast
      end
    else
      let* v := at_ (p_heights s) 2 in Ret (s, v).

  (** StreamingP2Quantile.cc:173. *)
  Definition p2_clear (s : p2) : p2 :=
    P2 (p_quantile s) (p_desired s) (p_pos s) (p_heights s) 0.

  (** WindowedP2Quantile.h:74-79 plus IStreaming members; its m_window is never
      filled, only compared with null (null iff windowSize = 0). *)
  Record wp2 : Type := WP2 {
    w_p2 : p2;              (* *m_p2 *)
    w_previous : A;         (* m_previous *)
    w_wsize : nat;          (* m_windowSize *)
    w_history : nat         (* m_historyCount *)
  }.

  (** WindowedP2Quantile.cc:14-18. *)
  Definition wp2_new (quantile : A) (windowSize : nat) : outcome wp2 :=
    let* p := p2_new quantile in
    Ret (WP2 p (of_Z 0) windowSize 0).

  (** WindowedP2Quantile.cc:22-34. [m_windowSize + 1] does not wrap for
      windowSize < 2^64 - 1. *)
  Definition wp2_update (s : wp2) (x : A) : outcome wp2 :=
    let c := S (w_history s) in
    let* p := p2_update (w_p2 s) x in
    if Nat.ltb 0 (w_wsize s) && Nat.eqb (c mod (w_wsize s + 1)) 0 then
      let* (p', v) := p2_evaluate p in
      Ret (WP2 (p2_clear p') v (w_wsize s) c)
    else Ret (WP2 p (w_previous s) (w_wsize s) c).

  (** WindowedP2Quantile.cc:36-46. The integer modulo by zero is UB. *)
  Definition wp2_evaluate (s : wp2) : outcome (wp2 * A) :=
    if Nat.ltb (w_history s) (w_wsize s) then
      let* (p, v) := p2_evaluate (w_p2 s) in
      Ret (WP2 p (w_previous s) (w_wsize s) (w_history s), v)
    else if Nat.eqb (w_wsize s) 0 then Undef DivByZero
    else
      let w2 := w_history s mod w_wsize s + 1 in
      let w1 : A := of_Z 1 -. of_nat w2 in
      let* (p, v) := p2_evaluate (w_p2 s) in
      Ret (WP2 p (w_previous s) (w_wsize s) (w_history s),
           w1 *. w_previous s +. of_nat w2 *. v).

  (** StreamingIQR.h:83-88. *)
  Record iqr : Type := IQR {
    i_low : wp2;
    i_high : wp2;
    i_history : nat
  }.

  (** StreamingIQR.cc:17-22. *)
  Definition iqr_new_range (low high : A) (windowSize : nat) : outcome iqr :=
    let* l := wp2_new low windowSize in
    let* h := wp2_new high windowSize in
    Ret (IQR l h 0).

  (** StreamingIQR.cc:11-15. *)
  Definition iqr_new (windowSize : nat) : outcome iqr :=
    iqr_new_range (lit 1 4) (lit 3 4) windowSize.

  (** StreamingIQR.cc:30-35. *)
  Definition iqr_update (s : iqr) (x : A) : outcome iqr :=
    let* l := wp2_update (i_low s) x in
    let* h := wp2_update (i_high s) x in
    Ret (IQR l h (S (i_history s))).

  (** StreamingIQR.cc:37 (the operands of [-] are unsequenced; they touch
      different objects). *)
  Definition iqr_evaluate (s : iqr) : outcome (iqr * A) :=
    let* (h, vh) := wp2_evaluate (i_high s) in
    let* (l, vl) := wp2_evaluate (i_low s) in
    Ret (IQR l h (i_history s), vh -. vl).
End P2.
Arguments p2 : clear implicits.
Arguments wp2 : clear implicits.
Arguments iqr : clear implicits.
