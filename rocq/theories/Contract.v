(** StreamingP2Quantile, WindowedP2Quantile, StreamingVariance and
    StreamingEntropy compiled by a compiler that contracts [x * y + z] into a
    fused multiply-add, as GCC does by default for targets that have the
    instruction (setup.py:19 and CMakeLists.txt:115 do not switch it off).

    A product can only be contracted if it is an operand of an addition or a
    subtraction in the same function. The places are:
    - StreamingP2Quantile.cc:48 (2.0 + 2.0 * m_quantile),
    - StreamingP2Quantile.cc:158-164 (the outer sum of parabolic),
    - WindowedP2Quantile.cc:45,
    - StreamingVariance.cc:33,
    - StreamingEntropy.cc:64-65 (increment) and 74-77 (decrement).
    In linear (StreamingP2Quantile.cc:169-170) and in the quantile of the histogram
    (IStreamingHistogram.tcc:242) a division stands between product and sum. The
    products of StreamingVariance.cc:27 and Utils.cc:51 reach their sums
    through a call of a function of another translation unit. Whether a place is
    contracted may vary from call to call (inlining may duplicate the code). *)

From Coq Require Import List ZArith Bool.
From Flocq Require Import IEEE754.BinarySingleNaN.
From Verif Require Import Outcome Arith Utils IBin Histogram Mean P2 Entropy.
Import ListNotations.

(** fma(x, y, z): x * y + z with one rounding. *)
Definition Bfused : double -> double -> double -> double :=
  @Bfma 53 1024 prec_gt_0_53 prec_lt_emax_53 mode_NE.

(** [a + x * y] and [a - x * y]; [c] says whether they are contracted. *)
Definition add_mul (c : bool) (a x y : double) : double :=
  if c then Bfused x y a else Badd a (Bmul x y).
Definition sub_mul (c : bool) (a x y : double) : double :=
  if c then Bfused (Bopp x) y a else Bsub a (Bmul x y).

(** What replaces the call of parabolic in adjustHeights. *)
Definition formula : Type := list double -> list Z -> nat -> double -> outcome double.

(** StreamingP2Quantile.cc:156-165. *)
Definition parabolic_c (c : bool) : formula := fun h n i d =>
  let* hp := at_ h (i + 1) in
  let* hi := at_ h i in
  let* hm := at_ h (i - 1) in
  let* n_pm := idiff n (i + 1) (i - 1) in
  let* n_im := idiff n i (i - 1) in
  let* n_pi := idiff n (i + 1) i in
  Ret (add_mul c hi (Bquot d (Bz n_pm))
         (Badd (Bquot (Bmul (Badd (Bz n_im) d) (Bsub hp hi)) (Bz n_pi))
               (Bquot (Bmul (Bsub (Bz n_pi) d) (Bsub hi hm)) (Bz n_im)))).

(** StreamingP2Quantile.cc:127-147 with [f] in place of parabolic. *)
Definition adjustHeights_by (f : formula) (desired : list double) (hn : list double * list Z) (i : nat)
  : outcome (list double * list Z) :=
  let '(h, n) := hn in
  let* des := at_ desired i in
  let* ni := at_ n i in
  let d_pos := Bsub des (Bz ni) in
  let* gap_up := idiff n (i + 1) i in
  let* gap_dn := idiff n (i - 1) i in
  if (Bleb (Bz 1) d_pos && Z.ltb 1 gap_up) || (Bleb d_pos (Bz (-1)) && Z.ltb gap_dn (-1))
  then
    let d := copysign (A := B64) d_pos in
    let* q := f h n i (Bz d) in
    let* hm := at_ h (i - 1) in
    let* hp := at_ h (i + 1) in
    let* h' := (if Bltb hm q && Bltb q hp
                then store h i q
                else let* v := linear (A := B64) h n i d in store h i v) in
    let* ni' := to_int (ni + d) in
    let* n' := store n i ni' in
    Ret (h', n')
  else Ret (h, n).

(** StreamingP2Quantile.cc:33-75. [f i] is used for marker i, [c] at line 48. *)
Definition p2_update_by (f : nat -> formula) (c : bool) (s : p2 B64) (x : double) : outcome (p2 B64) :=
  let q := p_quantile s in
  if Nat.ltb (p_history s) 5 then
    let* h := store (p_heights s) (p_history s) x in
    let k := S (p_history s) in
    if Nat.eqb k 5 then
      let* h' := std_sort (A := B64) h in
      Ret (P2 (A := B64) q [Bz 0; Bmul (Bz 2) q; Bmul (Bz 4) q; add_mul c (Bz 2) (Bz 2) q; Bz 4]
              (p_pos s) h' k)
    else Ret (P2 (A := B64) q (p_desired s) (p_pos s) h k)
  else
    let* (h, k) := findK (A := B64) (p_heights s) x in
    let* n := bump_from (4 - k) (k + 1) (p_pos s) in
    let cnt : double := of_nat (A := B64) (p_history s) in
    let* d0 := at_ (p_desired s) 0 in
    let desired := [d0; Bquot (Bmul cnt q) (Bz 2); Bmul cnt q;
                    Bquot (Bmul cnt (Badd (Bz 1) q)) (Bz 2); cnt] in
    let* (h', n') :=
      (if Bleb (lit (A := B64) 1 2) q then
         let* a1 := adjustHeights_by (f 1) desired (h, n) 1 in
         let* a2 := adjustHeights_by (f 2) desired a1 2 in
         adjustHeights_by (f 3) desired a2 3
       else
         let* a3 := adjustHeights_by (f 3) desired (h, n) 3 in
         let* a2 := adjustHeights_by (f 2) desired a3 2 in
         adjustHeights_by (f 1) desired a2 1) in
    Ret (P2 (A := B64) q desired n' h' (S (p_history s))).

(** The update with the choices [c i] in parabolic of marker i and [c 0] at line 48;
    an observation comes with the choices made while it is processed. *)
Definition p2_update_c (s : p2 B64) (cx : (nat -> bool) * double) : outcome (p2 B64) :=
  p2_update_by (fun i => parabolic_c (fst cx i)) (fst cx 0) s (snd cx).

(** The update with any function instead of parabolic; an observation comes with
    the function used while it is processed. *)
Definition p2_update_any (s : p2 B64) (gx : (list double -> list Z -> nat -> double -> double) * double) : outcome (p2 B64) :=
  p2_update_by (fun _ h n i d => Ret (fst gx h n i d)) false s (snd gx).

(** WindowedP2Quantile.cc:36-46: either product may be the fused one. *)
Inductive sum_choice : Type := Separate | FuseFirst | FuseSecond.
Definition sum_of_products (c : sum_choice) (a b x y : double) : double :=
  match c with
  | Separate => Badd (Bmul a b) (Bmul x y)
  | FuseFirst => Bfused a b (Bmul x y)
  | FuseSecond => Bfused x y (Bmul a b)
  end.
Definition wp2_evaluate_c (c : sum_choice) (s : wp2 B64) : outcome (wp2 B64 * double) :=
  if Nat.ltb (w_history s) (w_wsize s) then
    let* (p, v) := p2_evaluate (w_p2 s) in
    Ret (WP2 (A := B64) p (w_previous s) (w_wsize s) (w_history s), v)
  else if Nat.eqb (w_wsize s) 0 then Undef DivByZero
  else
    let w2 := w_history s mod w_wsize s + 1 in
    let w1 : double := Bsub (Bz 1) (of_nat (A := B64) w2) in
    let* (p, v) := p2_evaluate (w_p2 s) in
    Ret (WP2 (A := B64) p (w_previous s) (w_wsize s) (w_history s),
         sum_of_products c w1 (w_previous s) (of_nat (A := B64) w2) v).

(** StreamingVariance.cc:30-34. *)
Definition variance_evaluate_c (c : bool) (s : variance B64) : double :=
  let m : double := mean_evaluate (A := B64) (va_mean s) in
  sub_mul c (mean_evaluate (A := B64) (va_sq s)) m m.

Section Entropy.
  Context (log2 : double -> double).

  (** StreamingEntropy.cc:51-67. *)
  Definition entropy_increment_c (c : bool) (h : hist B64) (ent : double) (index : nat) : outcome double :=
    let n : double := of_nat (A := B64) (h_total h) in
    let* b := hist_getBin h index in
    let count : double := of_nat (A := B64) (b_count b) in
    let* x1 := xlogx (A := B64) log2 (Bquot count n) in
    let* x2 := xlogx (A := B64) log2 (Bquot (max_ (A := B64) (Bz 0) (Bsub count (Bz 1))) n) in
    let rhs := Badd (Bsub (Bz 0) x1) x2 in
    if Beqb (Bz 1) n then Ret rhs
    else
      let p := Bquot (Bsub n (Bz 1)) n in
      Ret (if c then Bfused p (Bsub ent (log2 p)) rhs else Badd (Bmul p (Bsub ent (log2 p))) rhs).

  (** StreamingEntropy.cc:69-79. *)
  Definition entropy_decrement_c (c : bool) (h : hist B64) (ent : double) (index : nat) : outcome double :=
    let n := Bsub (of_nat (A := B64) (h_total h)) (Bz 1) in
    let* b := hist_getBin h index in
    let count := max_ (A := B64) (Bz 0) (Bsub (of_nat (A := B64) (b_count b)) (Bz 1)) in
    let* x1 := xlogx (A := B64) log2 (Bquot (Badd count (Bz 1)) (Badd n (Bz 1))) in
    let* x2 := xlogx (A := B64) log2 (Bquot count (Badd n (Bz 1))) in
    let l := log2 (Bquot n (Badd n (Bz 1))) in
    let a := Bquot (Badd n (Bz 1)) n in
    let b := Bsub (Badd ent x1) x2 in
    Ret (if c then Bfused a b l else Badd (Bmul a b) l).

  (** StreamingEntropy.cc:35-49; the first choice is that of decrement. *)
  Definition entropy_update_c (s : entropy B64) (cx : (bool * bool) * double) : outcome (entropy B64) :=
    let x := snd cx in
    let* l_index := hist_binSearch (e_hist s) x in
    match e_window s with
    | None => Undef NullDeref
    | Some w0 =>
        let w1 := w0 ++ [l_index] in
        let* (w2, ent1) :=
          (if Nat.ltb (e_wsize s) (length w1) then
             match w1 with
             | [] => Undef OutOfBounds
             | f :: w' => let* ent' := entropy_decrement_c (fst (fst cx)) (e_hist s) (e_value s) f in
                          Ret (w', ent')
             end
           else Ret (w1, e_value s)) in
        let* h' := hist_update (e_hist s) x in
        let* ent2 := entropy_increment_c (snd (fst cx)) h' ent1 l_index in
        Ret (Entropy (A := B64) (Some w2) (e_wsize s) (S (e_history s)) h' ent2)
    end.
End Entropy.
