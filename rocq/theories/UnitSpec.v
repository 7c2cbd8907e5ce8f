(** Vocabulary: the same numbers in a unit that is a power of two times larger
    or smaller. *)

From Coq Require Import ZArith Reals List.
From Flocq Require Import Core.Core IEEE754.BinarySingleNaN.
From Verif Require Import Outcome Arith IBin Histogram P2 FloatSpec.
Open Scope R_scope.

(** [std::ldexp(x, k)]: x times 2^k, rounded. *)
Definition ldexp64 (k : Z) (x : double) : double :=
  @Bldexp 53 1024 prec_gt_0_53 prec_lt_emax_53 mode_NE x k.

(** Zero, or of magnitude between 2^-e and 2^e before and after the change of
    unit: no result of the code comes near the smallest or largest doubles. *)
Definition mid_range (k e : Z) (r : R) : Prop :=
  r = 0 \/
  (bpow radix2 (- e) <= Rabs r <= bpow radix2 e /\
   bpow radix2 (- e) <= Rabs r * bpow radix2 k <= bpow radix2 e).
Definition measured (k e : Z) (x : double) : Prop :=
  finite64 x = true /\ mid_range k e (B2R x).

(** The same, but zero excluded and all positive. *)
Definition measured_pos (k e : Z) (x : double) : Prop := measured k e x /\ 0 < B2R x.

(** The edges of every bin in the other unit, everything else unchanged. *)
Definition ldexp_bin (k : Z) (b : bin B64) : bin B64 :=
  Bin (A := B64) (ldexp64 k (b_left b)) (ldexp64 k (b_right b)) (b_count b).
Definition ldexp_hist (k : Z) (h : hist B64) : hist B64 :=
  Hist (h_numBins h) (h_windowSize h) (h_decay h) (map (ldexp_bin k) (h_bins h)) (h_window h)
       (h_total h) (h_history h) (h_news h) (h_deletes h).
