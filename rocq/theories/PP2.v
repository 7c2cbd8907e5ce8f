(** Properties C41-C51 and C64: StreamingP2Quantile, WindowedP2Quantile, StreamingIQR. *)

From Coq Require Import List Reals ZArith Lra Lia Bool Arith Sorting.Permutation Sorting.Sorted.
From Flocq Require Import Core.Core IEEE754.BinarySingleNaN.
From Verif Require Import Outcome Arith Spec P2 P2Spec FloatSpec P2Facts P2Float P2Jain P2JainFacts P2Window P2Witness Defaults.
Import ListNotations.
Open Scope R_scope.

(** C41. [X] maps infinities to +-2^1024, so the bounds cover them. *)
Theorem C41_p2_constructor :
  forall q : double,
    (p2_new (A := B64) q = Throw InvalidArgument <-> nan q = false /\ (X q <= 0 \/ 1 <= X q)) /\
    ((exists s, p2_new (A := B64) q = Ret s) <-> nan q = true \/ 0 < X q < 1).
Proof. exact p2_new_B64. Qed.
Print Assumptions C41_p2_constructor.

Theorem C41_p2_nan_quantile :
  forall (q : double) s0 (xs : list double) s,
    nan q = true -> p2_new (A := B64) q = Ret s0 -> (length xs <= 5)%nat ->
    Forall (fun x => nan x = false) xs ->
    update_all (p2_update (A := B64)) s0 xs = Ret s -> p2_evaluate s = Undef BadCast.
Proof. exact p2_nan_quantile. Qed.
Print Assumptions C41_p2_nan_quantile.

Example C41_example :
  match p2_new (A := B64) (lit 1 2) with Ret _ => true | _ => false end = true /\
  match p2_new (A := B64) (Bz 0) with Throw InvalidArgument => true | _ => false end = true /\
  match p2_new (A := B64) (Bz 1) with Throw InvalidArgument => true | _ => false end = true /\
  match (let* s0 := p2_new (A := B64) (Bquot (Bz 0) (Bz 0)) in
         update_all p2_update s0 [Bz 1; Bz 2; Bz 3]) with Ret _ => true | _ => false end = true.
Proof. repeat split; vm_compute; reflexivity. Qed.

(** C42. The only hypothesis on magnitudes is that no difference of two
    observations overflows. *)
Theorem C42_p2_bracket :
  forall (q : double) s0 (xs : list double),
    p2_new (A := B64) q = Ret s0 -> nan q = false ->
    (5 <= length xs)%nat -> (Z.of_nat (length xs) <= 2 ^ 31)%Z ->
    Forall (fun x => finite64 x = true) xs ->
    (forall x y, In x xs -> In y xs -> rnd (B2R y - B2R x) < big) ->
    exists s v lo hi h1 h2 h3,
      update_all p2_update s0 xs = Ret s /\ p2_evaluate s = Ret (s, v) /\
      In lo xs /\ In hi xs /\ (forall x, In x xs -> B2R lo <= B2R x <= B2R hi) /\
      finite64 v = true /\ B2R lo <= B2R v <= B2R hi /\
      p_heights s = [lo; h1; h2; h3; hi] /\ ascending [lo; h1; h2; h3; hi].
Proof. exact p2_bracket. Qed.
Print Assumptions C42_p2_bracket.

Theorem C42_p2_overflow :
  exists (q : double) s0 (xs : list double) s v,
    p2_new (A := B64) q = Ret s0 /\ nan q = false /\ Forall (fun x => finite64 x = true) xs /\
    update_all p2_update s0 xs = Ret s /\ p2_evaluate s = Ret (s, v) /\ finite64 v = false.
Proof. exact p2_overflow_witness. Qed.
Print Assumptions C42_p2_overflow.

Example C42_example :
  exists s0, p2_new (A := B64) Bhalf = Ret s0 /\
  let xs := map Bz [5; 1; 4; 2; 3; 7]%Z in
  Forall (fun x => finite64 x = true) xs /\ (5 <= length xs)%nat /\
  (forall x y, In x xs -> In y xs -> rnd (B2R y - B2R x) < big).
Proof. exact p2_bracket_case. Qed.

(** C43. *)
Theorem C43_p2_positions_double :
  forall (q : double) s0 (os : list (p2_op B64)) s,
    p2_new (A := B64) q = Ret s0 -> p2_calls s0 os = Ret s ->
    length (p_pos s) = 5%nat /\ strictly_increasing (p_pos s) /\ nth 0 (p_pos s) (-1)%Z = 0%Z /\
    (forallb (fun o => negb (is_clear o)) os = true -> (5 <= n_updates os)%nat ->
       nth 4 (p_pos s) (-1)%Z = (Z.of_nat (n_updates os) - 1)%Z).
Proof. exact p2_positions_B64. Qed.
Print Assumptions C43_p2_positions_double.

Theorem C43_p2_positions_exact :
  forall (q : R) s0 (os : list (p2_op RA)) s,
    p2_new (A := RA) q = Ret s0 -> p2_calls s0 os = Ret s ->
    length (p_pos s) = 5%nat /\ strictly_increasing (p_pos s) /\ nth 0 (p_pos s) (-1)%Z = 0%Z /\
    (forallb (fun o => negb (is_clear o)) os = true -> (5 <= n_updates os)%nat ->
       nth 4 (p_pos s) (-1)%Z = (Z.of_nat (n_updates os) - 1)%Z).
Proof. exact p2_positions_RA. Qed.
Print Assumptions C43_p2_positions_exact.

(** Positions after a run with evaluate and clear in it. *)
Example C43_example :
  ok (let* s0 := p2_new (A := B64) Bhalf in
      p2_calls s0 (map (fun z => PUpdate (Bz z : num B64)) [1; 2; 3; 4; 5; 6; 7; 8; 9]%Z ++
                   [PEvaluate; PClear; PUpdate (Bz 3 : num B64)]))
     (fun s => match p_pos s with [0; 2; 4; 6; 8]%Z => true | _ => false end) = true.
Proof. vm_compute. reflexivity. Qed.

(** C44. *)
Theorem C44_p2_five :
  forall (q : double) s0 (xs : list double),
    p2_new (A := B64) q = Ret s0 -> nan q = false -> length xs = 5%nat ->
    Forall (fun x => nan x = false) xs ->
    exists s s' l, update_all p2_update s0 xs = Ret s /\ Permutation l xs /\ ascending l /\
      p2_evaluate s = Ret (s', nth (Z.to_nat (round_away (4 * B2R q))) l (B754_nan : double)).
Proof. exact p2_five. Qed.
Print Assumptions C44_p2_five.

Theorem C44_p2_small :
  forall (q : double) s0 (xs : list double),
    p2_new (A := B64) q = Ret s0 -> nan q = false -> (length xs <= 5)%nat ->
    Forall (fun x => nan x = false) xs ->
    exists s s' l,
      update_all p2_update s0 xs = Ret s /\
      Permutation l (xs ++ repeat (Bz 0) (5 - length xs)) /\ ascending l /\
      p2_evaluate s =
        Ret (s', nth (Z.to_nat (round_away (rnd (Rabs (INR (length xs) - 1) * B2R q)))) l (B754_nan : double)).
Proof. exact p2_small. Qed.
Print Assumptions C44_p2_small.

Theorem C44_p2_single :
  forall (q : double) s0 (x : double),
    p2_new (A := B64) q = Ret s0 -> nan q = false -> nan x = false -> 0 < X x ->
    exists s s' v, update_all p2_update s0 [x] = Ret s /\ p2_evaluate s = Ret (s', v) /\ X v = 0.
Proof. exact p2_single. Qed.
Print Assumptions C44_p2_single.

(** The third smallest of five; and 3 observations padded with zeros. *)
Example C44_example :
  ok (p2_stream Bhalf [5; 1; 4; 2; 3]%Z) (fun s => ok (p2_evaluate s) (fun '(_, v) => Beqb (v : double) (Bz 3))) = true /\
  ok (p2_stream Bhalf [5; 1; 4]%Z) (fun s => ok (p2_evaluate s) (fun '(_, v) => Beqb (v : double) (Bz 0))) = true.
Proof. split; vm_compute; reflexivity. Qed.

(** C45. *)
Theorem C45_p2_evaluate_observes :
  forall (q : double) s0 (xs : list double) s (os : list (p2_op B64)),
    p2_new (A := B64) q = Ret s0 -> nan q = false ->
    (5 <= length xs)%nat -> update_all p2_update s0 xs = Ret s ->
    forallb (fun o => negb (is_clear o)) os = true ->
    p2_calls s os = p2_calls s (filter (fun o => negb (is_evaluate o)) os) /\
    exists v, p2_evaluate s = Ret (s, v).
Proof. exact p2_observer. Qed.
Print Assumptions C45_p2_evaluate_observes.

Theorem C45_p2_early_evaluate_interferes :
  exists (q : double) s0 (xs : list double) (x : double) s1 s2 a b u v,
    p2_new (A := B64) q = Ret s0 /\ Forall (fun x => finite64 x = true) (x :: xs) /\ length xs = 4%nat /\
    p2_calls s0 (map PUpdate xs ++ [PUpdate x]) = Ret s1 /\
    p2_calls s0 (map PUpdate xs ++ [PEvaluate; PUpdate x]) = Ret s2 /\
    p2_evaluate s1 = Ret (a, u) /\ p2_evaluate s2 = Ret (b, v) /\ Beqb u v = false.
Proof. exact p2_evaluate_interferes. Qed.
Print Assumptions C45_p2_early_evaluate_interferes.

Example C45_example :
  ok (p2_stream Bhalf [5; 1; 4; 2; 3]%Z) (fun s =>
    ok (p2_calls s [PEvaluate; PUpdate (Bz 6 : num B64); PEvaluate]) (fun s' => Nat.eqb (p_history s') 6)) = true.
Proof. vm_compute. reflexivity. Qed.

(** C46. *)
Theorem C46_p2_constant :
  forall (q : double) s0 (c : double) (n : nat),
    p2_new (A := B64) q = Ret s0 -> nan q = false -> finite64 c = true ->
    (5 <= n)%nat -> (Z.of_nat n <= 2 ^ 31)%Z ->
    exists s v, update_all p2_update s0 (repeat c n) = Ret s /\ p2_evaluate s = Ret (s, v) /\
      finite64 v = true /\ B2R v = B2R c.
Proof. exact p2_constant. Qed.
Print Assumptions C46_p2_constant.

Example C46_example :
  ok (p2_stream Bq3 (repeat (2 ^ 1023)%Z 8)) (fun s =>
    ok (p2_evaluate s) (fun '(_, v) => Beqb (v : double) (Bz (2 ^ 1023)))) = true.
Proof. vm_compute. reflexivity. Qed.

(** C47. *)
Theorem C47_p2_lifetime :
  forall (q : double) s0 (xs : list double),
    p2_new (A := B64) q = Ret s0 ->
    ((Z.of_nat (length xs) <= 2 ^ 31)%Z -> Forall (fun x => nan x = false) (firstn 5 xs) ->
       exists s, update_all p2_update s0 xs = Ret s) /\
    ((2 ^ 31 < Z.of_nat (length xs))%Z -> Forall (fun x => nan x = false) (firstn 5 xs) ->
       update_all p2_update s0 xs = Undef IntOverflow) /\
    ((5 <= length xs)%nat -> ~ Forall (fun x => nan x = false) (firstn 5 xs) ->
       update_all p2_update s0 xs = Undef BadPrecondition).
Proof. exact p2_total_B64. Qed.
Print Assumptions C47_p2_lifetime.

(** A stream of each kind exists; NaN from the sixth on is harmless. *)
Example C47_example :
  (exists xs : list double, (2 ^ 31 < Z.of_nat (length xs))%Z /\ Forall (fun x => nan x = false) (firstn 5 xs)) /\
  ok (let* s0 := p2_new (A := B64) Bhalf in
      update_all p2_update s0 [Bz 1; Bz 2; Bz 3; Bz 4; Bz 5; Bnan]) (fun _ => true) = true /\
  match (let* s0 := p2_new (A := B64) Bhalf in
         update_all p2_update s0 [Bz 1; Bz 2; Bnan; Bz 4; Bz 5]) with Undef BadPrecondition => true | _ => false end = true.
Proof. exact p2_lifetime_case. Qed.

(** C48, for every arithmetic. *)
Theorem C48_wp2_first_window :
  forall (A : arith) (q : A) W s0 p0 xs s p,
    wp2_new q W = Ret s0 -> p2_new q = Ret p0 -> (length xs < W)%nat ->
    update_all p2_update p0 xs = Ret p -> update_all wp2_update s0 xs = Ret s ->
    match p2_evaluate p with
    | Ret (_, v) => exists s', wp2_evaluate s = Ret (s', v)
    | Throw e => wp2_evaluate s = Throw e
    | Undef u => wp2_evaluate s = Undef u
    end.
Proof. exact @wp2_eval_first_window. Qed.
Print Assumptions C48_wp2_first_window.

(** The two updates succeed and fail together on these streams. *)
Theorem C48_wp2_first_window_updates :
  forall (A : arith) (q : A) W s0 p0 xs,
    wp2_new q W = Ret s0 -> p2_new q = Ret p0 -> W = 0%nat \/ (length xs <= W)%nat ->
    update_all wp2_update s0 xs =
    let* p := update_all p2_update p0 xs in Ret (WP2 p (of_Z 0) W (length xs)).
Proof. exact @wp2_first_window. Qed.
Print Assumptions C48_wp2_first_window_updates.

Theorem C48_wp2_zero_window :
  forall (A : arith) (q : A) s0 xs s,
    wp2_new q 0 = Ret s0 -> update_all wp2_update s0 xs = Ret s -> wp2_evaluate s = Undef DivByZero.
Proof. exact @wp2_zero_window. Qed.
Print Assumptions C48_wp2_zero_window.

Theorem C48_iqr_zero_window :
  forall (A : arith) (lo hi : A) s0 xs s,
    iqr_new_range lo hi 0 = Ret s0 -> update_all iqr_update s0 xs = Ret s -> iqr_evaluate s = Undef DivByZero.
Proof. exact @iqr_zero_window. Qed.
Print Assumptions C48_iqr_zero_window.

Example C48_example :
  ok (wp2_stream Bhalf 10 [1; 2; 3; 4; 5; 6]%Z) (fun s => ok (wp2_evaluate s) (fun '(_, v) => Beqb (v : double) (Bz 3))) = true /\
  ok (p2_stream Bhalf [1; 2; 3; 4; 5; 6]%Z) (fun s => ok (p2_evaluate s) (fun '(_, v) => Beqb (v : double) (Bz 3))) = true /\
  ok (wp2_stream Bhalf 0 [1; 2; 3; 4; 5; 6]%Z) (fun _ => true) = true /\
  ok (iqr_stream 0 [1; 2; 3; 4; 5; 6]%Z) (fun _ => true) = true.
Proof. repeat split; vm_compute; reflexivity. Qed.

(** C49. *)
Theorem C49_wp2_weights :
  forall (q : R) W s0 (xs : list R) s p v,
    wp2_new (A := RA) q W = Ret s0 -> (1 <= W)%nat -> (W <= length xs)%nat ->
    update_all wp2_update s0 xs = Ret s -> p2_evaluate (A := RA) (w_p2 s) = Ret (p, v) ->
    exists s' w1 w2 r, wp2_evaluate s = Ret (s', r) /\
      r = w1 * w_previous s + w2 * v /\ w1 + w2 = 1 /\ w2 = INR (length xs mod W) + 1 /\
      w1 <= 0 /\ 1 <= w2 <= INR W.
Proof. exact wp2_extrapolates. Qed.
Print Assumptions C49_wp2_weights.

(** The same expression in every arithmetic, doubles included. *)
Theorem C49_wp2_formula :
  forall (A : arith) (q : A) W s0 xs s p v,
    wp2_new q W = Ret s0 -> (1 <= W)%nat -> (W <= length xs)%nat ->
    update_all wp2_update s0 xs = Ret s -> p2_evaluate (w_p2 s) = Ret (p, v) ->
    exists s', wp2_evaluate s = Ret (s',
      (of_Z 1 -. of_nat (length xs mod W + 1)) *. w_previous s +. of_nat (length xs mod W + 1) *. v)%num.
Proof. exact @wp2_mix. Qed.
Print Assumptions C49_wp2_formula.

(** Eight observations and a window of 6: both estimates exist. *)
Example C49_example :
  ok (wp2_stream Bhalf 6 [1; 2; 3; 4; 5; 6; 7; 8]%Z) (fun s =>
    Nat.leb 6 8 && ok (p2_evaluate (w_p2 s)) (fun _ => true) && ok (wp2_evaluate s) (fun _ => true))%bool = true.
Proof. vm_compute. reflexivity. Qed.

(** Data in [1, 10], result -8. *)
Theorem C49_wp2_out_of_range :
  exists (q : double) W s0 (xs : list double) s s' v,
    wp2_new (A := B64) q W = Ret s0 /\ nan q = false /\
    Forall (fun x => Bleb (Bz 1) x = true /\ Bleb x (Bz 10) = true) xs /\
    update_all wp2_update s0 xs = Ret s /\ wp2_evaluate s = Ret (s', v) /\ Beqb v (Bz (-8)) = true.
Proof. exact wp2_out_of_range. Qed.
Print Assumptions C49_wp2_out_of_range.

(** C50. *)
Theorem C50_wp2_restart :
  forall (A : arith) (q : A) W s0 xs s x s',
    wp2_new q W = Ret s0 -> (1 <= W)%nat ->
    update_all wp2_update s0 xs = Ret s -> wp2_update s x = Ret s' ->
    exists p, p2_update (w_p2 s) x = Ret p /\
    if Nat.eqb ((length xs + 1) mod (W + 1)) 0
    then exists p', p2_evaluate p = Ret (p', w_previous s') /\ w_p2 s' = p2_clear p' /\
           p_pos (w_p2 s') = p_pos p /\ p_heights (w_p2 s') = p_heights p' /\ p_history (w_p2 s') = 0%nat
    else w_p2 s' = p /\ w_previous s' = w_previous s.
Proof. exact @wp2_restart. Qed.
Print Assumptions C50_wp2_restart.

Theorem C50_wp2_inner_count :
  forall (A : arith) (q : A) W s0 xs s,
    wp2_new q W = Ret s0 -> (1 <= W)%nat -> update_all wp2_update s0 xs = Ret s ->
    p_history (w_p2 s) = (length xs mod (W + 1))%nat.
Proof. exact @wp2_inner_count. Qed.
Print Assumptions C50_wp2_inner_count.

(** Restart at the eighth observation; positions do not go back to 0..4. *)
Example C50_example :
  ok (wp2_stream Bhalf 7 [1; 2; 3; 4; 5; 6; 7; 8]%Z) (fun s =>
    Nat.eqb (p_history (w_p2 s)) 0 &&
    match p_pos (w_p2 s) with [0; _; _; _; 7]%Z => true | _ => false end)%bool = true.
Proof. vm_compute. reflexivity. Qed.

(** C51. *)
Theorem C51_iqr_difference :
  forall (A : arith) (lo hi : A) W s0 l0 h0 xs s,
    iqr_new_range lo hi W = Ret s0 -> wp2_new lo W = Ret l0 -> wp2_new hi W = Ret h0 ->
    update_all iqr_update s0 xs = Ret s ->
    exists l h, update_all wp2_update l0 xs = Ret l /\ update_all wp2_update h0 xs = Ret h /\
      forall l' vl h' vh, wp2_evaluate l = Ret (l', vl) -> wp2_evaluate h = Ret (h', vh) ->
        exists s', iqr_evaluate s = Ret (s', vh -. vl)%num /\ i_history s' = length xs.
Proof. exact @iqr_difference. Qed.
Print Assumptions C51_iqr_difference.

Theorem C51_iqr_constructor :
  forall (A : arith) (lo hi : A) W,
    iqr_new_range lo hi W = Throw InvalidArgument <->
    p2_new lo = Throw InvalidArgument \/ p2_new hi = Throw InvalidArgument.
Proof. exact @iqr_new_throws. Qed.
Print Assumptions C51_iqr_constructor.

Theorem C51_iqr_default :
  forall W, exists s, iqr_new (A := B64) W = Ret s /\
    B2R (p_quantile (w_p2 (i_low s))) = 1 / 4 /\ B2R (p_quantile (w_p2 (i_high s))) = 3 / 4 /\
    w_wsize (i_low s) = W /\ w_wsize (i_high s) = W.
Proof. exact iqr_default. Qed.
Print Assumptions C51_iqr_default.

(** Still inside the first window. *)
Theorem C51_iqr_negative :
  exists (W : nat) s0 (xs : list double) s s' v,
    (length xs < W)%nat /\ iqr_new (A := B64) W = Ret s0 /\ update_all iqr_update s0 xs = Ret s /\
    iqr_evaluate s = Ret (s', v) /\ Bltb v (Bz 0) = true.
Proof. exact iqr_negative_stream. Qed.
Print Assumptions C51_iqr_negative.

Theorem C51_iqr_negative_constant :
  exists (W : nat) s0 s s' v,
    iqr_new (A := B64) W = Ret s0 /\ update_all iqr_update s0 [Bz 1; Bz 1; Bz 1] = Ret s /\
    iqr_evaluate s = Ret (s', v) /\ Bltb v (Bz 0) = true.
Proof. exact iqr_negative_constant. Qed.
Print Assumptions C51_iqr_negative_constant.

Example C51_example :
  ok (iqr_stream 20 [1; 2; 3; 4; 5; 6; 7; 8; 9; 10]%Z) (fun s =>
    ok (iqr_evaluate s) (fun '(_, v) => Beqb (v : double) (Bz 4))) = true.
Proof. vm_compute. reflexivity. Qed.

(** C64. [five] is the sorted list of the first five observations. *)
Theorem C64_p2_published :
  forall (q : R) s0 (xs five : list R),
    p2_new (A := RA) q = Ret s0 -> (5 <= length xs)%nat -> (Z.of_nat (length xs) <= 2 ^ 31)%Z ->
    Permutation five (firstn 5 xs) -> StronglySorted Rle five ->
    exists s, update_all p2_update s0 xs = Ret s /\
      (let ms := jc_run q 5 (jc_start five) (skipn 5 xs) in
       p_pos s = map (fun i => fst (ms i)) [0; 1; 2; 3; 4]%nat /\
       p_heights s = map (fun i => snd (ms i)) [0; 1; 2; 3; 4]%nat /\
       ((5 < length xs)%nat -> p2_evaluate s = Ret (s, snd (ms 2%nat)))).
Proof. exact p2_published. Qed.
Print Assumptions C64_p2_published.

(** A stream that meets the hypotheses, and the run printed in the paper (20
    observations, median): markers 0.02, 0.49, 4.44, 17.20, 38.62 at positions
    1, 6, 10, 16, 20 (here counted from 0). *)
Example C64_example :
  (exists s0, p2_new (A := RA) (1 / 2) = Ret s0) /\
  Permutation [1; 2; 3; 4; 5] (firstn 5 [3; 1; 5; 2; 4; 9; 7]) /\ StronglySorted Rle [1; 2; 3; 4; 5].
Proof. exact p2_published_case. Qed.

Example C64_paper_run :
  ok (let* s0 := p2_new (A := B64) Bhalf in
      update_all p2_update s0
        (map (fun z => lit (A := B64) z 100)
           [2; 15; 74; 339; 83; 2237; 1015; 1543; 3862; 1592; 3460; 1028; 147; 40; 5; 1139; 27; 42; 9; 1137]%Z))
     (fun s => match p_pos s with [0; 5; 9; 15; 19]%Z => true | _ => false end &&
        match map (fun h => Bround_int (Bmul h (Bz 100))) (p_heights s) with
        | [Some 2; Some 49; Some 444; Some 1720; Some 3862]%Z => true | _ => false end)%bool = true.
Proof. vm_compute. reflexivity. Qed.
