(** C58: the entropy when the histogram is full, at any point of the stream. *)

From Coq Require Import List Sorting.Sorted Arith Bool Lia ZArith Reals Lra.
From Flocq Require Import Core.Core IEEE754.BinarySingleNaN.
From Verif Require Import Outcome Arith ListFacts Utils IBin Histogram Mean Entropy Spec HistSpec FloatSpec FloatFacts
  UtilsFacts UtilsMono HistStreams HistQuant EntropySpec HistFacts HistOrder HistWitness EntropyFacts EntropyDrift.
Import ListNotations.
Local Open Scope nat_scope.

Section Full.
  Context {A : arith} (log2 : A -> A).

  (** Every recorded index still names a bin. *)
  Lemma indices_reach W N (e0 e : entropy A) xs : entropy_new W N = Ret e0 ->
    update_all (entropy_update log2) e0 xs = Ret e -> 1 <= W ->
    exists w, e_window e = Some w /\ Forall (fun i => i < hist_size (e_hist e)) w /\
      list_sum (map b_count (h_bins (e_hist e))) <= length xs.
  Proof.
    intros E0 E HW. revert e E. induction xs as [|x xs IH] using rev_ind; intros e E.
    - injection E as <-. unfold entropy_new in E0. apply bind_Ret in E0 as (B & _ & E0). injection E0 as <-.
      cbn. unfold new_window. destruct (Nat.ltb_spec 0 W); [|lia]. exists []. split; auto.
    - rewrite update_all_snoc in E. apply bind_Ret in E as (e1 & E1 & E).
      destruct (IH e1 E1) as (w & Hw & F & S). clear IH.
      destruct (entropy_reach log2 W N e0 e1 xs E0 E1 HW) as (Hn & Hc & Hws & Hh & _).
      unfold entropy_update in E. apply bind_Ret in E as (i & _ & E). rewrite Hw in E.
      apply bind_Ret in E as ((w2, ent1) & E2 & E). apply bind_Ret in E as (h' & Eu & E).
      apply bind_Ret in E as (ent2 & Ei & E). injection E as <-. cbn [e_hist e_window].
      destruct (size_grows _ _ _ _ _ _ Hc Eu) as [G _].
      assert (Hi : i < hist_size h').
      { unfold entropy_increment in Ei. apply bind_Ret in Ei as (b & Eb & _). unfold hist_getBin in Eb.
        destruct (Nat.ltb (length (h_bins h')) i); [discriminate Eb|]. unfold at_ in Eb. apply nth_error_Some. intros EN. rewrite EN in Eb. discriminate. }
      assert (F2 : Forall (fun j => j < hist_size h') (w ++ [i])).
      { apply Forall_app. split; [|auto]. eapply Forall_impl; [|exact F]. unfold hist_size in * . intros; lia. }
      exists w2. split; auto. split.
      + destruct (Nat.ltb (e_wsize e1) (length (w ++ [i]))).
        * destruct (w ++ [i]) as [|f w']; [discriminate|]. apply bind_Ret in E2 as (d & _ & E2). injection E2 as <- _.
          now inversion_clear F2.
        * injection E2 as <- _. exact F2.
      + destruct (run_basic _ _ _ _ Hc) as ((hw & Lv & _) & _).
        destruct (update_inv _ _ _ _ _ _ Lv Eu) as (j & bins & w' & f & _ & _ & Eb & U & _).
        rewrite Eb, app_length. cbn [length]. pose proof (updating_sum _ _ _ _ _ _ _ _ _ _ U) as [U1 U2].
        destruct (le_lt_dec W (h_total (e_hist e1))); [specialize (U2 l)|specialize (U1 l)]; lia.
  Qed.

  (** The update does not return. *)
  Lemma full_stuck W N (e0 e e' : entropy A) xs x : entropy_new W N = Ret e0 ->
    update_all (entropy_update log2) e0 xs = Ret e -> 1 <= W ->
    hist_size (e_hist e) = h_numBins (e_hist e) -> hist_binSearch (e_hist e) x = Ret (hist_size (e_hist e)) ->
    entropy_update log2 e x <> Ret e'.
  Proof.
    intros E0 E HW Sz Es Eq.
    assert (E2 : update_all (entropy_update log2) e0 (xs ++ [x]) = Ret e').
    { rewrite update_all_snoc, E. exact Eq. }
    destruct (entropy_reach log2 W N e0 e xs E0 E HW) as (Hn & Hc & _).
    destruct (entropy_reach log2 W N e0 e' _ E0 E2 HW) as (Hn' & Hc' & _).
    unfold entropy_update in Eq. rewrite Es in Eq. cbn [bind] in Eq. destruct (e_window e); [|discriminate].
    apply bind_Ret in Eq as ((w2, ent1) & _ & Eq). apply bind_Ret in Eq as (h' & Eu & Eq).
    apply bind_Ret in Eq as (ent2 & Ei & Eq). injection Eq as <-. cbn [e_hist] in * .
    destruct (size_grows _ _ _ _ _ _ Hc Eu) as [G _]. destruct (run_basic _ _ _ _ Hc') as (_ & _ & Lb' & _).
    unfold hist_size in * . replace (length (h_bins (e_hist e))) with (length (h_bins h')) in Ei by lia.
    rewrite increment_past in Ei. discriminate.
  Qed.

  (** It is undefined when the contribution of the expiring item can be computed. *)
  Lemma full_undef W N (e0 e : entropy A) xs x :
    (forall h ent i b, nth_error (h_bins h) i = Some b -> 1 <= h_total h <= length xs -> b_count b <= length xs ->
       exists r, entropy_decrement log2 h ent i = Ret r) ->
    entropy_new W N = Ret e0 -> update_all (entropy_update log2) e0 xs = Ret e -> 1 <= W ->
    hist_size (e_hist e) = h_numBins (e_hist e) -> hist_binSearch (e_hist e) x = Ret (hist_size (e_hist e)) ->
    entropy_update log2 e x = Undef OutOfBounds.
  Proof.
    intros Dec E0 E HW Sz Es. pose proof (fun e' => full_stuck W N e0 e e' xs x E0 E HW Sz Es) as NR.
    destruct (indices_reach W N e0 e xs E0 E HW) as (w & Hw & F & S).
    destruct (entropy_reach log2 W N e0 e xs E0 E HW) as (Hn & Hc & Hws & _ & w0 & Hw0 & Lw).
    rewrite Hw in Hw0. injection Hw0 as <-.
    destruct (run_basic _ _ _ _ Hc) as ((hw & Lv & _) & T & _).
    assert (T' : h_total (e_hist e) = Nat.min (length xs) W).
    { rewrite T. f_equal. clear. induction xs as [|y ys IH]; simpl; auto. }
    unfold entropy_update in NR |- * . rewrite Es, Hw in NR |- * . cbn [bind] in NR |- * .
    assert (G : exists w2 ent1, (if Nat.ltb (e_wsize e) (length (w ++ [hist_size (e_hist e)])) then
             match w ++ [hist_size (e_hist e)] with
             | [] => Undef OutOfBounds
             | f :: w' => let* ent' := entropy_decrement log2 (e_hist e) (e_value e) f in Ret (w', ent')
             end
           else Ret (w ++ [hist_size (e_hist e)], e_value e)) = Ret (w2, ent1)).
    { destruct (Nat.ltb_spec (e_wsize e) (length (w ++ [hist_size (e_hist e)]))) as [C|C]; [|eauto].
      rewrite app_length in C. cbn [length] in C. destruct w as [|f w]; [cbn [length] in C; lia|].
      cbn [app length] in * . inversion_clear F as [|? ? Hf Fw].
      destruct (nth_error (h_bins (e_hist e)) f) as [b|] eqn:Eb; [|apply nth_error_None in Eb; unfold hist_size in Hf; lia].
      destruct (Dec (e_hist e) (e_value e) f b Eb) as (r & ->); [lia| |cbn [bind]; eauto].
      apply Nat.le_trans with (2 := S). apply nth_error_In in Eb. clear -Eb.
      induction (h_bins (e_hist e)) as [|c l IH]; [destruct Eb|]. simpl. destruct Eb as [->|I]; [lia|specialize (IH I); lia]. }
    destruct G as (w2 & ent1 & G). rewrite G in NR |- * . cbn [bind] in NR |- * .
    destruct (update_fails (e_hist e) x _ W hw Lv) as [(h' & Eu)|Eu]; rewrite Eu in NR |- *; cbn [bind] in NR |- *; auto.
    destruct (size_grows _ _ _ _ _ _ Hc Eu) as [Gr _].
    assert (E' : hist_calls (hist_new (h_numBins (e_hist e0)) W true) (map HUpdate xs ++ [HUpdate x]) = Ret h').
    { rewrite hist_calls_snoc, Hc. exact Eu. }
    destruct (run_basic _ _ _ _ E') as (_ & _ & Lb' & _). unfold hist_size in * .
    replace (length (h_bins (e_hist e))) with (length (h_bins h')) by lia. now rewrite increment_past.
  Qed.
End Full.

Lemma decrement_ok_RA (h : hist RA) ent i b : nth_error (h_bins h) i = Some b -> 1 <= h_total h ->
  exists r, entropy_decrement log2R h ent i = Ret r.
Proof.
  intros Hb T. unfold entropy_decrement, hist_getBin, at_.
  assert (i < length (h_bins h)) by (apply nth_error_Some; congruence).
  destruct (Nat.ltb_spec (length (h_bins h)) i); [lia|]. rewrite Hb. cbn [bind]. rewrite !of_nat_RA.
  assert (Pn : (1 <= INR (h_total h))%R) by (replace 1%R with (INR 1) by reflexivity; now apply le_INR).
  assert (M : (0 <= max_ (A := RA) 0%R (INR (b_count b) - 1)%R)%R).
  { unfold max_. destruct (ltb _ _) eqn:E; [|lra]. apply Rltb_true in E. cbn in E |- * . lra. }
  cbn [sub add mul div of_Z RA num] in M |- * . set (m := max_ (A := RA) _ _) in * . set (n := INR (h_total h)) in * .
  assert (P : (0 <= / (n - 1 + 1))%R) by (left; apply Rinv_0_lt_compat; lra).
  rewrite !xlogx_RA by (unfold Rdiv; apply Rmult_le_pos; lra).
  cbn [bind]. eauto.
Qed.

Lemma full_undef_RA W N (e0 e : entropy RA) xs x : entropy_new W N = Ret e0 ->
  update_all (entropy_update log2R) e0 xs = Ret e -> 1 <= W ->
  hist_size (e_hist e) = h_numBins (e_hist e) -> hist_binSearch (e_hist e) x = Ret (hist_size (e_hist e)) ->
  entropy_update log2R e x = Undef OutOfBounds.
Proof. apply (full_undef (A := RA) log2R). intros h ent i b Hb T _. eapply decrement_ok_RA; eauto. lia. Qed.

Lemma of_nat_cases c : (Z.of_nat c < 2 ^ 64)%Z ->
  finite64 (of_nat (A := B64) c) = true /\ (0 <= B2R (of_nat (A := B64) c) <= bpow radix2 64)%R.
Proof.
  intros Bc. destruct c as [|c].
  - destruct (Bz_exact 0) as [E0 F0]; [lia|]. change (of_nat (A := B64) 0) with (Bz 0). rewrite E0.
    split; auto. split; [lra|]. apply bpow_ge_0.
  - destruct (of_nat_ok (S c)) as [F P]; [lia|auto|]. split; auto. lra.
Qed.

Lemma max_ok (dc : double) : finite64 dc = true -> (0 <= B2R dc <= bpow radix2 64)%R ->
  finite64 (max_ (A := B64) (Bz 0) (Bsub dc (Bz 1))) = true /\
  (0 <= B2R (max_ (A := B64) (Bz 0) (Bsub dc (Bz 1))) <= bpow radix2 64)%R.
Proof.
  intros Fc Pc. destruct (Bz_exact 0) as [E0 F0]; [lia|]. destruct (Bz_exact 1) as [E1 F1]; [lia|].
  destruct (X_sub dc (Bz 1) Fc F1) as [Es Ns]. rewrite E1 in Es. destruct (Bz_pow 64) as [E6 F6]; [lia|].
  assert (L : (-1 <= X (Bsub dc (Bz 1)) <= bpow radix2 64)%R).
  { destruct (Bz_exact (-1)) as [Em Fm]; [lia|].
    rewrite Es, <- E6, <- (R64_B2R (Bz (2 ^ 64))), E6.
    replace (-1)%R with (B2R (Bz (-1))) by (rewrite Em; reflexivity). rewrite <- (R64_B2R (Bz (-1))), Em.
    split; apply R64_le; simpl IZR in *; lra. }
  assert (B1 : (1 <= bpow radix2 64)%R) by (change 1%R with (bpow radix2 0); apply bpow_le; lia).
  assert (F : finite64 (Bsub dc (Bz 1)) = true).
  { apply fin_X; auto. apply Rabs_lt. assert (bpow radix2 64 < big)%R by (apply bpow_lt; lia). lra. }
  unfold max_. destruct (ltb _ _) eqn:C; [|rewrite E0; split; auto; lra].
  apply X_ltb in C; auto using fin_nan. rewrite (X_fin _ F0), E0 in C. rewrite (X_fin _ F) in * . split; auto. lra.
Qed.

Lemma decrement_ok_B64 (log2 : double -> double) (h : hist B64) ent i b : nth_error (h_bins h) i = Some b ->
  1 <= h_total h -> (Z.of_nat (h_total h) < 2 ^ 64)%Z -> (Z.of_nat (b_count b) < 2 ^ 64)%Z ->
  exists r, entropy_decrement (A := B64) log2 h ent i = Ret r.
Proof.
  intros Hb T Bn Bc. unfold entropy_decrement, hist_getBin, at_.
  assert (i < length (h_bins h)) by (apply nth_error_Some; congruence).
  destruct (Nat.ltb_spec (length (h_bins h)) i); [lia|]. rewrite Hb. cbn [bind].
  destruct (of_nat_ok (h_total h) T Bn) as [Fn Pn]. destruct (of_nat_cases (b_count b) Bc) as [Fc Pc].
  destruct (Bz_exact 1) as [E1 F1]; [lia|]. destruct (Bz_exact 0) as [E0 F0]; [lia|].
  destruct (max_ok _ Fc Pc) as [Fm Pm].
  change (of_Z (a := B64) 1) with (Bz 1). change (of_Z (a := B64) 0) with (Bz 0).
  change (sub (a := B64)) with Bsub. change (add (a := B64)) with Badd. change (div (a := B64)) with Bquot.
  set (m := max_ _ _) in * . set (n := of_nat (h_total h)) in * .
  destruct (Bz_pow 64) as [E6 F6]; [lia|]. destruct (Bz_pow 65) as [E65 F65]; [lia|].
  assert (Ln : finite64 (Bsub n (Bz 1)) = true /\ (0 <= B2R (Bsub n (Bz 1)) <= bpow radix2 64)%R).
  { destruct (X_sub n (Bz 1) Fn F1) as [Es Ns]. rewrite E1 in Es.
    assert (L : (0 <= X (Bsub n (Bz 1)) <= bpow radix2 64)%R).
    { rewrite Es, <- E6, <- (R64_B2R (Bz (2 ^ 64))), E6. split; [rewrite <- R64_0|]; apply R64_le; lra. }
    assert (F : finite64 (Bsub n (Bz 1)) = true).
    { apply fin_X; auto. rewrite Rabs_pos_eq by lra. apply Rle_lt_trans with (bpow radix2 64); [lra|apply bpow_lt; lia]. }
    rewrite (X_fin _ F) in L. auto. }
  destruct Ln as [Fs Ps].
  assert (Plus : forall y : double, finite64 y = true -> (0 <= B2R y <= bpow radix2 64)%R ->
    finite64 (Badd y (Bz 1)) = true /\ (1 <= B2R (Badd y (Bz 1)))%R).
  { intros y Fy Py. destruct (X_add y (Bz 1) Fy F1) as [Ea Na]. rewrite E1 in Ea.
    assert (B1 : (1 <= bpow radix2 64)%R) by (change 1%R with (bpow radix2 0); apply bpow_le; lia).
    assert (B2 : bpow radix2 65 = (2 * bpow radix2 64)%R) by (change 65%Z with (1 + 64)%Z; now rewrite bpow_plus).
    assert (L : (1 <= X (Badd y (Bz 1)) <= bpow radix2 65)%R).
    { rewrite Ea, <- E65, <- (R64_B2R (Bz (2 ^ 65))), E65. split; [|apply R64_le; lra].
      replace 1%R with (R64 (B2R (Bz 1))) at 1 by (rewrite R64_B2R; exact E1). apply R64_le. rewrite E1. lra. }
    assert (F : finite64 (Badd y (Bz 1)) = true).
    { apply fin_X; auto. rewrite Rabs_pos_eq by lra. apply Rle_lt_trans with (bpow radix2 65); [lra|apply bpow_lt; lia]. }
    rewrite (X_fin _ F) in L. split; auto. lra. }
  destruct (Plus _ Fs Ps) as [Fn1 Pn1]. destruct (Plus _ Fm Pm) as [Fm1 Pm1].
  destruct (xlogx_ok log2 (Bquot (Badd m (Bz 1)) (Badd (Bsub n (Bz 1)) (Bz 1)))) as (r1 & ->).
  { apply quot_nonneg; auto. lra. }
  cbn [bind].
  destruct (xlogx_ok log2 (Bquot m (Badd (Bsub n (Bz 1)) (Bz 1)))) as (r2 & ->).
  { apply quot_nonneg; auto. lra. }
  cbn [bind]. eauto.
Qed.

Lemma full_undef_B64 (log2 : double -> double) W N (e0 e : entropy B64) xs x : (Z.of_nat (length xs) < 2 ^ 64)%Z ->
  entropy_new W N = Ret e0 -> update_all (entropy_update (A := B64) log2) e0 xs = Ret e -> 1 <= W ->
  hist_size (e_hist e) = h_numBins (e_hist e) -> hist_binSearch (e_hist e) x = Ret (hist_size (e_hist e)) ->
  entropy_update (A := B64) log2 e x = Undef OutOfBounds.
Proof.
  intros L. apply (full_undef (A := B64) log2). intros h ent i b Hb T C.
  assert (L1 : (Z.of_nat (h_total h) < 2 ^ 64)%Z) by (apply Z.le_lt_trans with (2 := L); apply inj_le; apply T).
  assert (L2 : (Z.of_nat (b_count b) < 2 ^ 64)%Z) by (apply Z.le_lt_trans with (2 := L); apply inj_le; apply C).
  eapply decrement_ok_B64; eauto. apply T.
Qed.

Lemma run_out_RA W (xs : list R) x : 1 <= length xs <= W ->
  StronglySorted (fun a b => definitelyLessThan (A := RA) a b default_eps = true) (xs ++ [x]) ->
  exists e0 e, entropy_new (A := RA) W (length xs) = Ret e0 /\ update_all (entropy_update log2R) e0 xs = Ret e /\
    entropy_update log2R e x = Undef OutOfBounds.
Proof.
  intros L S. destruct (run_out log2R ordered_RA W xs x 0%R) as (e & E & Sz & Es); auto.
  - intros n c v Hn Hc. destruct c as [|c]; [lia|]. rewrite ent_value_RA by lia. eauto.
  - apply Forall_forall. intros. exact I.
  - eexists _, e. split; [now apply new_bins|]. split; [exact E|].
    eapply (full_undef_RA W (length xs)); [now apply new_bins|exact E|lia|exact Sz|exact Es].
Qed.

Lemma run_out_B64 (log2 : double -> double) W (xs : list double) x : 1 <= length xs <= W -> (Z.of_nat (length xs) < 2 ^ 64)%Z ->
  Forall (fun y => finite64 y = true) (xs ++ [x]) ->
  StronglySorted (fun a b => definitelyLessThan (A := B64) a b default_eps = true) (xs ++ [x]) ->
  exists e0 e, entropy_new (A := B64) W (length xs) = Ret e0 /\ update_all (entropy_update (A := B64) log2) e0 xs = Ret e /\
    entropy_update (A := B64) log2 e x = Undef OutOfBounds.
Proof.
  intros L Z F S. destruct (run_out (A := B64) log2 ordered_B64 W xs x (of_Z 0%Z)) as (e & E & Sz & Es); auto.
  - intros n c v Hn Hc. apply ent_value_B64; [lia..| |].
    + apply Z.le_lt_trans with (2 := Z). apply inj_le. apply Hn.
    + apply Z.le_lt_trans with (2 := Z). apply inj_le. apply Nat.le_trans with n; [apply Hc|apply Hn].
  - eexists _, e. split; [now apply new_bins|]. split; [exact E|].
    eapply (full_undef_B64 log2 W (length xs)); [exact Z|now apply new_bins|exact E|lia|exact Sz|exact Es].
Qed.
