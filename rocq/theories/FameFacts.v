(** Proofs about WindowedFAME and StreamingMAD. *)

From Coq Require Import List Reals ZArith Lra Lia Bool Arith.
From Flocq Require Import Core.Core IEEE754.BinarySingleNaN.
From Verif Require Import Outcome Arith Fame FameSpec Spec FloatSpec ListFacts FloatFacts UtilsFacts MeanFacts.
Import ListNotations.
Open Scope R_scope.

(** ** Runs *)

Lemma fame_run_snoc {A : arith} (s : fame A) xs x :
  fame_run s (xs ++ [x]) = fame_update (fame_run s xs) x.
Proof. unfold fame_run. now rewrite fold_left_app. Qed.

Lemma fame_history {A : arith} (s : fame A) xs :
  f_history (fame_run s xs) = (f_history s + length xs)%nat.
Proof.
  induction xs as [|x xs IH] using rev_ind; [simpl; lia|].
  rewrite fame_run_snoc, app_length. simpl. rewrite IH. lia.
Qed.

Lemma fame_eps {A : arith} (s : fame A) xs : f_epsilon (fame_run s xs) = f_epsilon s.
Proof. induction xs as [|x xs IH] using rev_ind; auto. now rewrite fame_run_snoc. Qed.

(** ** Irreflexivity of < in both arithmetics *)
Lemma Rltb_irrefl x : Rltb x x = false.
Proof. apply Rltb_false; lra. Qed.
Lemma Bltb_irrefl (x : double) : Bltb x x = false.
Proof.
  destruct (nan x) eqn:N; [apply nan_ltb_l; auto|]. apply X_ltb_false; auto; lra.
Qed.

Section Irr.
  Context {A : arith} (irr : forall x : A, ltb x x = false).

  Lemma fame_first (s : fame A) x : f_history s = 0%nat -> f_median (fame_update s x) = x.
  Proof. intros H. unfold fame_update. rewrite H. simpl. now rewrite irr. Qed.

  Lemma fame_same (s : fame A) x : f_median s = x -> f_median (fame_update s x) = x.
  Proof.
    intros H. unfold fame_update. simpl. rewrite H.
    destruct (Nat.eqb (f_history s) 0); now rewrite irr.
  Qed.

  Lemma fame_constant (s : fame A) c n : f_history s = 0%nat ->
    f_median (fame_run s (repeat c (S n))) = c.
  Proof.
    intros H. induction n.
    - simpl. apply fame_first; auto.
    - change (repeat c (S (S n))) with (c :: repeat c (S n)). rewrite repeat_cons.
      rewrite fame_run_snoc. apply fame_same; auto.
  Qed.
End Irr.

(** ** Construction *)
Lemma fame_new_B64 (step eps : double) :
  (fame_new (A := B64) step eps = Throw InvalidArgument <-> nan eps = false /\ (X eps < 0 \/ 1 <= X eps)) /\
  (forall s, fame_new (A := B64) step eps = Ret s ->
     fame_evaluate s = B754_zero false /\ f_step s = step /\ f_epsilon s = eps /\ f_history s = 0%nat).
Proof.
  unfold fame_new. cbn [ltb leb of_Z B64].
  destruct (Bz_exact 0) as [E0 F0]; [lia|]. destruct (Bz_exact 1) as [E1 F1]; [lia|].
  split.
  - destruct (nan eps) eqn:N.
    + rewrite nan_ltb_l, nan_leb_r by auto. simpl. split; [discriminate|intros [? _]; discriminate].
    + pose proof (X_ltb eps (Bz 0) N (fin_nan _ F0)) as L. pose proof (X_leb (Bz 1) eps (fin_nan _ F1) N) as G.
      rewrite (X_fin _ F0), E0 in L. rewrite (X_fin _ F1), E1 in G.
      change (num B64) with double in * .
      destruct (Bltb eps (Bz 0)); cbn [orb]; [split; auto; intros _; split; auto; left; apply L; auto|].
      destruct (Bleb (Bz 1) eps); cbn [orb]; [split; auto; intros _; split; auto; right; apply G; auto|].
      split; [discriminate|]. intros [_ [H|H]]; [apply L in H|apply G in H]; discriminate.
  - intros s. destruct (_ || _); [discriminate|]. intros E. injection E as <-. simpl. auto.
Qed.

(** ** Exact arithmetic *)

Lemma fame_move_RA (s : fame RA) (x : R) : f_history s <> 0%nat ->
  f_median (fame_update s x) = f_median s + sgn (x - f_median s) * f_step s /\
  f_step (fame_update s x) =
    (if Rlt_dec (Rabs (x - f_median (fame_update s x))) (f_step s) then f_step s / 2 else f_step s)
    * (1 + f_epsilon s).
Proof.
  intros H. unfold fame_update. apply Nat.eqb_neq in H. rewrite H. cbn.
  assert (E : (if Rltb x (f_median s) then f_median s - f_step s
               else if Rltb (f_median s) x then f_median s + f_step s else f_median s)
              = f_median s + sgn (x - f_median s) * f_step s).
  { unfold sgn, Rltb.
    destruct (Rlt_dec x (f_median s)), (Rlt_dec (x - f_median s) 0); try lra.
    destruct (Rlt_dec (f_median s) x), (Rlt_dec 0 (x - f_median s)); try lra. }
  split; [exact E|]. rewrite E. unfold Rltb.
  destruct (Rlt_dec (Rabs (x - (f_median s + sgn (x - f_median s) * f_step s))) (f_step s)); auto.
Qed.

Lemma max_RA (a b : R) : max_ (A := RA) a b = Rmax a b.
Proof.
  unfold max_. cbn. unfold Rltb. destruct (Rlt_dec a b); [rewrite Rmax_right|rewrite Rmax_left]; lra.
Qed.

Lemma fame_first_step_RA (s : fame RA) (x : R) : f_history s = 0%nat ->
  f_step (fame_update s x) = Rmax (Rabs x / 2) (f_step s) * (1 + f_epsilon s).
Proof.
  intros H. unfold fame_update. rewrite H. simpl. rewrite max_RA. reflexivity.
Qed.

Lemma fame_step_pos_RA (s : fame RA) xs : 0 < f_step s -> 0 <= f_epsilon s -> 0 < f_step (fame_run s xs).
Proof.
  intros Hs He. induction xs as [|x xs IH] using rev_ind; auto.
  rewrite fame_run_snoc. set (t := fame_run s xs) in * .
  assert (Et : f_epsilon t = f_epsilon s) by apply fame_eps.
  destruct (Nat.eq_dec (f_history t) 0) as [H|H].
  - rewrite fame_first_step_RA by auto. rewrite Et.
    pose proof (Rmax_r (Rabs x / 2) (f_step t)). apply Rmult_lt_0_compat; cbn in * ; lra.
  - destruct (fame_move_RA t x H) as [_ ->]. rewrite Et. apply Rmult_lt_0_compat; [|cbn in * ; lra].
    destruct (Rlt_dec _ _); cbn in * ; lra.
Qed.

(** The range of the data is left by at most the first step when epsilon is 0. *)
Lemma fame_range_RA (s : fame RA) (x1 : R) (xs : list R) (lo hi : R) :
  f_history s = 0%nat -> f_epsilon s = 0 ->
  Forall (fun x => lo <= x <= hi) (x1 :: xs) ->
  let S := Rmax (Rabs x1 / 2) (f_step s) in
  lo - S <= f_median (fame_run s (x1 :: xs)) <= hi + S /\
  0 <= f_step (fame_run s (x1 :: xs)) <= S.
Proof.
  intros Hh He HF. cbv zeta. set (S := Rmax (Rabs x1 / 2) (f_step s)).
  assert (HS : 0 <= S).
  { unfold S. pose proof (Rmax_l (Rabs x1 / 2) (f_step s)). pose proof (Rabs_pos x1). cbn in * . lra. }
  induction xs as [|x xs IH] using rev_ind.
  - change (fame_run s [x1]) with (fame_update s x1).
    rewrite (fame_first (A := RA) Rltb_irrefl) by auto. rewrite fame_first_step_RA by auto.
    fold S. rewrite He. inversion_clear HF. cbn in * . lra.
  - rewrite app_comm_cons in HF |- * . apply Forall_app in HF as [HF Hx]. inversion_clear Hx as [|? ? Hx' _].
    specialize (IH HF). rewrite fame_run_snoc. set (t := fame_run s (x1 :: xs)) in * .
    assert (Et : f_epsilon t = 0) by (unfold t; rewrite fame_eps; auto).
    assert (Ht : f_history t <> 0%nat) by (unfold t; rewrite fame_history; simpl; lia).
    destruct (fame_move_RA t x Ht) as [Em Es]. rewrite Es, Em, Et. unfold sgn.
    clear Em Es Et Ht. generalize dependent (f_step t). generalize dependent (f_median t).
    change (num RA) with R. clear t. intros m st [Hm Hst]. cbn in Hx'.
    split.
    + destruct (Rlt_dec (x - m) 0); [lra|]. destruct (Rlt_dec 0 (x - m)); lra.
    + destruct (Rlt_dec (Rabs _) st); lra.
Qed.

(** ** MAD in exact arithmetic *)
Lemma mad_run_snoc {A : arith} (s : mad A) xs x :
  mad_run s (xs ++ [x]) = mad_update (mad_run s xs) x.
Proof. unfold mad_run. now rewrite fold_left_app. Qed.

Lemma mad_history {A : arith} (s : mad A) xs :
  a_history (mad_run s xs) = (a_history s + length xs)%nat.
Proof.
  induction xs as [|x xs IH] using rev_ind; [simpl; lia|].
  rewrite mad_run_snoc, app_length. simpl. rewrite IH. lia.
Qed.

Lemma mad_error_history {A : arith} (s : mad A) xs :
  f_history (a_error (mad_run s xs)) = (f_history (a_error s) + length xs)%nat.
Proof.
  induction xs as [|x xs IH] using rev_ind; [simpl; lia|].
  rewrite mad_run_snoc, app_length. simpl. rewrite IH. lia.
Qed.

Lemma mad_multiple_RA (xs : list R) s : mad_new (A := RA) = Ret s ->
  exists k j : nat,
    mad_evaluate (mad_run s xs) = INR k * (1 / 10 / 2 ^ j) /\
    f_step (a_error (mad_run s xs)) = 1 / 10 / 2 ^ j.
Proof.
  unfold mad_new, fame_new. cbn [ltb leb of_Z RA].
  replace (Rltb 0 0) with false by (symmetry; apply Rltb_false; lra).
  replace (Rleb 1 0) with false by (symmetry; apply Rleb_false; lra).
  simpl. intros E. injection E as <-. set (s := Mad _ _ _).
  induction xs as [|x xs IH] using rev_ind.
  - exists 0%nat, 0%nat. unfold mad_evaluate, s. cbn. lra.
  - rewrite mad_run_snoc.
    pose proof (mad_error_history (A := RA) s xs) as Hh.
    destruct (Nat.eq_dec (length xs) 0) as [L|L].
    + (* first observation: the error is 0 *)
      apply length_zero_iff_nil in L. subst xs. exists 0%nat, 0%nat.
      change (mad_run s []) with s. unfold mad_update, mad_evaluate, fame_evaluate. cbn [a_error a_score].
      rewrite !(fame_first (A := RA) Rltb_irrefl) by reflexivity.
      rewrite fame_first_step_RA by reflexivity. cbn.
      unfold Rminus. rewrite Rplus_opp_r, Rabs_R0, Rabs_R0. rewrite Rmax_right by lra. lra.
    + set (t := mad_run s xs) in * . destruct IH as (k & j & Ev & Es).
      unfold mad_update, mad_evaluate, fame_evaluate. cbn [a_error a_score].
      unfold mad_evaluate, fame_evaluate in Ev.
      set (e := Rabs (x - f_median (fame_update (a_score t) x))).
      assert (He : 0 <= e) by apply Rabs_pos.
      change (fabs (x -. f_median (fame_update (a_score t) x))) with e.
      assert (Hn : f_history (a_error t) <> 0%nat) by (rewrite Hh; simpl; lia).
      assert (Ep : f_epsilon (a_error t) = 0).
      { unfold t. clear. induction xs as [|x xs IH] using rev_ind; auto. now rewrite mad_run_snoc. }
      destruct (fame_move_RA (a_error t) e Hn) as [Em Est].
      assert (Hpos : 0 < 1 / 10 / 2 ^ j).
      { unfold Rdiv. apply Rmult_lt_0_compat; [lra|]. apply Rinv_0_lt_compat, pow_lt. lra. }
      assert (Km : exists k', f_median (fame_update (a_error t) e) = INR k' * (1 / 10 / 2 ^ j)).
      { rewrite Em, Ev, Es. unfold sgn.
        destruct (Rlt_dec (e - INR k * (1 / 10 / 2 ^ j)) 0) as [Hlt|Hge].
        - destruct k; [simpl in Hlt; lra|]. exists k. rewrite S_INR. lra.
        - destruct (Rlt_dec 0 _); [exists (S k)|exists k]; rewrite ?S_INR; lra. }
      destruct Km as [k' Ek]. rewrite Est, Es, Ep.
      destruct (Rlt_dec _ (1 / 10 / 2 ^ j)).
      * exists (2 * k')%nat, (S j). rewrite Ek, mult_INR. simpl (2 ^ S j). simpl (INR 2).
        assert (2 ^ j <> 0) by (apply pow_nonzero; lra). split; field; auto.
      * exists k', j. rewrite Ek. split; lra.
Qed.

Lemma mad_nonneg_RA (xs : list R) s : mad_new (A := RA) = Ret s ->
  0 <= mad_evaluate (mad_run s xs).
Proof.
  intros E. destruct (mad_multiple_RA xs s E) as (k & j & -> & _).
  apply Rmult_le_pos; [apply pos_INR|]. unfold Rdiv. apply Rmult_le_pos; [lra|].
  left. apply Rinv_0_lt_compat, pow_lt. lra.
Qed.

Lemma mad_new_ok (A : arith) : ltb (a := A) (of_Z 0) (of_Z 0) = false -> leb (a := A) (of_Z 1) (of_Z 0) = false ->
  exists s : mad A, mad_new = Ret s.
Proof. intros H1 H2. unfold mad_new, fame_new. rewrite H1, H2. simpl. eauto. Qed.

(** ** binary64 *)

Definition half_big : R := bpow radix2 1022.

Lemma half_big_lt : 4 * half_big = big.
Proof. unfold half_big, big. change 4 with (bpow radix2 2). rewrite <- bpow_plus. f_equal. Qed.

Lemma fin_of_le x (b : R) : nan x = false -> Rabs (X x) <= b -> b < big -> finite64 x = true.
Proof. intros N H Hb. apply fin_X; auto. lra. Qed.

Lemma rnd_bpow e : (-1074 <= e)%Z -> rnd (bpow radix2 e) = bpow radix2 e.
Proof.
  intros H. apply rnd_fix. apply generic_format_bpow.
  unfold fexp64, SpecFloat.fexp, SpecFloat.emin. lia.
Qed.

Lemma R64_small r e : (-1074 <= e < 1024)%Z -> Rabs r <= bpow radix2 e ->
  R64 r = rnd r /\ Rabs (rnd r) <= bpow radix2 e.
Proof.
  intros He Hr. assert (K : Rabs (rnd r) <= bpow radix2 e).
  { rewrite <- rnd_abs, <- (rnd_bpow e) by lia. apply rnd_le; auto. }
  split; auto. unfold R64. apply sat_in. eapply Rle_lt_trans; [exact K|]. apply bpow_lt. lia.
Qed.

Lemma two_ok : B2R (Bz 2) = 2 /\ finite64 (Bz 2) = true.
Proof. apply (Bz_exact 2). lia. Qed.

(** [(1 + 0) * x] keeps the value. *)
Lemma grow_zero (st ep : double) : finite64 st = true -> finite64 ep = true -> B2R ep = 0 ->
  finite64 (Bmul st (Badd (Bz 1) ep)) = true /\ B2R (Bmul st (Badd (Bz 1) ep)) = B2R st.
Proof.
  intros Fs Fe E0. destruct (Bz_exact 1) as [E1 F1]; [lia|].
  destruct (X_add (Bz 1) ep F1 Fe) as [XA NA]. rewrite E1, E0, Rplus_0_r in XA.
  destruct (IZR_bound 1) as [R1 B1]; [lia|]. rewrite R1 in XA.
  assert (FA : finite64 (Badd (Bz 1) ep) = true) by (apply fin_X; auto; rewrite XA; auto).
  destruct (X_mul st _ Fs FA) as [XM NM]. rewrite <- (X_fin _ FA), XA, Rmult_1_r, R64_B2R in XM.
  assert (FM : finite64 (Bmul st (Badd (Bz 1) ep)) = true).
  { apply fin_X; auto. rewrite XM. apply B2R_lt_big. }
  split; auto. rewrite <- (X_fin _ FM). auto.
Qed.

Lemma half_facts (st : double) : finite64 st = true ->
  finite64 (Bquot st (Bz 2)) = true /\ B2R (Bquot st (Bz 2)) = rnd (B2R st / 2).
Proof.
  intros Fs. destruct two_ok as [E2 F2].
  destruct (X_div st (Bz 2) Fs F2) as [XD ND]; [rewrite E2; lra|]. rewrite E2 in XD.
  assert (Hr : Rabs (rnd (B2R st / 2)) < big).
  { rewrite <- rnd_abs. apply Rle_lt_trans with (rnd (Rabs (B2R st))).
    - apply rnd_le. unfold Rdiv. rewrite Rabs_mult, (Rabs_pos_eq (/ 2)) by lra. pose proof (Rabs_pos (B2R st)). lra.
    - rewrite rnd_abs, rnd_fix by apply B2R_format. apply B2R_lt_big. }
  unfold R64 in XD. rewrite sat_in in XD by auto.
  assert (F : finite64 (Bquot st (Bz 2)) = true) by (apply fin_X; auto; rewrite XD; auto).
  split; auto. rewrite <- (X_fin _ F). auto.
Qed.

Lemma half_le (st : double) : 0 <= B2R st -> 0 <= rnd (B2R st / 2) <= B2R st.
Proof.
  intros H. split.
  - rewrite <- rnd_0. apply rnd_le. lra.
  - apply Rle_trans with (rnd (B2R st)); [apply rnd_le; lra|]. rewrite rnd_fix by apply B2R_format. lra.
Qed.

Lemma fame_range_B64 (s : fame B64) (x1 : double) (xs : list double) (lo hi : R) :
  f_history s = 0%nat ->
  finite64 (f_epsilon s) = true -> B2R (f_epsilon s) = 0 ->
  finite64 (f_step s) = true -> B2R (f_step s) <= half_big ->
  Forall (fun x => finite64 x = true /\ lo <= B2R x <= hi) (x1 :: xs) ->
  - half_big <= lo -> hi <= half_big ->
  let S := Rmax (rnd (Rabs (B2R x1) / 2)) (B2R (f_step s)) in
  let r := fame_run s (x1 :: xs) in
  finite64 (f_median r) = true /\ rnd (lo - S) <= B2R (f_median r) <= rnd (hi + S).
Proof.
  intros Hh Fe He Fs HsB HF Hlo Hhi. cbv zeta. set (S := Rmax (rnd (Rabs (B2R x1) / 2)) (B2R (f_step s))).
  assert (F1 : finite64 x1 = true /\ lo <= B2R x1 <= hi) by (inversion HF; auto).
  destruct F1 as [F1 R1].
  assert (Fa : finite64 (Babs x1) = true) by (rewrite fin_abs; auto).
  assert (Ea : B2R (Babs x1) = Rabs (B2R x1)) by (rewrite <- (X_fin _ Fa), X_abs, X_fin; auto).
  destruct (half_facts (Babs x1) Fa) as [Fh Eh]. rewrite Ea in Eh.
  pose proof (half_le (Babs x1)) as Hhl. rewrite Ea in Hhl. specialize (Hhl (Rabs_pos _)).
  assert (Hx1 : Rabs (B2R x1) <= half_big) by (apply Rabs_le; lra).
  assert (HS : 0 <= S <= half_big).
  { unfold S. pose proof (Rmax_l (rnd (Rabs (B2R x1) / 2)) (B2R (f_step s))).
    split; [lra|]. apply Rmax_lub; lra. }
  assert (LoB : Rabs (lo - S) <= bpow radix2 1023).
  { replace (bpow radix2 1023) with (2 * half_big) by
      (unfold half_big; change 2 with (bpow radix2 1); rewrite <- bpow_plus; reflexivity).
    apply Rabs_le. assert (lo <= hi) by lra. pose proof half_big_lt. pose proof big_pos. lra. }
  assert (HiB : Rabs (hi + S) <= bpow radix2 1023).
  { replace (bpow radix2 1023) with (2 * half_big) by
      (unfold half_big; change 2 with (bpow radix2 1); rewrite <- bpow_plus; reflexivity).
    apply Rabs_le. assert (lo <= hi) by lra. pose proof half_big_lt. pose proof big_pos. lra. }
  destruct (R64_small _ 1023 ltac:(lia) LoB) as [RL BL].
  destruct (R64_small _ 1023 ltac:(lia) HiB) as [RH BH].
  assert (Lrnd : rnd (lo - S) <= rnd (hi + S)) by (apply rnd_le; lra).
  assert (B3 : bpow radix2 1023 < big) by (apply bpow_lt; lia).
  enough (K : let r := fame_run s (x1 :: xs) in
     finite64 (f_median r) = true /\ rnd (lo - S) <= B2R (f_median r) <= rnd (hi + S) /\
     finite64 (f_step r) = true /\ 0 <= B2R (f_step r) <= S) by (cbv zeta in K; tauto).
  cbv zeta. induction xs as [|x xs IH] using rev_ind.
  - change (fame_run s [x1]) with (fame_update s x1).
    rewrite (fame_first (A := B64) Bltb_irrefl) by auto. split; [auto|].
    assert (Q : rnd (lo - S) <= B2R x1 <= rnd (hi + S)).
    { split.
      - apply Rle_trans with (rnd (B2R x1)); [apply rnd_le; lra|]. rewrite rnd_fix by apply B2R_format. lra.
      - apply Rle_trans with (rnd (B2R x1)); [|apply rnd_le; lra]. rewrite rnd_fix by apply B2R_format. lra. }
    split; [exact Q|].
    unfold fame_update. rewrite Hh. cbn.
    assert (M : finite64 (max_ (A := B64) (Bquot (Babs x1) (Bz 2)) (f_step s)) = true /\
                B2R (max_ (A := B64) (Bquot (Babs x1) (Bz 2)) (f_step s)) = S).
    { unfold max_. cbn. destruct (Bltb _ (f_step s)) eqn:E.
      - apply X_ltb in E; auto using fin_nan. rewrite !X_fin, Eh in E by auto.
        split; auto. unfold S. rewrite Rmax_right; auto; lra.
      - apply X_ltb_false in E; auto using fin_nan. rewrite !X_fin, Eh in E by auto.
        split; auto. unfold S. rewrite Eh, Rmax_left; auto; lra. }
    destruct M as [FM EM].
    destruct (grow_zero _ (f_epsilon s) FM Fe He) as [FG EG].
    split; [exact FG|]. rewrite EG, EM. lra.
  - rewrite app_comm_cons in HF |- * . apply Forall_app in HF as [HF Hx].
    inversion_clear Hx as [|? ? Hx' _]. destruct Hx' as [Fx Rx].
    specialize (IH HF). rewrite fame_run_snoc. set (t := fame_run s (x1 :: xs)) in * .
    destruct IH as (Fm & Rm & Ft & Rt).
    assert (Et : f_epsilon t = f_epsilon s) by (unfold t; apply fame_eps).
    assert (Ht : f_history t <> 0%nat) by (unfold t; rewrite fame_history; simpl; lia).
    apply Nat.eqb_neq in Ht. clearbody t. unfold double in * .
    assert (Bm : Rabs (B2R (f_median t)) <= bpow radix2 1023) by (apply Rabs_le; apply Rabs_le_inv in BL, BH; lra).
    assert (MED : let m1 := f_median (fame_update t x) in
              finite64 m1 = true /\ rnd (lo - S) <= B2R m1 <= rnd (hi + S)).
    { unfold fame_update. rewrite Ht. cbn.
      destruct (Bltb x (f_median t)) eqn:E1; [|destruct (Bltb (f_median t) x) eqn:E2].
      - apply X_ltb in E1; auto using fin_nan. rewrite !X_fin in E1 by auto.
        destruct (X_sub (f_median t) (f_step t) Fm Ft) as [XS NS].
        assert (Q : rnd (lo - S) <= R64 (B2R (f_median t) - B2R (f_step t)) <= rnd (hi + S)).
        { split.
          - rewrite <- RL. apply R64_le. lra.
          - apply Rle_trans with (R64 (B2R (f_median t))); [apply R64_le; lra|]. rewrite R64_B2R. lra. }
        rewrite <- XS in Q.
        assert (F : finite64 (Bsub (f_median t) (f_step t)) = true).
        { apply (fin_of_le _ (bpow radix2 1023)); auto. apply Rabs_le. apply Rabs_le_inv in BL, BH. lra. }
        split; [exact F|]. rewrite (X_fin _ F) in Q. exact Q.
      - apply X_ltb in E2; auto using fin_nan. rewrite !X_fin in E2 by auto.
        destruct (X_add (f_median t) (f_step t) Fm Ft) as [XS NS].
        assert (Q : rnd (lo - S) <= R64 (B2R (f_median t) + B2R (f_step t)) <= rnd (hi + S)).
        { split.
          - apply Rle_trans with (R64 (B2R (f_median t))); [|apply R64_le; lra]. rewrite R64_B2R. lra.
          - rewrite <- RH. apply R64_le. lra. }
        rewrite <- XS in Q.
        assert (F : finite64 (Badd (f_median t) (f_step t)) = true).
        { apply (fin_of_le _ (bpow radix2 1023)); auto. apply Rabs_le. apply Rabs_le_inv in BL, BH. lra. }
        split; [exact F|]. rewrite (X_fin _ F) in Q. exact Q.
      - split; auto. }
    cbv zeta in MED. destruct MED as [FM RM]. split; [exact FM|]. split; [exact RM|].
    unfold fame_update. rewrite Ht. cbn. rewrite Et.
    destruct (half_facts (f_step t) Ft) as [Fhs Ehs]. pose proof (half_le (f_step t) ltac:(lra)) as Hhs.
    destruct (Bltb (Babs _) (f_step t)).
    + destruct (grow_zero _ (f_epsilon s) Fhs Fe He) as [FG EG]. split; [exact FG|]. rewrite EG, Ehs. lra.
    + destruct (grow_zero _ (f_epsilon s) Ft Fe He) as [FG EG]. split; [exact FG|]. rewrite EG. lra.
Qed.

(** A long constant run makes the step underflow to zero; then nothing moves. *)
Lemma half_tiny : rnd (bpow radix2 (-1075)) = 0.
Proof.
  unfold rnd, round, scaled_mantissa, cexp. rewrite mag_bpow.
  replace (fexp64 (-1075 + 1)) with (-1074)%Z by reflexivity.
  rewrite <- bpow_plus. simpl (-1075 + - -1074)%Z.
  replace (ZnearestE (bpow radix2 (-1))) with 0%Z; [apply F2R_0|].
  change (bpow radix2 (-1)) with (/ 2). unfold Znearest.
  replace (Zfloor (/ 2)) with 0%Z by (symmetry; apply Zfloor_imp; simpl; lra).
  rewrite Rcompare_Eq by (simpl; lra). reflexivity.
Qed.

Lemma halving_bound (v : R) (e : Z) : 0 <= v <= bpow radix2 e -> (-1074 <= e)%Z ->
  0 <= rnd (v / 2) <= (if Z.eqb e (-1074) then 0 else bpow radix2 (e - 1)).
Proof.
  intros [H0 H1] He. split; [rewrite <- rnd_0; apply rnd_le; lra|].
  assert (E : bpow radix2 e / 2 = bpow radix2 (e - 1)).
  { replace e with (e - 1 + 1)%Z at 1 by lia. rewrite bpow_plus. change (bpow radix2 1) with 2. lra. }
  destruct (Z.eqb_spec e (-1074)) as [->|Hne].
  - rewrite <- half_tiny. apply rnd_le. change (-1075)%Z with (-1074 - 1)%Z. rewrite <- E. lra.
  - rewrite <- (rnd_bpow (e - 1)) by lia. apply rnd_le. rewrite <- E. lra.
Qed.

Lemma B2R_zero_eq (x : double) : finite64 x = true -> B2R x = 0 -> exists b, x = B754_zero b.
Proof.
  destruct x as [b| | |b m e H]; try discriminate; eauto.
  intros _ E. exfalso. apply (F2R_neq_0 radix2 (Float radix2 (cond_Zopp b (Zpos m)) e)); auto.
  destruct b; discriminate.
Qed.

(** After [n] further copies of [c] the step is at most 2^(1024 - n), and 0 from the 2099th on. *)
Definition step_bound (n : nat) : R := if Nat.ltb 2098 n then 0 else bpow radix2 (1024 - Z.of_nat n).

Lemma step_bound_next (n : nat) (v : R) : 0 <= v <= step_bound n -> 0 <= rnd (v / 2) <= step_bound (S n).
Proof.
  unfold step_bound. intros H. destruct (Nat.ltb_spec 2098 n).
  - replace v with 0 by lra. unfold Rdiv. rewrite Rmult_0_l, rnd_0.
    destruct (Nat.ltb_spec 2098 (S n)); [lra|lia].
  - pose proof (halving_bound v (1024 - Z.of_nat n) H ltac:(lia)) as B.
    destruct (Z.eqb_spec (1024 - Z.of_nat n) (-1074)); destruct (Nat.ltb_spec 2098 (S n)); try lia; auto.
    replace (1024 - Z.of_nat (S n))%Z with (1024 - Z.of_nat n - 1)%Z by lia. auto.
Qed.

Lemma fame_same_step (s : fame B64) (c : double) (n : nat) :
  f_history s <> 0%nat -> finite64 (f_epsilon s) = true -> B2R (f_epsilon s) = 0 ->
  finite64 c = true -> f_median s = c ->
  finite64 (f_step s) = true -> 0 <= B2R (f_step s) <= step_bound n ->
  finite64 (f_step (fame_update s c)) = true /\ 0 <= B2R (f_step (fame_update s c)) <= step_bound (S n).
Proof.
  intros Hh Fe He Fc Em Fs Hs. apply Nat.eqb_neq in Hh.
  unfold fame_update. rewrite Hh, Em. cbn. change (num B64) with double. unfold double. rewrite !Bltb_irrefl.
  destruct (X_sub c c Fc Fc) as [XS NS]. rewrite Rminus_diag_eq, R64_0 in XS by auto.
  destruct (half_facts (f_step s) Fs) as [Fh Eh].
  destruct (Bltb (Babs (Bsub c c)) (f_step s)) eqn:E.
  - destruct (grow_zero _ (f_epsilon s) Fh Fe He) as [FG EG]. split; [exact FG|]. rewrite EG, Eh.
    apply step_bound_next; auto.
  - destruct (grow_zero _ (f_epsilon s) Fs Fe He) as [FG EG]. split; [exact FG|]. rewrite EG.
    apply X_ltb_false in E; [|rewrite nan_abs; auto|auto using fin_nan].
    rewrite X_abs, XS, Rabs_R0, (X_fin _ Fs) in E.
    replace (B2R (f_step s)) with 0 by lra. split; [lra|]. unfold step_bound.
    destruct (Nat.ltb 2098 (S n)); [lra|apply bpow_ge_0].
Qed.

Lemma fame_const_step (s : fame B64) (c : double) (n : nat) :
  f_history s = 0%nat -> finite64 (f_epsilon s) = true -> B2R (f_epsilon s) = 0 ->
  finite64 c = true -> finite64 (f_step s) = true ->
  finite64 (f_step (fame_run s (repeat c (S n)))) = true /\ 0 <= B2R (f_step (fame_run s (repeat c (S n)))) <= step_bound n.
Proof.
  intros Hh Fe He Fc Fs. induction n.
  - simpl repeat. change (fame_run s [c]) with (fame_update s c).
    unfold fame_update. rewrite Hh. cbn.
    assert (Fa : finite64 (Babs c) = true) by (rewrite fin_abs; auto).
    assert (Ea : B2R (Babs c) = Rabs (B2R c)) by (rewrite <- (X_fin _ Fa), X_abs, X_fin; auto).
    destruct (half_facts (Babs c) Fa) as [Fq Eq].
    pose proof (half_le (Babs c)) as Hl. rewrite Ea in Hl. specialize (Hl (Rabs_pos _)).
    assert (M : let m := max_ (A := B64) (Bquot (Babs c) (Bz 2)) (f_step s) in
       finite64 m = true /\ 0 <= B2R m).
    { cbv zeta. unfold max_. cbn. destruct (Bltb _ (f_step s)) eqn:E.
      - apply X_ltb in E; auto using fin_nan. rewrite (X_fin _ Fq), (X_fin _ Fs), Eq, Ea in E. split; auto. lra.
      - split; auto. rewrite Eq, Ea. lra. }
    cbv zeta in M. destruct M as [FM HM].
    destruct (grow_zero _ (f_epsilon s) FM Fe He) as [FG EG]. split; [exact FG|]. rewrite EG.
    split; auto. change (step_bound 0) with big.
    pose proof (B2R_lt_big (max_ (A := B64) (Bquot (Babs c) (Bz 2)) (f_step s))) as B.
    apply Rabs_lt_inv in B. left. apply B.
  - change (repeat c (S (S n))) with (c :: repeat c (S n)). rewrite repeat_cons, fame_run_snoc.
    apply fame_same_step; auto; try tauto.
    + rewrite fame_history. simpl. lia.
    + rewrite fame_eps; auto.
    + rewrite fame_eps; auto.
    + apply (fame_constant (A := B64) Bltb_irrefl); auto.
Qed.

(** With a zero step the estimate no longer moves. *)
Lemma fame_frozen (s : fame B64) (ys : list double) (c : R) :
  f_history s <> 0%nat -> finite64 (f_epsilon s) = true -> B2R (f_epsilon s) = 0 ->
  finite64 (f_step s) = true -> B2R (f_step s) = 0 ->
  finite64 (f_median s) = true -> B2R (f_median s) = c ->
  finite64 (f_median (fame_run s ys)) = true /\ B2R (f_median (fame_run s ys)) = c.
Proof.
  intros Hh Fe He Fs Es Fm Em.
  enough (K : (finite64 (f_median (fame_run s ys)) = true /\ B2R (f_median (fame_run s ys)) = c) /\ finite64 (f_step (fame_run s ys)) = true /\ B2R (f_step (fame_run s ys)) = 0) by tauto.
  induction ys as [|y ys IH] using rev_ind; [simpl; auto|].
  rewrite fame_run_snoc. set (t := fame_run s ys) in * .
  assert (Et : f_epsilon t = f_epsilon s) by (unfold t; apply fame_eps).
  assert (Ht : f_history t <> 0%nat) by (unfold t; rewrite fame_history; lia).
  apply Nat.eqb_neq in Ht. clearbody t. destruct IH as [[Fm' Em'] [Fs' Es']].
  destruct (X_sub (f_median t) (f_step t) Fm' Fs') as [XS NS].
  destruct (X_add (f_median t) (f_step t) Fm' Fs') as [XA NA].
  rewrite Es', Rminus_0_r, R64_B2R in XS. rewrite Es', Rplus_0_r, R64_B2R in XA.
  assert (FS : finite64 (Bsub (f_median t) (f_step t)) = true) by (apply fin_X; auto; rewrite XS; apply B2R_lt_big).
  assert (FA : finite64 (Badd (f_median t) (f_step t)) = true) by (apply fin_X; auto; rewrite XA; apply B2R_lt_big).
  rewrite (X_fin _ FS), Em' in XS. rewrite (X_fin _ FA), Em' in XA.
  unfold fame_update. rewrite Ht, Et. cbn. split.
  - destruct (Bltb y (f_median t)); [split; auto|]. destruct (Bltb (f_median t) y); split; auto.
  - destruct (half_facts (f_step t) Fs') as [Fh Eh]. rewrite Es' in Eh. unfold Rdiv in Eh. rewrite Rmult_0_l, rnd_0 in Eh.
    destruct (Bltb (Babs _) (f_step t)).
    + destruct (grow_zero _ (f_epsilon s) Fh Fe He) as [FG EG]. split; [exact FG|]. rewrite EG; auto.
    + destruct (grow_zero _ (f_epsilon s) Fs' Fe He) as [FG EG]. split; [exact FG|]. rewrite EG; auto.
Qed.

Lemma fame_freezes (s : fame B64) (c : double) (n : nat) (ys : list double) :
  f_history s = 0%nat -> finite64 (f_epsilon s) = true -> B2R (f_epsilon s) = 0 ->
  finite64 c = true -> finite64 (f_step s) = true ->
  (2100 <= n)%nat ->
  let r := fame_run s (repeat c n ++ ys) in
  finite64 (f_median r) = true /\ B2R (f_median r) = B2R c.
Proof.
  intros Hh Fe He Fc Fs Hn. cbv zeta.
  replace (fame_run s (repeat c n ++ ys)) with (fame_run (fame_run s (repeat c n)) ys)
    by (unfold fame_run; now rewrite fold_left_app).
  destruct n as [|n]; [lia|].
  destruct (fame_const_step s c n Hh Fe He Fc Fs) as [FS HS].
  unfold step_bound in HS. destruct (Nat.ltb_spec 2098 n); [|lia].
  apply fame_frozen; auto.
  - rewrite fame_history. simpl. lia.
  - now rewrite fame_eps.
  - now rewrite fame_eps.
  - lra.
  - rewrite (fame_constant (A := B64) Bltb_irrefl); auto.
  - now rewrite (fame_constant (A := B64) Bltb_irrefl).
Qed.

(** ** Statements in the form used by the property file *)

Lemma fame_new_fields {A : arith} (step eps : A) s : fame_new step eps = Ret s ->
  s = Fame (of_Z 0) step eps 0.
Proof. unfold fame_new. destruct (_ || _)%bool; [discriminate|]. intros E. now injection E. Qed.

Lemma fame_new_ge_RA (step eps : R) s : fame_new (A := RA) step eps = Ret s -> 0 <= eps < 1.
Proof.
  unfold fame_new. cbn. intros E. destruct (Rltb eps 0) eqn:L; [discriminate|].
  destruct (Rleb 1 eps) eqn:G; [discriminate|]. apply Rltb_false in L. apply Rleb_false in G. lra.
Qed.

Lemma fame_move (step eps : R) s (xs : list R) (x : R) :
  fame_new (A := RA) step eps = Ret s -> 0 < step -> xs <> [] ->
  let a := fame_run s xs in
  let b := fame_run s (xs ++ [x]) in
  fame_evaluate b = fame_evaluate a + sgn (x - fame_evaluate a) * f_step a /\
  0 < f_step a /\
  f_step b = (if Rlt_dec (Rabs (x - fame_evaluate b)) (f_step a) then f_step a / 2 else f_step a) * (1 + eps) /\
  (eps = 0 -> f_step b <= f_step a).
Proof.
  intros E Hs Hne. cbv zeta. pose proof (fame_new_ge_RA _ _ _ E) as He.
  apply fame_new_fields in E. rewrite fame_run_snoc.
  assert (Hp : 0 < f_step (fame_run s xs)) by (apply fame_step_pos_RA; subst s; cbn; lra).
  assert (Ht : f_history (fame_run s xs) <> 0%nat).
  { rewrite fame_history. destruct xs; [congruence|]. simpl. lia. }
  assert (Ee : f_epsilon (fame_run s xs) = eps) by (rewrite fame_eps; subst s; reflexivity).
  destruct (fame_move_RA _ x Ht) as [Em Es]. rewrite Ee in Es. unfold fame_evaluate.
  split; [exact Em|]. split; [exact Hp|]. split; [exact Es|].
  intros ->. rewrite Es. destruct (Rlt_dec _ _); cbn in * ; lra.
Qed.

Lemma fame_range_exact (step : R) s (x1 : R) (xs : list R) (lo hi : R) :
  fame_new (A := RA) step 0 = Ret s ->
  Forall (fun x => lo <= x <= hi) (x1 :: xs) ->
  lo - Rmax step (Rabs x1 / 2) <= fame_evaluate (fame_run s (x1 :: xs)) <= hi + Rmax step (Rabs x1 / 2).
Proof.
  intros E HF. apply fame_new_fields in E.
  destruct (fame_range_RA s x1 xs lo hi) as [H _]; auto; try (subst s; reflexivity).
  replace (Rmax step (Rabs x1 / 2)) with (Rmax (Rabs x1 / 2) (f_step s)); auto.
  subst s. cbn. apply Rmax_comm.
Qed.

Lemma zero_fin : finite64 (Bz 0) = true /\ B2R (Bz 0) = 0.
Proof. destruct (Bz_exact 0) as [E F]; [lia|]. auto. Qed.

Lemma fame_range_double (step : double) s (x1 : double) (xs : list double) (lo hi : R) :
  fame_new (A := B64) step (Bz 0) = Ret s ->
  finite64 step = true -> B2R step <= bpow radix2 1022 ->
  - bpow radix2 1022 <= lo -> hi <= bpow radix2 1022 ->
  Forall (fun x => finite64 x = true /\ lo <= B2R x <= hi) (x1 :: xs) ->
  let S := Rmax (B2R step) (rnd (Rabs (B2R x1) / 2)) in
  let r := fame_evaluate (fame_run s (x1 :: xs)) in
  finite64 r = true /\ rnd (lo - S) <= B2R r <= rnd (hi + S).
Proof.
  intros E F1 H1 H2 H3 HF. apply fame_new_fields in E. cbv zeta.
  rewrite Rmax_comm. destruct zero_fin.
  pose proof (fame_range_B64 s x1 xs lo hi) as K. subst s. cbv zeta in K. apply K; auto.
Qed.

Lemma fame_freezes_new (step : double) s (c : double) (n : nat) (ys : list double) :
  fame_new (A := B64) step (Bz 0) = Ret s ->
  finite64 step = true -> finite64 c = true -> (2100 <= n)%nat ->
  let r := fame_evaluate (fame_run s (repeat c n ++ ys)) in
  finite64 r = true /\ B2R r = B2R c.
Proof.
  intros E F1 Fc Hn. apply fame_new_fields in E. destruct zero_fin. subst s.
  apply fame_freezes; auto.
Qed.

Lemma fame_constant_B64 (step eps : double) s (c : double) (n : nat) :
  fame_new (A := B64) step eps = Ret s -> fame_evaluate (fame_run s (repeat c (S n))) = c.
Proof.
  intros E. apply fame_new_fields in E. subst s. apply (fame_constant (A := B64) Bltb_irrefl). reflexivity.
Qed.

Lemma mad_constant_B64 s (c : double) (n : nat) : finite64 c = true ->
  mad_new (A := B64) = Ret s ->
  finite64 (mad_evaluate (mad_run s (repeat c n))) = true /\ B2R (mad_evaluate (mad_run s (repeat c n))) = 0.
Proof.
  intros Fc E. unfold mad_new in E.
  destruct (fame_new _ _) as [f| |] eqn:Ef; try discriminate. simpl in E. injection E as <-.
  apply fame_new_fields in Ef. destruct (X_sub c c Fc Fc) as [XS NS]. rewrite Rminus_diag_eq, R64_0 in XS by auto.
  set (z := Babs (Bsub c c)).
  assert (K : forall m, mad_run (Mad f f 0) (repeat c m) =
     Mad (fame_run f (repeat c m)) (fame_run f (repeat (z : B64) m)) m).
  { induction m; [reflexivity|].
    change (repeat c (S m)) with (c :: repeat c m). rewrite repeat_cons, mad_run_snoc, IHm.
    unfold mad_update. cbn [a_score a_error a_history].
    rewrite <- !fame_run_snoc, <- repeat_cons.
    change (c :: repeat c m) with (repeat c (S m)). unfold fame_evaluate at 1.
    rewrite (fame_constant (A := B64) Bltb_irrefl) by (subst f; reflexivity).
    change (fabs (c -. c)) with (z : B64). rewrite <- repeat_cons. f_equal; [now rewrite <- repeat_cons|lia]. }
  rewrite K. unfold mad_evaluate, fame_evaluate. cbn [a_error].
  destruct n.
  - subst f. simpl. split; reflexivity.
  - rewrite (fame_constant (A := B64) Bltb_irrefl) by (subst f; reflexivity).
    assert (Fz : finite64 z = true).
    { apply fin_X; unfold z; rewrite ?nan_abs; auto. rewrite X_abs, XS, !Rabs_R0. apply big_pos. }
    split; auto. rewrite <- (X_fin _ Fz). unfold z. rewrite X_abs, XS. apply Rabs_R0.
Qed.

Definition mad_witness : list double := map Bz [8; 0; 2; 4; 2; 1; 1; 1]%Z.

Lemma mad_negative : exists s, mad_new (A := B64) = Ret s /\
  Bltb (mad_evaluate (mad_run s (mad_witness : list B64))) (Bz 0) = true.
Proof.
  destruct (mad_new_ok B64) as [s E]; [vm_compute; reflexivity..|].
  exists s. split; auto.
  assert (K : match mad_new (A := B64) with
              | Ret s => Bltb (mad_evaluate (mad_run s (mad_witness : list B64))) (Bz 0) | _ => false end = true)
    by (vm_compute; reflexivity).
  rewrite E in K. exact K.
Qed.

(** ** StreamingMAD is two FAME estimators *)
Lemma deviations_snoc {A : arith} (m : fame A) xs x :
  deviations m (xs ++ [x]) = deviations m xs ++ [fabs (x -. fame_evaluate (fame_run m (xs ++ [x])))%num].
Proof.
  unfold deviations. rewrite app_length, seq_app, map_app. simpl. f_equal.
  - apply map_ext_in. intros i Hi. apply in_seq in Hi. unfold deviation.
    rewrite app_nth1, firstn_app by lia. replace (S i - length xs)%nat with 0%nat by lia.
    simpl (firstn 0 _). now rewrite app_nil_r.
  - unfold deviation. rewrite app_nth2, Nat.sub_diag by lia. simpl (nth 0 _ _).
    rewrite firstn_all2 by (rewrite app_length; simpl; lia). reflexivity.
Qed.

Lemma mad_two_fames {A : arith} (f : fame A) (s : mad A) xs :
  fame_new (lit 1 10) (of_Z 0) = Ret f -> mad_new = Ret s ->
  mad_evaluate (mad_run s xs) = fame_evaluate (fame_run f (deviations f xs)) /\
  a_history (mad_run s xs) = length xs.
Proof.
  intros Hf Hs. unfold mad_new in Hs. rewrite Hf in Hs. cbn [bind] in Hs. injection Hs as <-.
  enough (G : mad_run (Mad f f 0) xs = Mad (fame_run f xs) (fame_run f (deviations f xs)) (length xs)).
  { rewrite G. auto. }
  induction xs as [|x xs IH] using rev_ind; auto.
  unfold mad_run in * . rewrite fold_left_app, IH, deviations_snoc, app_length. simpl.
  unfold mad_update. cbn [a_score a_error a_history]. rewrite !fame_run_snoc. reflexivity.
Qed.
