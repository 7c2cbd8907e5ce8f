(** Far observations and WindowedFAME: only the side matters. *)

From Coq Require Import List Reals ZArith Lra Lia Bool Arith.
From Flocq Require Import Core.Core IEEE754.BinarySingleNaN.
From Verif Require Import Outcome Arith Fame FameSpec Spec FloatSpec ListFacts FloatFacts UtilsFacts FameFacts FameFarSpec.
From Verif Require P2Witness.
Import ListNotations.
Open Scope R_scope.

(** ** Exact arithmetic *)

Definition inv (L U S : R) (t : fame RA) : Prop :=
  f_history t <> 0%nat /\ f_epsilon t = 0 /\ L <= f_median t <= U /\ 0 <= f_step t <= S.

Lemma hist_pos {A : arith} (t : fame A) x : f_history (fame_update t x) <> 0%nat.
Proof. unfold fame_update. cbn [f_history]. lia. Qed.

Lemma inv_in L U S lo hi t (x : R) : inv L U S t -> lo <= x <= hi -> hi + S <= U -> L <= lo - S -> inv L U S (fame_update t x).
Proof.
  intros (Ht & He & Hm & Hs) Hx HU HL. split; [apply hist_pos|]. split; [exact He|].
  destruct (fame_move_RA t x Ht) as [Em Es]. rewrite Es, Em, He. unfold sgn.
  clear Em Es He Ht. revert Hm Hs. generalize (f_step t). generalize (f_median t). change (num RA) with R. intros m st Hm Hs.
  split.
  - destruct (Rlt_dec (x - m) 0); [lra|]. destruct (Rlt_dec 0 (x - m)); lra.
  - destruct (Rlt_dec (Rabs _) _); lra.
Qed.

Lemma inv_any L U S t (x : R) : inv L U S t -> 0 <= S -> inv (L - S) (U + S) S (fame_update t x).
Proof.
  intros (Ht & He & Hm & Hs) HS. split; [apply hist_pos|]. split; [exact He|].
  destruct (fame_move_RA t x Ht) as [Em Es]. rewrite Es, Em, He. unfold sgn.
  clear Em Es He Ht. revert Hm Hs. generalize (f_step t). generalize (f_median t). change (num RA) with R. intros m st Hm Hs.
  split.
  - destruct (Rlt_dec (x - m) 0); [lra|]. destruct (Rlt_dec 0 (x - m)); lra.
  - destruct (Rlt_dec (Rabs _) _); lra.
Qed.

Lemma far_up_RA (t : fame RA) (x : R) : f_history t <> 0%nat -> 0 <= f_step t -> f_median t + 2 * f_step t < x ->
  fame_update t x = Fame (f_median t + f_step t)%num (f_step t *. (of_Z 1 +. f_epsilon t))%num (f_epsilon t) (f_history t + 1).
Proof.
  intros Ht Hs Hx. unfold fame_update. apply Nat.eqb_neq in Ht. rewrite Ht. cbn [ltb RA negb andb add sub fabs].
  change (num RA) with R in * .
  replace (Rltb x (f_median t)) with false by (symmetry; apply Rltb_false; lra).
  replace (Rltb (f_median t) x) with true by (symmetry; apply Rltb_true; lra).
  rewrite Rabs_pos_eq by lra. replace (Rltb (x - (f_median t + f_step t)) (f_step t)) with false by (symmetry; apply Rltb_false; lra).
  reflexivity.
Qed.
Lemma far_down_RA (t : fame RA) (x : R) : f_history t <> 0%nat -> 0 <= f_step t -> x < f_median t - 2 * f_step t ->
  fame_update t x = Fame (f_median t - f_step t)%num (f_step t *. (of_Z 1 +. f_epsilon t))%num (f_epsilon t) (f_history t + 1).
Proof.
  intros Ht Hs Hx. unfold fame_update. apply Nat.eqb_neq in Ht. rewrite Ht. cbn [ltb RA negb andb add sub fabs].
  change (num RA) with R in * .
  replace (Rltb x (f_median t)) with true by (symmetry; apply Rltb_true; lra).
  rewrite Rabs_left1 by lra. replace (Rltb (- (x - (f_median t - f_step t))) (f_step t)) with false by (symmetry; apply Rltb_false; lra).
  reflexivity.
Qed.

Lemma far_run lo hi S K k xs ys : 0 <= S -> same_but_far (fun x : R => x) (fun x => lo <= x <= hi) (lo - K) (hi + K) k xs ys ->
  forall j t, INR (j + k) * S + 3 * S <= K ->
  inv (lo - INR j * S - S) (hi + INR j * S + S) S t ->
  fame_run t xs = fame_run t ys /\
  inv (lo - INR (j + k) * S - S) (hi + INR (j + k) * S + S) S (fame_run t xs).
Proof.
  intros HS. induction 1 as [|k x xs ys Hx H IH|k x y xs ys Hx Hy H IH|k x y xs ys Hx Hy H IH]; intros j t HK HI.
  - split; auto. cbn [fame_run fold_left]. rewrite Nat.add_0_r. exact HI.
  - apply IH; auto. pose proof (pos_INR j). eapply inv_in; eauto; nra.
  - replace (j + Datatypes.S k)%nat with (Datatypes.S j + k)%nat in * by lia.
    assert (Hj : INR j + 1 <= INR (Datatypes.S j + k)) by (rewrite plus_INR, S_INR; pose proof (pos_INR k); lra).
    assert (HjS : (INR j + 1) * S <= INR (Datatypes.S j + k) * S) by (apply Rmult_le_compat_r; auto).
    pose proof HI as (Ht & He & Hm & Hs). change (num RA) with R in * .
    assert (E : fame_update t x = fame_update t y) by (rewrite !far_up_RA by (auto; cbn in * ; lra); reflexivity).
    cbn [fame_run fold_left]. change (fold_left fame_update ys (fame_update t y)) with (fame_run (fame_update t y) ys).
    change (fold_left fame_update xs (fame_update t x)) with (fame_run (fame_update t x) xs). rewrite <- E.
    apply IH; auto. apply (inv_any _ _ _ _ x) in HI; auto. rewrite S_INR.
    replace (lo - (INR j + 1) * S - S) with (lo - INR j * S - S - S) by ring.
    replace (hi + (INR j + 1) * S + S) with (hi + INR j * S + S + S) by ring. exact HI.
  - replace (j + Datatypes.S k)%nat with (Datatypes.S j + k)%nat in * by lia.
    assert (Hj : INR j + 1 <= INR (Datatypes.S j + k)) by (rewrite plus_INR, S_INR; pose proof (pos_INR k); lra).
    assert (HjS : (INR j + 1) * S <= INR (Datatypes.S j + k) * S) by (apply Rmult_le_compat_r; auto).
    pose proof HI as (Ht & He & Hm & Hs). change (num RA) with R in * .
    assert (E : fame_update t x = fame_update t y) by (rewrite !far_down_RA by (auto; cbn in * ; lra); reflexivity).
    cbn [fame_run fold_left]. change (fold_left fame_update ys (fame_update t y)) with (fame_run (fame_update t y) ys).
    change (fold_left fame_update xs (fame_update t x)) with (fame_run (fame_update t x) xs). rewrite <- E.
    apply IH; auto. apply (inv_any _ _ _ _ x) in HI; auto. rewrite S_INR.
    replace (lo - (INR j + 1) * S - S) with (lo - INR j * S - S - S) by ring.
    replace (hi + (INR j + 1) * S + S) with (hi + INR j * S + S + S) by ring. exact HI.
Qed.

Lemma fame_far (step : R) s (x1 : R) (xs ys : list R) (lo hi : R) (k : nat) :
  fame_new (A := RA) step 0 = Ret s -> lo <= x1 <= hi ->
  let S := Rmax step (Rabs x1 / 2) in
  same_but_far (fun x : R => x) (fun x => lo <= x <= hi) (lo - (INR k + 3) * S) (hi + (INR k + 3) * S) k xs ys ->
  fame_run s (x1 :: xs) = fame_run s (x1 :: ys) /\
  lo - (INR k + 1) * S <= fame_evaluate (fame_run s (x1 :: xs)) <= hi + (INR k + 1) * S.
Proof.
  intros E Hx. cbv zeta. set (S := Rmax step (Rabs x1 / 2)). intros H. apply fame_new_fields in E.
  assert (HS : 0 <= S) by (unfold S; pose proof (Rmax_r step (Rabs x1 / 2)); pose proof (Rabs_pos x1); lra).
  destruct (fame_range_RA s x1 [] lo hi) as [H1 H2]; try (subst s; reflexivity); [constructor; auto|].
  assert (ES : Rmax (Rabs x1 / 2) (f_step s) = S) by (subst s; apply Rmax_comm). rewrite ES in H1, H2.
  destruct (far_run lo hi S _ k xs ys HS H 0 (fame_update s x1)) as [R1 R2].
  - cbn [Nat.add]. lra.
  - split; [apply hist_pos|]. split; [subst s; reflexivity|]. cbn [INR]. change (fame_run s [x1]) with (fame_update s x1) in * .
    change (num RA) with R in * . split; [lra|exact H2].
  - split; [exact R1|]. destruct R2 as (_ & _ & R2 & _). unfold fame_evaluate. cbn [Nat.add] in R2.
    change (fame_run s (x1 :: xs)) with (fame_run (fame_update s x1) xs). change (num RA) with R in * . lra.
Qed.

(** ** Doubles *)

Definition invB (V U S : R) (t : fame B64) : Prop :=
  f_history t <> 0%nat /\ (finite64 (f_epsilon t) = true /\ B2R (f_epsilon t) = 0) /\
  finite64 (f_median t) = true /\ - V <= B2R (f_median t) <= U /\
  finite64 (f_step t) = true /\ 0 <= B2R (f_step t) <= S.

Lemma fin_add (m st : double) (b : R) : finite64 m = true -> finite64 st = true ->
  rnd (B2R m + B2R st) <= b -> - b <= rnd (B2R m + B2R st) -> b <= bpow radix2 1023 ->
  finite64 (Badd m st) = true /\ B2R (Badd m st) = rnd (B2R m + B2R st).
Proof.
  intros Fm Fs H1 H2 H3. destruct (X_add m st Fm Fs) as [XS NS].
  assert (B3 : bpow radix2 1023 < big) by (apply bpow_lt; lia).
  unfold R64 in XS. rewrite sat_in in XS by (apply Rabs_lt; lra).
  assert (F : finite64 (Badd m st) = true) by (apply fin_X; auto; rewrite XS; apply Rabs_lt; lra).
  split; auto. now rewrite <- (X_fin _ F).
Qed.
Lemma fin_sub (m st : double) (b : R) : finite64 m = true -> finite64 st = true ->
  rnd (B2R m - B2R st) <= b -> - b <= rnd (B2R m - B2R st) -> b <= bpow radix2 1023 ->
  finite64 (Bsub m st) = true /\ B2R (Bsub m st) = rnd (B2R m - B2R st).
Proof.
  intros Fm Fs H1 H2 H3. destruct (X_sub m st Fm Fs) as [XS NS].
  assert (B3 : bpow radix2 1023 < big) by (apply bpow_lt; lia).
  unfold R64 in XS. rewrite sat_in in XS by (apply Rabs_lt; lra).
  assert (F : finite64 (Bsub m st) = true) by (apply fin_X; auto; rewrite XS; apply Rabs_lt; lra).
  split; auto. now rewrite <- (X_fin _ F).
Qed.

Lemma rnd_self (m : double) : rnd (B2R m) = B2R m.
Proof. apply rnd_fix, B2R_format. Qed.

(** The step after any update. *)
Lemma step_B64 (t : fame B64) (x : double) S : f_history t <> 0%nat ->
  finite64 (f_epsilon t) = true -> B2R (f_epsilon t) = 0 -> finite64 (f_step t) = true -> 0 <= B2R (f_step t) <= S ->
  finite64 (f_step (fame_update t x)) = true /\ 0 <= B2R (f_step (fame_update t x)) <= S.
Proof.
  intros Ht Fe Ee Fs Hs. apply Nat.eqb_neq in Ht. unfold fame_update. rewrite Ht. cbn.
  destruct (half_facts (f_step t) Fs) as [Fhs Ehs]. pose proof (half_le (f_step t) ltac:(lra)) as Hhs.
  destruct (Bltb (Babs _) (f_step t)).
  + destruct (grow_zero _ (f_epsilon t) Fhs Fe Ee) as [FG EG]. split; [exact FG|]. rewrite EG, Ehs. lra.
  + destruct (grow_zero _ (f_epsilon t) Fs Fe Ee) as [FG EG]. split; [exact FG|]. rewrite EG. lra.
Qed.

Lemma median_B64 (t : fame B64) (x : double) : f_history t <> 0%nat ->
  f_median (fame_update t x) =
  (if Bltb x (f_median t) then Bsub (f_median t) (f_step t)
   else if Bltb (f_median t) x then Badd (f_median t) (f_step t) else f_median t).
Proof. intros Ht. apply Nat.eqb_neq in Ht. unfold fame_update. rewrite Ht. reflexivity. Qed.

Lemma invB_in V U S lo hi t (x : double) : invB V U S t -> finite64 x = true -> lo <= B2R x <= hi ->
  rnd (hi + S) <= U -> rnd (- lo + S) <= V -> U <= bpow radix2 1023 -> V <= bpow radix2 1023 -> invB V U S (fame_update t x).
Proof.
  intros (Ht & (Fe & Ee) & Fm & Hm & Fs & Hs) Fx Hx HU HV BU BV.
  destruct (step_B64 t x S Ht Fe Ee Fs Hs) as [FS' HS']. unfold double in * .
  split; [apply hist_pos|]. split; [split; [exact Fe|exact Ee]|].
  enough (G : finite64 (f_median (fame_update t x)) = true /\ - V <= B2R (f_median (fame_update t x)) <= U) by tauto.
  clear FS' HS'. rewrite median_B64 by auto. set (m := f_median t) in * . set (st := f_step t) in * . clearbody m st. clear Ht Fe Ee t.
  destruct (Bltb x m) eqn:E1; [|destruct (Bltb m x) eqn:E2]; auto.
  - apply X_ltb in E1; auto using fin_nan. rewrite !X_fin in E1 by auto.
    assert (H1 : - V <= rnd (B2R m - B2R st)).
    { apply Rle_trans with (rnd (lo - S)); [|apply rnd_le; lra].
      replace (lo - S) with (- (- lo + S)) by ring. rewrite rnd_opp. lra. }
    assert (H2 : rnd (B2R m - B2R st) <= U).
    { apply Rle_trans with (rnd (B2R m)); [apply rnd_le; lra|]. rewrite rnd_self. lra. }
    destruct (fin_sub m st (bpow radix2 1023)) as [F E]; auto; try lra. rewrite E. auto.
  - apply X_ltb in E2; auto using fin_nan. rewrite !X_fin in E2 by auto.
    assert (H1 : rnd (B2R m + B2R st) <= U) by (apply Rle_trans with (rnd (hi + S)); [apply rnd_le; lra|auto]).
    assert (H2 : - V <= rnd (B2R m + B2R st)).
    { apply Rle_trans with (rnd (B2R m)); [rewrite rnd_self; lra|apply rnd_le; lra]. }
    destruct (fin_add m st (bpow radix2 1023)) as [F E]; auto; try lra. rewrite E. auto.
Qed.

Lemma invB_any V U S t (x : double) : invB V U S t -> rnd V = V -> rnd U = U ->
  rnd (U + S) <= bpow radix2 1023 -> rnd (V + S) <= bpow radix2 1023 -> invB (rnd (V + S)) (rnd (U + S)) S (fame_update t x).
Proof.
  intros (Ht & (Fe & Ee) & Fm & Hm & Fs & Hs) RV RU BU BV.
  destruct (step_B64 t x S Ht Fe Ee Fs Hs) as [FS' HS']. unfold double in * .
  split; [apply hist_pos|]. split; [split; [exact Fe|exact Ee]|].
  enough (G : finite64 (f_median (fame_update t x)) = true /\ - rnd (V + S) <= B2R (f_median (fame_update t x)) <= rnd (U + S)) by tauto.
  clear FS' HS'. rewrite median_B64 by auto. set (m := f_median t) in * . set (st := f_step t) in * . clearbody m st. clear Ht Fe Ee t.
  assert (HU : U <= rnd (U + S)) by (rewrite <- RU at 1; apply rnd_le; lra).
  assert (HV : V <= rnd (V + S)) by (rewrite <- RV at 1; apply rnd_le; lra).
  destruct (Bltb x m) eqn:E1; [|destruct (Bltb m x) eqn:E2]; [| |split; auto; lra].
  - assert (H1 : - rnd (V + S) <= rnd (B2R m - B2R st)) by (rewrite <- rnd_opp; apply rnd_le; lra).
    assert (H2 : rnd (B2R m - B2R st) <= rnd (U + S)).
    { apply Rle_trans with (rnd (B2R m)); [apply rnd_le; lra|]. rewrite rnd_self. lra. }
    destruct (fin_sub m st (bpow radix2 1023)) as [F E]; auto; try lra. rewrite E. auto.
  - assert (H1 : rnd (B2R m + B2R st) <= rnd (U + S)) by (apply rnd_le; lra).
    assert (H2 : - rnd (V + S) <= rnd (B2R m + B2R st)).
    { apply Rle_trans with (rnd (B2R m)); [rewrite rnd_self; lra|apply rnd_le; lra]. }
    destruct (fin_add m st (bpow radix2 1023)) as [F E]; auto; try lra. rewrite E. auto.
Qed.

(** A rounded difference of at least [S] is not below the step. *)
Lemma diff_far (x m1 st : double) (S : R) : nan x = false -> finite64 m1 = true -> finite64 st = true -> 0 <= B2R st <= S ->
  Rabs (B2R m1) <= bpow radix2 1023 ->
  (B2R m1 + S < X x \/ X x < B2R m1 - S) -> Bltb (Babs (Bsub x m1)) st = false.
Proof.
  intros Nx Fm Fs Hs Hm Hx. assert (B3 : bpow radix2 1023 < big) by (apply bpow_lt; lia).
  destruct (finite64 x) eqn:Fx.
  - destruct (X_sub x m1 Fx Fm) as [XS NS]. rewrite X_fin in Hx by auto.
    apply X_ltb_false; [|auto using fin_nan|].
    { destruct (Bsub x m1); auto. }
    rewrite X_abs, XS, R64_abs, (X_fin st) by auto. rewrite <- (R64_B2R st). apply R64_le.
    unfold Rabs. destruct (Rcase_abs _); lra.
  - destruct x as [|sx| |]; try discriminate Fx; try discriminate Nx.
    destruct m1 as [|? | |]; try discriminate Fm; cbn; destruct st as [? | ? | |? ? ? ?]; try discriminate Fs; reflexivity.
Qed.

Lemma fame_eta (t t' : fame B64) : f_median t = f_median t' -> f_step t = f_step t' -> f_epsilon t = f_epsilon t' ->
  f_history t = f_history t' -> t = t'.
Proof. destruct t, t'. cbn. intros. subst. reflexivity. Qed.

Lemma step_far (t : fame B64) (x : double) : f_history t <> 0%nat ->
  Bltb (Babs (Bsub x (f_median (fame_update t x)))) (f_step t) = false ->
  f_step (fame_update t x) = Bmul (f_step t) (Badd (Bz 1) (f_epsilon t)).
Proof.
  intros Ht. rewrite median_B64 by auto. apply Nat.eqb_neq in Ht. unfold fame_update. rewrite Ht. cbn.
  intros H. rewrite H. reflexivity.
Qed.

Lemma far_up_B64 V U S (t : fame B64) (x y : double) : invB V U S t -> rnd U = U -> rnd V = V ->
  rnd (U + S) <= bpow radix2 1023 -> V <= bpow radix2 1023 -> nan x = false -> nan y = false ->
  rnd (U + S) + S < X x -> rnd (U + S) + S < X y -> fame_update t x = fame_update t y.
Proof.
  intros (Ht & (Fe & Ee) & Fm & Hm & Fs & Hs) RU RV BU BV Nx Ny Hx Hy.
  assert (HU : U <= rnd (U + S)) by (rewrite <- RU at 1; apply rnd_le; lra).
  assert (BL : forall z, nan z = false -> rnd (U + S) + S < X z ->
             f_median (fame_update t z) = Badd (f_median t) (f_step t) /\
             f_step (fame_update t z) = Bmul (f_step t) (Badd (Bz 1) (f_epsilon t))).
  { intros z Nz Hz. assert (EM : f_median (fame_update t z) = Badd (f_median t) (f_step t)).
    { rewrite median_B64 by auto. unfold double in * .
      replace (Bltb z (f_median t)) with false by (symmetry; apply X_ltb_false; auto using fin_nan; rewrite (X_fin (f_median t)) by auto; lra).
      replace (Bltb (f_median t) z) with true by (symmetry; apply X_ltb; auto using fin_nan; rewrite (X_fin (f_median t)) by auto; lra).
      reflexivity. }
    split; auto. apply step_far; auto. rewrite EM. unfold double in * .
    assert (H1 : rnd (B2R (f_median t) + B2R (f_step t)) <= rnd (U + S)) by (apply rnd_le; lra).
    assert (H2 : - V <= rnd (B2R (f_median t) + B2R (f_step t))).
    { apply Rle_trans with (rnd (B2R (f_median t))); [rewrite rnd_self; lra|apply rnd_le; lra]. }
    destruct (fin_add (f_median t) (f_step t) (bpow radix2 1023)) as [F E]; auto; try lra.
    apply (diff_far _ _ _ S); auto; rewrite E; [apply Rabs_le; lra|left; lra]. }
  destruct (BL x Nx Hx) as [M1 S1], (BL y Ny Hy) as [M2 S2].
  apply fame_eta; try congruence; reflexivity.
Qed.

Lemma far_down_B64 V U S (t : fame B64) (x y : double) : invB V U S t -> rnd U = U -> rnd V = V ->
  U <= bpow radix2 1023 -> rnd (V + S) <= bpow radix2 1023 -> nan x = false -> nan y = false ->
  X x < - (rnd (V + S) + S) -> X y < - (rnd (V + S) + S) -> fame_update t x = fame_update t y.
Proof.
  intros (Ht & (Fe & Ee) & Fm & Hm & Fs & Hs) RU RV BU BV Nx Ny Hx Hy.
  assert (HV : V <= rnd (V + S)) by (rewrite <- RV at 1; apply rnd_le; lra).
  assert (BL : forall z, nan z = false -> X z < - (rnd (V + S) + S) ->
             f_median (fame_update t z) = Bsub (f_median t) (f_step t) /\
             f_step (fame_update t z) = Bmul (f_step t) (Badd (Bz 1) (f_epsilon t))).
  { intros z Nz Hz. assert (EM : f_median (fame_update t z) = Bsub (f_median t) (f_step t)).
    { rewrite median_B64 by auto. unfold double in * .
      replace (Bltb z (f_median t)) with true by (symmetry; apply X_ltb; auto using fin_nan; rewrite (X_fin (f_median t)) by auto; lra).
      reflexivity. }
    split; auto. apply step_far; auto. rewrite EM. unfold double in * .
    assert (H1 : - rnd (V + S) <= rnd (B2R (f_median t) - B2R (f_step t))) by (rewrite <- rnd_opp; apply rnd_le; lra).
    assert (H2 : rnd (B2R (f_median t) - B2R (f_step t)) <= U).
    { apply Rle_trans with (rnd (B2R (f_median t))); [apply rnd_le; lra|rewrite rnd_self; lra]. }
    destruct (fin_sub (f_median t) (f_step t) (bpow radix2 1023)) as [F E]; auto; try lra.
    apply (diff_far _ _ _ S); auto; rewrite E; [apply Rabs_le; lra|right; lra]. }
  destruct (BL x Nx Hx) as [M1 S1], (BL y Ny Hy) as [M2 S2].
  apply fame_eta; try congruence; reflexivity.
Qed.

Lemma climb_S S b j : climb S b (Datatypes.S j) = rnd (climb S b j + S).
Proof. reflexivity. Qed.
Lemma rnd_rnd r : rnd (rnd r) = rnd r.
Proof. apply rnd_fix, generic_format_round; auto with typeclass_instances. Qed.
Lemma climb_fix S b j : rnd (climb S b j) = climb S b j.
Proof. unfold climb. rewrite Nat.add_1_r. cbn [Nat.iter nat_rect]. apply rnd_rnd. Qed.
Lemma climb_le S b i j : 0 <= S -> (i <= j)%nat -> climb S b i <= climb S b j.
Proof.
  intros HS. induction 1 as [|j _ IH]; [lra|]. rewrite climb_S. apply Rle_trans with (climb S b j); auto.
  rewrite <- (climb_fix S b j) at 1. apply rnd_le. lra.
Qed.
Lemma climb_0 S b : climb S b 0 = rnd (b + S).
Proof. reflexivity. Qed.

Definition inB (lo hi : R) (x : double) : Prop := finite64 x = true /\ lo <= B2R x <= hi.

Lemma far_run_B64 lo hi S K k xs ys : 0 <= S -> 
  climb S hi K <= bpow radix2 1023 -> climb S (- lo) K <= bpow radix2 1023 ->
  same_but_far X (inB lo hi) (- (climb S (- lo) K + S)) (climb S hi K + S) k xs ys ->
  forall j t, (j + k < K)%nat -> Forall (fun x => nan x = false) xs -> Forall (fun x => nan x = false) ys ->
  invB (climb S (- lo) j) (climb S hi j) S t ->
  fame_run t xs = fame_run t ys /\
  invB (climb S (- lo) (j + k)) (climb S hi (j + k)) S (fame_run t xs).
Proof.
  intros HS BU BV. induction 1 as [|k x xs ys Hx H IH|k x y xs ys Hx Hy H IH|k x y xs ys Hx Hy H IH]; intros j t HK Nx Ny HI.
  - split; auto. cbn [fame_run fold_left]. rewrite Nat.add_0_r. exact HI.
  - apply Forall_cons_iff in Nx as [_ Nx]. apply Forall_cons_iff in Ny as [_ Ny]. destruct Hx as [Fx Hx]. apply IH; auto.
    pose proof (climb_le S hi j K HS ltac:(lia)). pose proof (climb_le S (- lo) j K HS ltac:(lia)).
    apply (invB_in _ _ _ lo hi); auto; try lra; rewrite <- climb_0; apply climb_le; auto; lia.
  - apply Forall_cons_iff in Nx as [Nx0 Nx]. apply Forall_cons_iff in Ny as [Ny0 Ny].
    replace (j + Datatypes.S k)%nat with (Datatypes.S j + k)%nat in * by lia.
    pose proof (climb_le S hi (Datatypes.S j) K HS ltac:(lia)) as C1. pose proof (climb_le S (- lo) (Datatypes.S j) K HS ltac:(lia)) as C2.
    pose proof (climb_le S (- lo) j K HS ltac:(lia)) as C3.
    rewrite climb_S in C1, C2.
    assert (E : fame_update t x = fame_update t y)
      by (apply (far_up_B64 _ _ S _ _ _ HI); auto using climb_fix; lra).
    cbn [fame_run fold_left]. change (fold_left fame_update ys (fame_update t y)) with (fame_run (fame_update t y) ys).
    change (fold_left fame_update xs (fame_update t x)) with (fame_run (fame_update t x) xs). rewrite <- E.
    apply IH; auto. apply (invB_any _ _ _ _ x) in HI; auto using climb_fix; lra.
  - apply Forall_cons_iff in Nx as [Nx0 Nx]. apply Forall_cons_iff in Ny as [Ny0 Ny].
    replace (j + Datatypes.S k)%nat with (Datatypes.S j + k)%nat in * by lia.
    pose proof (climb_le S hi (Datatypes.S j) K HS ltac:(lia)) as C1. pose proof (climb_le S (- lo) (Datatypes.S j) K HS ltac:(lia)) as C2.
    pose proof (climb_le S hi j K HS ltac:(lia)) as C3.
    rewrite climb_S in C1, C2.
    assert (E : fame_update t x = fame_update t y)
      by (apply (far_down_B64 _ _ S _ _ _ HI); auto using climb_fix; lra).
    cbn [fame_run fold_left]. change (fold_left fame_update ys (fame_update t y)) with (fame_run (fame_update t y) ys).
    change (fold_left fame_update xs (fame_update t x)) with (fame_run (fame_update t x) xs). rewrite <- E.
    apply IH; auto. apply (invB_any _ _ _ _ x) in HI; auto using climb_fix; lra.
Qed.

Lemma first_B64 (step : double) s (x1 : double) lo hi : fame_new (A := B64) step (Bz 0) = Ret s -> finite64 step = true ->
  inB lo hi x1 ->
  let S := Rmax (B2R step) (rnd (Rabs (B2R x1) / 2)) in invB (climb S (- lo) 0) (climb S hi 0) S (fame_update s x1).
Proof.
  intros E Fs [F1 R1]. cbv zeta. set (S := Rmax _ _). apply fame_new_fields in E. destruct zero_fin as [Fe Ee].
  assert (Fa : finite64 (Babs x1) = true) by (rewrite fin_abs; auto).
  assert (Ea : B2R (Babs x1) = Rabs (B2R x1)) by (rewrite <- (X_fin _ Fa), X_abs, X_fin; auto).
  destruct (half_facts (Babs x1) Fa) as [Fh Eh]. rewrite Ea in Eh.
  pose proof (half_le (Babs x1)) as Hhl. rewrite Ea in Hhl. specialize (Hhl (Rabs_pos _)).
  assert (HS : 0 <= S) by (unfold S; pose proof (Rmax_r (B2R step) (rnd (Rabs (B2R x1) / 2))); lra).
  assert (M : finite64 (max_ (A := B64) (Bquot (Babs x1) (Bz 2)) step) = true /\
              B2R (max_ (A := B64) (Bquot (Babs x1) (Bz 2)) step) = S).
  { unfold max_. cbn. destruct (Bltb _ step) eqn:E1.
    - apply X_ltb in E1; auto using fin_nan. rewrite !X_fin, Eh in E1 by auto. split; auto. unfold S. rewrite Rmax_left; auto; lra.
    - apply X_ltb_false in E1; auto using fin_nan. rewrite !X_fin, Eh in E1 by auto. split; auto. unfold S. rewrite Eh, Rmax_right; auto; lra. }
  destruct M as [FM EM]. destruct (grow_zero _ (Bz 0) FM Fe Ee) as [FG EG].
  split; [apply hist_pos|]. subst s. split; [split; [exact Fe|exact Ee]|].
  rewrite (fame_first (A := B64) Bltb_irrefl) by auto. split; [exact F1|]. split.
  - rewrite !climb_0. split.
    + rewrite <- rnd_opp, <- (rnd_self x1). apply rnd_le. lra.
    + rewrite <- (rnd_self x1). apply rnd_le. lra.
  - split; [exact FG|].
    assert (G : f_step (fame_update (Fame (A := B64) (of_Z 0) step (Bz 0) 0) x1) = Bmul (max_ (A := B64) (Bquot (Babs x1) (Bz 2)) step) (Badd (Bz 1) (Bz 0))) by reflexivity.
    unfold double in * . rewrite G, EG, EM. lra.
Qed.

Lemma fame_far_double (step : double) s (x1 : double) (xs ys : list double) (lo hi : R) (k : nat) :
  fame_new (A := B64) step (Bz 0) = Ret s -> finite64 step = true -> inB lo hi x1 ->
  let S := Rmax (B2R step) (rnd (Rabs (B2R x1) / 2)) in
  climb S hi (k + 1) <= bpow radix2 1023 -> climb S (- lo) (k + 1) <= bpow radix2 1023 ->
  Forall (fun x => nan x = false) xs -> Forall (fun x => nan x = false) ys ->
  same_but_far X (inB lo hi) (- (climb S (- lo) (k + 1) + S)) (climb S hi (k + 1) + S) k xs ys ->
  fame_run s (x1 :: xs) = fame_run s (x1 :: ys) /\
  finite64 (fame_evaluate (fame_run s (x1 :: xs))) = true /\
  - climb S (- lo) k <= B2R (fame_evaluate (fame_run s (x1 :: xs))) <= climb S hi k.
Proof.
  intros E Fs H1. cbv zeta. intros BU BV Nx Ny H.
  pose proof (first_B64 step s x1 lo hi E Fs H1) as I. cbv zeta in I. set (S := Rmax (B2R step) _) in * .
  assert (HS : 0 <= S) by (destruct I as (_ & _ & _ & _ & _ & I); lra).
  destruct (far_run_B64 lo hi S (k + 1) k xs ys HS BU BV H 0 (fame_update s x1) ltac:(lia) Nx Ny I) as [R1 R2].
  split; [exact R1|]. destruct R2 as (_ & _ & F & R2 & _). split; [exact F|exact R2].
Qed.

(** ** StreamingMAD, exact *)

Lemma mad_far_run lo hi S D K N k xs ys : 0 <= S ->
  same_but_far (fun x : R => x) (fun x => lo <= x <= hi) (lo - K) (hi + K) k xs ys ->
  hi - lo + (INR N + 1) * S <= D -> D + (INR N + 1) * S + (INR N + 3) * (1 / 10) <= K -> (INR N + 3) * S <= K ->
  forall j (t : mad RA), (j + k <= N)%nat ->
  inv (lo - INR j * S - S) (hi + INR j * S + S) S (a_score t) ->
  inv (- INR j * (1 / 10) - 1 / 10) (D + INR j * (1 / 10) + 1 / 10) (1 / 10) (a_error t) ->
  mad_run t xs = mad_run t ys /\
  inv (- INR (j + k) * (1 / 10) - 1 / 10) (D + INR (j + k) * (1 / 10) + 1 / 10) (1 / 10) (a_error (mad_run t xs)).
Proof.
  intros HS H HD HK1 HK2.
  assert (NN : 0 <= INR N) by apply pos_INR.
  induction H as [|k x xs ys Hx H IH|k x y xs ys Hx Hy H IH|k x y xs ys Hx Hy H IH]; intros j t HN HI HE.
  - split; auto. rewrite Nat.add_0_r. exact HE.
  - assert (Hj : INR j <= INR N) by (apply le_INR; lia). assert (HjS : INR j * S <= INR N * S) by (apply Rmult_le_compat_r; auto).
    pose proof (pos_INR j) as Pj. assert (0 <= INR j * S) by (apply Rmult_le_pos; auto).
    cbn [mad_run fold_left]. apply IH; auto; cbn [mad_update a_score a_error].
    + apply (inv_in _ _ _ lo hi); auto; nra.
    + assert (HI' : inv (lo - INR j * S - S) (hi + INR j * S + S) S (fame_update (a_score t) x)) by (apply (inv_in _ _ _ lo hi); auto; nra).
      destruct HI' as (_ & _ & Hm & _).
      assert (Hd : 0 <= fabs (a := RA) (x - fame_evaluate (fame_update (a_score t) x)) <= D).
      { cbn [fabs RA]. split; [apply Rabs_pos|]. unfold fame_evaluate. change (num RA) with R in * . apply Rabs_le. nra. }
      apply (inv_in _ _ _ 0 D); auto; lra.
  - replace (j + Datatypes.S k)%nat with (Datatypes.S j + k)%nat in * by lia.
    assert (Hj : INR j + 1 <= INR N) by (rewrite <- S_INR; apply le_INR; lia).
    assert (HjS : (INR j + 1) * S <= INR N * S) by (apply Rmult_le_compat_r; auto).
    pose proof HI as (Ht & He & Hm & Hs).
    pose proof (pos_INR j) as Pj. assert (0 <= INR j * S) by (apply Rmult_le_pos; auto).
    assert (E : fame_update (a_score t) x = fame_update (a_score t) y).
    { rewrite !far_up_RA; auto; change (num RA) with R in * ; try lra. }
    pose proof (inv_any _ _ _ _ x HI HS) as HI'. pose proof HI' as (_ & _ & Hm' & _).
    assert (E' : mad_update t x = mad_update t y).
    { unfold mad_update. rewrite <- E. f_equal. destruct HE as (Hte & Hee & Hme & Hse).
      unfold fame_evaluate. change (num RA) with R in * . cbn [fabs sub RA].
      rewrite !far_up_RA; auto; change (num RA) with R in * ; try lra.
      all: eapply Rlt_le_trans; [|apply Rle_abs]; lra. }
    cbn [mad_run fold_left]. rewrite <- E'. apply IH; [lia| |].
    + cbn [mad_update a_score]. rewrite S_INR.
      replace (lo - (INR j + 1) * S - S) with (lo - INR j * S - S - S) by ring.
      replace (hi + (INR j + 1) * S + S) with (hi + INR j * S + S + S) by ring. exact HI'.
    + cbn [mad_update a_error]. rewrite S_INR.
      eapply (inv_any _ _ _ _ (fabs (a := RA) (x - fame_evaluate (fame_update (a_score t) x)))) in HE; [|lra].
      replace (- (INR j + 1) * (1 / 10) - 1 / 10) with (- INR j * (1 / 10) - 1 / 10 - 1 / 10) by ring.
      replace (D + (INR j + 1) * (1 / 10) + 1 / 10) with (D + INR j * (1 / 10) + 1 / 10 + 1 / 10) by ring. exact HE.
  - replace (j + Datatypes.S k)%nat with (Datatypes.S j + k)%nat in * by lia.
    assert (Hj : INR j + 1 <= INR N) by (rewrite <- S_INR; apply le_INR; lia).
    assert (HjS : (INR j + 1) * S <= INR N * S) by (apply Rmult_le_compat_r; auto).
    pose proof HI as (Ht & He & Hm & Hs).
    pose proof (pos_INR j) as Pj. assert (0 <= INR j * S) by (apply Rmult_le_pos; auto).
    assert (E : fame_update (a_score t) x = fame_update (a_score t) y).
    { rewrite !far_down_RA; auto; change (num RA) with R in * ; try lra. }
    pose proof (inv_any _ _ _ _ x HI HS) as HI'. pose proof HI' as (_ & _ & Hm' & _).
    assert (E' : mad_update t x = mad_update t y).
    { unfold mad_update. rewrite <- E. f_equal. destruct HE as (Hte & Hee & Hme & Hse).
      unfold fame_evaluate. change (num RA) with R in * . cbn [fabs sub RA].
      rewrite !far_up_RA; auto; change (num RA) with R in * ; try lra.
      all: rewrite <- Rabs_Ropp; eapply Rlt_le_trans; [|apply Rle_abs]; lra. }
    cbn [mad_run fold_left]. rewrite <- E'. apply IH; [lia| |].
    + cbn [mad_update a_score]. rewrite S_INR.
      replace (lo - (INR j + 1) * S - S) with (lo - INR j * S - S - S) by ring.
      replace (hi + (INR j + 1) * S + S) with (hi + INR j * S + S + S) by ring. exact HI'.
    + cbn [mad_update a_error]. rewrite S_INR.
      eapply (inv_any _ _ _ _ (fabs (a := RA) (x - fame_evaluate (fame_update (a_score t) x)))) in HE; [|lra].
      replace (- (INR j + 1) * (1 / 10) - 1 / 10) with (- INR j * (1 / 10) - 1 / 10 - 1 / 10) by ring.
      replace (D + (INR j + 1) * (1 / 10) + 1 / 10) with (D + INR j * (1 / 10) + 1 / 10 + 1 / 10) by ring. exact HE.
Qed.

Lemma mad_far s (x1 : R) (xs ys : list R) (lo hi : R) (k : nat) :
  mad_new (A := RA) = Ret s -> lo <= x1 <= hi ->
  let S := Rmax (1 / 10) (Rabs x1 / 2) in
  let K := hi - lo + (2 * INR k + 4) * S + (INR k + 3) * (1 / 10) in
  same_but_far (fun x : R => x) (fun x => lo <= x <= hi) (lo - K) (hi + K) k xs ys ->
  mad_run s (x1 :: xs) = mad_run s (x1 :: ys) /\
  mad_evaluate (mad_run s (x1 :: xs)) <= hi - lo + (INR k + 1) * S + (INR k + 1) * (1 / 10).
Proof.
  intros E Hx. cbv zeta. set (S := Rmax (1 / 10) (Rabs x1 / 2)). intros H.
  assert (E0 : s = Mad (A := RA) (Fame (A := RA) 0 (1 / 10) 0 0) (Fame (A := RA) 0 (1 / 10) 0 0) 0).
  { unfold mad_new, fame_new in E. cbn [ltb leb RA of_Z lit] in E.
    replace (Rltb 0 0) with false in E by (symmetry; apply Rltb_false; lra).
    replace (Rleb 1 0) with false in E by (symmetry; apply Rleb_false; lra). cbn in E. injection E as <-. reflexivity. }
  assert (HS : 0 <= S) by (unfold S; pose proof (Rmax_l (1 / 10) (Rabs x1 / 2)); lra).
  assert (I1 : inv (lo - INR 0 * S - S) (hi + INR 0 * S + S) S (a_score (mad_update s x1))).
  { subst s. cbn [mad_update a_score].
    destruct (fame_range_RA (Fame (A := RA) 0 (1 / 10) 0 0) x1 [] lo hi) as [H1 H2]; auto.
    cbn [f_step] in H1, H2. rewrite Rmax_comm in H1, H2. fold S in H1, H2.
    split; [apply hist_pos|]. split; [reflexivity|]. cbn [INR]. change (fame_run ?z [x1]) with (fame_update z x1) in H1, H2.
    change (num RA) with R in * . split; [lra|exact H2]. }
  assert (I2 : inv (- INR 0 * (1 / 10) - 1 / 10) (hi - lo + (INR k + 1) * S + INR 0 * (1 / 10) + 1 / 10) (1 / 10) (a_error (mad_update s x1))).
  { subst s. unfold mad_update. cbn [a_error a_score]. unfold fame_evaluate. rewrite (fame_first (A := RA) Rltb_irrefl) by auto.
    change (fabs (a := RA) (sub (a := RA) x1 x1)) with (Rabs (x1 - x1)). replace (x1 - x1) with 0 by ring. rewrite Rabs_R0.
    destruct (fame_range_RA (Fame (A := RA) 0 (1 / 10) 0 0) 0 [] 0 0) as [H1 H2]; auto.
    { constructor; auto. lra. }
    cbn [f_step] in H1, H2. rewrite Rabs_R0 in H1, H2. replace (Rmax (0 / 2) (1 / 10)) with (1 / 10) in H1, H2 by (rewrite Rmax_right; lra).
    split; [apply hist_pos|]. split; [reflexivity|]. cbn [INR]. change (fame_run ?z [0]) with (fame_update z 0) in H1, H2.
    pose proof (pos_INR k). assert (0 <= (INR k + 1) * S) by (apply Rmult_le_pos; lra).
    change (num RA) with R in * . split; [lra|exact H2]. }
  pose proof (pos_INR k) as Pk. assert (0 <= INR k * S) by (apply Rmult_le_pos; lra).
  destruct (mad_far_run lo hi S (hi - lo + (INR k + 1) * S) _ k k xs ys HS H) with (j := 0%nat) (t := mad_update s x1) as [R1 R2];
    auto; try lra.
  split; [exact R1|]. destruct R2 as (_ & _ & R2 & _). cbn [Nat.add] in R2. unfold mad_evaluate, fame_evaluate.
  change (mad_run s (x1 :: xs)) with (mad_run (mad_update s x1) xs). change (num RA) with R in * . lra.
Qed.

(** ** Data for the examples *)

Lemma rnd_Z z : (Z.abs z <= 2 ^ 53)%Z -> rnd (IZR z) = IZR z.
Proof. intros H. destruct (Bz_exact z) as [E _]; [lia|]. rewrite <- E. apply rnd_self. Qed.

Lemma far_data : same_but_far (fun x : R => x) (fun x => 0 <= x <= 2) (0 - (INR 1 + 3) * 1) (2 + (INR 1 + 3) * 1) 1 [1; 7; 2] [1; 1000000; 2].
Proof. cbn [INR]. repeat (constructor; try lra). Qed.

Lemma far_data_mad : same_but_far (fun x : R => x) (fun x => 0 <= x <= 2) (0 - 10) (2 + 10) 1 [1; -20; 2] [1; -3000; 2].
Proof. apply far_in; [lra|]. apply far_down; try lra. repeat (constructor; try lra). Qed.

Lemma climb_data : climb 1 2 2 = 5 /\ climb 1 (- 0) 2 = 3.
Proof.
  unfold climb. cbn [Nat.add Nat.iter nat_rect].
  replace (- 0 + 1) with 1 by ring. rewrite (rnd_Z 1) by lia.
  replace (1 + 1) with 2 by ring. rewrite (rnd_Z 2) by lia.
  replace (2 + 1) with 3 by ring. rewrite (rnd_Z 3) by lia.
  replace (3 + 1) with 4 by ring. rewrite (rnd_Z 4) by lia.
  replace (4 + 1) with 5 by ring. rewrite (rnd_Z 5) by lia. auto.
Qed.

Lemma far_data_double :
  Rmax (B2R (Bz 1)) (rnd (Rabs (B2R (Bz 2)) / 2)) = 1 /\
  same_but_far X (inB 0 2) (- (climb 1 (- 0) 2 + 1)) (climb 1 2 2 + 1) 1 [Bz 0; Bz 7; Bz 2] [Bz 0; B754_infinity false; Bz 2] /\
  climb 1 2 2 <= bpow radix2 1023 /\ climb 1 (- 0) 2 <= bpow radix2 1023.
Proof.
  destruct climb_data as [-> ->].
  destruct (Bz_exact 0) as [E0 F0]; [lia|]. destruct (Bz_exact 1) as [E1 F1]; [lia|]. destruct (Bz_exact 2) as [E2 F2]; [lia|].
  destruct (Bz_exact 7) as [E7 F7]; [lia|].
  assert (HB : 8 <= bpow radix2 1023) by (change 8 with (bpow radix2 3); apply bpow_le; lia).
  split; [|split; [|lra]].
  - rewrite E1, E2, Rabs_pos_eq by lra. replace (2 / 2) with 1 by field. rewrite (rnd_Z 1) by lia. apply Rmax_left. lra.
  - apply far_in; [split; auto; rewrite E0; lra|]. apply far_up.
    + rewrite X_fin, E7 by auto. lra.
    + unfold X. assert (bpow radix2 1023 < big) by (apply bpow_lt; lia). lra.
    + apply far_in; [split; auto; rewrite E2; lra|]. constructor.
Qed.

(** The first observation sets the step: its size matters. *)
Lemma first_matters : exists s, fame_new (A := B64) (lit 1 10) (Bz 0) = Ret s /\
  Beqb (fame_evaluate (fame_run s (map Bz [1000; 0]%Z : list B64))) (fame_evaluate (fame_run s (map Bz [2000; 0]%Z : list B64))) = false.
Proof.
  assert (H : P2Witness.ok (fame_new (A := B64) (lit 1 10) (Bz 0)) (fun s => negb
    (Beqb (fame_evaluate (fame_run s (map Bz [1000; 0]%Z : list B64))) (fame_evaluate (fame_run s (map Bz [2000; 0]%Z : list B64))))) = true)
    by (vm_compute; reflexivity).
  apply P2Witness.ok_true in H as (s & E & H). apply negb_true_iff in H. eauto.
Qed.
