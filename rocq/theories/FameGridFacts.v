(** WindowedFAME on a grid: the doubles compute what exact arithmetic does. *)

From Coq Require Import List Reals ZArith Lra Lia Bool Arith.
From Flocq Require Import Core.Core IEEE754.BinarySingleNaN.
From Verif Require Import Outcome Arith Fame FameSpec FloatSpec GridSpec ListFacts FloatFacts FameFacts GridFacts.
Import ListNotations.
Open Scope R_scope.

Lemma grid_trim g K D r : on_grid g K r -> Rabs r <= IZR D * bpow radix2 g -> on_grid g D r.
Proof.
  intros (m & Hm & ->) H. exists m. split; auto. rewrite Rabs_mult, (Rabs_pos_eq (bpow radix2 g)) in H by apply bpow_ge_0.
  apply Rmult_le_reg_r in H; [|apply bpow_gt_0]. rewrite <- abs_IZR in H. now apply le_IZR.
Qed.

Lemma grid_up g B (j : nat) r : on_grid g B r -> on_grid g (B * 2 ^ Z.of_nat j) (r * 2 ^ j).
Proof.
  intros (m & Hm & ->). exists (m * 2 ^ Z.of_nat j)%Z. split; [pose proof (Z.pow_pos_nonneg 2 (Z.of_nat j)); nia|].
  rewrite mult_IZR, <- pow_IZR. ring.
Qed.

(** One update after the first, over the reals with epsilon 0. *)
Definition stepR (m s x : R) : R * R :=
  let m1 := if Rlt_dec x m then m - s else if Rlt_dec m x then m + s else m in
  (m1, if Rlt_dec (Rabs (x - m1)) s then s / 2 else s).

Lemma update_RA (t : fame RA) (x : R) : (0 < f_history t)%nat -> f_epsilon t = 0 ->
  fame_update t x = Fame (A := RA) (fst (stepR (f_median t) (f_step t) x)) (snd (stepR (f_median t) (f_step t) x)) 0 (f_history t + 1).
Proof.
  intros Hh He. unfold fame_update. rewrite He. destruct (Nat.eqb_spec (f_history t) 0) as [L|_]; [lia|].
  generalize (f_median t). generalize (f_step t). change (num RA) with R. intros s m. unfold stepR. cbn.
  unfold Rltb. destruct (Rlt_dec x m), (Rlt_dec m x); cbn; destruct (Rlt_dec _ s); cbn; f_equal; try lra; ring.
Qed.

Lemma run_RA_step xs : forall t : fame RA, (0 < f_history t)%nat -> f_epsilon t = 0 ->
  exists j : nat, (j <= length xs)%nat /\ f_step t = f_step (fame_run t xs) * 2 ^ j.
Proof.
  induction xs as [|x xs IH]; intros t Hh He.
  - exists 0%nat. split; [auto|]. cbn. change (num RA) with R. lra.
  - unfold fame_run. cbn [fold_left]. fold (fame_run (fame_update t x) xs). rewrite (update_RA t x Hh He).
    destruct (IH (Fame (A := RA) (fst (stepR (f_median t) (f_step t) x)) (snd (stepR (f_median t) (f_step t) x)) 0 (f_history t + 1))) as (j & Hj & Ej).
    { cbn. lia. } { reflexivity. }
    change (snd (stepR (f_median t) (f_step t) x) = f_step (fame_run (Fame (A := RA) (fst (stepR (f_median t) (f_step t) x)) (snd (stepR (f_median t) (f_step t) x)) 0 (f_history t + 1)) xs) * 2 ^ j) in Ej.
    revert Ej. generalize (f_step (fame_run (Fame (A := RA) (fst (stepR (f_median t) (f_step t) x)) (snd (stepR (f_median t) (f_step t) x)) 0 (f_history t + 1)) xs)).
    generalize (f_step t). change (num RA) with R. intros s f Ej. unfold stepR in Ej. cbn [snd fst] in Ej.
    destruct (Rlt_dec _ s).
    + exists (Datatypes.S j). split; [exact (le_n_S _ _ Hj)|]. cbn [pow]. lra.
    + exists j. split; [exact (le_S _ _ Hj)|]. exact Ej.
Qed.

(** The states correspond. *)
Record same (sd : fame B64) (sr : fame RA) : Prop := {
  sm_fm : finite64 (f_median sd) = true;
  sm_fs : finite64 (f_step sd) = true;
  sm_m : B2R (f_median sd) = f_median sr;
  sm_s : B2R (f_step sd) = f_step sr;
  sm_e : f_epsilon sd = Bz 0;
  sm_e' : f_epsilon sr = 0;
  sm_h : f_history sd = f_history sr;
  sm_p : (0 < f_history sr)%nat }.

Lemma ltb_fin (x y : double) : finite64 x = true -> finite64 y = true -> Bltb x y = if Rlt_dec (B2R x) (B2R y) then true else false.
Proof.
  intros Fx Fy. assert (Nx : nan x = false) by (destruct x; try discriminate Fx; reflexivity).
  assert (Ny : nan y = false) by (destruct y; try discriminate Fy; reflexivity).
  pose proof (X_ltb x y Nx Ny) as H. rewrite !X_fin in H by auto. destruct (Rlt_dec (B2R x) (B2R y)) as [L|L].
  - now apply H.
  - destruct (Bltb x y); auto. exfalso. apply L. now apply H.
Qed.

Lemma sim_step g B C sd sr (x : double) : (-1074 <= g <= 970)%Z -> (0 <= B)%Z -> (0 <= C)%Z -> (2 * B + 2 * C <= 2 ^ 53)%Z ->
  same sd sr -> grid g B x -> on_grid g (B + C) (f_median sr) -> on_grid g C (f_step sr) -> 0 <= f_step sr ->
  on_grid g C (f_step (fame_update sr (B2R x))) ->
  same (fame_update sd x) (fame_update sr (B2R x)) /\ on_grid g (B + C) (f_median (fame_update sr (B2R x))) /\
  0 <= f_step (fame_update sr (B2R x)).
Proof.
  intros Hg HB HC HBC. assert (Q1 : (B + C <= 2 ^ 53)%Z) by lia. assert (Q2 : (C <= 2 ^ 53)%Z) by lia.
  intros [Fm Fs Em Es Ee Ee' Eh Hp] [Fx Gx] Gm Gs Ps Gf.
  rewrite (update_RA sr (B2R x) Hp Ee') in * . cbn [f_median f_step] in * .
  unfold fame_update. rewrite Ee. destruct (Nat.eqb_spec (f_history sd) 0) as [L|_]; [lia|].
  cbn [negb andb]. revert Fm Fs Em Es Gm Gs Ps Gf.
  generalize (f_median sd) as m, (f_step sd) as s, (f_median sr) as mr, (f_step sr) as sr'. change (num RA) with R. change (num B64) with double.
  intros m s mr sr' Fm Fs Em Es Gm Gs Ps Gf. subst mr sr'. unfold stepR in Gf |- * . cbn [fst snd] in * .
  change (@ltb B64) with (@Bltb 53 1024). change (@sub B64) with Bsub. change (@add B64) with Badd.
  change (@div B64) with Bquot. change (@mul B64) with Bmul. change (@of_Z B64) with Bz. change (@fabs B64) with (@Babs 53 1024).
  rewrite (ltb_fin x m Fx Fm), (ltb_fin m x Fm Fx).
  assert (PB : 0 < bpow radix2 g) by apply bpow_gt_0.
  assert (Bx : Rabs (B2R x) <= IZR B * bpow radix2 g).
  { destruct Gx as (k & Hk & ->). rewrite Rabs_mult, (Rabs_pos_eq (bpow radix2 g)) by lra. apply Rmult_le_compat_r; [lra|]. rewrite <- abs_IZR. now apply IZR_le. }
  assert (Bs : Rabs (B2R s) <= IZR C * bpow radix2 g).
  { destruct Gs as (k & Hk & ->). rewrite Rabs_mult, (Rabs_pos_eq (bpow radix2 g)) by lra. apply Rmult_le_compat_r; [lra|]. rewrite <- abs_IZR. now apply IZR_le. }
  assert (Bm : Rabs (B2R m) <= (IZR B + IZR C) * bpow radix2 g).
  { destruct Gm as (k & Hk & ->). rewrite Rabs_mult, (Rabs_pos_eq (bpow radix2 g)) by lra. apply Rmult_le_compat_r; [lra|]. rewrite <- abs_IZR, <- plus_IZR. now apply IZR_le. }
  apply Rabs_le_inv in Bx, Bs, Bm.
  set (md := if (if Rlt_dec (B2R x) (B2R m) then true else false) then Bsub m s
             else if (if Rlt_dec (B2R m) (B2R x) then true else false) then Badd m s else m).
  set (mr := if Rlt_dec (B2R x) (B2R m) then B2R m - B2R s else if Rlt_dec (B2R m) (B2R x) then B2R m + B2R s else B2R m) in * .
  assert (Gmr : on_grid g (B + C) mr).
  { apply (grid_trim g (B + C + C)).
    - unfold mr. destruct (Rlt_dec (B2R x) (B2R m)); [|destruct (Rlt_dec (B2R m) (B2R x))].
      + unfold Rminus. apply grid_add; auto. now apply grid_neg.
      + now apply grid_add.
      + apply (grid_le _ (B + C)); auto. lia.
    - rewrite plus_IZR. apply Rabs_le. unfold mr. destruct (Rlt_dec (B2R x) (B2R m)); [|destruct (Rlt_dec (B2R m) (B2R x))]; nra. }
  assert (Emd : finite64 md = true /\ B2R md = mr).
  { pose proof (grid_exact g mr Hg (grid_le _ _ (2 ^ 53) _ Q1 Gmr)) as Gx'. unfold md, mr in * .
    destruct (Rlt_dec (B2R x) (B2R m)); [|destruct (Rlt_dec (B2R m) (B2R x))].
    - destruct (X_sub m s Fm Fs) as [HX Hn]. exact (op_exact _ _ HX Hn Gx').
    - destruct (X_add m s Fm Fs) as [HX Hn]. exact (op_exact _ _ HX Hn Gx').
    - auto. }
  destruct Emd as [Fmd Emd]. clearbody md mr.
  assert (Gd : on_grid g (2 ^ 53) (B2R x - mr)).
  { apply (grid_le g (B + (B + C))); [lia|]. unfold Rminus. apply grid_add; auto. now apply grid_neg. }
  destruct (X_sub x md Fx Fmd) as [HX Hn]. rewrite Emd in HX. destruct (op_exact _ _ HX Hn (grid_exact g _ Hg Gd)) as [Fd Ed].
  assert (Fa : finite64 (Babs (Bsub x md)) = true /\ B2R (Babs (Bsub x md)) = Rabs (B2R x - mr)).
  { split; [|rewrite B2R_Babs; now f_equal]. unfold finite64 in * . now rewrite is_finite_Babs. }
  destruct Fa as [Fa Ea]. rewrite (ltb_fin _ _ Fa Fs), Ea.
  destruct (Bz_exact 2) as [E2 F2]; [lia|]. 
  set (t := if (if Rlt_dec (Rabs (B2R x - mr)) (B2R s) then true else false) then Bquot s (Bz 2) else s).
  set (tr := if Rlt_dec (Rabs (B2R x - mr)) (B2R s) then B2R s / 2 else B2R s) in * .
  assert (Et : finite64 t = true /\ B2R t = tr).
  { pose proof (grid_exact g tr Hg (grid_le _ _ (2 ^ 53) _ Q2 Gf)) as Gx'. unfold t, tr in * .
    destruct (Rlt_dec (Rabs (B2R x - mr)) (B2R s)); auto.
    destruct (X_div s (Bz 2) Fs F2) as [HX3 Hn3]; [rewrite E2; lra|]. rewrite E2 in HX3. exact (op_exact _ _ HX3 Hn3 Gx'). }
  assert (Pt : 0 <= tr) by (unfold tr; destruct (Rlt_dec _ _); lra).
  destruct Et as [Ft Et]. clearbody t tr.
  assert (E1 : Badd (Bz 1) (Bz 0) = Bz 1) by (apply B2SF_inj; vm_compute; reflexivity).
  rewrite E1. destruct (Bz_exact 1) as [V1 F1]; [lia|]. destruct (X_mul t (Bz 1) Ft F1) as [HX4 Hn4]. rewrite Et, V1, Rmult_1_r in HX4.
  destruct (op_exact _ _ HX4 Hn4 (grid_exact g _ Hg (grid_le _ _ (2 ^ 53) _ Q2 Gf))) as [F4 E4].
  split; [|split; auto]. constructor; cbn [f_median f_step f_epsilon f_history]; auto; lia.
Qed.

Lemma sim_run g B C (xs : list double) : (-1074 <= g <= 970)%Z -> (0 <= B)%Z -> (0 <= C)%Z -> (2 * B + 2 * C <= 2 ^ 53)%Z ->
  Forall (grid g B) xs -> forall sd sr, same sd sr -> on_grid g (B + C) (f_median sr) -> on_grid g C (f_step sr) -> 0 <= f_step sr ->
  (exists K, on_grid g K (f_step (fame_run sr (map B2R xs : list RA)))) ->
  same (fame_run sd xs) (fame_run sr (map B2R xs : list RA)).
Proof.
  intros Hg HB HC HBC HF. induction HF as [|x xs Hx HF IH]; intros sd sr HS Gm Gs Ps GK.
  - exact HS.
  - unfold fame_run in * . cbn [fold_left map] in * .
    assert (Gf : on_grid g C (f_step (fame_update sr (B2R x)))).
    { destruct GK as (K & GK). fold (fame_run (A := RA)) in GK. destruct HS as [_ _ _ _ _ He _ Hp].
      destruct (run_RA_step (map B2R xs : list RA) (fame_update sr (B2R x : RA))) as (j & _ & Ej).
      { rewrite update_RA by auto. cbn. lia. } { rewrite update_RA by auto. reflexivity. }
      apply (grid_trim g (K * 2 ^ Z.of_nat j)); [rewrite Ej; now apply grid_up|].
      assert (Bs : Rabs (f_step sr) <= IZR C * bpow radix2 g).
      { destruct Gs as (k & Hk & ->). rewrite Rabs_mult, (Rabs_pos_eq (bpow radix2 g)) by apply bpow_ge_0. apply Rmult_le_compat_r; [apply bpow_ge_0|]. rewrite <- abs_IZR. now apply IZR_le. }
      rewrite update_RA by auto. cbn [f_step]. revert Ps Bs. generalize (f_step sr), (f_median sr). change (num RA) with R. intros s m Ps Bs.
      unfold stepR. cbn [fst snd]. rewrite Rabs_pos_eq in Bs by auto. destruct (Rlt_dec _ s); rewrite Rabs_pos_eq; lra. }
    destruct (sim_step g B C sd sr x Hg HB HC HBC HS Hx Gm Gs Ps Gf) as (HS' & Gm' & Ps').
    apply IH; auto.
Qed.

(** The first observation. *)
Lemma first_same g B C (step x : double) : (-1073 <= g <= 970)%Z -> (0 <= B)%Z -> (0 <= C)%Z -> (2 * B + 2 * C <= 2 ^ 53)%Z ->
  finite64 step = true -> grid g B x -> on_grid g C (Rmax (Rabs (B2R x) / 2) (B2R step)) ->
  let sd := fame_update (Fame (A := B64) (Bz 0) step (Bz 0) 0) x in
  let sr := fame_update (Fame (A := RA) 0 (B2R step) 0 0) (B2R x) in
  same sd sr /\ f_median sr = B2R x /\ f_step sr = Rmax (Rabs (B2R x) / 2) (B2R step).
Proof.
  intros Hg HB HC HBC Fst [Fx Gx] GS.
  assert (Ef : fame_update (Fame (A := RA) 0 (B2R step) 0 0) (B2R x) = Fame (A := RA) (B2R x) (Rmax (Rabs (B2R x) / 2) (B2R step)) 0 1).
  { unfold fame_update, max_. cbn. unfold Rltb, Rmax. destruct (Rlt_dec (B2R x) (B2R x)); [lra|].
    destruct (Rlt_dec (Rabs (B2R x) / 2) (B2R step)), (Rle_dec (Rabs (B2R x) / 2) (B2R step)); cbn; f_equal; lra. }
  intros sd sr. unfold sr. rewrite Ef. split; [|auto]. unfold sd. clear sd sr Ef.
  unfold fame_update, max_. cbn [f_median f_step f_epsilon f_history]. cbn [Nat.eqb negb andb].
  change (@ltb B64) with (@Bltb 53 1024). change (@sub B64) with Bsub. change (@add B64) with Badd.
  change (@div B64) with Bquot. change (@mul B64) with Bmul. change (@of_Z B64) with Bz. change (@fabs B64) with (@Babs 53 1024).
  change (num B64) with double. rewrite (ltb_fin x x Fx Fx). destruct (Rlt_dec (B2R x) (B2R x)) as [L|_]; [lra|].
  assert (Fa : finite64 (Babs x) = true) by (unfold finite64 in * ; now rewrite is_finite_Babs).
  destruct (Bz_exact 2) as [E2 F2]; [lia|].
  destruct (X_div (Babs x) (Bz 2) Fa F2) as [HX Hn]; [rewrite E2; lra|]. rewrite E2, B2R_Babs in HX.
  assert (Gh : on_grid (g - 1) (2 ^ 53) (Rabs (B2R x) / 2)).
  { change 2 with (bpow radix2 1). apply grid_shift. apply (grid_le g B); [lia|]. unfold Rabs. destruct (Rcase_abs (B2R x)); auto. now apply grid_neg. }
  destruct (op_exact _ _ HX Hn (grid_exact (g - 1) _ ltac:(lia) Gh)) as [Fh Eh].
  rewrite (ltb_fin _ _ Fh Fst), Eh.
  set (t := if (if Rlt_dec (Rabs (B2R x) / 2) (B2R step) then true else false) then step else Bquot (Babs x) (Bz 2)).
  assert (Et : finite64 t = true /\ B2R t = Rmax (Rabs (B2R x) / 2) (B2R step)).
  { unfold t, Rmax. destruct (Rlt_dec (Rabs (B2R x) / 2) (B2R step)), (Rle_dec (Rabs (B2R x) / 2) (B2R step)); split; auto; lra. }
  destruct Et as [Ft Et]. clearbody t.
  assert (E1 : Badd (Bz 1) (Bz 0) = Bz 1) by (apply B2SF_inj; vm_compute; reflexivity).
  rewrite E1. destruct (Bz_exact 1) as [V1 F1]; [lia|]. destruct (X_mul t (Bz 1) Ft F1) as [HX4 Hn4]. rewrite Et, V1, Rmult_1_r in HX4.
  assert (Q : (C <= 2 ^ 53)%Z) by lia.
  destruct (op_exact _ _ HX4 Hn4 (grid_exact g _ ltac:(lia) (grid_le _ _ (2 ^ 53) _ Q GS))) as [F4 E4].
  constructor; cbn [f_median f_step f_epsilon f_history]; auto; lia.
Qed.

Lemma new_B64 (step : double) s : fame_new (A := B64) step (Bz 0) = Ret s -> s = Fame (A := B64) (Bz 0) step (Bz 0) 0.
Proof. unfold fame_new. cbn. intros H. now inversion H. Qed.

Lemma new_RA (step : R) s : fame_new (A := RA) step 0 = Ret s -> s = Fame (A := RA) 0 step 0 0.
Proof. unfold fame_new. destruct (_ || _); intros H; now inversion H. Qed.

Lemma fame_grid_exact (g B C : Z) (step x : double) (xs : list double) s t :
  (-1073 <= g <= 970)%Z -> (0 <= B)%Z -> (0 <= C)%Z -> (2 * B + 2 * C <= 2 ^ 53)%Z ->
  finite64 step = true -> Forall (grid g B) (x :: xs) -> on_grid g C (Rmax (Rabs (B2R x) / 2) (B2R step)) ->
  fame_new (A := B64) step (Bz 0) = Ret s -> fame_new (A := RA) (B2R step) 0 = Ret t ->
  (exists K, on_grid g K (f_step (fame_run t (map B2R (x :: xs) : list RA)))) ->
  finite64 (f_median (fame_run s (x :: xs))) = true /\ finite64 (f_step (fame_run s (x :: xs))) = true /\
  B2R (f_median (fame_run s (x :: xs))) = f_median (fame_run t (map B2R (x :: xs) : list RA)) /\
  B2R (f_step (fame_run s (x :: xs))) = f_step (fame_run t (map B2R (x :: xs) : list RA)).
Proof.
  intros Hg HB HC HBC Fst HF GS Es Et GK. apply new_B64 in Es. apply new_RA in Et. subst s t.
  inversion HF as [|? ? Hx HF']; subst.
  destruct (first_same g B C step x Hg HB HC HBC Fst Hx GS) as (HS & Em & Est).
  unfold fame_run in * . cbn [fold_left map] in * .
  assert (Hg' : (-1074 <= g <= 970)%Z) by lia.
  destruct (sim_run g B C xs Hg' HB HC HBC HF' _ _ HS) as [A1 A2 A3 A4 _ _ _ _]; auto.
  - rewrite Em. apply (grid_le g B); [lia|apply Hx].
  - rewrite Est. exact GS.
  - rewrite Est. apply Rle_trans with (Rabs (B2R x) / 2); [pose proof (Rabs_pos (B2R x)); lra|apply Rmax_l].
Qed.

Lemma grid_down e B (n : nat) r : on_grid e B r -> on_grid (e - Z.of_nat n) (B * 2 ^ Z.of_nat n) r.
Proof.
  intros (m & Hm & ->). exists (m * 2 ^ Z.of_nat n)%Z. split; [pose proof (Z.pow_pos_nonneg 2 (Z.of_nat n)); nia|].
  rewrite mult_IZR, Rmult_assoc. f_equal. change 2%Z with (radix_val radix2) at 1. rewrite IZR_Zpower by lia. rewrite <- bpow_plus. f_equal. lia.
Qed.

Lemma grid_div e B (n : nat) r : on_grid e B r -> on_grid (e - Z.of_nat n) B (r / 2 ^ n).
Proof.
  intros H. replace (2 ^ n) with (bpow radix2 (Z.of_nat n)); [now apply grid_shift|].
  rewrite <- IZR_Zpower by lia. rewrite <- pow_IZR. reflexivity.
Qed.

Lemma fame_short_exact (e B C : Z) (step x : double) (xs : list double) s t :
  (-1073 + Z.of_nat (length xs) <= e <= 970)%Z -> (0 <= B)%Z -> (0 <= C)%Z -> ((2 * B + 2 * C) * 2 ^ Z.of_nat (length xs) <= 2 ^ 53)%Z ->
  finite64 step = true -> Forall (grid e B) (x :: xs) -> on_grid e C (Rmax (Rabs (B2R x) / 2) (B2R step)) ->
  fame_new (A := B64) step (Bz 0) = Ret s -> fame_new (A := RA) (B2R step) 0 = Ret t ->
  finite64 (f_median (fame_run s (x :: xs))) = true /\ finite64 (f_step (fame_run s (x :: xs))) = true /\
  B2R (f_median (fame_run s (x :: xs))) = f_median (fame_run t (map B2R (x :: xs) : list RA)) /\
  B2R (f_step (fame_run s (x :: xs))) = f_step (fame_run t (map B2R (x :: xs) : list RA)).
Proof.
  intros He HB HC HBC Fst HF GS Es Et. set (n := length xs) in * .
  assert (P : (0 < 2 ^ Z.of_nat n)%Z) by (apply Z.pow_pos_nonneg; lia).
  apply (fame_grid_exact (e - Z.of_nat n) (B * 2 ^ Z.of_nat n) (C * 2 ^ Z.of_nat n) step x xs s t); auto; try lia; try nia.
  - eapply Forall_impl; [|exact HF]. intros y [Fy Gy]. split; auto. now apply grid_down.
  - now apply grid_down.
  - apply new_RA in Et. subst t. unfold fame_run. cbn [map fold_left].
    set (t1 := fame_update (Fame (A := RA) 0 (B2R step) 0 0) (B2R x)).
    assert (Et1 : (0 < f_history t1)%nat /\ f_epsilon t1 = 0 /\ f_step t1 = Rmax (Rabs (B2R x) / 2) (B2R step)).
    { unfold t1, fame_update, max_. cbn. split; [lia|split; auto]. unfold Rltb, Rmax.
      destruct (Rlt_dec (Rabs (B2R x) / 2) (B2R step)), (Rle_dec (Rabs (B2R x) / 2) (B2R step)); cbn; lra. }
    destruct Et1 as (T1 & T2 & T3). destruct (run_RA_step (map B2R xs : list RA) t1 T1 T2) as (j & Hj & Ej).
    unfold fame_run in Ej.
    assert (Hj' : (j <= n)%nat) by (eapply Nat.le_trans; [exact Hj|]; apply Nat.eq_le_incl; apply map_length).
    assert (Ef : f_step (fold_left fame_update (map B2R xs : list RA) t1) = (Rmax (Rabs (B2R x) / 2) (B2R step)) / 2 ^ j).
    { rewrite <- T3. rewrite Ej. generalize (f_step (fold_left fame_update (map B2R xs : list RA) t1)). change (num RA) with R. intros f.
      unfold Rdiv. rewrite Rmult_assoc, Rinv_r, Rmult_1_r; auto. apply pow_nonzero. lra. }
    exists (C * 2 ^ Z.of_nat (n - j))%Z. rewrite Ef.
    replace (e - Z.of_nat n)%Z with (e - Z.of_nat j - Z.of_nat (n - j))%Z by lia. apply grid_down. now apply grid_div.
Qed.

(** Where it stops: 63 integers. *)
Lemma map_repeat_Z z k : map IZR (repeat z k) = repeat (IZR z) k.
Proof. induction k; cbn; congruence. Qed.

Lemma run_three k : forall (s : R) h, (0 < h)%nat -> 0 < s ->
  fame_run (Fame (A := RA) 3 s 0 h) (repeat 3 k : list RA) = Fame (A := RA) 3 (s / 2 ^ k) 0 (h + k).
Proof.
  induction k as [|k IH]; intros s h Hh Hs.
  - cbn. f_equal; [lra|lia].
  - unfold fame_run in * . cbn [repeat fold_left]. rewrite update_RA by auto. cbn [f_median f_step f_history]. unfold stepR.
    destruct (Rlt_dec 3 3) as [L|_]; [lra|]. cbn [fst snd]. rewrite Rminus_diag_eq, Rabs_R0 by auto. destruct (Rlt_dec 0 s) as [_|L]; [|lra].
    rewrite IH by (lia || lra). f_equal; [|lia]. cbn [pow]. assert (2 ^ k <> 0) by (apply pow_nonzero; lra). now field.
Qed.

Definition long_zs (k : nat) : list Z := (2 :: 3 :: repeat 3 k ++ [4])%Z.

Lemma run_long k : 3 < f_median (fame_run (Fame (A := RA) 0 1 0 0) (map IZR (long_zs k) : list RA)).
Proof.
  assert (E1 : fame_update (Fame (A := RA) 0 1 0 0) 2 = Fame (A := RA) 2 1 0 1).
  { unfold fame_update, max_. cbn. unfold Rltb. rewrite Rabs_pos_eq by lra. destruct (Rlt_dec (2 / 2) 1), (Rlt_dec 2 2); try lra. cbn. f_equal; lra. }
  assert (E2 : fame_update (Fame (A := RA) 2 1 0 1) 3 = Fame (A := RA) 3 (1 / 2) 0 2).
  { rewrite update_RA by (cbn; auto). cbn [f_median f_step f_history]. unfold stepR. destruct (Rlt_dec 3 2) as [L|_]; [lra|].
    destruct (Rlt_dec 2 3) as [_|L]; [|lra]. cbn [fst snd]. replace (3 - (2 + 1)) with 0 by lra. rewrite Rabs_R0. destruct (Rlt_dec 0 1) as [_|L]; [|lra].
    cbn. f_equal. lra. }
  unfold long_zs. rewrite map_cons, map_cons, map_app, map_repeat_Z.
  unfold fame_run. cbn [fold_left]. rewrite E1, E2, fold_left_app.
  pose proof (run_three k (1 / 2) 2 ltac:(lia) ltac:(lra)) as H. unfold fame_run in H.
  match goal with |- context [fold_left _ (map IZR [4%Z]) ?st] => replace st with (Fame (A := RA) 3 (1 / 2 / 2 ^ k) 0 (2 + k)) by (symmetry; exact H) end.
  cbn [map fold_left].
  rewrite update_RA by (cbn; auto; lia). cbn [f_median f_step f_history]. assert (P : 0 < 1 / 2 / 2 ^ k) by (apply Rdiv_lt_0_compat; [lra|apply pow_lt; lra]).
  unfold stepR. destruct (Rlt_dec 4 3) as [L|_]; [lra|]. destruct (Rlt_dec 3 4) as [_|L]; [|lra]. cbn [fst]. lra.
Qed.

Lemma long_double : f_median (fame_run (Fame (A := B64) (Bz 0) (Bz 1) (Bz 0) 0) (map Bz (long_zs 60) : list B64)) = Bz 3.
Proof. apply B2SF_inj. vm_compute. reflexivity. Qed.

Lemma fame_long_differs : exists zs s t, Forall (fun z => (2 <= z <= 4)%Z) zs /\ length zs = 63%nat /\
  fame_new (A := B64) (Bz 1) (Bz 0) = Ret s /\ fame_new (A := RA) 1 0 = Ret t /\
  f_median (fame_run s (map Bz zs : list B64)) = Bz 3 /\ 3 < f_median (fame_run t (map IZR zs : list RA)).
Proof.
  exists (long_zs 60), (Fame (A := B64) (Bz 0) (Bz 1) (Bz 0) 0), (Fame (A := RA) 0 1 0 0).
  split; [|split; [reflexivity|split; [reflexivity|split; [|split; [exact long_double|apply run_long]]]]].
  - apply Forall_forall. intros z Hz. unfold long_zs in Hz. cbn [In] in Hz. destruct Hz as [<-|[<-|Hz]]; [lia|lia|].
    apply in_app_or in Hz. destruct Hz as [Hz|[<-|[]]]; [|lia]. apply repeat_spec in Hz. lia.
  - unfold fame_new. cbn. unfold Rltb, Rleb. destruct (Rlt_dec 0 0), (Rle_dec 1 0); try lra. reflexivity.
Qed.

Lemma half_grid z : (Z.abs z <= 2 ^ 20)%Z -> on_grid (-1) (2 ^ 21) (IZR z) /\ on_grid (-1) (2 ^ 21) (IZR z / 2).
Proof.
  intros Hz. assert (E : bpow radix2 (-1) = / 2) by reflexivity. split.
  - exists (z * 2)%Z. split; [lia|]. rewrite E, mult_IZR. field.
  - exists z. split; [lia|]. rewrite E. reflexivity.
Qed.

Lemma fame_integers (c : Z) (zs : list Z) s t :
  (Z.abs c <= 2 ^ 20)%Z -> Forall (fun z => (Z.abs z <= 2 ^ 20)%Z) zs -> (1 <= length zs <= 31)%nat ->
  fame_new (A := B64) (Bz c) (Bz 0) = Ret s -> fame_new (A := RA) (IZR c) 0 = Ret t ->
  B2R (fame_evaluate (fame_run s (map Bz zs : list B64))) = fame_evaluate (fame_run t (map IZR zs : list RA)).
Proof.
  intros Hc HF Hl Es Et. destruct zs as [|z zs]; [cbn in Hl; lia|]. cbn [length] in Hl.
  destruct (Bz_exact c) as [Ec Fc]; [lia|]. rewrite <- Ec in Et.
  assert (HG : Forall (grid (-1) (2 ^ 21)) (map Bz (z :: zs)) /\ map B2R (map Bz (z :: zs)) = map IZR (z :: zs)).
  { induction HF as [|y ys Hy HF IH]; [split; [constructor|reflexivity]|]. destruct (Bz_exact y) as [Ey Fy]; [lia|].
    destruct IH as [IH1 IH2]. cbn [map] in * . split; [constructor; auto; split; auto; rewrite Ey; now apply half_grid|now rewrite Ey, IH2]. }
  destruct HG as [HG HE]. cbn [map] in HG.
  inversion HF as [|? ? Hz HF']; subst. destruct (Bz_exact z) as [Ez Fz]; [lia|].
  assert (Hn : (Z.of_nat (length (map Bz zs)) <= 30)%Z) by (rewrite map_length; lia).
  assert (HP : (2 ^ Z.of_nat (length (map Bz zs)) <= 2 ^ 30)%Z) by (apply Z.pow_le_mono_r; lia).
  destruct (fame_short_exact (-1) (2 ^ 21) (2 ^ 21) (Bz c) (Bz z) (map Bz zs) s t) as (_ & _ & HM & _); auto; try lia.
  - rewrite Ez, Ec. unfold Rmax. destruct (Rle_dec _ _); [now apply half_grid|].
    rewrite <- abs_IZR. apply half_grid. lia.
  - unfold fame_evaluate. rewrite <- HE. exact HM.
Qed.
