(** StreamingP2Quantile in a unit that is a power of two times larger or
    smaller, in doubles, for positive observations. *)

From Coq Require Import List Reals ZArith Lra Lia Bool Arith.
From Flocq Require Import Core.Core IEEE754.BinarySingleNaN.
From Verif Require Import Outcome Arith Mean Spec P2 P2Spec ListFacts P2Facts P2Float FloatSpec FloatFacts AskSpec UnitSpec UnitNum UnitHist UnitMean.
From Verif Require P2Affine HistScale.
Import ListNotations.
Open Scope R_scope.

Lemma steady_int z : (1 <= Z.abs z <= 2 ^ 32)%Z -> steady 32 (Bz z).
Proof.
  intros H. destruct (Bz_exact z) as [E F]; [lia|]. split; auto. rewrite E, <- abs_IZR. split.
  - apply Rle_trans with (bp 0); [apply bpow_le; lia|]. change (bp 0) with 1. apply IZR_le. lia.
  - change (bp 32) with (IZR (2 ^ 32)). apply IZR_le. lia.
Qed.

Lemma Bz_add_val a b : (Z.abs a <= 2 ^ 40)%Z -> (Z.abs b <= 2 ^ 40)%Z ->
  B2R (Badd (Bz a) (Bz b)) = IZR (a + b) /\ finite64 (Badd (Bz a) (Bz b)) = true.
Proof.
  intros Ha Hb. destruct (Bz_exact a) as [Ea Fa]; [lia|]. destruct (Bz_exact b) as [Eb Fb]; [lia|].
  assert (G : rnd (B2R (Bz a) + B2R (Bz b)) = IZR (a + b)).
  { rewrite Ea, Eb, <- plus_IZR. apply rnd_fix, format_IZR. lia. }
  destruct (add_ok (Bz a) (Bz b) Fa Fb) as (E & F & _).
  - rewrite G, <- abs_IZR. apply Rle_lt_trans with (bp 41); [|apply bpow_lt; lia].
    change (bp 41) with (IZR (2 ^ 41)). apply IZR_le. lia.
  - split; [|exact F]. now rewrite E, G.
Qed.
Lemma Bz_sub_val a b : (Z.abs a <= 2 ^ 40)%Z -> (Z.abs b <= 2 ^ 40)%Z ->
  B2R (Bsub (Bz a) (Bz b)) = IZR (a - b) /\ finite64 (Bsub (Bz a) (Bz b)) = true.
Proof.
  intros Ha Hb. destruct (Bz_exact a) as [Ea Fa]; [lia|]. destruct (Bz_exact b) as [Eb Fb]; [lia|].
  assert (G : rnd (B2R (Bz a) - B2R (Bz b)) = IZR (a - b)).
  { rewrite Ea, Eb, <- minus_IZR. apply rnd_fix, format_IZR. lia. }
  destruct (sub_ok (Bz a) (Bz b) Fa Fb) as (E & F & _).
  - rewrite G, <- abs_IZR. apply Rle_lt_trans with (bp 41); [|apply bpow_lt; lia].
    change (bp 41) with (IZR (2 ^ 41)). apply IZR_le. lia.
  - split; [|exact F]. now rewrite E, G.
Qed.

Lemma steady_val z (c : double) : (1 <= Z.abs z <= 2 ^ 32)%Z -> finite64 c = true -> B2R c = IZR z -> steady 32 c.
Proof.
  intros H F E. split; auto. rewrite E, <- abs_IZR. split.
  - apply Rle_trans with (bp 0); [apply bpow_le; lia|]. change (bp 0) with 1. apply IZR_le. lia.
  - change (bp 32) with (IZR (2 ^ 32)). apply IZR_le. lia.
Qed.

Lemma steady_quot d n : (Z.abs d = 1)%Z -> (1 <= n <= 2 ^ 32)%Z -> steady 32 (Bquot (Bz d) (Bz n)).
Proof.
  intros Hd Hn. destruct (Bz_exact d) as [Ed Fd]; [lia|]. destruct (Bz_exact n) as [En Fn]; [lia|].
  assert (PN : 1 <= IZR n <= bp 32) by (split; [|change (bp 32) with (IZR (2 ^ 32))]; apply IZR_le; lia).
  assert (A : Rabs (B2R (Bz d) / B2R (Bz n)) = / IZR n).
  { rewrite Ed, En. unfold Rdiv. rewrite Rabs_mult, <- abs_IZR, Hd, Rabs_pos_eq; [ring|].
    apply Rlt_le, Rinv_0_lt_compat. lra. }
  assert (B : bp (- (32)) <= / IZR n <= bp 0).
  { split; [rewrite bpow_opp; apply Rinv_le; lra|]. change (bp 0) with 1. rewrite <- Rinv_1. apply Rinv_le; lra. }
  assert (R : bp (- (32)) <= Rabs (rnd (B2R (Bz d) / B2R (Bz n))) <= bp 0).
  { rewrite <- rnd_abs, A. split; [rewrite <- (rnd_bpow (- (32))) by lia|rewrite <- (rnd_bpow 0) by lia]; apply rnd_le; apply B. }
  destruct (div_ok (Bz d) (Bz n) Fd Fn) as (E & F & _).
  - rewrite En. lra.
  - eapply Rle_lt_trans; [apply R|]. apply bpow_lt. lia.
  - split; [exact F|]. rewrite E. split; [apply R|]. eapply Rle_trans; [apply R|]. apply bpow_le. lia.
Qed.

Section UnitP2.
  Variables (k : Z).
  Local Notation f := (ldexp64 k).
  Local Notation D := (measured k 500).
  Local Notation P := (measured_pos k 500).

  (** Between two positive measurements. *)
  Lemma pos_between (a b v : double) : P a -> P b -> finite64 v = true -> B2R a <= B2R v <= B2R b -> P v.
  Proof.
    intros [[Fa Ma] Pa] [[Fb Mb] Pb] F [H1 H2]. split; [|lra]. split; auto. right.
    destruct Ma as [Z|[[A1 A2] [A3 A4]]]; [lra|]. destruct Mb as [Z|[[B1 B2] [B3 B4]]]; [lra|].
    rewrite Rabs_pos_eq in * by lra. pose proof (bpow_gt_0 radix2 k). repeat split; try lra; nra.
  Qed.

  Lemma par_scale (hm hi hp : double) nm ni np d : D hm -> D hi -> D hp ->
    (0 <= nm)%Z -> (nm < ni < np)%Z -> (np <= int_max)%Z -> (d = 1 /\ ni + 1 < np \/ d = -1 /\ nm < ni - 1)%Z ->
    measured k 900 (par (A := B64) hm hi hp nm ni np d) /\
    par (A := B64) (f hm) (f hi) (f hp) nm ni np d = f (par (A := B64) hm hi hp nm ni np d).
  Proof.
    intros Mm Mi Mp H0 H1 H2 Hd. unfold int_max in H2. unfold par. cbn [B64 add sub mul div of_Z].
    destruct (sub_scale k 500 hp hi ltac:(lia) Mp Mi) as [M1 E1]. rewrite E1.
    destruct (sub_scale k 500 hi hm ltac:(lia) Mi Mm) as [M2 E2]. rewrite E2.
    destruct (Bz_add_val (ni - nm) d) as [V3 F3]; [lia|lia|].
    assert (S3 : steady 32 (Badd (Bz (ni - nm)) (Bz d))) by (apply (steady_val (ni - nm + d)); auto; lia).
    destruct (Bz_sub_val (np - ni) d) as [V4 F4]; [lia|lia|].
    assert (S4 : steady 32 (Bsub (Bz (np - ni)) (Bz d))) by (apply (steady_val (np - ni - d)); auto; lia).
    destruct (mul_scale_l k 553 32 _ _ ltac:(lia) ltac:(lia) ltac:(lia) S3 M1) as [M5 E5]. rewrite E5.
    destruct (mul_scale_l k 553 32 _ _ ltac:(lia) ltac:(lia) ltac:(lia) S4 M2) as [M6 E6]. rewrite E6.
    assert (S7 : steady 32 (Bz (np - ni))) by (apply steady_int; lia).
    assert (S8 : steady 32 (Bz (ni - nm))) by (apply steady_int; lia).
    destruct (div_scale k 585 32 _ _ ltac:(lia) ltac:(lia) ltac:(lia) S7 M5) as [M7 E7]. rewrite E7.
    destruct (div_scale k 585 32 _ _ ltac:(lia) ltac:(lia) ltac:(lia) S8 M6) as [M8 E8]. rewrite E8.
    destruct (add_scale k 617 _ _ ltac:(lia) M7 M8) as [M9 E9]. rewrite E9.
    assert (SQ : steady 32 (Bquot (Bz d) (Bz (np - nm)))) by (apply steady_quot; lia).
    destruct (mul_scale_l k 670 32 _ _ ltac:(lia) ltac:(lia) ltac:(lia) SQ M9) as [M10 E10]. rewrite E10.
    pose proof (measured_mono k 500 702 hi ltac:(lia) Mi) as Mi'.
    destruct (add_scale k 702 hi _ ltac:(lia) Mi' M10) as [M11 E11].
    split; [|exact E11]. eapply measured_mono; [|exact M11]. lia.
  Qed.

  Lemma lin_scale (hm hi hp : double) nm ni np d : D hm -> D hi -> D hp ->
    (0 <= nm)%Z -> (nm < ni < np)%Z -> (np <= int_max)%Z -> (d = 1 \/ d = -1)%Z ->
    lin (A := B64) (f hm) (f hi) (f hp) nm ni np d = f (lin (A := B64) hm hi hp nm ni np d).
  Proof.
    intros Mm Mi Mp H0 H1 H2 Hd. unfold int_max in H2.
    pose proof (measured_mono k 500 617 hi ltac:(lia) Mi) as Mi'.
    assert (S1 : steady 32 (Bz d)) by (apply steady_int; lia).
    unfold lin. cbn [B64 add sub mul div of_Z]. destruct (Z.eqb d 1).
    - destruct (sub_scale k 500 hp hi ltac:(lia) Mp Mi) as [M1 E1]. rewrite E1.
      destruct (mul_scale_l k 553 32 _ _ ltac:(lia) ltac:(lia) ltac:(lia) S1 M1) as [M5 E5]. rewrite E5.
      assert (S7 : steady 32 (Bz (np - ni))) by (apply steady_int; lia).
      destruct (div_scale k 585 32 _ _ ltac:(lia) ltac:(lia) ltac:(lia) S7 M5) as [M7 E7]. rewrite E7.
      apply (add_scale k 617); auto. lia.
    - destruct (sub_scale k 500 hm hi ltac:(lia) Mm Mi) as [M1 E1]. rewrite E1.
      destruct (mul_scale_l k 553 32 _ _ ltac:(lia) ltac:(lia) ltac:(lia) S1 M1) as [M5 E5]. rewrite E5.
      assert (S7 : steady 32 (Bz (nm - ni))) by (apply steady_int; lia).
      destruct (div_scale k 585 32 _ _ ltac:(lia) ltac:(lia) ltac:(lia) S7 M5) as [M7 E7]. rewrite E7.
      apply (add_scale k 617); auto. lia.
  Qed.

  Lemma core_scale (des hm hi hp : double) nm ni np : D hm -> D hi -> D hp ->
    (0 <= nm)%Z -> (nm < ni < np)%Z -> (np <= int_max)%Z ->
    core (A := B64) des (f hm) (f hi) (f hp) nm ni np =
    (f (fst (core (A := B64) des hm hi hp nm ni np)), snd (core (A := B64) des hm hi hp nm ni np)).
  Proof.
    intros Mm Mi Mp H0 H1 H2. unfold core.
    assert (MV : forall d, (d = 1 /\ ni + 1 < np \/ d = -1 /\ nm < ni - 1)%Z ->
      mv (A := B64) (f hm) (f hi) (f hp) nm ni np d = f (mv (A := B64) hm hi hp nm ni np d)).
    { intros d Hd. unfold mv. destruct (par_scale hm hi hp nm ni np d) as [M E]; auto. rewrite E.
      pose proof (measured_mono k 500 900 hm ltac:(lia) Mm). pose proof (measured_mono k 500 900 hp ltac:(lia) Mp).
      change (ltb (a := B64)) with (@Bltb 53 1024). rewrite !(ltb_scale k 900) by (auto; lia).
      destruct (_ && _)%bool; auto. apply lin_scale; auto. lia. }
    destruct (dir_cases (A := B64) des nm ni np) as [->|[[-> Hg]|[-> Hg]]]; cbn [fst snd]; auto.
    - rewrite MV by lia. reflexivity.
    - rewrite MV by lia. reflexivity.
  Qed.

  Definition mS (s : p2 B64) : p2 B64 :=
    P2 (A := B64) (p_quantile s) (p_desired s) (p_pos s) (map f (p_heights s)) (p_history s).

  (** The heights from the fifth observation on. *)
  Definition good (h0 h1 h2 h3 h4 : double) : Prop := chain h0 h1 h2 h3 h4 /\ Forall P [h0; h1; h2; h3; h4].

  Lemma good_core (des : double) h0 h1 h2 h3 h4 nm ni np :
    (nm < ni < np)%Z -> (np <= int_max)%Z -> (0 <= nm)%Z -> good h0 h1 h2 h3 h4 ->
    good h0 (fst (core (A := B64) des h0 h1 h2 nm ni np)) h2 h3 h4 /\
    good h0 h1 (fst (core (A := B64) des h1 h2 h3 nm ni np)) h3 h4 /\
    good h0 h1 h2 (fst (core (A := B64) des h2 h3 h4 nm ni np)) h4.
  Proof.
    intros H1 H2 H3 [C F]. destruct (chain_core des h0 h1 h2 h3 h4 nm ni np H1 H2 H3 C) as (C1 & C2 & C3).
    inversion F as [|? ? P0 F1]; subst. inversion F1 as [|? ? P1 F2]; subst. inversion F2 as [|? ? P2 F3]; subst.
    inversion F3 as [|? ? P3 F4]; subst. inversion F4 as [|? ? P4 _]; subst.
    assert (Q1 : P (fst (core (A := B64) des h0 h1 h2 nm ni np))).
    { unchain C1. apply (pos_between h0 h2); auto; try lra. }
    assert (Q2 : P (fst (core (A := B64) des h1 h2 h3 nm ni np))).
    { unchain C2. apply (pos_between h1 h3); auto; try lra. }
    assert (Q3 : P (fst (core (A := B64) des h2 h3 h4 nm ni np))).
    { unchain C3. apply (pos_between h2 h4); auto; try lra. }
    split; [|split]; (split; [assumption|]); repeat (constructor; [assumption|]); constructor.
  Qed.

  Lemma good_D h0 h1 h2 h3 h4 : good h0 h1 h2 h3 h4 -> D h0 /\ D h1 /\ D h2 /\ D h3 /\ D h4.
  Proof.
    intros [_ F]. inversion F as [|? ? P0 F1]; subst. inversion F1 as [|? ? P1 F2]; subst. inversion F2 as [|? ? P2 F3]; subst.
    inversion F3 as [|? ? P3 F4]; subst. inversion F4 as [|? ? P4 _]; subst.
    repeat split; first [apply P0|apply P1|apply P2|apply P3|apply P4].
  Qed.

  Lemma fk_scale (h0 h1 h2 h3 h4 x : double) : D h0 -> D h1 -> D h2 -> D h3 -> D h4 -> D x ->
    fk (A := B64) (f h0) (f h1) (f h2) (f h3) (f h4) (f x) =
    let '(a, b, j) := fk (A := B64) h0 h1 h2 h3 h4 x in (f a, f b, j).
  Proof.
    intros M0 M1 M2 M3 M4 M. unfold fk. change (ltb (a := B64)) with (@Bltb 53 1024).
    rewrite !(ltb_scale k 500) by (auto; lia).
    repeat match goal with |- context [Bltb ?a ?b] => destruct (Bltb a b); [reflexivity|] end. reflexivity.
  Qed.

  Lemma spread_P (x y : double) : P x -> P y -> spread_ok (B2R x) (B2R y).
  Proof.
    intros [[Fx Mx] Px] [[Fy My] Py]. unfold spread_ok.
    destruct My as [Z|[[B1 B2] _]]; [lra|]. rewrite Rabs_pos_eq in B2 by lra.
    apply Rle_lt_trans with (rnd (bp 500)); [apply rnd_le; lra|]. rewrite rnd_bpow by lia. apply bpow_lt. lia.
  Qed.

  Lemma good_fk (h0 h1 h2 h3 h4 x : double) : good h0 h1 h2 h3 h4 -> P x ->
    let '(a, b, _) := fk (A := B64) h0 h1 h2 h3 h4 x in good a h1 h2 h3 b.
  Proof.
    intros [C F] Px. pose proof (proj1 (proj1 Px)) as Fx.
    destruct (fk_B64 h0 h1 h2 h3 h4 x C Fx) as (a & b & j & E & Ha & Hb).
    unfold double in * . change (num B64) with (binary_float 53 1024). rewrite E.
    inversion F as [|? ? P0 F1]; subst. inversion F1 as [|? ? P1 F2]; subst. inversion F2 as [|? ? P2 F3]; subst.
    inversion F3 as [|? ? P3 F4]; subst. inversion F4 as [|? ? P4 _]; subst. unchain C.
    assert (Pa : P a) by (destruct Ha as [[-> _]|[-> _]]; auto).
    assert (Pb : P b) by (destruct Hb as [[-> _]|[-> _]]; auto).
    split.
    - split; [|split; [|split]].
      + repeat constructor; auto; [apply Pa|apply Pb].
      + destruct Ha as [[-> ?]|[-> ?]]; lra.
      + destruct Hb as [[-> ?]|[-> ?]]; lra.
      + apply spread_P; auto.
    - repeat (constructor; [assumption|]). constructor.
  Qed.

  Lemma big_scale (s : p2 B64) (x : double) h0 h1 h2 h3 h4 n0 n1 n2 n3 n4 : (5 <= p_history s)%nat ->
    shape s (h0, h1, h2, h3, h4) (n0, n1, n2, n3, n4) -> good h0 h1 h2 h3 h4 -> P x ->
    p2_update (mS s) (f x) = omap mS (p2_update s x).
  Proof.
    intros Hh (Eh & En & Hn & Hd) G Px. pose proof (good_fk h0 h1 h2 h3 h4 x G Px) as GF.
    destruct (good_D _ _ _ _ _ G) as (D0 & D1 & D2 & D3 & D4).
    pose proof (fk_scale h0 h1 h2 h3 h4 x D0 D1 D2 D3 D4 (proj1 Px)) as EF.
    unfold p2_update. cbn [mS p_quantile p_desired p_pos p_heights p_history].
    destruct (Nat.ltb_spec (p_history s) 5); [lia|]. clear H.
    rewrite Eh. cbn [map]. rewrite !findK_eq, EF. pose proof (fk_k (A := B64) h0 h1 h2 h3 h4 x) as Hk.
    destruct (fk (A := B64) h0 h1 h2 h3 h4 x) as [[a b] j]. cbn [bind snd] in * .
    rewrite En. destruct (Z.eq_dec n4 int_max) as [O|O]; [rewrite bump_over by auto; reflexivity|].
    rewrite bump_eq by (auto; ints). cbn [bind].
    destruct (p_desired s) as [|d0 ds]; [discriminate|].
    change (at_ (d0 :: ds) 0) with (Ret d0). cbn [bind].
    match goal with |- context [adjustHeights ?d] => set (des := d) end.
    unfold bumped.
    set (m1 := (if Nat.leb j 0 then n1 + 1 else n1)%Z).
    set (m2 := (if Nat.leb j 1 then n2 + 1 else n2)%Z).
    set (m3 := (if Nat.leb j 2 then n3 + 1 else n3)%Z).
    assert (Hm : pos5 n0 m1 m2 m3 (n4 + 1)).
    { unfold m1, m2, m3. destruct j as [|[|[|[|]]]]; cbn [Nat.leb]; ints. }
    clearbody m1 m2 m3.
    destruct (leb (lit 1 2) (p_quantile s)).
    - rewrite !(adjust1 (A := B64) pos_B64 neg_B64 des _ _ _ _ _ _ _ _ _ _ _ Hm eq_refl). cbv zeta. cbn [bind].
      destruct (good_D _ _ _ _ _ GF) as (A0 & A1 & A2 & A3 & A4).
      rewrite core_scale by (auto; ints). cbn [fst snd].
      match goal with |- context [core ?d a h1 h2 n0 m1 m2] => set (r1 := core (A := B64) d a h1 h2 n0 m1 m2) end.
      assert (P1 : (n0 < snd r1 < m2)%Z) by (apply core_pos; ints).
      assert (I1 : good a (fst r1) h2 h3 b) by (apply good_core; auto; ints).
      clearbody r1.
      assert (Hm1 : pos5 n0 (snd r1) m2 m3 (n4 + 1)) by ints.
      rewrite !(adjust2 (A := B64) pos_B64 neg_B64 des _ _ _ _ _ _ _ _ _ _ _ Hm1 eq_refl). cbv zeta. cbn [bind].
      destruct (good_D _ _ _ _ _ I1) as (B0 & B1 & B2 & B3 & B4).
      rewrite core_scale by (auto; ints). cbn [fst snd].
      match goal with |- context [core ?d (fst r1) h2 h3 (snd r1) m2 m3] => set (r2 := core (A := B64) d (fst r1) h2 h3 (snd r1) m2 m3) end.
      assert (P2 : (snd r1 < snd r2 < m3)%Z) by (apply core_pos; ints).
      assert (I2 : good a (fst r1) (fst r2) h3 b) by (apply good_core; auto; ints).
      clearbody r2.
      assert (Hm2 : pos5 n0 (snd r1) (snd r2) m3 (n4 + 1)) by ints.
      rewrite !(adjust3 (A := B64) pos_B64 neg_B64 des _ _ _ _ _ _ _ _ _ _ _ Hm2 eq_refl). cbv zeta. cbn [bind].
      destruct (good_D _ _ _ _ _ I2) as (C0 & C1 & C2 & C3 & C4).
      rewrite core_scale by (auto; ints). cbn [fst snd]. reflexivity.
    - rewrite !(adjust3 (A := B64) pos_B64 neg_B64 des _ _ _ _ _ _ _ _ _ _ _ Hm eq_refl). cbv zeta. cbn [bind].
      destruct (good_D _ _ _ _ _ GF) as (A0 & A1 & A2 & A3 & A4).
      rewrite core_scale by (auto; ints). cbn [fst snd].
      match goal with |- context [core ?d h2 h3 b m2 m3 (n4 + 1)%Z] => set (r3 := core (A := B64) d h2 h3 b m2 m3 (n4 + 1)%Z) end.
      assert (P3 : (m2 < snd r3 < n4 + 1)%Z) by (apply core_pos; ints).
      assert (I3 : good a h1 h2 (fst r3) b) by (apply good_core; auto; ints).
      clearbody r3.
      assert (Hm3 : pos5 n0 m1 m2 (snd r3) (n4 + 1)) by ints.
      rewrite !(adjust2 (A := B64) pos_B64 neg_B64 des _ _ _ _ _ _ _ _ _ _ _ Hm3 eq_refl). cbv zeta. cbn [bind].
      destruct (good_D _ _ _ _ _ I3) as (B0 & B1 & B2 & B3 & B4).
      rewrite core_scale by (auto; ints). cbn [fst snd].
      match goal with |- context [core ?d h1 h2 (fst r3) m1 m2 (snd r3)] => set (r2 := core (A := B64) d h1 h2 (fst r3) m1 m2 (snd r3)) end.
      assert (P2 : (m1 < snd r2 < snd r3)%Z) by (apply core_pos; ints).
      assert (I2 : good a h1 (fst r2) (fst r3) b) by (apply good_core; auto; ints).
      clearbody r2.
      assert (Hm2 : pos5 n0 m1 (snd r2) (snd r3) (n4 + 1)) by ints.
      rewrite !(adjust1 (A := B64) pos_B64 neg_B64 des _ _ _ _ _ _ _ _ _ _ _ Hm2 eq_refl). cbv zeta. cbn [bind].
      destruct (good_D _ _ _ _ _ I2) as (C0 & C1 & C2 & C3 & C4).
      rewrite core_scale by (auto; ints). cbn [fst snd]. reflexivity.
  Qed.

  (** What holds of any state reached from positive measurements. *)
  Definition uinv (s : p2 B64) : Prop :=
    exists h0 h1 h2 h3 h4 n0 n1 n2 n3 n4,
      shape s (h0, h1, h2, h3, h4) (n0, n1, n2, n3, n4) /\ Forall D [h0; h1; h2; h3; h4] /\
      Forall P (firstn (p_history s) [h0; h1; h2; h3; h4]) /\
      ((5 <= p_history s)%nat -> good h0 h1 h2 h3 h4).

  Lemma insert_scale (l : list double) (x : double) : D x -> Forall D l ->
    sort_insert (A := B64) (f x) (map f l) = map f (sort_insert (A := B64) x l).
  Proof.
    intros Mx F. induction F as [|y l My F IH]; cbn [map sort_insert]; auto.
    change (ltb (a := B64)) with (@Bltb 53 1024). rewrite (ltb_scale k 500) by (auto; lia).
    destruct (Bltb x y); cbn [map]; auto. f_equal. exact IH.
  Qed.
  Lemma insert_D (l : list double) (x : double) : D x -> Forall D l -> Forall D (sort_insert (A := B64) x l).
  Proof.
    intros Mx F. apply (Permutation.Permutation_Forall (Permutation.Permutation_sym (sort_insert_perm (A := B64) x l))).
    constructor; auto.
  Qed.
  Lemma sort_scale (l : list double) : Forall D l ->
    sort_list (A := B64) (map f l) = map f (sort_list (A := B64) l).
  Proof.
    intros F. unfold sort_list.
    assert (G : forall acc : list double, Forall D acc -> fold_left (fun acc x => sort_insert (A := B64) x acc) (map f l) (map f acc) =
      map f (fold_left (fun acc x => sort_insert (A := B64) x acc) l acc)).
    { induction F as [|x l Mx F IH]; intros acc Fa; cbn [map fold_left]; auto.
      rewrite insert_scale by auto. apply IH. apply insert_D; auto. }
    apply (G []). constructor.
  Qed.
  Lemma nnan_scale (l : list double) : Forall D l -> forallb (not_nan (A := B64)) (map f l) = true /\ forallb (not_nan (A := B64)) l = true.
  Proof.
    intros F. split; apply not_nan_B64.
    - apply Forall_map. eapply Forall_impl; [|exact F]. intros x M. cbn. apply fin_nan.
      destruct (ldexp_val k 500 x ltac:(lia) M) as (_ & K & _). exact K.
    - eapply Forall_impl; [|exact F]. intros x M. apply fin_nan, M.
  Qed.
  Lemma std_sort_scale (l : list double) : Forall D l ->
    std_sort (A := B64) (map f l) = omap (map f) (std_sort (A := B64) l) /\
    std_sort (A := B64) l = Ret (sort_list (A := B64) l).
  Proof.
    intros F. unfold std_sort. destruct (nnan_scale l F) as [-> ->]. cbn [omap bind]. split; auto. f_equal. apply sort_scale; auto.
  Qed.

  Lemma P_D x : P x -> D x.
  Proof. intros [M _]. exact M. Qed.

  Lemma firstn_set_P (l : list double) i x : Forall P (firstn i l) -> P x -> (i < length l)%nat -> Forall P (firstn (S i) (set_nth l i x)).
  Proof.
    revert i. induction l as [|y l IH]; intros [|i] F Px L; cbn [length] in L; try lia.
    - cbn [set_nth firstn]. constructor; [exact Px|constructor].
    - cbn [set_nth firstn] in F |- * . inversion F; subst. constructor; auto. apply IH; auto. lia.
  Qed.

  Lemma update_scale (s : p2 B64) (x : double) : uinv s -> P x ->
    p2_update (mS s) (f x) = omap mS (p2_update s x) /\ (forall s', p2_update s x = Ret s' -> uinv s').
  Proof.
    intros (h0 & h1 & h2 & h3 & h4 & n0 & n1 & n2 & n3 & n4 & Sh & FD & FP & G) Px.
    destruct (le_lt_dec 5 (p_history s)) as [Hge|Hlt].
    - specialize (G Hge). split; [eapply big_scale; eauto|]. intros s' E.
      destruct (Z.eq_dec n4 int_max) as [O|O].
      { rewrite (update_over (A := B64) s x _ _ Hge Sh O) in E. discriminate E. }
      destruct (update_big (A := B64) pos_B64 neg_B64 good s x h0 h1 h2 h3 h4 n0 n1 n2 n3 n4) as
        (s1 & g1 & g2 & g3 & l1 & l2 & l3 & E' & HS & Hh & _); auto.
      { intros. apply good_core; auto. }
      { destruct Sh as (_ & _ & Hn & _). ints. }
      { apply good_fk; auto. }
      rewrite E in E'. injection E' as <-.
      destruct (fk (A := B64) h0 h1 h2 h3 h4 x) as [[a b] j]. destruct HS as [HS HG].
      exists a, g1, g2, g3, b, n0, l1, l2, l3, (n4 + 1)%Z. split; [exact HS|]. split; [|split; [|auto]].
      + destruct HG as [_ HG]. eapply Forall_impl; [|exact HG]. exact P_D.
      + rewrite firstn_all2 by (cbn [length]; lia). apply HG.
    - destruct Sh as (Eh & En & Hn & Hd). unfold p2_update.
      cbn [mS p_quantile p_desired p_pos p_heights p_history].
      destruct (Nat.ltb_spec (p_history s) 5) as [_|K]; [|lia]. rewrite Eh. unfold store.
      set (l := [h0; h1; h2; h3; h4]) in * .
      assert (LM : @length (num B64) (map f l) = 5%nat) by reflexivity. rewrite LM.
      assert (LL : @length (num B64) l = 5%nat) by reflexivity. rewrite LL.
      replace (Nat.ltb (p_history s) 5) with true by (symmetry; apply Nat.ltb_lt; lia). cbn [bind].
      assert (ES : forall (m : list double) i, set_nth (map f m) i (f x) = map f (set_nth m i x)).
      { induction m as [|y m IH]; intros [|i]; cbn [map set_nth]; auto. f_equal. apply IH. }
      pose proof (ES l (p_history s)) as ESl. cbn [B64 num] in ESl |- * . rewrite ESl.
      assert (FP' : Forall P (firstn (S (p_history s)) (set_nth l (p_history s) x))) by (apply firstn_set_P; auto; cbn; lia).
      assert (FD' : Forall D (set_nth l (p_history s) x)).
      { apply HistScale.Forall_set; auto. apply P_D; auto. }
      assert (L5 : length (set_nth l (p_history s) x) = 5%nat) by (rewrite set_nth_length; reflexivity).
      revert FP' FD' L5. change (@set_nth (num B64)) with (@set_nth double). generalize (@set_nth double l (p_history s) x). intros m FP' FD' L5.
      destruct (Nat.eqb_spec (S (p_history s)) 5) as [E5|E5].
      + destruct (std_sort_scale m FD') as [E1 E2]. rewrite E1, E2. cbn [omap bind]. split; [reflexivity|].
        intros s' [= <-].
        destruct (list5 (sort_list (A := B64) m)) as (a & b & c & d & e & E); [etransitivity; [apply (sort_list_length (A := B64))|exact L5]|].
        rewrite firstn_all2 in FP' by (rewrite E5, L5; lia).
        assert (FS : Forall P [a; b; c; d; e]).
        { rewrite <- E. apply (Permutation.Permutation_Forall (Permutation.Permutation_sym (sort_list_perm (A := B64) m))). exact FP'. }
        pose proof (asc_sort m) as As. rewrite E in As.
        exists a, b, c, d, e, n0, n1, n2, n3, n4. split; [|split; [|split]].
        * cbn. rewrite E. auto.
        * eapply Forall_impl; [|exact FS]. exact P_D.
        * cbn [p_history]. rewrite firstn_all2 by (cbn [length]; lia). exact FS.
        * intros _. split; [|exact FS]. apply asc_chain.
          -- eapply Forall_impl; [|exact FS]. intros y Py. apply Py.
          -- apply As. eapply Forall_impl; [|exact FD']. intros y My. apply fin_nan, My.
          -- inversion FS as [|? ? Pa F1]; subst. inversion F1 as [|? ? P1 F2]; subst. inversion F2 as [|? ? P2 F3]; subst.
             inversion F3 as [|? ? P3 F4]; subst. inversion F4 as [|? ? P4 _]; subst. apply spread_P; auto.
      + cbn [omap bind]. split; [reflexivity|]. intros s' [= <-].
        destruct (list5 m L5) as (a & b & c & d & e & ->).
        exists a, b, c, d, e, n0, n1, n2, n3, n4. split; [|split; [|split]]; auto.
        * cbn. auto.
        * cbn [p_history]. intros K. lia.
  Qed.

  Lemma new_uinv (q : double) (s0 : p2 B64) : p2_new (A := B64) q = Ret s0 -> uinv s0 /\ mS s0 = s0 /\ p_history s0 = 0%nat.
  Proof.
    intros E. destruct (new_shape (A := B64) q s0 E) as [Es Sh].
    assert (Z : D (Bz 0)) by (split; [reflexivity|left; reflexivity]).
    split; [|split].
    - exists (Bz 0), (Bz 0), (Bz 0), (Bz 0), (Bz 0), 0%Z, 1%Z, 2%Z, 3%Z, 4%Z. split; [exact Sh|].
      split; [repeat (constructor; [exact Z|]); constructor|]. rewrite Es. cbn [p_history firstn]. split; [constructor|lia].
    - rewrite Es. unfold mS. cbn [p_quantile p_desired p_pos p_heights p_history map]. reflexivity.
    - now rewrite Es.
  Qed.

  Lemma run_scale (q : double) (s0 : p2 B64) (xs : list double) : p2_new (A := B64) q = Ret s0 -> Forall P xs ->
    update_all p2_update s0 (map f xs) = omap mS (update_all p2_update s0 xs) /\
    (forall s, update_all p2_update s0 xs = Ret s -> uinv s).
  Proof.
    intros E0. destruct (new_uinv q s0 E0) as (U0 & M0 & _).
    induction xs as [|x xs IH] using rev_ind; intros F.
    - split; [cbn [map update_all omap bind]; now rewrite M0|]. intros h E. injection E as <-. exact U0.
    - apply Forall_app in F as (F & Fx). inversion Fx as [|? ? Tx _]; subst. destruct (IH F) as (E & T).
      rewrite map_app. cbn [map]. rewrite !update_all_snoc. split.
      + etransitivity; [eapply (f_equal (fun o => bind o _) E)|]. rewrite P2Affine.bind_omap, P2Affine.omap_bind.
        apply P2Affine.bind_ext. intros h Eh. apply update_scale; auto.
      + intros h Eh. apply bind_Ret in Eh as (h1 & E1 & Eh). exact (proj2 (update_scale h1 x (T h1 E1) Tx) h Eh).
  Qed.

  Lemma at_scale (l : list double) i : at_ (map f l) i = omap f (at_ l i).
  Proof. unfold at_. rewrite nth_error_map. destruct (nth_error l i); reflexivity. Qed.

  Definition pS (sv : p2 B64 * double) : p2 B64 * double := let '(s, v) := sv in (mS s, f v).

  Lemma eval_scale (s : p2 B64) : uinv s -> p2_evaluate (mS s) = omap pS (p2_evaluate s).
  Proof.
    intros (h0 & h1 & h2 & h3 & h4 & n0 & n1 & n2 & n3 & n4 & (Eh & _) & FD & _ & _).
    unfold p2_evaluate. cbn [mS p_quantile p_desired p_pos p_heights p_history].
    assert (FD' : Forall D (p_heights s)) by (rewrite Eh; exact FD). clear FD Eh.
    destruct (Nat.leb _ _).
    - destruct (std_sort_scale (p_heights s) FD') as [E1 E2]. cbn [B64 num] in E1, E2 |- * . rewrite E1, E2. cbn [omap bind].
      destruct (round_int _) as [z|]; [|reflexivity]. destruct (_ && _)%bool; [|reflexivity].
      destruct (Z.ltb z 0); [reflexivity|].
      pose proof (at_scale (sort_list (A := B64) (p_heights s)) (Z.to_nat z)) as K. cbn [B64 num] in K |- * . rewrite K.
      rewrite P2Affine.bind_omap, P2Affine.omap_bind. reflexivity.
    - pose proof (at_scale (p_heights s) 2) as K. cbn [B64 num] in K |- * . rewrite K.
      rewrite P2Affine.bind_omap, P2Affine.omap_bind. reflexivity.
  Qed.

  Lemma p2_ldexp (q : double) (xs : list double) : Forall P xs ->
    let answer ys := let* s0 := p2_new (A := B64) q in let* s := update_all p2_update s0 ys in
                     let* (_, v) := p2_evaluate s in Ret v in
    answer (map f xs) = omap f (answer xs).
  Proof.
    intros F answer. unfold answer. rewrite P2Affine.omap_bind. apply P2Affine.bind_ext. intros s0 E0.
    destruct (run_scale q s0 xs E0 F) as [E U].
    etransitivity; [eapply (f_equal (fun o => bind o _) E)|]. rewrite P2Affine.bind_omap, P2Affine.omap_bind.
    apply P2Affine.bind_ext. intros s Es. rewrite eval_scale by auto. rewrite P2Affine.bind_omap, P2Affine.omap_bind.
    apply P2Affine.bind_ext. intros [s' v] _. reflexivity.
  Qed.
End UnitP2.
