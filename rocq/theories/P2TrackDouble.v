(** The P2 markers stay close to their ideal positions in doubles too, whatever
    is fed after the first five observations (NaN and infinities included). *)

From Coq Require Import List Reals ZArith Bool Lia Lra.
From Flocq Require Import Core.Core IEEE754.BinarySingleNaN.
From Verif Require Import Outcome Arith Spec P2 P2Spec FloatSpec FloatFacts MeanError VarError ListFacts UtilsFacts P2Facts P2Float P2Jain P2Track.
Import ListNotations.
Open Scope R_scope.

(** Rounding at the magnitudes of the positions. *)
Definition dlt : R := 1 / 1048576.
Definition eps : R := 1 / 262144.

Lemma rnd_at r : Rabs r <= 4294967296 -> Rabs (rnd r - r) <= dlt.
Proof.
  intros H. eapply Rle_trans; [apply rnd_any|].
  assert (U : u = / IZR (2 ^ 53)) by reflexivity.
  assert (T : bpow radix2 (-1075) <= / IZR (2 ^ 21)).
  { change (/ IZR (2 ^ 21)) with (bpow radix2 (-21)). apply bpow_le. lia. }
  assert (0 < u) by (rewrite U; apply Rinv_0_lt_compat, IZR_lt; lia).
  assert (u * Rabs r <= u * 4294967296) by (apply Rmult_le_compat_l; lra).
  unfold dlt. rewrite U in * . change (IZR (2 ^ 21)) with 2097152 in T. change (IZR (2 ^ 53)) with 9007199254740992 in * . lra.
Qed.

Lemma rnd_at_small r : Rabs r <= 2 -> Rabs (rnd r - r) <= dlt / 2147483648.
Proof.
  intros H. eapply Rle_trans; [apply rnd_any|].
  assert (U : u = / IZR (2 ^ 53)) by reflexivity.
  assert (T : bpow radix2 (-1075) <= / IZR (2 ^ 53)).
  { change (/ IZR (2 ^ 53)) with (bpow radix2 (-53)). apply bpow_le. lia. }
  assert (0 < u) by (rewrite U; apply Rinv_0_lt_compat, IZR_lt; lia).
  assert (u * Rabs r <= u * 2) by (apply Rmult_le_compat_l; lra).
  unfold dlt. rewrite U in * . change (IZR (2 ^ 53)) with 9007199254740992 in * . lra.
Qed.

Lemma small_big : 4294967297 < big.
Proof. unfold big. change 4294967297 with (IZR 4294967297). apply Rlt_trans with (bpow radix2 40); [change (bpow radix2 40) with (IZR (2 ^ 40)); apply IZR_lt; lia|apply bpow_lt; lia]. Qed.

Definition about (x : double) (r e : R) : Prop := finite64 x = true /\ Rabs (B2R x - r) <= e.

Lemma about_round (x : double) (v r e : R) : nan x = false -> X x = R64 v -> Rabs (v - r) <= e -> Rabs r + e <= 4294967296 -> about x r (e + dlt).
Proof.
  intros Hn HX Hv Hm. assert (Rabs v <= 4294967296).
  { replace v with (r + (v - r)) by ring. eapply Rle_trans; [apply Rabs_triang|]. lra. }
  pose proof (rnd_at v H) as Hr. pose proof small_big.
  destruct (rnd_finite x v 4294967297 Hn HX) as [F E]; auto.
  { replace (rnd v) with (v + (rnd v - v)) by ring. eapply Rle_trans; [apply Rabs_triang|]. unfold dlt in Hr. lra. }
  split; auto. rewrite E. replace (rnd v - r) with ((rnd v - v) + (v - r)) by ring. eapply Rle_trans; [apply Rabs_triang|]. lra.
Qed.

Lemma about_half (x : double) (r e : R) : about x r e -> 0 <= e -> Rabs r + e <= 4294967296 -> about (Bquot x (Bz 2)) (r / 2) (e / 2 + dlt).
Proof.
  intros [F H] He Hm. destruct (Bz_exact 2) as [E2 F2]; [lia|]. destruct (X_div x (Bz 2) F F2) as [HX Hn]; [rewrite E2; lra|].
  rewrite E2 in HX. apply about_round with (v := B2R x / 2); auto.
  - replace (B2R x / 2 - r / 2) with (/ 2 * (B2R x - r)) by field. rewrite Rabs_mult, Rabs_right by lra. lra.
  - unfold Rdiv. rewrite Rabs_mult, (Rabs_right (/ 2)) by lra. pose proof (Rabs_pos r). lra.
Qed.

(** The desired positions. *)
Section Desired.
  Variables (q : double) (cnt : nat).
  Hypothesis Fq : finite64 q = true.
  Hypothesis Hq : 0 < B2R q < 1.
  Hypothesis Hc : (Z.of_nat cnt < 2 ^ 31)%Z.

  Let c : double := of_nat (A := B64) cnt.

  Lemma cnt_exact : finite64 c = true /\ B2R c = INR cnt /\ 0 <= INR cnt <= 2147483647.
  Proof.
    destruct (Bz_exact (Z.of_nat cnt)) as [E F]; [lia|]. split; [exact F|]. split; [unfold c, of_nat; cbn [of_Z B64]; rewrite E; symmetry; apply INR_IZR_INZ|].
    split; [apply pos_INR|]. rewrite INR_IZR_INZ. apply IZR_le. lia.
  Qed.

  Lemma desired2 : about (Bmul c q) (INR cnt * B2R q) dlt.
  Proof.
    destruct cnt_exact as (F & E & R0). destruct (X_mul c q F Fq) as [HX Hn]. rewrite E in HX.
    replace dlt with (0 + dlt) by ring. apply about_round with (v := INR cnt * B2R q); auto.
    - rewrite Rminus_diag_eq, Rabs_R0 by auto. lra.
    - rewrite Rabs_right by nra. nra.
  Qed.

  Lemma desired1 : about (Bquot (Bmul c q) (Bz 2)) (INR cnt * (B2R q / 2)) (3 * dlt).
  Proof.
    destruct cnt_exact as (F & E & R0). pose proof (about_half _ _ _ desired2) as H.
    replace (INR cnt * (B2R q / 2)) with (INR cnt * B2R q / 2) by field.
    destruct H as [F' H]; [unfold dlt; lra|rewrite Rabs_right by nra; unfold dlt; nra|].
    split; auto. unfold dlt in * . lra.
  Qed.

  Lemma desired3 : about (Bquot (Bmul c (Badd (Bz 1) q)) (Bz 2)) (INR cnt * ((1 + B2R q) / 2)) (3 * dlt).
  Proof.
    destruct cnt_exact as (F & E & R0). destruct (Bz_exact 1) as [E1 F1]; [lia|].
    destruct (X_add (Bz 1) q F1 Fq) as [HX Hn]. rewrite E1 in HX.
    pose proof (rnd_at_small (1 + B2R q)) as Hr. rewrite Rabs_right in Hr at 1 by lra. specialize (Hr ltac:(lra)).
    pose proof small_big.
    destruct (rnd_finite _ _ 3 Hn HX) as [Fs Es]; [|lra|].
    { replace (rnd (1 + B2R q)) with ((1 + B2R q) + (rnd (1 + B2R q) - (1 + B2R q))) by ring. eapply Rle_trans; [apply Rabs_triang|].
      rewrite (Rabs_right (1 + B2R q)) by lra. unfold dlt in Hr. lra. }
    destruct (X_mul c _ F Fs) as [HXm Hnm]. rewrite E, Es in HXm.
    assert (A : about (Bmul c (Badd (Bz 1) q)) (INR cnt * (1 + B2R q)) (dlt + dlt)).
    { apply about_round with (v := INR cnt * rnd (1 + B2R q)); auto.
      - rewrite <- Rmult_minus_distr_l, Rabs_mult, (Rabs_right (INR cnt)) by lra. replace dlt with (2147483648 * (dlt / 2147483648)) by field.
        apply Rmult_le_compat; auto using Rabs_pos; lra.
      - rewrite Rabs_right by nra. unfold dlt. nra. }
    replace (INR cnt * ((1 + B2R q) / 2)) with (INR cnt * (1 + B2R q) / 2) by field.
    destruct (about_half _ _ _ A) as [F' H']; [unfold dlt; lra|rewrite Rabs_right by nra; unfold dlt; nra|].
    split; auto. unfold dlt in * . lra.
  Qed.
End Desired.

(** ** Positions *)

Definition pm (ideal : R) (na nb nc r : Z) : Prop :=
  (r = (nb + 1)%Z /\ (nb + 1 < nc)%Z /\ 1 - eps <= ideal - IZR nb) \/
  (r = (nb - 1)%Z /\ (na < nb - 1)%Z /\ ideal - IZR nb <= -1 + eps) \/
  (r = nb /\ (ideal - IZR nb < 1 + eps \/ nc = (nb + 1)%Z) /\ (-1 - eps < ideal - IZR nb \/ na = (nb - 1)%Z)).

Lemma pm_up ideal idealc na nb nc r U : pm ideal na nb nc r -> ideal <= idealc -> 1 + eps <= U ->
  ideal - IZR nb <= U + 1 -> idealc - IZR nc <= U - 1 -> ideal - IZR r <= U.
Proof.
  unfold pm, eps. intros [(-> & H & A)|[(-> & H & A)|(-> & [A|A] & B)]] L HU D Dc; rewrite ?plus_IZR, ?minus_IZR; try lra.
  subst nc. rewrite plus_IZR in Dc. lra.
Qed.

Lemma pm_dn ideal ideala na nb nc r U : pm ideal na nb nc r -> ideala <= ideal -> 1 + eps <= U ->
  IZR nb - ideal <= U + 1 -> IZR na - ideala <= U - 1 -> IZR r - ideal <= U.
Proof.
  unfold pm, eps. intros [(-> & H & A)|[(-> & H & A)|(-> & B & [A|A])]] L HU D Dc; rewrite ?plus_IZR, ?minus_IZR; try lra.
  subst na. rewrite minus_IZR in Dc. lra.
Qed.

Lemma pm_core (des : double) (ideal : R) hm hi hp (nm ni np : Z) : (nm < ni < np)%Z -> (0 <= nm)%Z -> (np < 2 ^ 31)%Z ->
  0 <= ideal <= 2147483648 -> about des ideal (3 * dlt) ->
  pm ideal nm ni np (snd (core (A := B64) des hm hi hp nm ni np)).
Proof.
  intros Hn H0 HM Hi [F Hd]. destruct (Bz_exact ni) as [En Fn]; [lia|]. destruct (Bz_exact 1) as [E1 F1]; [lia|]. destruct (Bz_exact (-1)) as [Em Fm]; [lia|].
  destruct (X_sub des (Bz ni) F Fn) as [HX Hnn]. rewrite En in HX.
  assert (N1 : 0 <= IZR ni <= 2147483648) by (split; [apply IZR_le; lia|change 2147483648 with (IZR (2 ^ 31)); apply IZR_le; lia]).
  assert (A : about (Bsub des (Bz ni)) (ideal - IZR ni) (3 * dlt + dlt)).
  { apply about_round with (v := B2R des - IZR ni); auto.
    - replace (B2R des - IZR ni - (ideal - IZR ni)) with (B2R des - ideal) by ring. exact Hd.
    - unfold dlt. apply Rle_trans with (2147483648 + 3 * (1 / 1048576)); [|lra]. apply Rplus_le_compat_r, Rabs_le. lra. }
  destruct A as [Fd Ad]. apply Rabs_le_inv in Ad.
  pose proof (X_leb (Bz 1) (Bsub des (Bz ni))) as L1. pose proof (X_leb_false (Bz 1) (Bsub des (Bz ni))) as L1'.
  pose proof (X_leb (Bsub des (Bz ni)) (Bz (-1))) as L2. pose proof (X_leb_false (Bsub des (Bz ni)) (Bz (-1))) as L2'.
  assert (Nz : forall z, (Z.abs z <= 2 ^ 53)%Z -> nan (Bz z) = false) by (intros z Hz; destruct (Bz_X z); auto).
  rewrite (X_fin _ F1), (X_fin _ Fd), E1 in L1, L1'. rewrite (X_fin _ Fm), (X_fin _ Fd), Em in L2, L2'.
  specialize (L1 (Nz 1%Z ltac:(lia)) Hnn). specialize (L1' (Nz 1%Z ltac:(lia)) Hnn).
  specialize (L2 Hnn (Nz (-1)%Z ltac:(lia))). specialize (L2' Hnn (Nz (-1)%Z ltac:(lia))).
  unfold core, dir. cbn [leb sub of_Z B64]. unfold dlt in Ad. unfold pm, eps.
  destruct (Bleb (Bz 1) (Bsub des (Bz ni))) eqn:T1; cbn [andb].
  - destruct L1 as [L1 _]. specialize (L1 eq_refl). destruct (Z.ltb_spec 1 (np - ni)); cbn [snd].
    + left. repeat split; (lia || lra).
    + destruct (Bleb (Bsub des (Bz ni)) (Bz (-1))) eqn:T2; [destruct L2 as [L2 _]; specialize (L2 eq_refl); lra|].
      cbn [andb snd]. right. right. split; [auto|]. split; [right; lia|]. left. lra.
  - destruct L1' as [L1' _]. specialize (L1' eq_refl).
    destruct (Bleb (Bsub des (Bz ni)) (Bz (-1))) eqn:T2; cbn [andb].
    + destruct L2 as [L2 _]. specialize (L2 eq_refl). destruct (Z.ltb_spec (nm - ni) (-1)); cbn [snd].
      * right. left. repeat split; (lia || lra).
      * right. right. split; [auto|]. split; [left; lra|right; lia].
    + destruct L2' as [L2' _]. specialize (L2' eq_refl). cbn [snd]. right. right. split; [auto|]. split; left; lra.
Qed.

(** The deviations from the ideal positions [c f]. *)
Definition close (q : R) (c : R) (n1 n2 n3 : Z) : Prop :=
  -1 - eps <= c * (q / 2) - IZR n1 <= 5 + eps /\ -3 - eps <= c * q - IZR n2 <= 3 + eps /\
  -5 - eps <= c * ((1 + q) / 2) - IZR n3 <= 1 + eps.

Definition loose (q : R) (c : R) (n1 n2 n3 : Z) : Prop :=
  -2 - eps <= c * (q / 2) - IZR n1 <= 6 + eps /\ -4 - eps <= c * q - IZR n2 <= 4 + eps /\
  -6 - eps <= c * ((1 + q) / 2) - IZR n3 <= 2 + eps.

Lemma close_fwd q c n1 n2 n3 n4 r1 r2 r3 : 0 < q < 1 -> 0 <= c -> IZR n4 = c -> loose q c n1 n2 n3 ->
  pm (c * (q / 2)) 0 n1 n2 r1 -> pm (c * q) r1 n2 n3 r2 -> pm (c * ((1 + q) / 2)) r2 n3 n4 r3 -> close q c r1 r2 r3.
Proof.
  intros Hq Hc E4 (D1 & D2 & D3) P1 P2 P3. assert (I1 : 0 <= c * (q / 2) <= c * q) by nra. assert (I2 : c * q <= c * ((1 + q) / 2) <= c) by nra.
  unfold eps in * .
  pose proof (pm_up _ (c * q) _ _ _ _ (5 + eps) P1) as U1. pose proof (pm_dn _ 0 _ _ _ _ (1 + eps) P1) as L1. unfold eps in U1, L1.
  specialize (U1 ltac:(lra) ltac:(lra) ltac:(lra) ltac:(lra)). specialize (L1 ltac:(lra) ltac:(lra) ltac:(lra) ltac:(lra)).
  pose proof (pm_up _ (c * ((1 + q) / 2)) _ _ _ _ (3 + eps) P2) as U2. pose proof (pm_dn _ (c * (q / 2)) _ _ _ _ (3 + eps) P2) as L2. unfold eps in U2, L2.
  specialize (U2 ltac:(lra) ltac:(lra) ltac:(lra) ltac:(lra)). specialize (L2 ltac:(lra) ltac:(lra) ltac:(lra) ltac:(lra)).
  pose proof (pm_up _ c _ _ _ _ (1 + eps) P3) as U3. pose proof (pm_dn _ (c * q) _ _ _ _ (5 + eps) P3) as L3. unfold eps in U3, L3.
  specialize (U3 ltac:(lra) ltac:(lra) ltac:(lra) ltac:(lra)). specialize (L3 ltac:(lra) ltac:(lra) ltac:(lra) ltac:(lra)).
  unfold close, eps. lra.
Qed.

Lemma close_bwd q c n1 n2 n3 n4 r1 r2 r3 : 0 < q < 1 -> 0 <= c -> IZR n4 = c -> loose q c n1 n2 n3 ->
  pm (c * ((1 + q) / 2)) n2 n3 n4 r3 -> pm (c * q) n1 n2 r3 r2 -> pm (c * (q / 2)) 0 n1 r2 r1 -> close q c r1 r2 r3.
Proof.
  intros Hq Hc E4 (D1 & D2 & D3) P3 P2 P1. assert (I1 : 0 <= c * (q / 2) <= c * q) by nra. assert (I2 : c * q <= c * ((1 + q) / 2) <= c) by nra.
  unfold eps in * .
  pose proof (pm_up _ c _ _ _ _ (1 + eps) P3) as U3. pose proof (pm_dn _ (c * q) _ _ _ _ (5 + eps) P3) as L3. unfold eps in U3, L3.
  specialize (U3 ltac:(lra) ltac:(lra) ltac:(lra) ltac:(lra)). specialize (L3 ltac:(lra) ltac:(lra) ltac:(lra) ltac:(lra)).
  pose proof (pm_up _ (c * ((1 + q) / 2)) _ _ _ _ (3 + eps) P2) as U2. pose proof (pm_dn _ (c * (q / 2)) _ _ _ _ (3 + eps) P2) as L2. unfold eps in U2, L2.
  specialize (U2 ltac:(lra) ltac:(lra) ltac:(lra) ltac:(lra)). specialize (L2 ltac:(lra) ltac:(lra) ltac:(lra) ltac:(lra)).
  pose proof (pm_up _ (c * q) _ _ _ _ (5 + eps) P1) as U1. pose proof (pm_dn _ 0 _ _ _ _ (1 + eps) P1) as L1. unfold eps in U1, L1.
  specialize (U1 ltac:(lra) ltac:(lra) ltac:(lra) ltac:(lra)). specialize (L1 ltac:(lra) ltac:(lra) ltac:(lra) ltac:(lra)).
  unfold close, eps. lra.
Qed.

Lemma update_track (s : p2 B64) (x : double) h0 h1 h2 h3 h4 n1 n2 n3 n4 :
  finite64 (p_quantile s) = true -> 0 < B2R (p_quantile s) < 1 ->
  (5 <= p_history s)%nat -> (Z.of_nat (p_history s) < 2 ^ 31)%Z ->
  shape s (h0, h1, h2, h3, h4) (0%Z, n1, n2, n3, n4) -> n4 = (Z.of_nat (p_history s) - 1)%Z ->
  close (B2R (p_quantile s)) (INR (p_history s) - 1) n1 n2 n3 ->
  exists s' g m1 m2 m3, p2_update s x = Ret s' /\ shape s' g (0%Z, m1, m2, m3, (n4 + 1)%Z) /\
    close (B2R (p_quantile s)) (INR (p_history s)) m1 m2 m3 /\
    p_history s' = S (p_history s) /\ p_quantile s' = p_quantile s.
Proof.
  intros Fq Hq Hh Hc (Eh & En & Hn & Hd) H4 HC.
  pose proof (desired1 (p_quantile s) (p_history s) Fq Hq Hc) as A1. pose proof (desired2 (p_quantile s) (p_history s) Fq Hq Hc) as A2.
  pose proof (desired3 (p_quantile s) (p_history s) Fq Hq Hc) as A3.
  assert (A2' : about (Bmul (of_nat (A := B64) (p_history s)) (p_quantile s)) (INR (p_history s) * B2R (p_quantile s)) (3 * dlt)).
  { destruct A2 as [F2 B2]. split; auto. unfold dlt in * . lra. }
  assert (HR : 0 <= INR (p_history s) <= 2147483648).
  { split; [apply pos_INR|]. rewrite INR_IZR_INZ. change 2147483648 with (IZR (2 ^ 31)). apply IZR_le. lia. }
  unfold p2_update. destruct (Nat.ltb_spec (p_history s) 5); [lia|]. clear H.
  rewrite Eh, findK_eq. pose proof (fk_k (A := B64) h0 h1 h2 h3 h4 x) as Hk.
  destruct (fk (A := B64) h0 h1 h2 h3 h4 x) as [[a b] k]. cbn [bind snd] in * .
  rewrite En, bump_eq by (auto; ints). cbn [bind].
  destruct (p_desired s) as [|d0 ds]; [discriminate|].
  change (at_ (d0 :: ds) 0) with (Ret d0). cbn [bind].
  match goal with |- context [adjustHeights ?d] => set (des := d) end.
  unfold bumped.
  assert (B : forall (c : bool) (n : Z), IZR n <= IZR (if c then n + 1 else n)%Z <= IZR n + 1) by (intros [|] n; rewrite ?plus_IZR; lra).
  pose proof (B (Nat.leb k 0) n1) as B1. pose proof (B (Nat.leb k 1) n2) as B2. pose proof (B (Nat.leb k 2) n3) as B3. clear B.
  set (m1 := (if Nat.leb k 0 then n1 + 1 else n1)%Z) in * .
  set (m2 := (if Nat.leb k 1 then n2 + 1 else n2)%Z) in * .
  set (m3 := (if Nat.leb k 2 then n3 + 1 else n3)%Z) in * .
  assert (Hm : pos5 0 m1 m2 m3 (n4 + 1)).
  { unfold m1, m2, m3. destruct k as [|[|[|[|]]]]; cbn [Nat.leb]; ints. }
  clearbody m1 m2 m3.
  set (q := p_quantile s) in * . set (c := INR (p_history s)) in * .
  assert (HL : loose (B2R q) c m1 m2 m3).
  { unfold close in HC. unfold loose, eps in * . nra. }
  assert (E4 : IZR (n4 + 1) = c) by (unfold c; rewrite INR_IZR_INZ; f_equal; lia).
  assert (J1 : 0 <= c * (B2R q / 2) <= 2147483648) by nra. assert (J2 : 0 <= c * B2R q <= 2147483648) by nra.
  assert (J3 : 0 <= c * ((1 + B2R q) / 2) <= 2147483648) by nra.
  destruct (leb (lit 1 2) q).
  - rewrite (adjust1 (A := B64) pos_B64 neg_B64 des _ _ _ _ _ _ _ _ _ _ _ Hm eq_refl). cbv zeta. cbn [bind].
    set (r1 := core _ a h1 h2 0 m1 m2).
    assert (P1 : (0 < snd r1 < m2)%Z) by (apply core_pos; ints).
    assert (I1 : pm (c * (B2R q / 2)) 0 m1 m2 (snd r1)) by (apply pm_core; auto; ints).
    clearbody r1.
    assert (Hm1 : pos5 0 (snd r1) m2 m3 (n4 + 1)) by ints.
    rewrite (adjust2 (A := B64) pos_B64 neg_B64 des _ _ _ _ _ _ _ _ _ _ _ Hm1 eq_refl). cbv zeta. cbn [bind].
    set (r2 := core _ (fst r1) h2 h3 (snd r1) m2 m3).
    assert (P2 : (snd r1 < snd r2 < m3)%Z) by (apply core_pos; ints).
    assert (I2 : pm (c * B2R q) (snd r1) m2 m3 (snd r2)) by (apply pm_core; auto; ints).
    clearbody r2.
    assert (Hm2 : pos5 0 (snd r1) (snd r2) m3 (n4 + 1)) by ints.
    rewrite (adjust3 (A := B64) pos_B64 neg_B64 des _ _ _ _ _ _ _ _ _ _ _ Hm2 eq_refl). cbv zeta. cbn [bind].
    set (r3 := core _ (fst r2) h3 b (snd r2) m3 (n4 + 1)).
    assert (P3 : (snd r2 < snd r3 < n4 + 1)%Z) by (apply core_pos; ints).
    assert (I3 : pm (c * ((1 + B2R q) / 2)) (snd r2) m3 (n4 + 1) (snd r3)) by (apply pm_core; auto; ints).
    clearbody r3.
    eexists _, (a, fst r1, fst r2, fst r3, b), (snd r1), (snd r2), (snd r3).
    split; [reflexivity|]. split; [unfold shape; cbn [p_heights p_pos p_desired]; split; [reflexivity|split; [reflexivity|split; [ints|reflexivity]]]|]. split; [|cbn; auto].
    eapply close_fwd; eauto; lra.
  - rewrite (adjust3 (A := B64) pos_B64 neg_B64 des _ _ _ _ _ _ _ _ _ _ _ Hm eq_refl). cbv zeta. cbn [bind].
    set (r3 := core _ h2 h3 b m2 m3 (n4 + 1)).
    assert (P3 : (m2 < snd r3 < n4 + 1)%Z) by (apply core_pos; ints).
    assert (I3 : pm (c * ((1 + B2R q) / 2)) m2 m3 (n4 + 1) (snd r3)) by (apply pm_core; auto; ints).
    clearbody r3.
    assert (Hm3 : pos5 0 m1 m2 (snd r3) (n4 + 1)) by ints.
    rewrite (adjust2 (A := B64) pos_B64 neg_B64 des _ _ _ _ _ _ _ _ _ _ _ Hm3 eq_refl). cbv zeta. cbn [bind].
    set (r2 := core _ h1 h2 (fst r3) m1 m2 (snd r3)).
    assert (P2 : (m1 < snd r2 < snd r3)%Z) by (apply core_pos; ints).
    assert (I2 : pm (c * B2R q) m1 m2 (snd r3) (snd r2)) by (apply pm_core; auto; ints).
    clearbody r2.
    assert (Hm2 : pos5 0 m1 (snd r2) (snd r3) (n4 + 1)) by ints.
    rewrite (adjust1 (A := B64) pos_B64 neg_B64 des _ _ _ _ _ _ _ _ _ _ _ Hm2 eq_refl). cbv zeta. cbn [bind].
    set (r1 := core _ a h1 (fst r2) 0 m1 (snd r2)).
    assert (P1 : (0 < snd r1 < snd r2)%Z) by (apply core_pos; ints).
    assert (I1 : pm (c * (B2R q / 2)) 0 m1 (snd r2) (snd r1)) by (apply pm_core; auto; ints).
    clearbody r1.
    eexists _, (a, fst r1, fst r2, fst r3, b), (snd r1), (snd r2), (snd r3).
    split; [reflexivity|]. split; [unfold shape; cbn [p_heights p_pos p_desired]; split; [reflexivity|split; [reflexivity|split; [ints|reflexivity]]]|]. split; [|cbn; auto].
    eapply close_bwd; eauto; lra.
Qed.

Lemma run_track (s0 : p2 B64) h n1 n2 n3 n4 (ys : list double) :
  finite64 (p_quantile s0) = true -> 0 < B2R (p_quantile s0) < 1 -> (5 <= p_history s0)%nat ->
  shape s0 h (0%Z, n1, n2, n3, n4) -> n4 = (Z.of_nat (p_history s0) - 1)%Z ->
  (Z.of_nat (p_history s0 + length ys) <= 2 ^ 31)%Z ->
  close (B2R (p_quantile s0)) (INR (p_history s0) - 1) n1 n2 n3 ->
  exists s g m1 m2 m3, update_all p2_update s0 ys = Ret s /\
    shape s g (0%Z, m1, m2, m3, (n4 + Z.of_nat (length ys))%Z) /\
    close (B2R (p_quantile s0)) (INR (p_history s0 + length ys) - 1) m1 m2 m3.
Proof.
  revert s0 h n1 n2 n3 n4. induction ys as [|y ys IH]; intros s0 h n1 n2 n3 n4 Fq Hq Hh Sh H4 HM HC.
  - exists s0, h, n1, n2, n3. cbn [update_all length]. rewrite Nat.add_0_r, Z.add_0_r. auto.
  - cbn [length] in HM. destruct h as [[[[h0 h1] h2] h3] h4].
    destruct (update_track s0 y h0 h1 h2 h3 h4 n1 n2 n3 n4 Fq Hq Hh ltac:(lia) Sh H4 HC) as (s1 & g1 & a1 & a2 & a3 & E1 & Sh1 & C1 & Hh1 & Hq1).
    assert (N1 : INR (p_history s1) - 1 = INR (p_history s0)) by (rewrite Hh1, S_INR; lra).
    destruct (IH s1 g1 a1 a2 a3 (n4 + 1)%Z) as (s & g & m1 & m2 & m3 & E & SS & C); try (rewrite ?Hq1, ?N1; auto; lia).
    exists s, g, m1, m2, m3. cbn [update_all]. rewrite E1. cbn [bind]. split; [exact E|].
    replace (n4 + Z.of_nat (length (y :: ys)))%Z with (n4 + 1 + Z.of_nat (length ys))%Z by (cbn [length]; lia). split; [exact SS|].
    rewrite Hq1, Hh1 in C. replace (p_history s0 + length (y :: ys))%nat with (S (p_history s0) + length ys)%nat by (cbn [length]; lia). exact C.
Qed.

Lemma markers_track_B64 (q : double) s0 (xs : list double) : p2_new (A := B64) q = Ret s0 -> nan q = false ->
  (5 <= length xs)%nat -> (Z.of_nat (length xs) <= 2 ^ 31)%Z -> Forall (fun x => nan x = false) (firstn 5 xs) ->
  exists s n1 n2 n3, update_all p2_update s0 xs = Ret s /\
    p_pos s = [0; n1; n2; n3; Z.of_nat (length xs) - 1]%Z /\
    let ideal f := f * (INR (length xs) - 1) in
    -5 - 1 / 262144 <= IZR n1 - ideal (B2R q / 2) <= 1 + 1 / 262144 /\
    -3 - 1 / 262144 <= IZR n2 - ideal (B2R q) <= 3 + 1 / 262144 /\
    -1 - 1 / 262144 <= IZR n3 - ideal ((1 + B2R q) / 2) <= 5 + 1 / 262144.
Proof.
  intros E0 Nq HL HM HN. destruct (new_quant q s0 E0 Nq) as [Fq Hq]. apply (new_shape (A := B64)) in E0 as [E0 S0].
  destruct (split5 xs HL) as [Ex L5].
  replace (update_all p2_update s0 xs) with (update_all p2_update s0 (firstn 5 xs ++ skipn 5 xs)) by now rewrite <- Ex.
  rewrite update_all_app, run_five by (subst s0; auto). apply not_nan_B64 in HN. rewrite HN. cbn [bind].
  destruct (five_shape s0 (firstn 5 xs) (0, 1, 2, 3, 4)%Z L5) as [h Sh]; [eauto|].
  assert (LS : length xs = (5 + length (skipn 5 xs))%nat) by (rewrite skipn_length; lia).
  set (s5 := P2 (p_quantile s0) (desired5 (p_quantile s0)) (p_pos s0) (sort_list (firstn 5 xs)) 5) in * .
  assert (Eq : p_quantile s5 = q) by (subst s5 s0; reflexivity).
  destruct (run_track s5 h 1 2 3 4 (skipn 5 xs)) as (s & g & m1 & m2 & m3 & E & SS & C); rewrite ?Eq; auto; [change (p_history s5) with 5%nat; lia| |].
  - change (p_history s5) with 5%nat. replace (INR 5 - 1) with 4 by (cbn; lra). unfold close, eps. lra.
  - exists s, m1, m2, m3. split; [exact E|]. change (p_history s5) with 5%nat in C. rewrite <- LS, Eq in C.
    destruct g as [[[[g0 g1] g2] g3] g4]. destruct SS as (_ & -> & _ & _).
    split; [replace (Z.of_nat (length xs) - 1)%Z with (4 + Z.of_nat (length (skipn 5 xs)))%Z by lia; reflexivity|]. cbv zeta. unfold close, eps in C. lra.
Qed.
