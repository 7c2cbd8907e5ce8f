(** WindowedFAME in a unit that is a power of two times larger or smaller, in
    doubles. *)

From Coq Require Import List Reals ZArith Lra Lia Bool Arith.
From Flocq Require Import Core.Core IEEE754.BinarySingleNaN.
From Verif Require Import Outcome Arith Fame FloatSpec FloatFacts UnitSpec UnitNum UnitFameSpec.
Import ListNotations.
Open Scope R_scope.

Section UnitFame.
  Variables (k : Z).
  Local Notation f := (ldexp64 k).
  Local Notation D := (measured k 800).

  Lemma grow_steady (eps : double) : finite64 eps = true -> 0 <= B2R eps < 1 ->
    steady 1 (Badd (Bz 1) eps) /\ 1 <= B2R (Badd (Bz 1) eps) <= 2.
  Proof.
    intros F [H1 H2]. destruct (Bz_exact 1) as [E1 F1]; [lia|].
    assert (R : 1 <= rnd (B2R (Bz 1) + B2R eps) <= 2).
    { rewrite E1. assert (B0 : rnd 1 = 1) by exact (rnd_bpow 0 ltac:(lia)).
      assert (B1 : rnd 2 = 2) by exact (rnd_bpow 1 ltac:(lia)).
      split; [rewrite <- B0|rewrite <- B1]; apply rnd_le; lra. }
    destruct (add_ok (Bz 1) eps F1 F) as (E & G & _).
    { rewrite Rabs_pos_eq by lra. apply Rle_lt_trans with (bp 1); [exact (proj2 R)|]. apply bpow_lt. lia. }
    rewrite E. split; auto. split; [exact G|]. rewrite E, Rabs_pos_eq by lra.
    change (bp 1) with 2. change (bp (- (1))) with (/ 2). lra.
  Qed.

  Lemma steady_two : steady 1 (Bz 2).
  Proof.
    destruct (Bz_exact 2) as [E F]; [lia|]. split; auto. rewrite E, Rabs_pos_eq by lra.
    change (bp 1) with 2. change (bp (- (1))) with (/ 2). lra.
  Qed.

  Lemma max_scale e (a b : double) : (0 <= e <= 1000)%Z -> measured k e a -> measured k e b ->
    max_ (A := B64) (f a) (f b) = f (max_ (A := B64) a b) /\ measured k e (max_ (A := B64) a b).
  Proof.
    intros He Ma Mb. unfold max_. change (@ltb B64) with (@Bltb 53 1024). rewrite (ltb_scale k e) by auto.
    destruct (Bltb a b); auto.
  Qed.

  (** One update. *)
  Lemma fame_update_scale (s : fame B64) (x : double) :
    finite64 (f_epsilon s) = true -> 0 <= B2R (f_epsilon s) < 1 ->
    D (f_median s) -> D (f_step s) -> D x ->
    fame_update (ldexp_fame k s) (f x) = ldexp_fame k (fame_update s x).
  Proof.
    intros Fe He Dm Ds Dx. destruct (grow_steady _ Fe He) as [Sg _]. pose proof steady_two as S2.
    assert (D1 : forall y, D y -> measured k 801 y) by (intros y; apply measured_mono; lia).
    unfold fame_update, ldexp_fame.
    cbn [f_median f_step f_epsilon f_history].
    change (@ltb B64) with (@Bltb 53 1024). change (@add B64) with Badd. change (@sub B64) with Bsub.
    change (@mul B64) with Bmul. change (@div B64) with Bquot. change (@fabs B64) with (@Babs 53 1024).
    change (of_Z (a := B64) 2) with (Bz 2). change (of_Z (a := B64) 1) with (Bz 1).
    change (num B64) with double.
    destruct (abs_scale k 800 x ltac:(lia) Dx) as [Da Ea]. rewrite Ea.
    destruct (div_scale k 800 1 (Bz 2) (Babs x) ltac:(lia) ltac:(lia) ltac:(lia) S2 Da) as [Dh Eh].
    change (800 + 1)%Z with 801%Z in Dh.
    (* the median and the step before the move *)
    set (first := Nat.eqb (f_history s) 0).
    set (m0 := if first then x else f_median s).
    assert (Em0 : (if first then f x else f (f_median s)) = f m0) by (unfold m0; now destruct first).
    assert (Dm0 : measured k 801 m0) by (unfold m0; destruct first; auto).
    set (s0 := if first return double then max_ (A := B64) (Bquot (Babs x) (Bz 2)) (f_step s) else f_step s).
    assert (Es0 : (if first then max_ (A := B64) (Bquot (f (Babs x)) (Bz 2)) (f (f_step s)) else f (f_step s)) = f s0).
    { unfold s0. destruct first; auto. etransitivity; [eapply (f_equal (fun z => max_ (A := B64) z (f (f_step s)))); exact Eh|].
      apply (max_scale 801); auto. lia. }
    assert (Ds0 : measured k 801 s0).
    { unfold s0. destruct first; auto. apply (max_scale 801); auto. lia. }
    clearbody m0 s0.
    cbv zeta. change (num B64) with double in Em0, Es0. rewrite Em0, Es0. clear Em0 Es0 Eh Ea.
    (* the move *)
    rewrite !(ltb_scale k 801) by (auto; lia).
    destruct (add_scale k 801 m0 s0 ltac:(lia) Dm0 Ds0) as [Dp Ep].
    destruct (sub_scale k 801 m0 s0 ltac:(lia) Dm0 Ds0) as [Dq Eq].
    change (801 + 53)%Z with 854%Z in Dp, Dq. rewrite Ep, Eq. clear Ep Eq.
    set (m1 := if Bltb x m0 then Bsub m0 s0 else if Bltb m0 x then Badd m0 s0 else m0).
    assert (Em1 : (if Bltb x m0 then f (Bsub m0 s0) else if Bltb m0 x then f (Badd m0 s0) else f m0) = f m1).
    { unfold m1. destruct (Bltb x m0); auto. destruct (Bltb m0 x); auto. }
    assert (Dm1 : measured k 854 m1).
    { unfold m1. destruct (Bltb x m0); auto. destruct (Bltb m0 x); auto. revert Dm0. apply measured_mono. lia. }
    clearbody m1. rewrite Em1. clear Em1.
    (* the step *)
    destruct (sub_scale k 854 x m1 ltac:(lia)) as [Dd Ed]; [revert Dx; apply measured_mono; lia|exact Dm1|].
    change (854 + 53)%Z with 907%Z in Dd. rewrite Ed.
    destruct (abs_scale k 907 _ ltac:(lia) Dd) as [De Ee]. rewrite Ee.
    rewrite (ltb_scale k 907) by (auto; try lia; revert Ds0; apply measured_mono; lia).
    destruct (div_scale k 801 1 (Bz 2) s0 ltac:(lia) ltac:(lia) ltac:(lia) S2 Ds0) as [Dz Ez].
    change (801 + 1)%Z with 802%Z in Dz. rewrite Ez.
    set (st := if (negb first && Bltb (Babs (Bsub x m1)) s0)%bool then Bquot s0 (Bz 2) else s0).
    assert (Est : (if (negb first && Bltb (Babs (Bsub x m1)) s0)%bool then f (Bquot s0 (Bz 2)) else f s0) = f st).
    { unfold st. destruct (_ && _)%bool; auto. }
    assert (Dst : measured k 802 st).
    { unfold st. destruct (_ && _)%bool; auto. revert Ds0. apply measured_mono. lia. }
    clearbody st. rewrite Est.
    destruct (mul_scale_r k 802 1 _ st ltac:(lia) ltac:(lia) ltac:(lia) Sg Dst) as [_ Eg].
    rewrite Eg. reflexivity.
  Qed.

  (** Any number of updates while estimate and step stay in range. *)
  Lemma fame_run_scale (xs : list double) : forall s : fame B64,
    finite64 (f_epsilon s) = true -> 0 <= B2R (f_epsilon s) < 1 -> Forall D xs ->
    (forall ys zs, xs = ys ++ zs -> fame_measured k (fold_left fame_update ys s)) ->
    fold_left fame_update (map f xs) (ldexp_fame k s) = ldexp_fame k (fold_left fame_update xs s).
  Proof.
    induction xs as [|x xs IH]; intros s Fe He Dxs H; [reflexivity|].
    inversion Dxs as [|? ? Dx Dxs']; subst. cbn [map fold_left].
    destruct (H [] (x :: xs) eq_refl) as [Dm Ds]. cbn [fold_left] in Dm, Ds.
    etransitivity; [eapply (f_equal (fold_left fame_update (map f xs))); apply fame_update_scale; auto|].
    apply IH; auto. intros ys zs E. apply (H (x :: ys) zs). cbn [app]. now rewrite E.
  Qed.

  (** ** A number of observations for which the range is kept *)

  Definition multiple (u : Z) (r : R) : Prop := exists m : Z, r = IZR m * bp u.

  Lemma multiple_down u v r : (v <= u)%Z -> multiple u r -> multiple v r.
  Proof.
    intros H [m ->]. exists (m * 2 ^ (u - v))%Z. rewrite mult_IZR, Rmult_assoc. f_equal.
    change 2%Z with (radix_val radix2). rewrite IZR_Zpower by lia. rewrite <- bpow_plus. f_equal. lia.
  Qed.
  Lemma multiple_add u x y : multiple u x -> multiple u y -> multiple u (x + y).
  Proof. intros [m ->] [n ->]. exists (m + n)%Z. rewrite plus_IZR. ring. Qed.
  Lemma multiple_opp u x : multiple u x -> multiple u (- x).
  Proof. intros [m ->]. exists (- m)%Z. rewrite opp_IZR. ring. Qed.

  Lemma multiple_rnd u z : (-1074 <= u)%Z -> multiple u z -> multiple u (rnd z).
  Proof.
    intros Hu [m ->]. destruct (Z_lt_le_dec (Z.abs m) (2 ^ 53)) as [L|L].
    - rewrite rnd_fix; [exists m; reflexivity|].
      apply generic_format_FLT. exists (Float radix2 m u); [reflexivity|exact L|exact Hu].
    - apply multiple_of; [apply generic_format_round; auto with typeclass_instances|exact Hu|right].
      rewrite <- rnd_abs, Rabs_mult, (Rabs_pos_eq (bp u)), <- abs_IZR by apply bpow_ge_0.
      rewrite <- (rnd_bpow (u + 52)) by lia. apply rnd_le.
      rewrite Z.add_comm, bpow_plus. apply Rmult_le_compat_r; [apply bpow_ge_0|].
      change (bp 52) with (IZR (2 ^ 52)). apply IZR_le. lia.
  Qed.

  Lemma multiple_mid u v E r : multiple u r -> Rabs r <= bp v ->
    (- E <= u)%Z -> (- E <= u + k)%Z -> (v <= E)%Z -> (v + k <= E)%Z -> mid_range k E r.
  Proof.
    intros [m Em] U H1 H2 H3 H4. destruct (Z.eq_dec m 0) as [->|N]; [left; rewrite Em; ring|right].
    assert (L : bp u <= Rabs r).
    { rewrite Em, Rabs_mult, (Rabs_pos_eq (bp u)), <- abs_IZR by apply bpow_ge_0.
      pose proof (IZR_le 1 (Z.abs m) ltac:(lia)). pose proof (bpow_gt_0 radix2 u). nra. }
    pose proof (bpow_gt_0 radix2 k).
    repeat split.
    - apply Rle_trans with (bp u); auto. apply bpow_le; lia.
    - apply Rle_trans with (bp v); auto. apply bpow_le; lia.
    - apply Rle_trans with (bp u * bp k); [rewrite <- bpow_plus; apply bpow_le; lia|]. apply Rmult_le_compat_r; lra.
    - apply Rle_trans with (bp v * bp k); [apply Rmult_le_compat_r; lra|]. rewrite <- bpow_plus; apply bpow_le; lia.
  Qed.

  Section Count.
    Variables (e : Z).
    Hypothesis He : (0 <= e <= 700)%Z.
    Let l := Z.max (- e) (- e - k).
    Let h := Z.min e (e - k).

    Lemma mid_lh r : mid_range k e r -> r = 0 \/ bp l <= Rabs r <= bp h.
    Proof.
      intros [->|[[H1 H2] [H3 H4]]]; [left; auto|right].
      assert (A : bp (- e - k) <= Rabs r).
      { apply Rmult_le_reg_r with (bp k); [apply bpow_gt_0|]. rewrite <- bpow_plus.
        replace (- e - k + k)%Z with (- e)%Z by lia. exact H3. }
      assert (B : Rabs r <= bp (e - k)).
      { apply Rmult_le_reg_r with (bp k); [apply bpow_gt_0|]. rewrite <- bpow_plus.
        replace (e - k + k)%Z with e by lia. exact H4. }
      unfold l, h. destruct (Z.max_spec (- e) (- e - k)) as [[_ ->]|[_ ->]];
        destruct (Z.min_spec e (e - k)) as [[_ ->]|[_ ->]]; auto.
    Qed.

    (** After n updates. *)
    Definition within (n : Z) (s : fame B64) : Prop :=
      finite64 (f_median s) = true /\ multiple (l - n - 52) (B2R (f_median s)) /\ Rabs (B2R (f_median s)) <= bp (h + n + 1) /\
      finite64 (f_step s) = true /\ bp (l - n) <= B2R (f_step s) <= bp (h + n).

    Lemma within_measured n s : (0 <= n)%Z -> (e + n <= 740)%Z -> within n s -> fame_measured k s.
    Proof.
      intros Hn Hs (Fm & Mm & Um & Fs & Ls & Us). split; split; auto.
      - apply (multiple_mid (l - n - 52) (h + n + 1)); auto; unfold l, h in *; lia.
      - right. pose proof (bpow_gt_0 radix2 (l - n)). rewrite Rabs_pos_eq by lra. pose proof (bpow_gt_0 radix2 k).
        repeat split.
        + apply Rle_trans with (bp (l - n)); auto. apply bpow_le; unfold l in *; lia.
        + apply Rle_trans with (bp (h + n)); auto. apply bpow_le; unfold h in *; lia.
        + apply Rle_trans with (bp (l - n) * bp k); [rewrite <- bpow_plus; apply bpow_le; unfold l in *; lia|]. apply Rmult_le_compat_r; lra.
        + apply Rle_trans with (bp (h + n) * bp k); [apply Rmult_le_compat_r; lra|]. rewrite <- bpow_plus; apply bpow_le; unfold h in *; lia.
    Qed.

    Lemma lt_big v (r : R) : (v <= 1000)%Z -> Rabs r <= bp v -> Rabs (rnd r) < big.
    Proof.
      intros Hv H. destruct (Z_le_dec (-1074) v) as [G|G].
      - apply Rle_lt_trans with (bp v).
        + rewrite <- rnd_abs, <- (rnd_bpow v) by lia. now apply rnd_le.
        + apply bpow_lt. lia.
      - apply Rle_lt_trans with (bp 0).
        + rewrite <- rnd_abs, <- (rnd_bpow 0) by lia. apply rnd_le. apply Rle_trans with (bp v); auto. apply bpow_le. lia.
        + apply bpow_lt. lia.
    Qed.
    Lemma rnd_upper v (r : R) : (-1074 <= v)%Z -> Rabs r <= bp v -> Rabs (rnd r) <= bp v.
    Proof. intros Hv H. rewrite <- rnd_abs, <- (rnd_bpow v) by lia. now apply rnd_le. Qed.

    (** The new step: half or whole of [s0], times 1 + epsilon. *)
    Lemma within_step n (eps st : double) : (0 <= n)%Z -> (e + n <= 740)%Z -> finite64 eps = true -> 0 <= B2R eps < 1 ->
      finite64 st = true -> bp (l - n) <= B2R st <= bp (h + n) -> 
      finite64 (Bmul st (Badd (Bz 1) eps)) = true /\
      bp (l - n) <= B2R (Bmul st (Badd (Bz 1) eps)) <= bp (h + n + 1).
    Proof.
      intros Hn Hs Fe Pe Fs [L U]. destruct (grow_steady eps Fe Pe) as [[Fg _] [G1 G2]].
      pose proof (bpow_gt_0 radix2 (l - n)) as B0.
      assert (U1 : bp (h + n + 1) = bp (h + n) * 2) by (rewrite bpow_plus; reflexivity).
      assert (LH : (l - n <= h + n)%Z) by (apply (le_bpow radix2); lra).
      assert (R1 : bp (l - n) <= B2R st * B2R (Badd (Bz 1) eps) <= bp (h + n + 1)) by (rewrite U1; nra).
      assert (HV : (-1074 <= h + n + 1)%Z) by (unfold l, h in *; lia).
      destruct (mul_ok st (Badd (Bz 1) eps) Fs Fg) as (E & F & _).
      { apply (lt_big (h + n + 1)); [unfold h; lia|]. rewrite Rabs_pos_eq; lra. }
      rewrite E. split; [exact F|]. split.
      - rewrite <- (rnd_bpow (l - n)) by (unfold l; lia). apply rnd_le, R1.
      - rewrite <- (rnd_bpow (h + n + 1)) by lia. apply rnd_le, R1.
    Qed.

    Lemma fame_history (s : fame B64) (x : double) : f_history (fame_update s x) = (f_history s + 1)%nat /\ f_epsilon (fame_update s x) = f_epsilon s.
    Proof. split; reflexivity. Qed.

    Lemma within_first (s : fame B64) (x : double) : f_history s = 0%nat ->
      finite64 (f_epsilon s) = true -> 0 <= B2R (f_epsilon s) < 1 ->
      measured k e (f_step s) -> 0 < B2R (f_step s) -> measured k e x -> within 1 (fame_update s x).
    Proof.
      intros H0 Fe Pe [Fs Ms] Ps [Fx Mx]. unfold fame_update. rewrite H0. cbn [Nat.eqb negb andb].
      change (@ltb B64) with (@Bltb 53 1024). change (@mul B64) with Bmul. change (@add B64) with Badd.
      change (of_Z (a := B64) 1) with (Bz 1).
      assert (XX : Bltb x x = false) by (rewrite Bltb_correct by auto; apply Rlt_bool_false; lra).
      rewrite XX. unfold within. cbn [f_median f_step]. cbv zeta.
      destruct (mid_lh _ Ms) as [Z|[L U]]; [lra|]. rewrite Rabs_pos_eq in L, U by lra.
      assert (Ux : Rabs (B2R x) <= bp h).
      { destruct (mid_lh _ Mx) as [->|K]; [rewrite Rabs_R0; apply bpow_ge_0|apply K]. }
      assert (LH : (l <= h)%Z) by (apply (le_bpow radix2); lra).
      split; [exact Fx|]. split; [|split].
      - apply (multiple_down (l - 52)); [lia|]. apply multiple_of; [apply B2R_format|unfold l; lia|].
        replace (l - 52 + 52)%Z with l by lia. destruct (mid_lh _ Mx) as [->|K]; [left; auto|right; apply K].
      - eapply Rle_trans; [exact Ux|]. apply bpow_le. lia.
      - assert (ST : forall st : double, finite64 st = true -> bp l <= B2R st <= bp h ->
          finite64 (Bmul st (Badd (Bz 1) (f_epsilon s))) = true /\
          bp (l - 1) <= B2R (Bmul st (Badd (Bz 1) (f_epsilon s))) <= bp (h + 1)).
        { intros st Fst B. destruct (within_step 0 (f_epsilon s) st ltac:(lia) ltac:(lia) Fe Pe Fst) as [F [B1 B2]].
          - rewrite Z.sub_0_r, Z.add_0_r. exact B.
          - rewrite Z.sub_0_r in B1. rewrite Z.add_0_r in B2. split; auto. split; auto.
            eapply Rle_trans; [|exact B1]. apply bpow_le. lia. }
        apply ST.
        + unfold max_. change (@ltb B64) with (@Bltb 53 1024). match goal with |- finite64 (if ?b then _ else _) = true => destruct b end; [exact Fs|].
          destruct (div_scale k e 1 (Bz 2) (Babs x)) as [[F _] _]; try lia; [exact steady_two| |exact F].
          apply abs_scale; [lia|split; auto].
        + change (@div B64) with Bquot. change (@fabs B64) with (@Babs 53 1024). change (of_Z (a := B64) 2) with (Bz 2).
          destruct (Bz_exact 2) as [E2 F2]; [lia|].
          assert (FA : finite64 (@Babs 53 1024 x) = true) by (unfold finite64; rewrite is_finite_Babs; exact Fx).
          assert (HV : Rabs (rnd (B2R (@Babs 53 1024 x) / B2R (Bz 2))) <= bp h).
          { apply rnd_upper; [unfold l, h in *; lia|]. rewrite B2R_Babs, E2.
            pose proof (Rabs_pos (B2R x)). rewrite Rabs_pos_eq; lra. }
          destruct (div_ok (@Babs 53 1024 x) (Bz 2) FA F2) as (E & F & _).
          { rewrite E2. lra. }
          { eapply Rle_lt_trans; [exact HV|]. apply bpow_lt. unfold h; lia. }
          unfold max_. change (@ltb B64) with (@Bltb 53 1024).
          rewrite Bltb_correct by auto. destruct (Rlt_bool_spec (B2R (Bquot (Babs x) (Bz 2))) (B2R (f_step s))) as [K|K]; [split; auto|].
          split; [eapply Rle_trans; [exact L|exact K]|]. rewrite E. eapply Rle_trans; [apply Rle_abs|exact HV].
    Qed.

    Lemma within_next n (s : fame B64) (x : double) : (1 <= n)%Z -> (e + n <= 740)%Z -> f_history s <> 0%nat ->
      finite64 (f_epsilon s) = true -> 0 <= B2R (f_epsilon s) < 1 -> within n s -> within (n + 1) (fame_update s x).
    Proof.
      intros Hn Hs H0 Fe Pe (Fm & Mm & Um & Fs & Ls & Us). unfold fame_update.
      replace (Nat.eqb (f_history s) 0) with false by (symmetry; now apply Nat.eqb_neq). cbn [negb andb].
      change (@ltb B64) with (@Bltb 53 1024). change (@mul B64) with Bmul. change (@add B64) with Badd.
      change (@sub B64) with Bsub. change (@div B64) with Bquot.
      change (of_Z (a := B64) 1) with (Bz 1). change (of_Z (a := B64) 2) with (Bz 2). cbv zeta.
      unfold within. cbn [f_median f_step].
      pose proof (bpow_gt_0 radix2 (l - n)) as B0.
      assert (LH : (l - n <= h + n)%Z) by (apply (le_bpow radix2); lra).
      assert (Hu : (-1074 <= l - n - 52)%Z) by (unfold l; lia).
      assert (Ms : multiple (l - n - 52) (B2R (f_step s))).
      { apply multiple_of; [apply B2R_format|exact Hu|right]. replace (l - n - 52 + 52)%Z with (l - n)%Z by lia.
        rewrite Rabs_pos_eq; lra. }
      assert (U2 : bp (h + n + 1 + 1) = bp (h + n) * 4) by (rewrite !bpow_plus; change (bp 1) with 2; ring).
      assert (U1 : bp (h + n + 1) = bp (h + n) * 2) by (rewrite bpow_plus; reflexivity).
      assert (SP : Rabs (B2R (f_step s)) <= bp (h + n)) by (rewrite Rabs_pos_eq; lra).
      assert (HV : (-1074 <= h + n + 1 + 1 <= 1000)%Z) by (unfold l, h in *; lia).
      assert (MV : forall m1 : double, (m1 = f_median s \/ m1 = Badd (f_median s) (f_step s) \/ m1 = Bsub (f_median s) (f_step s)) ->
        finite64 m1 = true /\ multiple (l - (n + 1) - 52) (B2R m1) /\ Rabs (B2R m1) <= bp (h + (n + 1) + 1)).
      { replace (h + (n + 1) + 1)%Z with (h + n + 1 + 1)%Z by lia.
        intros m1 [->|[->| ->]].
        - split; [exact Fm|]. split; [apply (multiple_down (l - n - 52)); auto; lia|].
          eapply Rle_trans; [exact Um|]. apply bpow_le. lia.
        - assert (Q : Rabs (B2R (f_median s) + B2R (f_step s)) <= bp (h + n + 1 + 1)).
          { eapply Rle_trans; [apply Rabs_triang|]. lra. }
          destruct (add_ok (f_median s) (f_step s) Fm Fs) as (E & F & _); [apply (lt_big (h + n + 1 + 1)); [lia|exact Q]|].
          rewrite E. split; [exact F|]. split; [|apply rnd_upper; [lia|exact Q]].
          apply (multiple_down (l - n - 52)); [lia|]. apply multiple_rnd; auto. now apply multiple_add.
        - assert (Q : Rabs (B2R (f_median s) - B2R (f_step s)) <= bp (h + n + 1 + 1)).
          { eapply Rle_trans; [apply Rabs_triang|]. rewrite Rabs_Ropp. lra. }
          destruct (sub_ok (f_median s) (f_step s) Fm Fs) as (E & F & _); [apply (lt_big (h + n + 1 + 1)); [lia|exact Q]|].
          rewrite E. split; [exact F|]. split; [|apply rnd_upper; [lia|exact Q]].
          apply (multiple_down (l - n - 52)); [lia|]. apply multiple_rnd; auto. apply multiple_add; auto. now apply multiple_opp. }
      assert (HF : forall st : double, (st = f_step s \/ st = Bquot (f_step s) (Bz 2)) ->
        finite64 (Bmul st (Badd (Bz 1) (f_epsilon s))) = true /\
        bp (l - (n + 1)) <= B2R (Bmul st (Badd (Bz 1) (f_epsilon s))) <= bp (h + (n + 1))).
      { assert (W : forall st : double, finite64 st = true -> bp (l - (n + 1)) <= B2R st <= bp (h + n) ->
          finite64 (Bmul st (Badd (Bz 1) (f_epsilon s))) = true /\
          bp (l - (n + 1)) <= B2R (Bmul st (Badd (Bz 1) (f_epsilon s))) <= bp (h + (n + 1))).
        { intros st Fst [W1 W2]. destruct (grow_steady (f_epsilon s) Fe Pe) as [[Fg _] [G1 G2]].
          pose proof (bpow_gt_0 radix2 (l - (n + 1))) as B1.
          replace (h + (n + 1))%Z with (h + n + 1)%Z by lia.
          assert (R1 : bp (l - (n + 1)) <= B2R st * B2R (Badd (Bz 1) (f_epsilon s)) <= bp (h + n + 1)) by (rewrite U1; nra).
          destruct (mul_ok st (Badd (Bz 1) (f_epsilon s)) Fst Fg) as (E & F & _).
          { apply (lt_big (h + n + 1)); [lia|]. rewrite Rabs_pos_eq; lra. }
          rewrite E. split; [exact F|]. split.
          - rewrite <- (rnd_bpow (l - (n + 1))) by lia. apply rnd_le, R1.
          - rewrite <- (rnd_bpow (h + n + 1)) by lia. apply rnd_le, R1. }
        assert (UH : bp (l - n) = bp (l - (n + 1)) * 2) by (replace (l - n)%Z with (l - (n + 1) + 1)%Z by lia; rewrite bpow_plus; reflexivity).
        intros st [->| ->]; apply W.
        - exact Fs.
        - pose proof (bpow_gt_0 radix2 (l - (n + 1))). lra.
        - destruct (Bz_exact 2) as [E2 F2]; [lia|].
          destruct (div_ok (f_step s) (Bz 2) Fs F2) as (E & F & _); [rewrite E2; lra| |exact F].
          apply (lt_big (h + n)); [lia|]. rewrite E2, Rabs_pos_eq; lra.
        - destruct (Bz_exact 2) as [E2 F2]; [lia|].
          destruct (div_ok (f_step s) (Bz 2) Fs F2) as (E & F & _); [rewrite E2; lra| |].
          { apply (lt_big (h + n)); [lia|]. rewrite E2, Rabs_pos_eq; lra. }
          rewrite E, E2. split.
          + rewrite <- (rnd_bpow (l - (n + 1))) by lia. apply rnd_le. lra.
          + rewrite <- (rnd_bpow (h + n)) by lia. apply rnd_le. lra. }
      match goal with |- finite64 ?m = true /\ _ => destruct (MV m) as (V1 & V2 & V3) end.
      { destruct (Bltb x (f_median s)); auto. destruct (Bltb (f_median s) x); auto. }
      split; [exact V1|]. split; [exact V2|]. split; [exact V3|].
      apply HF. match goal with |- (if ?b then _ else _) = _ \/ _ => destruct b end; auto.
    Qed.

    (** Every prefix of a run of at most 740 - e observations. *)
    Lemma run_within (eps stepSize : double) (s0 : fame B64) (xs : list double) :
      fame_new (A := B64) stepSize eps = Ret s0 -> finite64 eps = true ->
      measured k e stepSize -> 0 < B2R stepSize -> Forall (measured k e) xs -> (e + Z.of_nat (length xs) <= 740)%Z ->
      fame_measured k (fold_left fame_update xs s0).
    Proof.
      intros E0 Fe Ms Ps Fx Hl.
      assert (S0 : s0 = Fame (A := B64) (Bz 0) stepSize eps 0 /\ 0 <= B2R eps < 1).
      { unfold fame_new in E0. change (@ltb B64) with (@Bltb 53 1024) in E0. change (@leb B64) with (@Bleb 53 1024) in E0.
        change (of_Z (a := B64) 0) with (Bz 0) in E0. change (of_Z (a := B64) 1) with (Bz 1) in E0.
        destruct (Bz_exact 0) as [Z0 G0]; [lia|]. destruct (Bz_exact 1) as [Z1 G1]; [lia|].
        rewrite Bltb_correct, Bleb_correct, Z0, Z1 in E0 by auto.
        destruct (Rlt_bool_spec (B2R eps) 0); [discriminate|]. destruct (Rle_bool_spec 1 (B2R eps)); [discriminate|].
        cbn [orb] in E0. injection E0 as <-. split; auto. }
      destruct S0 as [-> Pe].
      assert (G : xs <> [] -> within (Z.of_nat (length xs)) (fold_left fame_update xs (Fame (A := B64) (Bz 0) stepSize eps 0)) /\
        f_history (fold_left fame_update xs (Fame (A := B64) (Bz 0) stepSize eps 0)) <> 0%nat /\
        f_epsilon (fold_left fame_update xs (Fame (A := B64) (Bz 0) stepSize eps 0)) = eps).
      { induction xs as [|x xs IH] using rev_ind; [congruence|]. intros _.
        apply Forall_app in Fx as [Fx Fy]. inversion Fy as [|? ? Mx _]; subst.
        rewrite app_length in Hl |- * . cbn [length] in Hl |- * . rewrite fold_left_app. cbn [fold_left].
        split; [|split].
        - destruct xs as [|y ys].
          + cbn [fold_left length]. apply within_first; auto.
          + destruct IH as (W & Nz & Ee); auto; [lia|congruence|].
            rewrite Nat2Z.inj_add. apply within_next; auto.
            * cbn [length]. lia.
            * cbn [length] in * . lia.
            * exact (eq_trans (f_equal finite64 Ee) Fe).
            * exact (eq_ind_r (fun z : double => 0 <= B2R z < 1) Pe Ee).
        - rewrite (proj1 (fame_history _ _)). lia.
        - rewrite (proj2 (fame_history _ _)). destruct xs as [|y ys]; [reflexivity|].
          destruct IH as (_ & _ & Ee); auto; [lia|congruence]. }
      destruct xs as [|x xs].
      - cbn [fold_left]. split; cbn [f_median f_step].
        + split; [reflexivity|left; reflexivity].
        + revert Ms. apply measured_mono. lia.
      - destruct (G ltac:(congruence)) as (W & _). eapply within_measured; [| |exact W]; lia.
    Qed.
  End Count.

  (** The other unit, for a number of observations that needs no look at the run. *)
  Lemma fame_ldexp (e : Z) (stepSize eps : double) (s0 : fame B64) (xs : list double) : (0 <= e)%Z ->
    fame_new (A := B64) stepSize eps = Ret s0 -> finite64 eps = true ->
    measured k e stepSize -> 0 < B2R stepSize -> Forall (measured k e) xs -> (e + Z.of_nat (length xs) <= 700)%Z ->
    exists s0', fame_new (A := B64) (f stepSize) eps = Ret s0' /\
    fold_left fame_update (map f xs) s0' = ldexp_fame k (fold_left fame_update xs s0).
  Proof.
    intros He E0 Fe Ms Ps Fx Hl. exists (ldexp_fame k s0).
    assert (Z0 : f (Bz 0) = Bz 0) by reflexivity.
    assert (S0 : s0 = Fame (A := B64) (Bz 0) stepSize eps 0 /\ 0 <= B2R eps < 1 /\ fame_new (A := B64) (f stepSize) eps = Ret (ldexp_fame k s0)).
    { unfold fame_new in E0 |- * . change (@ltb B64) with (@Bltb 53 1024) in * . change (@leb B64) with (@Bleb 53 1024) in * .
      change (of_Z (a := B64) 0) with (Bz 0) in * . change (of_Z (a := B64) 1) with (Bz 1) in * .
      destruct (Bz_exact 0) as [V0 G0]; [lia|]. destruct (Bz_exact 1) as [V1 G1]; [lia|].
      rewrite Bltb_correct, Bleb_correct, V0, V1 in * by auto.
      destruct (Rlt_bool_spec (B2R eps) 0); [discriminate|]. destruct (Rle_bool_spec 1 (B2R eps)); [discriminate|].
      cbn [orb] in * . injection E0 as <-. split; auto. }
    destruct S0 as (Es & Pe & En). split; [exact En|].
    apply fame_run_scale.
    - rewrite Es. exact Fe.
    - rewrite Es. exact Pe.
    - eapply Forall_impl; [|exact Fx]. intros y. apply measured_mono. lia.
    - intros ys zs ->. apply (run_within e ltac:(lia) eps stepSize); auto.
      + now apply Forall_app in Fx.
      + rewrite app_length in Hl. lia.
  Qed.
End UnitFame.
