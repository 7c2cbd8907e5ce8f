(** The mean and the variance in a unit that is a power of two times larger or
    smaller, in doubles. *)

From Coq Require Import List Reals ZArith Lra Lia Bool Arith.
From Flocq Require Import Core.Core IEEE754.BinarySingleNaN.
From Verif Require Import Outcome Arith Mean Spec ListFacts MeanFacts FloatSpec FloatFacts AskSpec P2Affine UnitSpec UnitNum.
Import ListNotations.
Open Scope R_scope.

(** A rounded multiple of a power of two is again a multiple of it. *)
Lemma rnd_multiple z u : (-1074 <= u)%Z -> (exists m : Z, z = IZR m * bp u) -> exists m : Z, rnd z = IZR m * bp u.
Proof.
  intros Hu [m E]. destruct (Rlt_or_le (Rabs z) (bp (u + 53))) as [L|L].
  - exists m. rewrite rnd_fix; auto.
    change fexp64 with (FLT_exp (-1074) 53). apply generic_format_FLT. exists (Float radix2 m u); cbn [Fnum Fexp].
    + exact E.
    + rewrite E, Rabs_mult, (Rabs_pos_eq (bp u)) in L by apply bpow_ge_0. rewrite Z.add_comm, bpow_plus in L.
      apply Rmult_lt_reg_r in L; [|apply bpow_gt_0]. rewrite <- abs_IZR in L. apply lt_IZR.
      eapply Rlt_le_trans; [exact L|]. right. change (2 ^ 53)%Z with (radix2 ^ 53)%Z. symmetry. apply IZR_Zpower. lia.
    + exact Hu.
  - apply multiple_of; auto.
    + unfold rnd. apply generic_format_round; auto with typeclass_instances.
    + right. apply Rle_trans with (bp (u + 53)); [apply bpow_le; lia|].
      rewrite <- rnd_abs. rewrite <- (rnd_bpow (u + 53)) by lia. now apply rnd_le.
Qed.

(** Adding a small number never carries a sum beyond a large enough power of two. *)
Lemma rnd_absorb z v : (-1074 <= v + 54)%Z -> Rabs z <= bp (v + 54) + bp v -> Rabs (rnd z) <= bp (v + 54).
Proof.
  intros Hv H. rewrite <- rnd_abs. unfold rnd.
  assert (G : generic_format radix2 fexp64 (bp (v + 54))).
  { apply generic_format_bpow. rewrite fexp64_FLT. unfold FLT_exp. lia. }
  apply round_N_le_midp; auto with typeclass_instances.
  rewrite succ_eq_pos by apply bpow_ge_0. rewrite ulp_bpow, fexp64_FLT. unfold FLT_exp.
  assert (L : bp (v + 2) <= bp (Z.max (v + 54 + 1 - 53) (-1074))) by (apply bpow_le; lia).
  assert (E : bp (v + 2) = 4 * bp v) by (rewrite bpow_plus; change (bp 2) with 4; ring).
  pose proof (bpow_gt_0 radix2 v). lra.
Qed.

Section Sums.
  Variables (k e : Z) (He : (0 <= e <= 800)%Z) (Hk : (Z.abs k <= 2 * e)%Z).
  Local Notation f := (ldexp64 k).

  (** What the running sum satisfies: a multiple of the last place of the
      smallest observation, and no larger than 2^54 times the largest one. *)
  Let u := (- e - 52 + Z.max 0 (- k))%Z.
  Let v := (e - Z.max 0 k)%Z.
  Definition sum_ok (s : double) : Prop :=
    finite64 s = true /\ (exists m : Z, B2R s = IZR m * bp u) /\ Rabs (B2R s) <= bp (v + 54).

  Lemma sum_measured s : sum_ok s -> measured k (e + 54) s.
  Proof.
    intros (F & [m E] & U). split; auto. destruct (Z.eq_dec m 0) as [->|N]; [left; rewrite E; ring|right].
    assert (L : bp u <= Rabs (B2R s)).
    { rewrite E, Rabs_mult, (Rabs_pos_eq (bp u)) by apply bpow_ge_0. rewrite <- abs_IZR.
      pose proof (IZR_le 1 (Z.abs m) ltac:(lia)). pose proof (bpow_gt_0 radix2 u). nra. }
    pose proof (bpow_gt_0 radix2 k). repeat split.
    - apply Rle_trans with (bp u); auto. apply bpow_le. unfold u. lia.
    - eapply Rle_trans; [exact U|]. apply bpow_le. unfold v. lia.
    - apply Rle_trans with (bp u * bp k); [|nra]. rewrite <- bpow_plus. apply bpow_le. unfold u. lia.
    - apply Rle_trans with (bp (v + 54) * bp k); [nra|]. rewrite <- bpow_plus. apply bpow_le. unfold v. lia.
  Qed.

  Lemma data_ok x : measured k e x -> (exists m : Z, B2R x = IZR m * bp u) /\ Rabs (B2R x) <= bp v.
  Proof.
    intros [F M]. destruct M as [Z|[[H1 H2] [H3 H4]]].
    - rewrite Z. split; [exists 0%Z; ring|]. rewrite Rabs_R0. apply bpow_ge_0.
    - pose proof (bpow_gt_0 radix2 k). split.
      + apply multiple_of; [apply B2R_format|unfold u; lia|right]. unfold u.
        destruct (Z_le_dec k 0) as [K|K].
        * apply Rmult_le_reg_r with (bp k); auto. rewrite <- bpow_plus.
          eapply Rle_trans; [|exact H3]. apply bpow_le. lia.
        * eapply Rle_trans; [|exact H1]. apply bpow_le. lia.
      + unfold v. destruct (Z_le_dec k 0) as [K|K].
        * eapply Rle_trans; [exact H2|]. apply bpow_le. lia.
        * apply Rmult_le_reg_r with (bp k); auto. rewrite <- bpow_plus. eapply Rle_trans; [exact H4|]. apply bpow_le. lia.
  Qed.

  Lemma sum_add s x : sum_ok s -> measured k e x -> sum_ok (Badd s x) /\ Badd (f s) (f x) = f (Badd s x).
  Proof.
    intros S M. pose proof (sum_measured s S) as MS. pose proof (measured_mono k e (e + 54) x ltac:(lia) M) as MX.
    destruct (add_scale k (e + 54) s x ltac:(lia) MS MX) as [MA EA]. split; auto.
    split; [apply MA|]. destruct S as (F & [m Em] & U). destruct (data_ok x M) as [[n En] Ux].
    assert (LB : Rabs (rnd (B2R s + B2R x)) <= bp (v + 54)).
    { apply rnd_absorb; [unfold v; lia|]. pose proof (Rabs_triang (B2R s) (B2R x)). lra. }
    destruct (add_ok s x F (proj1 M)) as (E & _ & _).
    { eapply Rle_lt_trans; [exact LB|]. apply bpow_lt. unfold v. lia. }
    rewrite E. split; auto. apply rnd_multiple; [unfold u; lia|]. exists (m + n)%Z. rewrite Em, En, plus_IZR. ring.
  Qed.

  Lemma sum_sub s x : sum_ok s -> measured k e x -> sum_ok (Bsub s x) /\ Bsub (f s) (f x) = f (Bsub s x).
  Proof.
    intros S M. pose proof (sum_measured s S) as MS. pose proof (measured_mono k e (e + 54) x ltac:(lia) M) as MX.
    destruct (sub_scale k (e + 54) s x ltac:(lia) MS MX) as [MA EA]. split; auto.
    split; [apply MA|]. destruct S as (F & [m Em] & U). destruct (data_ok x M) as [[n En] Ux].
    assert (LB : Rabs (rnd (B2R s - B2R x)) <= bp (v + 54)).
    { apply rnd_absorb; [unfold v; lia|]. unfold Rminus. pose proof (Rabs_triang (B2R s) (- B2R x)) as T. rewrite Rabs_Ropp in T. lra. }
    destruct (sub_ok s x F (proj1 M)) as (E & _ & _).
    { eapply Rle_lt_trans; [exact LB|]. apply bpow_lt. unfold v. lia. }
    rewrite E. split; auto. apply rnd_multiple; [unfold u; lia|]. exists (m - n)%Z. rewrite Em, En, minus_IZR. ring.
  Qed.

  Lemma zero_ok : sum_ok (Bz 0) /\ f (Bz 0) = Bz 0.
  Proof.
    split; [|reflexivity]. split; [reflexivity|]. split; [exists 0%Z; rewrite Rmult_0_l; reflexivity|].
    change (B2R (Bz 0)) with 0. rewrite Rabs_R0. apply bpow_ge_0.
  Qed.

  Definition sm (s : mean B64) : mean B64 :=
    Mean (A := B64) (option_map (map f) (mn_window s)) (mn_wsize s) (mn_history s) (f (mn_sum s)).
  Definition mean_ok (s : mean B64) : Prop :=
    sum_ok (mn_sum s) /\ match mn_window s with Some w => Forall (measured k e) w | None => True end.

  Lemma mupdate_scale (s : mean B64) (x : double) : mean_ok s -> measured k e x ->
    mean_update (sm s) (f x) = omap sm (mean_update s x) /\ (forall s', mean_update s x = Ret s' -> mean_ok s').
  Proof.
    destruct s as [w W n sum]. unfold mean_ok, sm. cbn [mn_window mn_wsize mn_history mn_sum]. intros [S F] M.
    unfold mean_update. cbn [mn_window mn_wsize mn_history mn_sum].
    destruct w as [w|]; cbn [option_map].
    - assert (EL : @length (num B64) (map f w) = @length (num B64) w) by apply map_length. rewrite EL. clear EL.
      destruct (Nat.ltb W (length w + 1)).
      + destruct w as [|y w]; cbn [map]; [split; [reflexivity|discriminate]|].
        inversion F as [|? ? My F']; subst. destruct (sum_sub sum y S My) as [S1 E1]. destruct (sum_add _ x S1 M) as [S2 E2].
        cbn [bind omap mn_window mn_wsize mn_history mn_sum option_map].
        change (sub (a := B64)) with Bsub. change (add (a := B64)) with Badd. rewrite E1, E2, map_app. split; [reflexivity|].
        intros s' [= <-]. cbn [mn_window mn_sum]. split; auto. apply Forall_app; split; auto.
      + destruct (sum_add _ x S M) as [S2 E2].
        cbn [bind omap mn_window mn_wsize mn_history mn_sum option_map].
        change (add (a := B64)) with Badd. rewrite E2, map_app. split; [reflexivity|].
        intros s' [= <-]. cbn [mn_window mn_sum]. split; auto. apply Forall_app; split; auto.
    - destruct (sum_add _ x S M) as [S2 E2].
      cbn [bind omap mn_window mn_wsize mn_history mn_sum option_map].
      change (add (a := B64)) with Badd. rewrite E2. split; [reflexivity|].
      intros s' [= <-]. cbn [mn_window mn_sum]. split; auto.
  Qed.

  Lemma new_scale W : sm (mean_new (A := B64) W) = mean_new (A := B64) W /\ mean_ok (mean_new (A := B64) W).
  Proof.
    unfold mean_new, sm, mean_ok, new_window. cbn [mn_window mn_wsize mn_history mn_sum]. destruct zero_ok as [Z E].
    change (of_Z (a := B64) 0) with (Bz 0). rewrite E. destruct (Nat.ltb 0 W); cbn [option_map]; auto.
  Qed.

  Lemma mrun_scale W (xs : list double) : Forall (measured k e) xs ->
    update_all mean_update (mean_new (A := B64) W) (map f xs) = omap sm (update_all mean_update (mean_new (A := B64) W) xs) /\
    (forall s, update_all mean_update (mean_new (A := B64) W) xs = Ret s -> mean_ok s).
  Proof.
    induction xs as [|x xs IH] using rev_ind; intros F.
    - destruct (new_scale W) as [E O]. split; [cbn [map update_all omap bind]; now rewrite E|]. intros h K. injection K as <-. exact O.
    - apply Forall_app in F as (F & Fx). inversion Fx as [|? ? Tx _]; subst. destruct (IH F) as (E & T).
      rewrite map_app. cbn [map]. rewrite !update_all_snoc. split.
      + etransitivity; [eapply (f_equal (fun o => bind o _) E)|]. rewrite bind_omap, omap_bind. apply bind_ext. intros h Eh.
        apply mupdate_scale; auto.
      + intros h Eh. apply bind_Ret in Eh as (h1 & E1 & Eh). eapply mupdate_scale; eauto.
  Qed.

  Lemma steady_nat n : (0 < n)%nat -> (Z.of_nat n <= 2 ^ 64)%Z -> steady 64 (of_nat (A := B64) n).
  Proof.
    intros H1 H2. unfold of_nat. change (steady 64 (Bz (Z.of_nat n))). destruct (Bz_X (Z.of_nat n)) as [E N].
    assert (L : 1 <= IZR (Z.of_nat n) <= bp 64).
    { split; [apply IZR_le; lia|]. change (bp 64) with (IZR (2 ^ 64)). apply IZR_le. exact H2. }
    assert (R : 1 <= rnd (IZR (Z.of_nat n)) <= bp 64).
    { split; [change 1 with (bp 0); rewrite <- (rnd_bpow 0) by lia|rewrite <- (rnd_bpow 64) by lia]; apply rnd_le; apply L. }
    assert (B : bp 64 < big) by (apply bpow_lt; lia).
    unfold R64 in E. rewrite sat_in in E by (rewrite Rabs_pos_eq; lra).
    assert (F : finite64 (Bz (Z.of_nat n)) = true) by (apply fin_X; auto; rewrite E, Rabs_pos_eq; lra).
    split; auto. rewrite <- (X_fin _ F), E, Rabs_pos_eq by lra. split; [|lra].
    apply Rle_trans with (bp 0); [apply bpow_le; lia|apply R].
  Qed.

  Lemma meval_scale (s : mean B64) : mean_ok s ->
    (Z.of_nat (mn_history s) <= 2 ^ 64)%Z -> (mn_history s <> 0%nat -> match mn_window s with Some w => (0 < length w)%nat /\ (Z.of_nat (length w) <= 2 ^ 64)%Z | None => True end) ->
    mean_evaluate (sm s) = f (mean_evaluate s) /\ measured k (e + 54 + 64) (mean_evaluate s).
  Proof.
    destruct s as [w W n sum]. unfold mean_ok, sm, mean_evaluate. cbn [mn_window mn_wsize mn_history mn_sum].
    intros [S F] Hn Hw. pose proof (sum_measured sum S) as M. destruct (Nat.eqb_spec n 0) as [->|N].
    - split; [reflexivity|]. split; [reflexivity|]. left. reflexivity.
    - specialize (Hw N). destruct w as [w|]; cbn [option_map].
      + assert (EL : @length (num B64) (map f w) = @length (num B64) w) by apply map_length. rewrite EL. clear EL.
        destruct (div_scale k (e + 54) 64 (of_nat (A := B64) (length w)) sum) as [MD ED]; try lia; auto.
        { apply steady_nat; apply Hw. }
      + destruct (div_scale k (e + 54) 64 (of_nat (A := B64) n) sum) as [MD ED]; try lia; auto.
        { apply steady_nat; auto. lia. }
  Qed.
End Sums.

(** The whole computation. *)
Lemma mean_ldexp k e W (xs : list double) : (0 <= e <= 800)%Z -> (Z.abs k <= 2 * e)%Z ->
  (Z.of_nat (length xs) < 2 ^ 64)%Z -> Forall (measured k e) xs ->
  exists s s', update_all mean_update (mean_new (A := B64) W) xs = Ret s /\
    update_all mean_update (mean_new (A := B64) W) (map (ldexp64 k) xs) = Ret s' /\
    mean_evaluate s' = ldexp64 k (mean_evaluate s) /\ measured k (e + 118) (mean_evaluate s).
Proof.
  intros He Hk HL F. destruct (mrun_scale k e He Hk W xs F) as [E O].
  destruct (mean_window_facts (A := B64) W xs) as (s & Es & Ew & Eh).
  exists s, (sm k s). split; [exact Es|]. split; [rewrite E, Es; reflexivity|].
  destruct (meval_scale k e He s (O s Es)) as [E1 M].
  - rewrite Eh. apply Z.lt_le_incl. exact HL.
  - rewrite Eh, Ew. intros N. destruct (Nat.ltb_spec 0 W) as [HW|HW]; auto.
    assert (LL : @length double (lastn W xs) = Nat.min W (@length double xs)) by (unfold lastn; rewrite skipn_length; lia).
    assert (N' : @length double xs <> 0%nat) by exact N.
    cut ((0 < @length double (lastn W xs))%nat /\ (Z.of_nat (@length double (lastn W xs)) <= 2 ^ 64)%Z); [intros K; exact K|].
    rewrite LL. lia.
  - split; [exact E1|]. replace (e + 118)%Z with (e + 54 + 64)%Z by lia. exact M.
Qed.

Lemma square_scale k e (x y : double) : (0 <= e <= 450)%Z -> measured k e x -> measured k e y ->
  measured (2 * k) (2 * e) (Bmul x y) /\ Bmul (ldexp64 k x) (ldexp64 k y) = ldexp64 (2 * k) (Bmul x y).
Proof.
  intros He Mx My. destruct (ldexp_val k e x ltac:(lia) Mx) as (Ex & Fx & Sx).
  destruct (ldexp_val k e y ltac:(lia) My) as (Ey & Fy & Sy).
  assert (E2 : bp (2 * k) = bp k * bp k) by (rewrite <- bpow_plus; f_equal; lia).
  assert (M : mid_range (2 * k) (2 * e) (B2R x * B2R y)).
  { destruct Mx as [_ [->|[[A1 A2] [A3 A4]]]]; [left; ring|]. destruct My as [_ [->|[[B1 B2] [B3 B4]]]]; [left; ring|].
    right. replace (- (2 * e))%Z with (- e + - e)%Z by lia. replace (bp (2 * e)) with (bp e * bp e) by (rewrite <- bpow_plus; f_equal; lia).
    rewrite E2, bpow_plus, Rabs_mult.
    pose proof (bpow_gt_0 radix2 (- e)). pose proof (bpow_gt_0 radix2 k).
    pose proof (Rabs_pos (B2R x)). pose proof (Rabs_pos (B2R y)).
    replace (Rabs (B2R x) * Rabs (B2R y) * (bp k * bp k)) with ((Rabs (B2R x) * bp k) * (Rabs (B2R y) * bp k)) by ring.
    repeat split; apply Rmult_le_compat; lra || nra. }
  destruct (mid_rnd (2 * k) (2 * e) _ ltac:(lia) M) as [M' R].
  destruct (mid_lt_big (2 * k) (2 * e) _ ltac:(lia) M') as [L1 L2].
  destruct (mul_ok x y (proj1 Mx) (proj1 My) L1) as (A1 & A2 & A3).
  assert (E : B2R (ldexp64 k x) * B2R (ldexp64 k y) = (B2R x * B2R y) * bp (2 * k)) by (rewrite Ex, Ey, E2; ring).
  destruct (mul_ok (ldexp64 k x) (ldexp64 k y) Fx Fy) as (B1 & B2 & B3); [rewrite E, R; exact L2|].
  rewrite E in B1. apply (op_scale (2 * k) (2 * e) (B2R x * B2R y)); auto; [lia|]. now rewrite A3, B3, Sx, Sy.
Qed.

Lemma var_split W (xs : list double) : exists m q v,
  update_all variance_update (variance_new (A := B64) W) xs = Ret v /\
  va_mean v = m /\ va_sq v = q /\
  update_all mean_update (mean_new (A := B64) W) xs = Ret m /\
  update_all mean_update (mean_new (A := B64) W) (map (fun x => Bmul x x) xs) = Ret q.
Proof.
  destruct (var_run (A := B64) W xs) as (v & E & [H1 H2 H3 H4]).
  exists (va_mean v), (va_sq v), v. repeat split; auto.
Qed.

Lemma variance_ldexp k W (xs : list double) : (Z.abs k <= 600)%Z ->
  (Z.of_nat (length xs) < 2 ^ 64)%Z -> Forall (measured k 300) xs ->
  exists s s', update_all variance_update (variance_new (A := B64) W) xs = Ret s /\
    update_all variance_update (variance_new (A := B64) W) (map (ldexp64 k) xs) = Ret s' /\
    variance_evaluate s' = ldexp64 (2 * k) (variance_evaluate s).
Proof.
  intros Hk HL F.
  destruct (var_split W xs) as (m & q & v & Ev & Em & Eq & Rm & Rq).
  destruct (var_split W (map (ldexp64 k) xs)) as (m' & q' & v' & Ev' & Em' & Eq' & Rm' & Rq').
  exists v, v'. split; auto. split; auto.
  destruct (mean_ldexp k 300 W xs) as (s1 & s1' & A1 & A2 & A3 & A4); auto; try lia.
  rewrite Rm in A1. injection A1 as <-. rewrite Rm' in A2. injection A2 as <-.
  assert (FS : Forall (measured (2 * k) 600) (map (fun x => Bmul x x) xs)).
  { apply Forall_map. eapply Forall_impl; [|exact F]. intros x Mx. apply (square_scale k 300 x x); auto. lia. }
  destruct (mean_ldexp (2 * k) 600 W (map (fun x => Bmul x x) xs)) as (s2 & s2' & B1 & B2 & B3 & B4); auto; try lia.
  { now rewrite map_length. }
  rewrite Rq in B1. injection B1 as <-.
  assert (ES : map (fun x => Bmul x x) (map (ldexp64 k) xs) = map (ldexp64 (2 * k)) (map (fun x => Bmul x x) xs)).
  { rewrite !map_map. apply map_ext_in. intros x Hx. rewrite Forall_forall in F. apply (square_scale k 300 x x); auto. lia. }
  rewrite ES in Rq'. rewrite Rq' in B2. injection B2 as <-.
  unfold variance_evaluate. rewrite Em, Eq, Em', Eq'. subst.
  change (sub (a := B64)) with Bsub. change (mul (a := B64)) with Bmul.
  rewrite A3, B3. destruct (square_scale k 418 (mean_evaluate (va_mean v)) (mean_evaluate (va_mean v)) ltac:(lia) A4 A4) as [S1 S2].
  rewrite S2. apply (sub_scale (2 * k) 836); [lia| |exact S1]. eapply measured_mono; [|exact B4]. lia.
Qed.
