(** Rounding commutes with multiplication by a power of two, away from the
    subnormal numbers and from overflow. *)

From Coq Require Import ZArith Reals Lra Lia Bool.
From Flocq Require Import Core.Core IEEE754.BinarySingleNaN.
From Verif Require Import Arith FloatSpec FloatFacts UnitSpec.
Open Scope R_scope.

Notation bp := (bpow radix2).

Lemma fexp64_FLT e : fexp64 e = FLT_exp (-1074) 53 e.
Proof. reflexivity. Qed.

Lemma rnd_normal z : bp (-1022) <= Rabs z -> rnd z = round radix2 (FLX_exp 53) ZnearestE z.
Proof. intros H. apply (round_FLT_FLX radix2 (-1074) 53 ZnearestE z). exact H. Qed.

Lemma FLX_scale z k : z <> 0 ->
  round radix2 (FLX_exp 53) ZnearestE (z * bp k) = round radix2 (FLX_exp 53) ZnearestE z * bp k.
Proof.
  intros Hz. unfold round, scaled_mantissa, cexp, FLX_exp, F2R. cbn [Fnum Fexp].
  rewrite mag_mult_bpow by exact Hz.
  replace (z * bp k * bp (- (mag radix2 z + k - 53))) with (z * bp (- (mag radix2 z - 53))).
  - replace (mag radix2 z + k - 53)%Z with ((mag radix2 z - 53) + k)%Z by lia. rewrite bpow_plus. ring.
  - rewrite Rmult_assoc, <- bpow_plus. do 2 f_equal. lia.
Qed.

Lemma rnd_scale z k : z = 0 \/ (bp (-1022) <= Rabs z /\ bp (-1022) <= Rabs z * bp k) ->
  rnd (z * bp k) = rnd z * bp k.
Proof.
  intros [->|[H1 H2]].
  - rewrite Rmult_0_l, rnd_0. ring.
  - assert (z <> 0) by (intros ->; rewrite Rabs_R0 in H1; pose proof (bpow_gt_0 radix2 (-1022)); lra).
    rewrite rnd_normal, rnd_normal; auto.
    + apply FLX_scale; auto.
    + rewrite Rabs_mult, (Rabs_pos_eq (bp k)); auto. apply bpow_ge_0.
Qed.

Lemma rnd_bpow e : (-1074 <= e)%Z -> rnd (bp e) = bp e.
Proof.
  intros H. apply rnd_fix. apply generic_format_bpow. rewrite fexp64_FLT. unfold FLT_exp. lia.
Qed.

Lemma mid_rnd k e z : (0 <= e <= 1000)%Z -> mid_range k e z -> mid_range k e (rnd z) /\
  rnd (z * bp k) = rnd z * bp k.
Proof.
  intros He [->|[[H1 H2] [H3 H4]]].
  - split; [left; apply rnd_0|]. rewrite Rmult_0_l, rnd_0. ring.
  - assert (E : rnd (z * bp k) = rnd z * bp k).
    { apply rnd_scale. right. pose proof (bpow_le radix2 (-1022) (-e) ltac:(lia)). split; lra. }
    split; auto. right. split.
    + rewrite <- rnd_abs. split.
      * rewrite <- (rnd_bpow (- e)) by lia. now apply rnd_le.
      * rewrite <- (rnd_bpow e) by lia. now apply rnd_le.
    + assert (A : Rabs (rnd z) * bp k = rnd (Rabs z * bp k)).
      { transitivity (Rabs (rnd z * bp k)).
        - rewrite Rabs_mult, (Rabs_pos_eq (bp k)); auto. apply bpow_ge_0.
        - rewrite <- E, <- rnd_abs, Rabs_mult, (Rabs_pos_eq (bp k)); auto. apply bpow_ge_0. }
      rewrite A. split.
      * rewrite <- (rnd_bpow (- e)) by lia. now apply rnd_le.
      * rewrite <- (rnd_bpow e) by lia. now apply rnd_le.
Qed.

Lemma mid_lt_big k e z : (0 <= e <= 1000)%Z -> mid_range k e z -> Rabs z < big /\ Rabs (z * bp k) < big.
Proof.
  intros He [->|[[H1 H2] [H3 H4]]].
  - rewrite Rmult_0_l, Rabs_R0. split; apply big_pos.
  - rewrite Rabs_mult, (Rabs_pos_eq (bp k)) by apply bpow_ge_0.
    pose proof (bpow_lt radix2 e 1024 ltac:(lia)). unfold big. split; lra.
Qed.

Lemma mid_mono k e e' z : (0 <= e <= e')%Z -> mid_range k e z -> mid_range k e' z.
Proof.
  intros He [->|[[H1 H2] [H3 H4]]]; [left; auto|right].
  pose proof (bpow_le radix2 (-e') (-e) ltac:(lia)). pose proof (bpow_le radix2 e e' ltac:(lia)).
  repeat split; lra.
Qed.
Lemma measured_mono k e e' x : (0 <= e <= e')%Z -> measured k e x -> measured k e' x.
Proof. intros He [F M]. split; auto. eapply mid_mono; eauto. Qed.

Lemma mid_opp k e z : mid_range k e z -> mid_range k e (- z).
Proof. intros [->|H]; [left; ring|right]. now rewrite Rabs_Ropp. Qed.
Lemma mid_abs k e z : mid_range k e z -> mid_range k e (Rabs z).
Proof. intros [->|H]; [left; apply Rabs_R0|right]. now rewrite Rabs_Rabsolu. Qed.

(** The scaled double. *)
Lemma ldexp_val k e x : (0 <= e <= 1000)%Z -> measured k e x ->
  B2R (ldexp64 k x) = B2R x * bp k /\ finite64 (ldexp64 k x) = true /\ Bsign (ldexp64 k x) = Bsign x.
Proof.
  intros He [F M]. unfold ldexp64.
  pose proof (Bldexp_correct 53 1024 prec_gt_0_53 prec_lt_emax_53 mode_NE x k) as H.
  change (round radix2 (SpecFloat.fexp 53 1024) (round_mode mode_NE) (B2R x * bp k)) with (rnd (B2R x * bp k)) in H.
  destruct (mid_rnd k e _ He M) as [_ E]. rewrite E in H. rewrite (rnd_fix (B2R x)) in H by apply B2R_format.
  destruct (mid_lt_big k e _ He M) as [_ L]. rewrite Rlt_bool_true in H by exact L.
  destruct H as (H1 & H2 & H3). split; [exact H1|]. split; [|exact H3].
  transitivity (is_finite x); [exact H2|exact F].
Qed.

(** A double with a given value and sign is the scaled double. *)
Lemma ldexp_is k e x y : (0 <= e <= 1000)%Z -> measured k e x -> finite64 y = true ->
  B2R y = B2R x * bp k -> Bsign y = Bsign x -> y = ldexp64 k x.
Proof.
  intros He M F E S. destruct (ldexp_val k e x He M) as (E' & F' & S').
  apply B2R_Bsign_inj; [exact F|exact F'|congruence|congruence].
Qed.

(** Sums. *)
Lemma multiple_of r u : generic_format radix2 fexp64 r -> (-1074 <= u)%Z -> (r = 0 \/ bp (u + 52) <= Rabs r) ->
  exists m : Z, r = IZR m * bp u.
Proof.
  intros G Hu [->|L]; [exists 0%Z; ring|].
  rewrite G. unfold F2R. cbn [Fnum Fexp]. set (c := cexp radix2 fexp64 r). set (m := Ztrunc _).
  assert (Hc : (u <= c)%Z).
  { unfold c, cexp. rewrite fexp64_FLT. unfold FLT_exp.
    assert (u + 52 < mag radix2 r)%Z; [|lia].
    apply (lt_bpow radix2). eapply Rle_lt_trans; [exact L|apply bpow_mag_gt]. }
  exists (m * 2 ^ (c - u))%Z. rewrite mult_IZR, Rmult_assoc. f_equal.
  change 2%Z with (radix_val radix2). rewrite IZR_Zpower by lia. rewrite <- bpow_plus. f_equal. lia.
Qed.

Lemma mid_add k e x y : (0 <= e <= 900)%Z ->
  generic_format radix2 fexp64 x -> generic_format radix2 fexp64 y ->
  mid_range k e x -> mid_range k e y -> mid_range k (e + 53) (x + y).
Proof.
  intros He Gx Gy Mx My.
  destruct (Req_dec (x + y) 0) as [Z|NZ]; [left; exact Z|right].
  assert (LB : forall r, mid_range k e r -> r = 0 \/ bp (- e) <= Rabs r) by (intros r [->|?]; [left|right]; tauto).
  assert (LK : forall r, mid_range k e r -> r = 0 \/ bp (- e - k) <= Rabs r).
  { intros r [->|[_ [H _]]]; [left; auto|right]. unfold Zminus. rewrite bpow_plus, bpow_opp with (e := k).
    pose proof (bpow_gt_0 radix2 k). apply Rmult_le_reg_r with (bp k); auto. field_simplify; [|lra]. lra. }
  assert (UB : forall r, mid_range k e r -> Rabs r <= bp e).
  { intros r [->|?]; [rewrite Rabs_R0; apply bpow_ge_0|tauto]. }
  assert (UK : forall r, mid_range k e r -> Rabs r * bp k <= bp e).
  { intros r [->|?]; [rewrite Rabs_R0, Rmult_0_l; apply bpow_ge_0|tauto]. }
  assert (LOW : forall u, (-1074 <= u)%Z -> (x = 0 \/ bp (u + 52) <= Rabs x) -> (y = 0 \/ bp (u + 52) <= Rabs y) ->
    bp u <= Rabs (x + y)).
  { intros u Hu H1 H2. destruct (multiple_of x u Gx Hu H1) as [m Em]. destruct (multiple_of y u Gy Hu H2) as [n En].
    assert (E : x + y = IZR (m + n) * bp u) by (rewrite Em, En, plus_IZR; ring).
    rewrite E, Rabs_mult, (Rabs_pos_eq (bp u)) by apply bpow_ge_0.
    assert (N : (m + n <> 0)%Z) by (intros K; apply NZ; rewrite E, K; ring).
    rewrite <- abs_IZR. pose proof (IZR_le 1 (Z.abs (m + n)) ltac:(lia)). pose proof (bpow_gt_0 radix2 u). nra. }
  pose proof (Rabs_triang x y) as T. pose proof (bpow_gt_0 radix2 k) as Pk.
  assert (U2 : bp (e + 53) >= 2 * bp e).
  { rewrite bpow_plus. pose proof (bpow_gt_0 radix2 e). assert (2 <= bp 53) by (apply (bpow_le radix2 1 53); lia). nra. }
  split; split.
  - apply Rle_trans with (bp (- e - 52)); [apply bpow_le; lia|].
    apply LOW; [lia| |]; replace (- e - 52 + 52)%Z with (- e)%Z by lia; apply LB; auto.
  - pose proof (UB x Mx). pose proof (UB y My). lra.
  - destruct (Z_le_dec (-1074) (- e - k - 52)) as [Hu|Hu].
    + assert (L : bp (- e - k - 52) <= Rabs (x + y)).
      { apply LOW; [lia| |]; replace (- e - k - 52 + 52)%Z with (- e - k)%Z by lia; apply LK; auto. }
      apply Rle_trans with (bp (- e - k - 52) * bp k); [|nra].
      rewrite <- bpow_plus. apply bpow_le. lia.
    + assert (L : bp (- e - 52) <= Rabs (x + y)).
      { apply LOW; [lia| |]; replace (- e - 52 + 52)%Z with (- e)%Z by lia; apply LB; auto. }
      apply Rle_trans with (bp (- e - 52) * bp k); [|nra]. rewrite <- bpow_plus. apply bpow_le. lia.
  - pose proof (UK x Mx). pose proof (UK y My). nra.
Qed.

Lemma mid_mul k e g c x : (0 <= e)%Z -> (0 <= g)%Z ->
  bp (- g) <= Rabs c <= bp g -> mid_range k e x -> mid_range k (e + g) (c * x).
Proof.
  intros He Hg [C1 C2] [->|[[H1 H2] [H3 H4]]]; [left; ring|right].
  replace (- (e + g))%Z with (- e + - g)%Z by lia. rewrite !bpow_plus, Rabs_mult.
  pose proof (bpow_gt_0 radix2 (-e)). pose proof (bpow_gt_0 radix2 (-g)). pose proof (bpow_gt_0 radix2 k).
  pose proof (Rabs_pos x). pose proof (Rabs_pos c).
  rewrite (Rmult_comm (bp (-e))), (Rmult_comm (bp e)). rewrite Rmult_assoc.
  repeat split; apply Rmult_le_compat; try lra; nra.
Qed.

Lemma mid_div k e g c x : (0 <= e)%Z -> (0 <= g)%Z ->
  bp (- g) <= Rabs c <= bp g -> mid_range k e x -> mid_range k (e + g) (x / c).
Proof.
  intros He Hg [C1 C2] M. unfold Rdiv. rewrite Rmult_comm. apply mid_mul; auto.
  pose proof (bpow_gt_0 radix2 (-g)) as Pg.
  assert (C0 : c <> 0) by (intros ->; rewrite Rabs_R0 in C1; lra).
  rewrite Rabs_inv. assert (0 < Rabs c) by (now apply Rabs_pos_lt). split.
  - rewrite bpow_opp. apply Rinv_le; lra.
  - replace g with (- - g)%Z by lia. rewrite (bpow_opp radix2 (- g)). apply Rinv_le; lra.
Qed.

(** A constant of the computation: not zero, neither huge nor tiny. *)
Definition steady (g : Z) (c : double) : Prop :=
  finite64 c = true /\ bp (- g) <= Rabs (B2R c) <= bp g.

Section Ops.
  Variables (k : Z).
  Local Notation f := (ldexp64 k).

  Lemma op_scale e (z : R) (r r' : double) : (0 <= e <= 1000)%Z -> mid_range k e z ->
    finite64 r = true -> B2R r = rnd z -> finite64 r' = true -> B2R r' = rnd (z * bp k) -> Bsign r' = Bsign r ->
    measured k e r /\ r' = f r.
  Proof.
    intros He M F E F' E' S. destruct (mid_rnd k e z He M) as [M' R].
    assert (K : measured k e r) by (split; [exact F|now rewrite E]).
    split; auto. apply ldexp_is with (e := e); auto. now rewrite E', R, E.
  Qed.

  Lemma add_ok (x y : double) : finite64 x = true -> finite64 y = true -> Rabs (rnd (B2R x + B2R y)) < big ->
    B2R (Badd x y) = rnd (B2R x + B2R y) /\ finite64 (Badd x y) = true /\
    Bsign (Badd x y) = match Rcompare (B2R x + B2R y) 0 with Eq => andb (Bsign x) (Bsign y) | Lt => true | Gt => false end.
  Proof.
    intros Fx Fy L. pose proof (Bplus_correct 53 1024 prec_gt_0_53 prec_lt_emax_53 mode_NE x y Fx Fy) as H.
    change (round radix2 (SpecFloat.fexp 53 1024) (round_mode mode_NE) (B2R x + B2R y)) with (rnd (B2R x + B2R y)) in H.
    rewrite Rlt_bool_true in H by exact L. exact H.
  Qed.

  Lemma sub_ok (x y : double) : finite64 x = true -> finite64 y = true -> Rabs (rnd (B2R x - B2R y)) < big ->
    B2R (Bsub x y) = rnd (B2R x - B2R y) /\ finite64 (Bsub x y) = true /\
    Bsign (Bsub x y) = match Rcompare (B2R x - B2R y) 0 with Eq => andb (Bsign x) (negb (Bsign y)) | Lt => true | Gt => false end.
  Proof.
    intros Fx Fy L. pose proof (Bminus_correct 53 1024 prec_gt_0_53 prec_lt_emax_53 mode_NE x y Fx Fy) as H.
    change (round radix2 (SpecFloat.fexp 53 1024) (round_mode mode_NE) (B2R x - B2R y)) with (rnd (B2R x - B2R y)) in H.
    rewrite Rlt_bool_true in H by exact L. exact H.
  Qed.

  Lemma mul_ok (x y : double) : finite64 x = true -> finite64 y = true -> Rabs (rnd (B2R x * B2R y)) < big ->
    B2R (Bmul x y) = rnd (B2R x * B2R y) /\ finite64 (Bmul x y) = true /\ Bsign (Bmul x y) = xorb (Bsign x) (Bsign y).
  Proof.
    intros Fx Fy L. pose proof (Bmult_correct 53 1024 prec_gt_0_53 prec_lt_emax_53 mode_NE x y) as H.
    change (round radix2 (SpecFloat.fexp 53 1024) (round_mode mode_NE) (B2R x * B2R y)) with (rnd (B2R x * B2R y)) in H.
    rewrite Rlt_bool_true in H by exact L. destruct H as (H1 & H2 & H3). unfold finite64 in Fx, Fy. rewrite Fx, Fy in H2.
    split; [exact H1|]. split; [exact H2|]. apply H3. apply fin_nan. exact H2.
  Qed.

  Lemma div_ok (x y : double) : finite64 x = true -> finite64 y = true -> B2R y <> 0 -> Rabs (rnd (B2R x / B2R y)) < big ->
    B2R (Bquot x y) = rnd (B2R x / B2R y) /\ finite64 (Bquot x y) = true /\ Bsign (Bquot x y) = xorb (Bsign x) (Bsign y).
  Proof.
    intros Fx Fy N L. pose proof (Bdiv_correct 53 1024 prec_gt_0_53 prec_lt_emax_53 mode_NE x y N) as H.
    change (round radix2 (SpecFloat.fexp 53 1024) (round_mode mode_NE) (B2R x / B2R y)) with (rnd (B2R x / B2R y)) in H.
    rewrite Rlt_bool_true in H by exact L. destruct H as (H1 & H2 & H3). unfold finite64 in Fx. rewrite Fx in H2.
    split; [exact H1|]. split; [exact H2|]. apply H3. apply fin_nan. exact H2.
  Qed.

  Lemma Rcompare_scale z : Rcompare (z * bp k) 0 = Rcompare z 0.
  Proof.
    pose proof (bpow_gt_0 radix2 k). rewrite <- (Rmult_0_l (bp k)) at 1. now rewrite Rcompare_mult_r.
  Qed.

  Lemma add_scale e x y : (0 <= e <= 900)%Z -> measured k e x -> measured k e y ->
    measured k (e + 53) (Badd x y) /\ Badd (f x) (f y) = f (Badd x y).
  Proof.
    intros He Mx My. destruct (ldexp_val k e x ltac:(lia) Mx) as (Ex & Fx & Sx).
    destruct (ldexp_val k e y ltac:(lia) My) as (Ey & Fy & Sy).
    pose proof (mid_add k e _ _ He (B2R_format x) (B2R_format y) (proj2 Mx) (proj2 My)) as M.
    destruct (mid_rnd k (e + 53) _ ltac:(lia) M) as [M' R].
    destruct (mid_lt_big k (e + 53) _ ltac:(lia) M') as [L1 L2].
    destruct (add_ok x y (proj1 Mx) (proj1 My) L1) as (A1 & A2 & A3).
    assert (E : B2R (f x) + B2R (f y) = (B2R x + B2R y) * bp k) by (rewrite Ex, Ey; ring).
    destruct (add_ok (f x) (f y) Fx Fy) as (B1 & B2 & B3); [rewrite E, R; exact L2|].
    rewrite E in B1, B3. apply (op_scale (e + 53) (B2R x + B2R y)); auto; [lia|].
    now rewrite A3, B3, Sx, Sy, Rcompare_scale.
  Qed.

  Lemma sub_scale e x y : (0 <= e <= 900)%Z -> measured k e x -> measured k e y ->
    measured k (e + 53) (Bsub x y) /\ Bsub (f x) (f y) = f (Bsub x y).
  Proof.
    intros He Mx My. destruct (ldexp_val k e x ltac:(lia) Mx) as (Ex & Fx & Sx).
    destruct (ldexp_val k e y ltac:(lia) My) as (Ey & Fy & Sy).
    pose proof (mid_add k e _ _ He (B2R_format x) (generic_format_opp _ _ _ (B2R_format y)) (proj2 Mx) (mid_opp _ _ _ (proj2 My))) as M.
    change (B2R x + - B2R y) with (B2R x - B2R y) in M.
    destruct (mid_rnd k (e + 53) _ ltac:(lia) M) as [M' R].
    destruct (mid_lt_big k (e + 53) _ ltac:(lia) M') as [L1 L2].
    destruct (sub_ok x y (proj1 Mx) (proj1 My) L1) as (A1 & A2 & A3).
    assert (E : B2R (f x) - B2R (f y) = (B2R x - B2R y) * bp k) by (rewrite Ex, Ey; ring).
    destruct (sub_ok (f x) (f y) Fx Fy) as (B1 & B2 & B3); [rewrite E, R; exact L2|].
    rewrite E in B1, B3. apply (op_scale (e + 53) (B2R x - B2R y)); auto; [lia|].
    now rewrite A3, B3, Sx, Sy, Rcompare_scale.
  Qed.

  Lemma mul_scale_l e g c x : (0 <= e)%Z -> (0 <= g)%Z -> (e + g <= 1000)%Z -> steady g c -> measured k e x ->
    measured k (e + g) (Bmul c x) /\ Bmul c (f x) = f (Bmul c x).
  Proof.
    intros He Hg Hs [Fc Cc] Mx. destruct (ldexp_val k e x ltac:(lia) Mx) as (Ex & Fx & Sx).
    pose proof (mid_mul k e g _ _ He Hg Cc (proj2 Mx)) as M.
    destruct (mid_rnd k (e + g) _ ltac:(lia) M) as [M' R].
    destruct (mid_lt_big k (e + g) _ ltac:(lia) M') as [L1 L2].
    destruct (mul_ok c x Fc (proj1 Mx) L1) as (A1 & A2 & A3).
    assert (E : B2R c * B2R (f x) = (B2R c * B2R x) * bp k) by (rewrite Ex; ring).
    destruct (mul_ok c (f x) Fc Fx) as (B1 & B2 & B3); [rewrite E, R; exact L2|].
    rewrite E in B1. apply (op_scale (e + g) (B2R c * B2R x)); auto; [lia|]. now rewrite A3, B3, Sx.
  Qed.

  Lemma mul_scale_r e g c x : (0 <= e)%Z -> (0 <= g)%Z -> (e + g <= 1000)%Z -> steady g c -> measured k e x ->
    measured k (e + g) (Bmul x c) /\ Bmul (f x) c = f (Bmul x c).
  Proof.
    intros He Hg Hs [Fc Cc] Mx. destruct (ldexp_val k e x ltac:(lia) Mx) as (Ex & Fx & Sx).
    pose proof (mid_mul k e g _ _ He Hg Cc (proj2 Mx)) as M. rewrite Rmult_comm in M.
    destruct (mid_rnd k (e + g) _ ltac:(lia) M) as [M' R].
    destruct (mid_lt_big k (e + g) _ ltac:(lia) M') as [L1 L2].
    destruct (mul_ok x c (proj1 Mx) Fc L1) as (A1 & A2 & A3).
    assert (E : B2R (f x) * B2R c = (B2R x * B2R c) * bp k) by (rewrite Ex; ring).
    destruct (mul_ok (f x) c Fx Fc) as (B1 & B2 & B3); [rewrite E, R; exact L2|].
    rewrite E in B1. apply (op_scale (e + g) (B2R x * B2R c)); auto; [lia|]. now rewrite A3, B3, Sx.
  Qed.

  Lemma div_scale e g c x : (0 <= e)%Z -> (0 <= g)%Z -> (e + g <= 1000)%Z -> steady g c -> measured k e x ->
    measured k (e + g) (Bquot x c) /\ Bquot (f x) c = f (Bquot x c).
  Proof.
    intros He Hg Hs [Fc Cc] Mx. destruct (ldexp_val k e x ltac:(lia) Mx) as (Ex & Fx & Sx).
    pose proof (mid_div k e g _ _ He Hg Cc (proj2 Mx)) as M.
    assert (N : B2R c <> 0) by (intros K; rewrite K, Rabs_R0 in Cc; pose proof (bpow_gt_0 radix2 (-g)); lra).
    destruct (mid_rnd k (e + g) _ ltac:(lia) M) as [M' R].
    destruct (mid_lt_big k (e + g) _ ltac:(lia) M') as [L1 L2].
    destruct (div_ok x c (proj1 Mx) Fc N L1) as (A1 & A2 & A3).
    assert (E : B2R (f x) / B2R c = (B2R x / B2R c) * bp k) by (rewrite Ex; field; exact N).
    destruct (div_ok (f x) c Fx Fc N) as (B1 & B2 & B3); [rewrite E, R; exact L2|].
    rewrite E in B1. apply (op_scale (e + g) (B2R x / B2R c)); auto; [lia|]. now rewrite A3, B3, Sx.
  Qed.

  Lemma abs_scale e x : (0 <= e <= 1000)%Z -> measured k e x ->
    measured k e (Babs x) /\ Babs (f x) = f (@Babs 53 1024 x).
  Proof.
    intros He Mx. destruct (ldexp_val k e x He Mx) as (Ex & Fx & Sx).
    assert (M : measured k e (@Babs 53 1024 x)).
    { split; [unfold finite64; rewrite is_finite_Babs; apply Mx|]. rewrite B2R_Babs. apply mid_abs, Mx. }
    split; auto. apply ldexp_is with (e := e); auto.
    - unfold finite64. rewrite is_finite_Babs. exact Fx.
    - rewrite !B2R_Babs, Ex, Rabs_mult, (Rabs_pos_eq (bp k)); auto. apply bpow_ge_0.
    - rewrite !Bsign_Babs; auto; try (apply fin_nan, Mx); apply fin_nan, Fx.
  Qed.

  Lemma ltb_scale e x y : (0 <= e <= 1000)%Z -> measured k e x -> measured k e y -> Bltb (f x) (f y) = Bltb x y.
  Proof.
    intros He Mx My. destruct (ldexp_val k e x He Mx) as (Ex & Fx & _). destruct (ldexp_val k e y He My) as (Ey & Fy & _).
    pose proof (bpow_gt_0 radix2 k). rewrite !Bltb_correct; [|apply Mx|apply My|exact Fx|exact Fy]. rewrite Ex, Ey.
    destruct (Rlt_bool_spec (B2R x) (B2R y)); [apply Rlt_bool_true|apply Rlt_bool_false]; nra.
  Qed.
  Lemma leb_scale e x y : (0 <= e <= 1000)%Z -> measured k e x -> measured k e y -> Bleb (f x) (f y) = Bleb x y.
  Proof.
    intros He Mx My. destruct (ldexp_val k e x He Mx) as (Ex & Fx & _). destruct (ldexp_val k e y He My) as (Ey & Fy & _).
    pose proof (bpow_gt_0 radix2 k). rewrite !Bleb_correct; [|apply Mx|apply My|exact Fx|exact Fy]. rewrite Ex, Ey.
    destruct (Rle_bool_spec (B2R x) (B2R y)); [apply Rle_bool_true|apply Rle_bool_false]; nra.
  Qed.
End Ops.
