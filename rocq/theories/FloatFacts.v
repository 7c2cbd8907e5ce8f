(** Facts about binary64: every operation on finite doubles is the exact
    operation followed by one monotone, odd rounding to the extended doubles. *)

From Coq Require Import ZArith Reals Lra Lia Bool.
From Flocq Require Import Core.Core IEEE754.BinarySingleNaN.
From Verif Require Import Arith.
From Verif Require Export FloatSpec.
Open Scope R_scope.

#[global] Arguments Bz : simpl never.
#[global] Arguments Badd : simpl never.
#[global] Arguments Bsub : simpl never.
#[global] Arguments Bmul : simpl never.
#[global] Arguments Bquot : simpl never.

Lemma big_pos : 0 < big.
Proof. apply bpow_gt_0. Qed.

Global Instance fexp64_valid : Valid_exp fexp64.
Proof. apply (fexp_correct 53 1024). reflexivity. Qed.

Global Instance fexp64_mono : Monotone_exp fexp64.
Proof. apply (fexp_monotone 53 1024). Qed.

(** Rounding. *)
Lemma rnd_le a b : a <= b -> rnd a <= rnd b.
Proof. intros. unfold rnd. apply round_le; auto with typeclass_instances. Qed.

Lemma rnd_opp a : rnd (- a) = - rnd a.
Proof. unfold rnd. apply round_NE_opp. Qed.

Lemma rnd_0 : rnd 0 = 0.
Proof. apply round_0; auto with typeclass_instances. Qed.

Lemma rnd_fix r : generic_format radix2 fexp64 r -> rnd r = r.
Proof. intros. apply round_generic; auto with typeclass_instances. Qed.

Lemma rnd_abs a : rnd (Rabs a) = Rabs (rnd a).
Proof.
  unfold Rabs at 1. destruct (Rcase_abs a).
  - rewrite rnd_opp. pose proof (rnd_le a 0 ltac:(lra)) as Hl. rewrite rnd_0 in Hl. rewrite Rabs_left1; auto.
  - pose proof (rnd_le 0 a ltac:(lra)) as Hl. rewrite rnd_0 in Hl. rewrite Rabs_pos_eq; auto.
Qed.

Lemma sat_in r : Rabs r < big -> sat r = r.
Proof. intros H. unfold sat. rewrite Rlt_bool_true; auto. Qed.

Lemma sat_opp r : sat (- r) = - sat r.
Proof.
  unfold sat. rewrite Rabs_Ropp. destruct (Rlt_bool_spec (Rabs r) big) as [H|H]; auto.
  pose proof big_pos. destruct (Rlt_bool_spec (- r) 0), (Rlt_bool_spec r 0); try lra.
  assert (r = 0) by lra. subst. rewrite Rabs_R0 in H. lra.
Qed.

Lemma sat_le a b : a <= b -> sat a <= sat b.
Proof.
  intros H. unfold sat. pose proof big_pos.
  destruct (Rlt_bool_spec (Rabs a) big) as [Ha|Ha], (Rlt_bool_spec (Rabs b) big) as [Hb|Hb];
    try apply Rabs_lt_inv in Ha; try apply Rabs_lt_inv in Hb;
    destruct (Rlt_bool_spec a 0) as [Ka|Ka], (Rlt_bool_spec b 0) as [Kb|Kb]; try lra;
    unfold Rabs in *; repeat destruct (Rcase_abs _); lra.
Qed.

Lemma sat_bound r : Rabs (sat r) <= big.
Proof.
  unfold sat. pose proof big_pos. destruct (Rlt_bool_spec (Rabs r) big); [lra|].
  destruct (Rlt_bool_spec r 0); [rewrite Rabs_Ropp|]; rewrite Rabs_pos_eq; lra.
Qed.

Lemma R64_le a b : a <= b -> R64 a <= R64 b.
Proof. intros. apply sat_le, rnd_le; auto. Qed.

Lemma R64_lt_inv a b : R64 a < R64 b -> a < b.
Proof. intros. destruct (Rlt_or_le a b) as [|K]; auto. apply R64_le in K. lra. Qed.

Lemma R64_opp a : R64 (- a) = - R64 a.
Proof. unfold R64. now rewrite rnd_opp, sat_opp. Qed.

Lemma R64_0 : R64 0 = 0.
Proof. unfold R64. rewrite rnd_0, sat_in; auto. rewrite Rabs_R0. apply big_pos. Qed.

Lemma R64_pos a : 0 <= a -> 0 <= R64 a.
Proof. intros H. rewrite <- R64_0. apply R64_le; auto. Qed.

Lemma R64_neg a : a <= 0 -> R64 a <= 0.
Proof. intros H. rewrite <- R64_0. apply R64_le; auto. Qed.

Lemma R64_abs a : Rabs (R64 a) = R64 (Rabs a).
Proof.
  unfold Rabs at 2. destruct (Rcase_abs a).
  - rewrite R64_opp, Rabs_left1; auto. apply R64_neg; lra.
  - rewrite Rabs_pos_eq; auto. apply R64_pos; lra.
Qed.

Lemma R64_bound r : - big <= R64 r <= big.
Proof. apply Rabs_le_inv, sat_bound. Qed.

(** Values. *)
Lemma fin_nan x : finite64 x = true -> nan x = false.
Proof. destruct x; simpl; auto; discriminate. Qed.

Lemma X_fin x : finite64 x = true -> X x = B2R x.
Proof. destruct x; simpl; auto; discriminate. Qed.

Lemma B2R_format x : generic_format radix2 fexp64 (@B2R 53 1024 x).
Proof. apply generic_format_B2R. Qed.

Lemma B2R_lt_big (x : double) : Rabs (B2R x) < big.
Proof. apply abs_B2R_lt_emax. Qed.

Lemma X_bound x : - big <= X x <= big.
Proof.
  pose proof big_pos. pose proof (B2R_lt_big x) as H1. apply Rabs_lt_inv in H1.
  destruct x as [| [] | |]; unfold X; lra.
Qed.

Lemma fin_X x : nan x = false -> (finite64 x = true <-> Rabs (X x) < big).
Proof.
  intros Hn. pose proof big_pos. pose proof (B2R_lt_big x).
  destruct x as [s|s| |s m e B]; simpl in *; try discriminate;
    split; intros; auto; try discriminate.
  exfalso. destruct s; [rewrite Rabs_Ropp in *|]; rewrite Rabs_pos_eq in *; lra.
Qed.

Lemma R64_B2R (x : double) : R64 (B2R x) = B2R x.
Proof. unfold R64. rewrite rnd_fix by apply B2R_format. apply sat_in, B2R_lt_big. Qed.

Lemma R64_big : R64 big = big.
Proof.
  unfold R64, rnd, big. rewrite round_generic; auto with typeclass_instances.
  - unfold sat. pose proof big_pos. rewrite Rlt_bool_false by (rewrite Rabs_pos_eq; fold big; lra).
    rewrite Rlt_bool_false; auto. fold big; lra.
  - apply generic_format_bpow. vm_compute. discriminate.
Qed.

Lemma R64_X x : R64 (X x) = X x.
Proof.
  destruct x as [s|[]| |s m e B]; unfold X; try apply R64_B2R.
  - now rewrite R64_opp, R64_big.
  - apply R64_big.
Qed.

Lemma X_sign_pos_zero : X (B754_zero false) = 0.
Proof. reflexivity. Qed.

(** Comparisons. *)
Lemma X_ltb x y : nan x = false -> nan y = false -> (Bltb x y = true <-> X x < X y).
Proof.
  intros Hx Hy.
  destruct (finite64 x) eqn:Fx, (finite64 y) eqn:Fy.
  - rewrite Bltb_correct by auto. rewrite !X_fin by auto.
    destruct (Rlt_bool_spec (B2R x) (B2R y)); split; intros; auto; [discriminate|lra].
  - pose proof (B2R_lt_big x) as H1. apply Rabs_lt_inv in H1. rewrite (X_fin x) by auto.
    destruct y as [|[]| |]; try discriminate;
      destruct x as [[]| | |[]]; simpl in *; try discriminate; split; intros; auto; try discriminate; lra.
  - pose proof (B2R_lt_big y) as H1. apply Rabs_lt_inv in H1. rewrite (X_fin y) by auto.
    destruct x as [|[]| |]; try discriminate;
      destruct y as [[]| | |[]]; simpl in *; try discriminate; split; intros; auto; try discriminate; lra.
  - pose proof big_pos. destruct x as [|[]| |], y as [|[]| |]; simpl in *; try discriminate;
      split; intros; auto; try discriminate; lra.
Qed.

Lemma X_leb x y : nan x = false -> nan y = false -> (Bleb x y = true <-> X x <= X y).
Proof.
  intros Hx Hy.
  destruct (finite64 x) eqn:Fx, (finite64 y) eqn:Fy.
  - rewrite Bleb_correct by auto. rewrite !X_fin by auto.
    destruct (Rle_bool_spec (B2R x) (B2R y)); split; intros; auto; [discriminate|lra].
  - pose proof (B2R_lt_big x) as H1. apply Rabs_lt_inv in H1. rewrite (X_fin x) by auto.
    destruct y as [|[]| |]; try discriminate;
      destruct x as [[]| | |[]]; simpl in *; try discriminate; split; intros; auto; try discriminate; lra.
  - pose proof (B2R_lt_big y) as H1. apply Rabs_lt_inv in H1. rewrite (X_fin y) by auto.
    destruct x as [|[]| |]; try discriminate;
      destruct y as [[]| | |[]]; simpl in *; try discriminate; split; intros; auto; try discriminate; lra.
  - pose proof big_pos. destruct x as [|[]| |], y as [|[]| |]; simpl in *; try discriminate;
      split; intros; auto; try discriminate; lra.
Qed.

Lemma X_eqb x y : nan x = false -> nan y = false -> (Beqb x y = true <-> X x = X y).
Proof.
  intros Hx Hy.
  destruct (finite64 x) eqn:Fx, (finite64 y) eqn:Fy.
  - rewrite Beqb_correct by auto. rewrite !X_fin by auto.
    destruct (Req_bool_spec (B2R x) (B2R y)); split; intros; auto; try discriminate; try contradiction.
  - pose proof (B2R_lt_big x) as H1. apply Rabs_lt_inv in H1. rewrite (X_fin x) by auto.
    destruct y as [|[]| |]; try discriminate;
      destruct x as [[]| | |[]]; simpl in *; try discriminate; split; intros; auto; try discriminate; lra.
  - pose proof (B2R_lt_big y) as H1. apply Rabs_lt_inv in H1. rewrite (X_fin y) by auto.
    destruct x as [|[]| |]; try discriminate;
      destruct y as [[]| | |[]]; simpl in *; try discriminate; split; intros; auto; try discriminate; lra.
  - pose proof big_pos. destruct x as [|[]| |], y as [|[]| |]; simpl in *; try discriminate;
      split; intros; auto; try discriminate; lra.
Qed.

Lemma X_ltb_false x y : nan x = false -> nan y = false -> (Bltb x y = false <-> X y <= X x).
Proof.
  intros Hx Hy. pose proof (X_ltb x y Hx Hy). destruct (Bltb x y); split; intros; auto.
  - discriminate.
  - assert (X x < X y) by tauto. lra.
  - destruct (Rle_or_lt (X y) (X x)); auto. assert (false = true) by tauto. discriminate.
Qed.

Lemma X_leb_false x y : nan x = false -> nan y = false -> (Bleb x y = false <-> X y < X x).
Proof.
  intros Hx Hy. pose proof (X_leb x y Hx Hy). destruct (Bleb x y); split; intros; auto.
  - discriminate.
  - assert (X x <= X y) by tauto. lra.
  - destruct (Rlt_or_le (X y) (X x)); auto. assert (false = true) by tauto. discriminate.
Qed.

Lemma nan_ltb_l x y : nan x = true -> Bltb x y = false.
Proof. destruct x; try discriminate; reflexivity. Qed.
Lemma nan_ltb_r x y : nan y = true -> Bltb x y = false.
Proof. destruct y; try discriminate; destruct x as [| [] | | []]; reflexivity. Qed.
Lemma nan_leb_l x y : nan x = true -> Bleb x y = false.
Proof. destruct x; try discriminate; reflexivity. Qed.
Lemma nan_leb_r x y : nan y = true -> Bleb x y = false.
Proof. destruct y; try discriminate; destruct x as [| [] | | []]; reflexivity. Qed.
Lemma nan_eqb_l x y : nan x = true -> Beqb x y = false.
Proof. destruct x; try discriminate; reflexivity. Qed.
Lemma nan_eqb_r x y : nan y = true -> Beqb x y = false.
Proof. destruct y; try discriminate; destruct x as [| [] | | []]; reflexivity. Qed.

(** Operations on finite doubles. *)
Lemma X_abs x : X (Babs x) = Rabs (X x).
Proof.
  pose proof big_pos. destruct x as [s|[]| |s m e B]; simpl.
  - now rewrite Rabs_R0.
  - rewrite Rabs_Ropp, Rabs_pos_eq; lra.
  - rewrite Rabs_pos_eq; lra.
  - now rewrite Rabs_R0.
  - rewrite <- F2R_Zabs. f_equal. destruct s; reflexivity.
Qed.

Lemma nan_abs x : nan (Babs x) = nan x.
Proof. destruct x; reflexivity. Qed.

Lemma fin_abs x : finite64 (Babs x) = finite64 x.
Proof. destruct x; reflexivity. Qed.

Lemma X_opp x : X (Bopp x) = - X x.
Proof.
  destruct x as [s|[]| |s m e B]; unfold X; rewrite ?B2R_Bopp; simpl; try lra.
Qed.

Lemma nan_opp x : nan (Bopp x) = nan x.
Proof. destruct x; reflexivity. Qed.

Lemma overflow_X (z : double) s : B2SF z = binary_overflow 53 1024 mode_NE s ->
  X z = (if s then - big else big) /\ nan z = false.
Proof. intros H. destruct z; simpl in H; try discriminate. injection H as ->. auto. Qed.

Lemma sat_out r : big <= Rabs r -> sat r = if Rlt_bool r 0 then - big else big.
Proof. intros H. unfold sat. rewrite Rlt_bool_false; auto. Qed.

Lemma Bsign_neg (x : double) : finite64 x = true -> Bsign x = true -> B2R x <= 0.
Proof.
  destruct x as [s| | |s m e B]; simpl; try discriminate; intros _ ->; [lra|].
  left. apply F2R_lt_0. simpl. reflexivity.
Qed.

Lemma Bsign_pos (x : double) : finite64 x = true -> Bsign x = false -> 0 <= B2R x.
Proof.
  destruct x as [s| | |s m e B]; simpl; try discriminate; intros _ ->; [lra|].
  left. apply F2R_gt_0. simpl. reflexivity.
Qed.

Lemma sign_round (s : bool) r : (if s then r <= 0 else 0 <= r) -> big <= Rabs (rnd r) ->
  (if s then - big else big) = R64 r.
Proof.
  intros Hs Hb. unfold R64. rewrite (sat_out _ Hb). pose proof big_pos.
  destruct s.
  - assert (rnd r <= 0) by (rewrite <- rnd_0; apply rnd_le; auto).
    rewrite Rlt_bool_true; auto. destruct (Req_dec (rnd r) 0) as [E|]; [|lra].
    rewrite E, Rabs_R0 in Hb. lra.
  - assert (0 <= rnd r) by (rewrite <- rnd_0; apply rnd_le; auto).
    rewrite Rlt_bool_false; auto.
Qed.

Lemma X_add x y : finite64 x = true -> finite64 y = true ->
  X (Badd x y) = R64 (B2R x + B2R y) /\ nan (Badd x y) = false.
Proof.
  intros Fx Fy. unfold Badd.
  pose proof (Bplus_correct 53 1024 prec_gt_0_53 prec_lt_emax_53 mode_NE x y Fx Fy) as H.
  change (round radix2 (SpecFloat.fexp 53 1024) (round_mode mode_NE) (B2R x + B2R y)) with (rnd (B2R x + B2R y)) in H.
  change (bpow radix2 1024) with big in H.
  destruct (Rlt_bool_spec (Rabs (rnd (B2R x + B2R y))) big) as [Hl|Hl].
  - destruct H as (Hr & Hf & _). split; [|apply fin_nan, Hf]. rewrite (X_fin _ Hf), Hr.
    unfold R64. rewrite sat_in; auto.
  - destruct H as (Ho & Hs). apply overflow_X in Ho as [-> Hn]. split; auto.
    apply sign_round; auto. destruct (Bsign x) eqn:S1.
    + pose proof (Bsign_neg x Fx S1). pose proof (Bsign_neg y Fy (eq_sym Hs)). lra.
    + pose proof (Bsign_pos x Fx S1). pose proof (Bsign_pos y Fy (eq_sym Hs)). lra.
Qed.

Lemma X_sub x y : finite64 x = true -> finite64 y = true ->
  X (Bsub x y) = R64 (B2R x - B2R y) /\ nan (Bsub x y) = false.
Proof.
  intros Fx Fy. unfold Bsub.
  pose proof (Bminus_correct 53 1024 prec_gt_0_53 prec_lt_emax_53 mode_NE x y Fx Fy) as H.
  change (round radix2 (SpecFloat.fexp 53 1024) (round_mode mode_NE) (B2R x - B2R y)) with (rnd (B2R x - B2R y)) in H.
  change (bpow radix2 1024) with big in H.
  destruct (Rlt_bool_spec (Rabs (rnd (B2R x - B2R y))) big) as [Hl|Hl].
  - destruct H as (Hr & Hf & _). split; [|apply fin_nan, Hf]. rewrite (X_fin _ Hf), Hr.
    unfold R64. rewrite sat_in; auto.
  - destruct H as (Ho & Hs). apply overflow_X in Ho as [-> Hn]. split; auto.
    apply sign_round; auto. destruct (Bsign x) eqn:S1.
    + pose proof (Bsign_neg x Fx S1). symmetry in Hs. apply negb_true_iff in Hs.
      pose proof (Bsign_pos y Fy Hs). lra.
    + pose proof (Bsign_pos x Fx S1). symmetry in Hs. apply negb_false_iff in Hs.
      pose proof (Bsign_neg y Fy Hs). lra.
Qed.

Lemma X_mul x y : finite64 x = true -> finite64 y = true ->
  X (Bmul x y) = R64 (B2R x * B2R y) /\ nan (Bmul x y) = false.
Proof.
  intros Fx Fy. unfold Bmul.
  pose proof (Bmult_correct 53 1024 prec_gt_0_53 prec_lt_emax_53 mode_NE x y) as H.
  change (round radix2 (SpecFloat.fexp 53 1024) (round_mode mode_NE) (B2R x * B2R y)) with (rnd (B2R x * B2R y)) in H.
  change (bpow radix2 1024) with big in H.
  destruct (Rlt_bool_spec (Rabs (rnd (B2R x * B2R y))) big) as [Hl|Hl].
  - destruct H as (Hr & Hf & _). unfold finite64 in Fx, Fy. rewrite Fx, Fy in Hf. simpl in Hf.
    split; [|apply fin_nan, Hf]. rewrite (X_fin _ Hf), Hr. unfold R64. rewrite sat_in; auto.
  - apply overflow_X in H as [-> Hn]. split; auto.
    apply sign_round; auto. destruct (Bsign x) eqn:S1, (Bsign y) eqn:S2; simpl;
    try pose proof (Bsign_neg x Fx S1); try pose proof (Bsign_pos x Fx S1);
    try pose proof (Bsign_neg y Fy S2); try pose proof (Bsign_pos y Fy S2); nra.
Qed.

Lemma X_div x y : finite64 x = true -> finite64 y = true -> B2R y <> 0 ->
  X (Bquot x y) = R64 (B2R x / B2R y) /\ nan (Bquot x y) = false.
Proof.
  intros Fx Fy H0. unfold Bquot.
  pose proof (Bdiv_correct 53 1024 prec_gt_0_53 prec_lt_emax_53 mode_NE x y H0) as H.
  change (round radix2 (SpecFloat.fexp 53 1024) (round_mode mode_NE) (B2R x / B2R y)) with (rnd (B2R x / B2R y)) in H.
  change (bpow radix2 1024) with big in H.
  destruct (Rlt_bool_spec (Rabs (rnd (B2R x / B2R y))) big) as [Hl|Hl].
  - destruct H as (Hr & Hf & _). unfold finite64 in Fx, Fy. rewrite Fx in Hf.
    split; [|apply fin_nan, Hf]. rewrite (X_fin _ Hf), Hr. unfold R64. rewrite sat_in; auto.
  - apply overflow_X in H as [-> Hn]. split; auto.
    assert (Hi : 0 < B2R y -> 0 < / B2R y) by apply Rinv_0_lt_compat.
    assert (Hj : B2R y < 0 -> / B2R y < 0) by apply Rinv_lt_0_compat.
    apply sign_round; auto. unfold Rdiv. destruct (Bsign x) eqn:S1, (Bsign y) eqn:S2; simpl;
    try pose proof (Bsign_neg x Fx S1); try pose proof (Bsign_pos x Fx S1);
    try pose proof (Bsign_neg y Fy S2); try pose proof (Bsign_pos y Fy S2); nra.
Qed.

(** Integers up to 2^53 are exact. *)
Lemma format_IZR z : (Z.abs z <= 2 ^ 53)%Z -> generic_format radix2 fexp64 (IZR z).
Proof.
  intros Hz. destruct (Z.eq_dec (Z.abs z) (2 ^ 53)) as [E|E].
  - assert (H : z = (2 ^ 53)%Z \/ z = (- 2 ^ 53)%Z) by lia.
    assert (K : generic_format radix2 fexp64 (bpow radix2 53)) by
      (apply generic_format_bpow; vm_compute; discriminate).
    change (bpow radix2 53) with (IZR (2 ^ 53)) in K.
    destruct H as [-> | ->]; auto. rewrite opp_IZR. apply generic_format_opp; auto.
  - replace (IZR z) with (F2R (Float radix2 z 0)) by (unfold F2R; simpl; lra).
    apply generic_format_F2R. intros Hn. unfold cexp.
    destruct (Z.eq_dec z 0); [contradiction|].
    assert (mag radix2 (F2R (Float radix2 z 0)) <= 53)%Z.
    { apply mag_le_bpow. - intros H. apply eq_0_F2R in H. contradiction.
      - unfold F2R. simpl Fexp. simpl Fnum. rewrite Rmult_1_r. rewrite <- abs_IZR.
        change (bpow radix2 53) with (IZR (2 ^ 53)). apply IZR_lt. lia. }
    unfold fexp64, SpecFloat.fexp, SpecFloat.emin. apply Z.max_lub; lia.
Qed.

Lemma Bz_X z : X (Bz z) = R64 (IZR z) /\ nan (Bz z) = false.
Proof.
  unfold Bz.
  pose proof (binary_normalize_correct 53 1024 prec_gt_0_53 prec_lt_emax_53 mode_NE z 0 false) as H.
  cbv zeta in H. unfold F2R in H. simpl Fnum in H. simpl Fexp in H. rewrite Rmult_1_r in H.
  change (round radix2 (SpecFloat.fexp 53 1024) (round_mode mode_NE) (IZR z)) with (rnd (IZR z)) in H.
  change (bpow radix2 1024) with big in H.
  destruct (Rlt_bool_spec (Rabs (rnd (IZR z))) big) as [Hl|Hl].
  - destruct H as (Hr & Hf & _). split; [|apply fin_nan, Hf]. rewrite (X_fin _ Hf), Hr.
    unfold R64. rewrite sat_in; auto.
  - apply overflow_X in H as [-> Hn]. split; auto. apply sign_round; auto.
    destruct (Rlt_bool_spec (IZR z) 0); lra.
Qed.

Lemma Bz_exact z : (Z.abs z <= 2 ^ 53)%Z -> B2R (Bz z) = IZR z /\ finite64 (Bz z) = true.
Proof.
  intros Hz. destruct (Bz_X z) as [HX Hn].
  assert (Hb : Rabs (IZR z) < big).
  { apply Rle_lt_trans with (bpow radix2 53).
    - rewrite <- abs_IZR. change (bpow radix2 53) with (IZR (2 ^ 53)). apply IZR_le; auto.
    - apply bpow_lt. lia. }
  assert (E : R64 (IZR z) = IZR z).
  { unfold R64. rewrite rnd_fix by (apply format_IZR; auto). apply sat_in; auto. }
  rewrite E in HX. assert (Hf : finite64 (Bz z) = true) by (apply fin_X; auto; rewrite HX; auto).
  split; auto. rewrite <- (X_fin _ Hf). auto.
Qed.

(** A literal [m / d] is the double nearest to the rational number, which is
    what the C++ literal denotes. *)
Lemma lit_nearest (m d : Z) : (Z.abs m <= 2 ^ 53)%Z -> (0 < d <= 2 ^ 53)%Z ->
  B2R (lit (A := B64) m d) = rnd (IZR m / IZR d) /\ finite64 (lit (A := B64) m d) = true.
Proof.
  intros Hm Hd. unfold lit. cbn [of_Z div B64].
  destruct (Bz_exact m Hm) as [Em Fm]. destruct (Bz_exact d) as [Ed Fd]; [lia|].
  assert (Hd1 : 1 <= IZR d) by (apply IZR_le; lia).
  destruct (X_div (Bz m) (Bz d) Fm Fd) as [E N]; [rewrite Ed; lra|].
  rewrite Em, Ed in E.
  assert (Hb : Rabs (rnd (IZR m / IZR d)) < big).
  { apply Rle_lt_trans with (bpow radix2 53); [|apply bpow_lt; lia].
    apply abs_round_le_generic; [apply FLT_exp_valid; reflexivity|apply valid_rnd_N| |].
    - change (bpow radix2 53) with (IZR (2 ^ 53)). apply format_IZR. reflexivity || lia.
    - unfold Rdiv. rewrite Rabs_mult, (Rabs_pos_eq (/ IZR d)) by (apply Rlt_le, Rinv_0_lt_compat; lra).
      assert (0 < / IZR d <= 1).
      { split; [apply Rinv_0_lt_compat; lra|]. rewrite <- Rinv_1. apply Rinv_le_contravar; lra. }
      assert (Rabs (IZR m) <= bpow radix2 53).
      { rewrite <- abs_IZR. change (bpow radix2 53) with (IZR (2 ^ 53)). apply IZR_le; auto. }
      pose proof (Rabs_pos (IZR m)). nra. }
  unfold R64 in E. rewrite sat_in in E by auto.
  assert (F : finite64 (Bquot (Bz m) (Bz d)) = true) by (apply fin_X; auto; rewrite E; auto).
  split; auto. rewrite <- E. symmetry. now apply X_fin.
Qed.

(** Equal nonzero values are equal doubles. *)
Lemma X_inj x y : nan x = false -> nan y = false -> X x = X y -> X x <> 0 -> x = y.
Proof.
  intros Hx Hy E H0. pose proof big_pos.
  pose proof (B2R_lt_big x) as Lx. pose proof (B2R_lt_big y) as Ly.
  apply Rabs_lt_inv in Lx, Ly.
  destruct x as [|sx| |sx mx ex Bx]; try discriminate; try (simpl in H0; lra);
  destruct y as [|sy| |sy my ey By]; try discriminate; try (simpl in *; lra).
  - destruct sx, sy; simpl in E; auto; lra.
  - exfalso. unfold X in E. destruct sx; lra.
  - exfalso. unfold X in E. destruct sy; lra.
  - apply B2R_inj; auto.
Qed.

Lemma Babs_inj x y : nan x = false -> nan y = false -> Rabs (X x) = Rabs (X y) -> @Babs 53 1024 x = Babs y.
Proof.
  intros Hx Hy E. destruct (Req_dec (X x) 0) as [Z|NZ].
  - rewrite Z, Rabs_R0 in E. symmetry in E.
    assert (Z2 : X y = 0) by (destruct (Req_dec (X y) 0); auto; apply Rabs_no_R0 in E; tauto).
    assert (K : forall z, nan z = false -> X z = 0 -> Babs z = B754_zero false).
    { clear. intros z Hn Hz. pose proof big_pos. destruct z as [|s| |s m e B]; auto; try discriminate.
      - simpl in Hz. destruct s; lra.
      - simpl in Hz. apply eq_0_F2R in Hz. destruct s; discriminate. }
    rewrite (K x), (K y); auto.
  - apply X_inj; rewrite ?nan_abs, ?X_abs; auto. apply Rabs_no_R0; auto.
Qed.
