(** [definitelyLessThan] in doubles is monotone and transitive. *)

From Coq Require Import ZArith Reals Lra Bool.
From Flocq Require Import Core.Core IEEE754.BinarySingleNaN.
From Flocq Require Sterbenz.
From Verif Require Import Outcome Arith Utils IBin FloatSpec FloatFacts UtilsFacts.
Open Scope R_scope.

Notation fmt := (generic_format radix2 fexp64).

(** The rounded value is at least as close as any double. *)
Lemma rnd_near x c : fmt c -> Rabs (rnd x - x) <= Rabs (c - x).
Proof. intros F. exact (proj2 (round_N_pt radix2 fexp64 (fun z => negb (Z.even z)) x) c F). Qed.

Lemma rnd_double x : 0 <= x -> rnd x <= 2 * x.
Proof.
  intros H. pose proof (rnd_near x 0 (generic_format_0 _ _)) as N.
  unfold Rabs in N. destruct (Rcase_abs (rnd x - x)), (Rcase_abs (0 - x)); lra.
Qed.

Ltac abs := unfold Rabs in *; repeat destruct (Rcase_abs _); try lra.

(** [t - b] with [2 b <= t] loses at most half, whatever the exponents. *)
Lemma sub_far t b : fmt t -> fmt b -> 0 < t -> 0 <= b -> 2 * b <= t -> t / 4 < rnd (t - b).
Proof.
  intros Ft Fb Ht Hb H. destruct (Rlt_le_dec (t / 4) (rnd (t - b))) as [|L]; auto. exfalso.
  pose proof (rnd_near (t - b) t Ft). pose proof (rnd_near (t - b) b Fb). abs.
Qed.

(** [t - b] and [a - b] exact. *)
Lemma sub_close t a b e : fmt t -> fmt a -> fmt b -> 0 <= e < / 2 -> 0 < b -> b < a -> a <= t -> t <= 2 * b ->
  rnd (a * e) < rnd (a - b) -> rnd (t * e) < rnd (t - b).
Proof.
  intros Ft Fa Fb He Hb Hab Hat Htb H.
  assert (S1 : fmt (a - b)) by (apply Sterbenz.sterbenz; auto; try lra; exact _).
  assert (S2 : fmt (t - b)) by (apply Sterbenz.sterbenz; auto; try lra; exact _).
  rewrite (rnd_fix _ S1) in H. rewrite (rnd_fix _ S2).
  destruct (Rlt_le_dec (rnd (t * e)) (t - b)) as [|L]; auto. exfalso.
  destruct (Rle_lt_or_eq_dec _ _ Hat) as [D| ->]; [|lra].
  set (g := rnd (a * e)) in * .
  assert (Fg : fmt g) by (apply generic_format_round; exact _).
  pose proof (rnd_near (a * e) (a - b) S1) as N1. fold g in N1.
  pose proof (rnd_near (t * e) g Fg) as N2.
  assert (a * e <= t * e) by nra.
  assert (T : t * e = a * e + (t - a) * e) by ring.
  assert ((t - a) * e < (t - a) / 2) by nra.
  abs.
Qed.

Section Mono.
  Variable e : double.
  Hypothesis Fe : finite64 e = true.
  Hypothesis He : 0 <= B2R e <= / 8.

  Lemma R64_small r : 0 <= r -> rnd r < big -> R64 r = rnd r.
  Proof.
    intros H H'. unfold R64. apply sat_in. rewrite Rabs_pos_eq; auto. rewrite <- rnd_0. now apply rnd_le.
  Qed.

  Lemma R64_low r x : 0 <= x < big -> x < rnd r -> x < R64 r.
  Proof.
    intros H H'. unfold R64, sat. destruct (Rlt_bool_spec (Rabs (rnd r)) big); auto.
    destruct (Rlt_bool_spec (rnd r) 0); lra.
  Qed.

  Lemma less_left (a a' b : double) : finite64 a = true -> finite64 a' = true -> finite64 b = true ->
    B2R a' <= B2R a -> definitelyLessThan (A := B64) a b e = true -> definitelyLessThan (A := B64) a' b e = true.
  Proof.
    intros Fa Fa' Fb Ha H. pose proof (B_less_lt a b e Fa Fb Fe (proj1 He) H) as Hlt.
    apply (B_less a b e Fa Fb Fe) in H. apply (B_less a' b e Fa' Fb Fe). unfold tol in * .
    pose proof (B2R_format a) as Ga. pose proof (B2R_format a') as Ga'. pose proof (B2R_format b) as Gb.
    pose proof (B2R_lt_big a') as Ba'. pose proof (B2R_lt_big a) as Ba.
    set (x := B2R a) in * . set (x' := B2R a') in * . set (y := B2R b) in * . set (ee := B2R e) in * .
    clearbody x x' y ee.
    destruct (Rle_lt_dec (Rabs x') (Rmax (Rabs x) (Rabs y))) as [C|C].
    { apply Rle_lt_trans with (R64 (Rmax (Rabs x) (Rabs y) * ee)).
      - apply R64_le. apply Rmult_le_compat_r; [lra|]. apply Rmax_lub; auto. apply Rmax_r.
      - apply Rlt_le_trans with (R64 (y - x)); auto. apply R64_le. lra. }
    pose proof (Rmax_l (Rabs x) (Rabs y)). pose proof (Rmax_r (Rabs x) (Rabs y)).
    assert (Hx' : x' < 0) by abs.
    set (t := - x'). assert (Et : Rabs x' = t) by (unfold t; abs).
    rewrite Et in * . rewrite Rmax_left by lra.
    assert (Gt : fmt t) by (apply generic_format_opp; auto).
    assert (Ht : 0 < t) by (unfold t; lra).
    assert (P : 0 <= t * ee) by nra.
    assert (B : rnd (t * ee) <= t / 4) by (eapply Rle_trans; [apply rnd_double; auto|nra]).
    rewrite (R64_small (t * ee)) by (auto; lra).
    assert (P0 : 0 <= rnd (t * ee)) by (rewrite <- rnd_0; apply rnd_le; auto).
    apply R64_low; [lra|].
    destruct (Rle_lt_dec 0 y) as [Hy|Hy].
    - apply Rle_lt_trans with (t / 4); auto. apply Rlt_le_trans with t; [lra|].
      rewrite <- (rnd_fix t Gt) at 1. apply rnd_le. unfold t. lra.
    - replace (y - x') with (t - - y) by (unfold t; lra).
      assert (Gy : fmt (- y)) by (apply generic_format_opp; auto).
      destruct (Rle_lt_dec (2 * - y) t) as [C2|C2].
      + apply Rle_lt_trans with (t / 4); auto. apply sub_far; auto; lra.
      + apply (sub_close t (- x) (- y)); auto; try lra.
        * apply generic_format_opp; auto.
        * unfold t; lra.
        * assert (M : Rmax (Rabs x) (Rabs y) = - x) by (rewrite Rmax_left; abs). rewrite M in H.
          replace (- x - - y) with (y - x) by lra.
          assert (rnd (- x * ee) <= 2 * (- x * ee)) by (apply rnd_double; nra).
          rewrite (R64_small (- x * ee)) in H; [|nra|].
          2:{ apply Rle_lt_trans with (- x / 4); [nra|]. revert Ba. abs. }
          apply Rlt_le_trans with (1 := H). rewrite R64_small; [lra|lra|].
          apply Rle_lt_trans with (rnd (- x)); [apply rnd_le; lra|].
          rewrite rnd_fix by (apply generic_format_opp; auto). revert Ba. abs.
  Qed.

  Lemma less_opp (a b : double) : finite64 a = true -> finite64 b = true ->
    definitelyLessThan (A := B64) a b e = definitelyLessThan (A := B64) (Bopp b) (Bopp a) e.
  Proof.
    intros Fa Fb.
    assert (Fa' : finite64 (Bopp a) = true) by (unfold finite64; rewrite is_finite_Bopp; auto).
    assert (Fb' : finite64 (Bopp b) = true) by (unfold finite64; rewrite is_finite_Bopp; auto).
    apply eq_true_iff_eq. rewrite (B_less a b e Fa Fb Fe), (B_less _ _ e Fb' Fa' Fe). unfold tol.
    rewrite !B2R_Bopp, !Rabs_Ropp, Rmax_comm. replace (- B2R a - - B2R b) with (B2R b - B2R a) by lra. tauto.
  Qed.

  Lemma less_mono (a a' b b' : double) :
    finite64 a = true -> finite64 a' = true -> finite64 b = true -> finite64 b' = true ->
    B2R a' <= B2R a -> B2R b <= B2R b' ->
    definitelyLessThan (A := B64) a b e = true -> definitelyLessThan (A := B64) a' b' e = true.
  Proof.
    intros Fa Fa' Fb Fb' Ha Hb H. apply (less_left a a' b) in H; auto.
    rewrite less_opp in H |- * by auto.
    assert (forall x, finite64 x = true -> finite64 (Bopp x) = true)
      by (intros; unfold finite64; rewrite is_finite_Bopp; auto).
    eapply less_left; [..|exact H]; auto. rewrite !B2R_Bopp. lra.
  Qed.

  Lemma less_trans (a b c : double) :
    finite64 a = true -> finite64 b = true -> finite64 c = true ->
    definitelyLessThan (A := B64) a b e = true -> definitelyLessThan (A := B64) b c e = true ->
    definitelyLessThan (A := B64) a c e = true.
  Proof.
    intros Fa Fb Fc H1 H2. apply B_less_lt in H1; auto; [|lra]. apply (less_left b a c); auto. lra.
  Qed.
End Mono.

Lemma eps_eighth : B2R (default_eps (A := B64)) <= / 8 /\ B2R (bin_eps (A := B64)) <= / 8.
Proof.
  destruct (Bz_exact 1) as [E1 F1]; [easy|]. destruct (Bz_exact 8) as [E8 F8]; [easy|].
  assert (H8 : B2R (lit (A := B64) 1 8) = / 8).
  { unfold lit. cbn. destruct (X_div (Bz 1) (Bz 8) F1 F8) as [Xd Nd]; [rewrite E8; lra|].
    assert (Fd : finite64 (Bquot (Bz 1) (Bz 8)) = true) by (vm_compute; reflexivity).
    rewrite <- (X_fin _ Fd), Xd, E1, E8. unfold R64.
    assert (Fm : fmt (1 / 8)).
    { replace (1 / 8) with (bpow radix2 (-3)) by (simpl; lra). apply generic_format_bpow. vm_compute. discriminate. }
    rewrite rnd_fix by auto. rewrite sat_in; [lra|]. rewrite Rabs_pos_eq by lra.
    apply Rlt_le_trans with (bpow radix2 0); [simpl; lra|]. apply bpow_le. discriminate. }
  rewrite <- H8. assert (F : finite64 (lit (A := B64) 1 8) = true) by (vm_compute; reflexivity).
  split; match goal with |- B2R ?x <= _ => assert (Fx : finite64 x = true) by (vm_compute; reflexivity);
    rewrite <- (X_fin x Fx), <- (X_fin _ F); apply X_leb; [apply fin_nan; auto..|vm_compute; reflexivity] end.
Qed.

Lemma default_small : 0 <= B2R (default_eps (A := B64)) <= / 8.
Proof. split; [apply default_eps_ok|apply eps_eighth]. Qed.
Lemma bin_small : 0 <= B2R (bin_eps (A := B64)) <= / 8.
Proof. split; [apply bin_eps_ok|apply eps_eighth]. Qed.
