(** Proofs about contraction of products and sums. *)

From Coq Require Import List Reals ZArith Lra Lia Bool Arith Sorting.Sorted.
From Flocq Require Import Core.Core IEEE754.BinarySingleNaN.
From Flocq Require Mult_error.
From Verif Require Import Outcome Arith Utils IBin Histogram Mean P2 Entropy Contract P2Spec Spec MeanSpec EntropySpec ListFacts
  FloatSpec FloatFacts UtilsFacts MeanFacts MeanError VarError FameFacts P2Facts P2Float P2Witness ContractP2.
Import ListNotations.
Local Open Scope R_scope.

Lemma X_fused x y z : finite64 x = true -> finite64 y = true -> finite64 z = true ->
  X (Bfused x y z) = R64 (B2R x * B2R y + B2R z) /\ nan (Bfused x y z) = false.
Proof.
  intros Fx Fy Fz. unfold Bfused.
  pose proof (Bfma_correct 53 1024 prec_gt_0_53 prec_lt_emax_53 mode_NE x y z Fx Fy Fz) as H. cbv zeta in H.
  change (round radix2 (SpecFloat.fexp 53 1024) (round_mode mode_NE) (B2R x * B2R y + B2R z)) with (rnd (B2R x * B2R y + B2R z)) in H.
  change (bpow radix2 1024) with big in H.
  destruct (Rlt_bool_spec (Rabs (rnd (B2R x * B2R y + B2R z))) big) as [Hl|Hl].
  - destruct H as (Hr & Hf & _). split; [|apply fin_nan, Hf]. rewrite (X_fin _ Hf), Hr.
    unfold R64. rewrite sat_in; auto.
  - apply overflow_X in H as [-> Hn]. split; auto. apply sign_round; auto.
    destruct (Rlt_bool_spec (B2R x * B2R y + B2R z) 0); lra.
Qed.

Lemma opp_fin (x : double) : finite64 (Bopp x) = finite64 x.
Proof. now destruct x. Qed.

(** ** Without contraction it is the model *)
Lemma bind_same {X Y} (m m' : outcome X) (f g : X -> outcome Y) : m = m' -> (forall x, f x = g x) -> bind m f = bind m' g.
Proof. intros <- H. destruct m; cbn [bind]; auto. Qed.

Lemma parabolic_separate h n i (d : double) : parabolic_c false h n i d = parabolic (A := B64) h n i d.
Proof. unfold parabolic_c, parabolic, add_mul. reflexivity. Qed.

Lemma adjust_separate desired hn i :
  adjustHeights_by (parabolic_c false) desired hn i = adjustHeights (A := B64) desired hn i.
Proof.
  unfold adjustHeights_by, adjustHeights. destruct hn as [h n]. apply bind_same; [reflexivity|]. intros des.
  apply bind_same; [reflexivity|]. intros ni. apply bind_same; [reflexivity|]. intros gu.
  apply bind_same; [reflexivity|]. intros gd. cbn [leb ltb sub of_Z B64].
  match goal with |- (if ?c then _ else _) = _ => destruct c; [|reflexivity] end.
  rewrite parabolic_separate. reflexivity.
Qed.

Lemma p2_separate (s : p2 B64) (x : double) : p2_update_c s (fun _ => false, x) = p2_update (A := B64) s x.
Proof.
  unfold p2_update_c, p2_update_by, p2_update. cbn [fst snd].
  destruct (Nat.ltb (p_history s) 5); [reflexivity|].
  apply bind_same; [reflexivity|]. intros [h k]. apply bind_same; [reflexivity|]. intros n.
  apply bind_same; [reflexivity|]. intros d0. cbn [leb add mul div of_Z B64].
  apply bind_same; [|reflexivity].
  destruct (Bleb (lit (A := B64) 1 2) (p_quantile s)).
  - apply bind_same; [apply adjust_separate|]. intros a1. apply bind_same; [apply adjust_separate|]. intros a2. apply adjust_separate.
  - apply bind_same; [apply adjust_separate|]. intros a1. apply bind_same; [apply adjust_separate|]. intros a2. apply adjust_separate.
Qed.

Lemma wp2_separate (s : wp2 B64) : wp2_evaluate_c Separate s = wp2_evaluate (A := B64) s.
Proof. reflexivity. Qed.

Lemma variance_separate (s : variance B64) : variance_evaluate_c false s = variance_evaluate (A := B64) s.
Proof. reflexivity. Qed.

Lemma entropy_separate log2 (s : entropy B64) (x : double) :
  entropy_update_c log2 s (false, false, x) = entropy_update (A := B64) log2 s x.
Proof. reflexivity. Qed.

(** ** StreamingP2Quantile *)
Definition c_item (cx : (nat -> bool) * double) : by_item :=
  ((fun i => parabolic_c (fst cx i), fst cx 0%nat), snd cx).

Lemma c_run (s : p2 B64) cxs : update_all p2_update_c s cxs = update_all by_step s (map c_item cxs).
Proof.
  revert s. induction cxs as [|cx cxs IH]; intros s; [reflexivity|]. cbn [update_all map].
  change (by_step s (c_item cx)) with (p2_update_c s cx). destruct (p2_update_c s cx); cbn [bind]; auto.
Qed.

Lemma c_snd cxs : map snd (map c_item cxs) = map snd cxs.
Proof. rewrite map_map. reflexivity. Qed.

Lemma p2_bracket_c (q : double) s0 (cxs : list ((nat -> bool) * double)) :
  p2_new (A := B64) q = Ret s0 -> nan q = false ->
  (5 <= length cxs)%nat -> (Z.of_nat (length cxs) <= 2 ^ 31)%Z ->
  Forall (fun x => finite64 x = true) (map snd cxs) ->
  (forall x y, In x (map snd cxs) -> In y (map snd cxs) -> rnd (B2R y - B2R x) < big) ->
  exists s v lo hi h1 h2 h3,
    update_all p2_update_c s0 cxs = Ret s /\ p2_evaluate s = Ret (s, v) /\
    In lo (map snd cxs) /\ In hi (map snd cxs) /\ (forall x, In x (map snd cxs) -> B2R lo <= B2R x <= B2R hi) /\
    finite64 v = true /\ B2R lo <= B2R v <= B2R hi /\
    p_heights s = [lo; h1; h2; h3; hi] /\ ascending [lo; h1; h2; h3; hi] /\
    strictly_increasing (p_pos s) /\ nth 0 (p_pos s) (-1)%Z = 0%Z /\ nth 4 (p_pos s) (-1)%Z = (Z.of_nat (length cxs) - 1)%Z.
Proof.
  intros E0 N H5 HM HF HS. rewrite c_run. rewrite <- (map_length c_item cxs) in * . rewrite <- (c_snd cxs) in * .
  apply (p2_bracket_by q s0 (map c_item cxs)); auto.
  apply Forall_map, Forall_forall. intros cx _ i. apply tame_parabolic.
Qed.

(** Any function instead of parabolic. *)
Definition any_item (gx : (list double -> list Z -> nat -> double -> double) * double) : by_item :=
  ((fun _ h n i d => Ret (fst gx h n i d), false), snd gx).

Lemma any_run (s : p2 B64) gxs : update_all p2_update_any s gxs = update_all by_step s (map any_item gxs).
Proof.
  revert s. induction gxs as [|cx cxs IH]; intros s; [reflexivity|]. cbn [update_all map].
  change (by_step s (any_item cx)) with (p2_update_any s cx). destruct (p2_update_any s cx); cbn [bind]; auto.
Qed.

Lemma p2_bracket_any (q : double) s0 gxs :
  p2_new (A := B64) q = Ret s0 -> nan q = false ->
  (5 <= length gxs)%nat -> (Z.of_nat (length gxs) <= 2 ^ 31)%Z ->
  Forall (fun x => finite64 x = true) (map snd gxs) ->
  (forall x y, In x (map snd gxs) -> In y (map snd gxs) -> rnd (B2R y - B2R x) < big) ->
  exists s v lo hi h1 h2 h3,
    update_all p2_update_any s0 gxs = Ret s /\ p2_evaluate s = Ret (s, v) /\
    In lo (map snd gxs) /\ In hi (map snd gxs) /\ (forall x, In x (map snd gxs) -> B2R lo <= B2R x <= B2R hi) /\
    finite64 v = true /\ B2R lo <= B2R v <= B2R hi /\
    p_heights s = [lo; h1; h2; h3; hi] /\ ascending [lo; h1; h2; h3; hi] /\
    strictly_increasing (p_pos s) /\ nth 0 (p_pos s) (-1)%Z = 0%Z /\ nth 4 (p_pos s) (-1)%Z = (Z.of_nat (length gxs) - 1)%Z.
Proof.
  intros E0 N H5 HM HF HS. rewrite any_run. rewrite <- (map_length any_item gxs) in * .
  assert (Es : map snd (map any_item gxs) = map snd gxs) by (rewrite map_map; reflexivity). rewrite <- Es in * .
  apply (p2_bracket_by q s0 (map any_item gxs)); auto.
  apply Forall_map, Forall_forall. intros cx _ i. apply tame_any.
Qed.

Lemma p2_constant_c (q : double) s0 (c : double) (choices : list (nat -> bool)) :
  p2_new (A := B64) q = Ret s0 -> nan q = false -> finite64 c = true ->
  (5 <= length choices)%nat -> (Z.of_nat (length choices) <= 2 ^ 31)%Z ->
  exists s v, update_all p2_update_c s0 (map (fun b => (b, c)) choices) = Ret s /\ p2_evaluate s = Ret (s, v) /\
    finite64 v = true /\ B2R v = B2R c.
Proof.
  intros E0 N Fc H5 HM. set (cxs := map (fun b => (b, c)) choices).
  assert (Ic : forall x, In x (map snd cxs) -> x = c).
  { intros x Hx. unfold cxs in Hx. rewrite map_map in Hx. apply in_map_iff in Hx as (b & <- & _). reflexivity. }
  destruct (p2_bracket_c q s0 cxs E0 N) as (s & v & lo & hi & h1 & h2 & h3 & E & EV & Il & Ih & _ & Fv & Hv & _);
    try (unfold cxs; rewrite map_length; auto; fail).
  - apply Forall_forall. intros x Hx. apply Ic in Hx. now subst.
  - intros x y Hx Hy. apply Ic in Hx, Hy. subst. rewrite Rminus_diag_eq, rnd_0 by auto. apply big_pos.
  - apply Ic in Il, Ih. subst. exists s, v. repeat split; auto. lra.
Qed.

(** 2.0 + 2.0 * m_quantile is the same contracted. *)
Lemma desired_same (q : double) s0 c : p2_new (A := B64) q = Ret s0 -> add_mul c (Bz 2) (Bz 2) q = Badd (Bz 2) (Bmul (Bz 2) q).
Proof.
  intros E0. destruct c; [|reflexivity]. unfold add_mul. destruct (nan q) eqn:N.
  - destruct q; try discriminate N. vm_compute. reflexivity.
  - destruct (new_quant q s0 E0 N) as [Fq Hq]. destruct (Bz_exact 2) as [E2 F2]; [lia|].
    destruct (X_mul (Bz 2) q F2 Fq) as [Xm Nm]. rewrite E2 in Xm.
    assert (D : rnd (2 * B2R q) = 2 * B2R q).
    { apply round_generic; [apply valid_rnd_N|]. rewrite Rmult_comm.
      apply (Mult_error.mult_bpow_pos_exact_FLT radix2 (-1074) 53 (B2R q) 1); [apply format_X|lia]. }
    assert (S2 : Rabs (2 * B2R q) < big).
    { rewrite Rabs_pos_eq by lra. apply Rlt_trans with (bpow radix2 2); [simpl; lra|apply bpow_lt; lia]. }
    unfold R64 in Xm. rewrite D, sat_in in Xm by exact S2.
    assert (Fm : finite64 (Bmul (Bz 2) q) = true) by (apply fin_X; auto; rewrite Xm; exact S2).
    rewrite (X_fin _ Fm) in Xm.
    destruct (X_add (Bz 2) (Bmul (Bz 2) q) F2 Fm) as [Xa Na]. rewrite E2, Xm in Xa.
    destruct (X_fused (Bz 2) q (Bz 2) F2 Fq F2) as [Xf Nf]. rewrite E2 in Xf.
    apply X_inj; auto.
    + rewrite Xf, Xa. f_equal. ring.
    + rewrite Xf. apply Rgt_not_eq, Rlt_gt. apply Rlt_le_trans with (B2R (Bz 2)); [rewrite E2; lra|].
      rewrite <- (R64_B2R (Bz 2)), E2. apply R64_le. lra.
Qed.

(** The estimates of seven small integers differ by more than 1. *)
Lemma p2_differs : exists (q : double) s0 (xs : list Z) s t u v,
  p2_new (A := B64) q = Ret s0 /\ Forall (fun z => (0 <= z <= 48)%Z) xs /\ length xs = 7%nat /\
  update_all (p2_update (A := B64)) s0 (map Bz xs) = Ret s /\
  update_all p2_update_c s0 (map (fun z => (fun _ => true, Bz z)) xs) = Ret t /\
  p2_evaluate s = Ret (s, u) /\ p2_evaluate t = Ret (t, v) /\
  finite64 u = true /\ finite64 v = true /\ 1 < B2R u - B2R v.
Proof.
  set (q := lit (A := B64) 1 4). set (xs := [8; 40; 24; 48; 4; 0; 40]%Z).
  assert (E0 : ok (p2_new (A := B64) q) (fun _ => true) = true) by (vm_compute; reflexivity).
  destruct (p2_new (A := B64) q) as [s0| |] eqn:En; try discriminate E0. clear E0.
  assert (K : ok (p2_new (A := B64) q) (fun s0 =>
                ok (update_all (p2_update (A := B64)) s0 (map Bz xs)) (fun s =>
                ok (update_all p2_update_c s0 (map (fun z => (fun _ => true, Bz z)) xs)) (fun t =>
                Nat.eqb (p_history s) 7 && Nat.eqb (p_history t) 7 &&
                match p_heights s, p_heights t with
                | [_; _; u; _; _], [_; _; v; _; _] => Beqb u (Bz 12) && finite64 v && Bltb v (Bz 11)
                | _, _ => false end))) = true) by (vm_compute; reflexivity).
  rewrite En in K. cbn [ok] in K.
  destruct (update_all (p2_update (A := B64)) s0 (map Bz xs)) as [s| |] eqn:Es; try discriminate K. cbn [ok] in K.
  match type of K with context [update_all p2_update_c ?a ?b] => destruct (update_all p2_update_c a b) as [t| |] eqn:Et end;
    try discriminate K. cbn [ok] in K.
  apply andb_true_iff in K as [Kh K]. apply andb_true_iff in Kh as [Hs Ht]. apply Nat.eqb_eq in Hs, Ht.
  destruct (p_heights s) as [|a0 [|a1 [|u [|a3 [|a4 [|]]]]]] eqn:Hhs; try discriminate K.
  destruct (p_heights t) as [|b0 [|b1 [|v [|b3 [|b4 [|]]]]]] eqn:Hht; try discriminate K.
  apply andb_true_iff in K as [K L]. apply andb_true_iff in K as [Ku Fv].
  change (num B64) with double in u, v.
  exists q, s0, xs, s, t, u, v. split; [exact En|]. split; [repeat constructor; lia|]. split; [reflexivity|].
  split; [exact Es|]. split; [exact Et|].
  split; [unfold p2_evaluate; rewrite Hs, Hhs; reflexivity|]. split; [unfold p2_evaluate; rewrite Ht, Hht; reflexivity|].
  destruct (Bz_exact 12) as [E3 F3]; [lia|]. destruct (Bz_exact 11) as [El Fl]; [lia|].
  assert (Nu : nan u = false) by (destruct u; try reflexivity; discriminate Ku).
  apply X_eqb in Ku; auto using fin_nan. rewrite (X_fin _ F3), E3 in Ku.
  assert (Fu : finite64 u = true).
  { apply fin_X; auto. rewrite Ku, Rabs_pos_eq by lra. apply Rlt_trans with (bpow radix2 4); [simpl; lra|apply bpow_lt; lia]. }
  rewrite (X_fin _ Fu) in Ku.
  apply X_ltb in L; auto using fin_nan. rewrite !X_fin, El in L by auto.
  split; [exact Fu|]. split; [exact Fv|]. lra.
Qed.
