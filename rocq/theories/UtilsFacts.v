(** Proofs about the tolerance comparisons, xlogx and bins. *)

From Coq Require Import ZArith Reals Lra Lia Bool.
From Flocq Require Import Core.Core IEEE754.BinarySingleNaN.
From Verif Require Import Outcome Arith Utils IBin FloatFacts.
Open Scope R_scope.

(** ** Real arithmetic *)

Lemma Rltb_true x y : Rltb x y = true <-> x < y.
Proof. unfold Rltb. destruct (Rlt_dec x y); split; intros; auto; try discriminate; lra. Qed.
Lemma Rltb_false x y : Rltb x y = false <-> y <= x.
Proof. unfold Rltb. destruct (Rlt_dec x y); split; intros; auto; try discriminate; lra. Qed.
Lemma Rleb_true x y : Rleb x y = true <-> x <= y.
Proof. unfold Rleb. destruct (Rle_dec x y); split; intros; auto; try discriminate; lra. Qed.
Lemma Rleb_false x y : Rleb x y = false <-> y < x.
Proof. unfold Rleb. destruct (Rle_dec x y); split; intros; auto; try discriminate; lra. Qed.
Lemma Reqb_true x y : Reqb x y = true <-> x = y.
Proof. unfold Reqb. destruct (Req_EM_T x y); split; intros; auto; try discriminate; lra. Qed.

Lemma RA_max a b : (if Rltb (Rabs a) (Rabs b) then Rabs b else Rabs a) = Rmax (Rabs a) (Rabs b).
Proof.
  destruct (Rltb (Rabs a) (Rabs b)) eqn:E.
  - apply Rltb_true in E. rewrite Rmax_right; lra.
  - apply Rltb_false in E. rewrite Rmax_left; lra.
Qed.

Lemma RA_min a b : (if Rltb (Rabs b) (Rabs a) then Rabs b else Rabs a) = Rmin (Rabs a) (Rabs b).
Proof.
  destruct (Rltb (Rabs b) (Rabs a)) eqn:E.
  - apply Rltb_true in E. rewrite Rmin_right; lra.
  - apply Rltb_false in E. rewrite Rmin_left; lra.
Qed.

Lemma RA_approx a b e :
  approximatelyEqual (A := RA) a b e = true <-> Rabs (a - b) <= Rmax (Rabs a) (Rabs b) * e.
Proof. unfold approximatelyEqual. cbn. rewrite RA_max. apply Rleb_true. Qed.

Lemma RA_essential a b e :
  essentiallyEqual (A := RA) a b e = true <-> Rabs (a - b) <= Rmin (Rabs a) (Rabs b) * e.
Proof. unfold essentiallyEqual. cbn. rewrite RA_min. apply Rleb_true. Qed.

Lemma RA_less a b e :
  definitelyLessThan (A := RA) a b e = true <-> Rmax (Rabs a) (Rabs b) * e < b - a.
Proof. unfold definitelyLessThan. cbn. rewrite RA_max. apply Rltb_true. Qed.

Lemma RA_greater a b e :
  definitelyGreaterThan (A := RA) a b e = true <-> Rmax (Rabs a) (Rabs b) * e < a - b.
Proof. unfold definitelyGreaterThan. cbn. rewrite RA_max. apply Rltb_true. Qed.

Lemma RA_exact a b e :
  (approximatelyEqual (A := RA) a b e = true <-> Rabs (a - b) <= Rmax (Rabs a) (Rabs b) * e) /\
  (essentiallyEqual (A := RA) a b e = true <-> Rabs (a - b) <= Rmin (Rabs a) (Rabs b) * e) /\
  (definitelyLessThan (A := RA) a b e = true <-> Rmax (Rabs a) (Rabs b) * e < b - a) /\
  (definitelyGreaterThan (A := RA) a b e = true <-> Rmax (Rabs a) (Rabs b) * e < a - b).
Proof. auto using RA_approx, RA_essential, RA_less, RA_greater. Qed.

Lemma RA_less_mono a a' b b' e : 0 <= e < 1 -> a' <= a -> b <= b' ->
  definitelyLessThan (A := RA) a b e = true -> definitelyLessThan (A := RA) a' b' e = true.
Proof.
  rewrite !RA_less. intros He Ha Hb H.
  assert (K : Rmax (Rabs a') (Rabs b') <= Rmax (Rabs a) (Rabs b) + (a - a') + (b' - b)).
  { pose proof (Rmax_l (Rabs a) (Rabs b)). pose proof (Rmax_r (Rabs a) (Rabs b)).
    apply Rmax_lub; unfold Rabs in *; repeat destruct (Rcase_abs _); lra. }
  nra.
Qed.

Lemma RA_less_lt a b e : 0 <= e -> definitelyLessThan (A := RA) a b e = true -> a < b.
Proof.
  rewrite RA_less. intros He H. pose proof (Rmax_l (Rabs a) (Rabs b)). pose proof (Rabs_pos a). nra.
Qed.

Lemma RA_less_trans a b c e : 0 <= e < 1 ->
  definitelyLessThan (A := RA) a b e = true -> definitelyLessThan (A := RA) b c e = true ->
  definitelyLessThan (A := RA) a c e = true.
Proof.
  intros He H1 H2. apply RA_less_lt in H2; [|lra]. eapply RA_less_mono; [auto| | |exact H1]; lra.
Qed.

(** ** binary64 *)

Section Fin.
  Variables a b e : double.
  Hypothesis Fa : finite64 a = true.
  Hypothesis Fb : finite64 b = true.
  Hypothesis Fe : finite64 e = true.
  Hypothesis He : 0 <= B2R e.

  Lemma B_abs_pick (u v : double) : finite64 u = true -> finite64 v = true ->
    let m := if Bltb (Babs u) (Babs v) then Babs v else Babs u in
    finite64 m = true /\ B2R m = Rmax (Rabs (B2R u)) (Rabs (B2R v)).
  Proof.
    intros Fu Fv m. assert (Fm : finite64 m = true).
    { unfold m. destruct (Bltb _ _); rewrite fin_abs; auto. }
    split; [exact Fm|]. rewrite <- (X_fin _ Fm). unfold m.
    destruct (Bltb (Babs u) (Babs v)) eqn:E.
    - apply X_ltb in E; rewrite ?nan_abs; auto using fin_nan. rewrite !X_abs, !X_fin in * by auto.
      rewrite Rmax_right; lra.
    - apply X_ltb_false in E; rewrite ?nan_abs; auto using fin_nan. rewrite !X_abs, !X_fin in * by auto.
      rewrite Rmax_left; lra.
  Qed.

  Lemma B_abs_pick_min :
    let m := if Bltb (Babs b) (Babs a) then Babs b else Babs a in
    finite64 m = true /\ B2R m = Rmin (Rabs (B2R a)) (Rabs (B2R b)).
  Proof.
    intros m. assert (Fm : finite64 m = true).
    { unfold m. destruct (Bltb _ _); rewrite fin_abs; auto. }
    split; [exact Fm|]. rewrite <- (X_fin _ Fm). unfold m.
    destruct (Bltb (Babs b) (Babs a)) eqn:E.
    - apply X_ltb in E; rewrite ?nan_abs; auto using fin_nan. rewrite !X_abs, !X_fin in * by auto.
      rewrite Rmin_right; lra.
    - apply X_ltb_false in E; rewrite ?nan_abs; auto using fin_nan. rewrite !X_abs, !X_fin in * by auto.
      rewrite Rmin_left; lra.
  Qed.

  Definition tol : R := R64 (Rmax (Rabs (B2R a)) (Rabs (B2R b)) * B2R e).
  Definition tol_min : R := R64 (Rmin (Rabs (B2R a)) (Rabs (B2R b)) * B2R e).

  Lemma tol_pos : 0 <= tol.
  Proof.
    apply R64_pos. pose proof (Rmax_l (Rabs (B2R a)) (Rabs (B2R b))). pose proof (Rabs_pos (B2R a)). nra.
  Qed.

  Lemma B_approx : approximatelyEqual (A := B64) a b e = true <-> Rabs (R64 (B2R a - B2R b)) <= tol.
  Proof.
    unfold approximatelyEqual. cbn. unfold double. destruct (B_abs_pick a b Fa Fb) as [Fm Em].
    destruct (X_sub a b Fa Fb) as [Xs Ns]. destruct (X_mul _ e Fm Fe) as [Xm Nm].
    rewrite X_leb by (rewrite ?nan_abs; auto). rewrite X_abs, Xs, Xm, Em. tauto.
  Qed.

  Lemma B_essential : essentiallyEqual (A := B64) a b e = true <-> Rabs (R64 (B2R a - B2R b)) <= tol_min.
  Proof.
    unfold essentiallyEqual. cbn. unfold double. destruct B_abs_pick_min as [Fm Em].
    destruct (X_sub a b Fa Fb) as [Xs Ns]. destruct (X_mul _ e Fm Fe) as [Xm Nm].
    rewrite X_leb by (rewrite ?nan_abs; auto). rewrite X_abs, Xs, Xm, Em. tauto.
  Qed.

  Lemma B_greater : definitelyGreaterThan (A := B64) a b e = true <-> tol < R64 (B2R a - B2R b).
  Proof.
    unfold definitelyGreaterThan. cbn. unfold double. destruct (B_abs_pick a b Fa Fb) as [Fm Em].
    destruct (X_sub a b Fa Fb) as [Xs Ns]. destruct (X_mul _ e Fm Fe) as [Xm Nm].
    rewrite X_ltb by auto. rewrite Xs, Xm, Em. tauto.
  Qed.

  Lemma B_less : definitelyLessThan (A := B64) a b e = true <-> tol < R64 (B2R b - B2R a).
  Proof.
    unfold definitelyLessThan. cbn. unfold double. destruct (B_abs_pick a b Fa Fb) as [Fm Em].
    destruct (X_sub b a Fb Fa) as [Xs Ns]. destruct (X_mul _ e Fm Fe) as [Xm Nm].
    rewrite X_ltb by auto. rewrite Xs, Xm, Em. tauto.
  Qed.

  Lemma R64_swap : R64 (B2R b - B2R a) = - R64 (B2R a - B2R b).
  Proof. rewrite <- R64_opp. f_equal. lra. Qed.

  Lemma B_trichotomy :
    let l := definitelyLessThan (A := B64) a b e in
    let g := definitelyGreaterThan (A := B64) a b e in
    let q := approximatelyEqual (A := B64) a b e in
    (l = true /\ g = false /\ q = false) \/ (l = false /\ g = true /\ q = false) \/
    (l = false /\ g = false /\ q = true).
  Proof.
    cbv zeta. pose proof B_less as L. pose proof B_greater as G. pose proof B_approx as Q.
    rewrite R64_swap in L. pose proof tol_pos.
    set (d := R64 (B2R a - B2R b)) in * .
    destruct (definitelyLessThan a b e), (definitelyGreaterThan a b e), (approximatelyEqual a b e);
      auto; exfalso;
      repeat match goal with
             | H : true = true <-> _ |- _ => destruct H as [H _]; specialize (H eq_refl)
             | H : false = true <-> ?P |- _ =>
                 let K := fresh in assert (K : ~ P) by (intros K; apply H in K; discriminate); clear H
             end;
      unfold Rabs in *; destruct (Rcase_abs d); lra.
  Qed.

  Lemma B_less_lt : definitelyLessThan (A := B64) a b e = true -> B2R a < B2R b.
  Proof.
    rewrite B_less. intros H. pose proof tol_pos.
    assert (R64 0 < R64 (B2R b - B2R a)) by (rewrite R64_0; lra).
    apply R64_lt_inv in H1. lra.
  Qed.

  Lemma B_ess_approx : essentiallyEqual (A := B64) a b e = true -> approximatelyEqual (A := B64) a b e = true.
  Proof.
    rewrite B_essential, B_approx. intros H. eapply Rle_trans; [exact H|].
    apply R64_le. apply Rmult_le_compat_r; auto.
    eapply Rle_trans; [apply Rmin_l|apply Rmax_l].
  Qed.
End Fin.

Lemma B_refl a e : finite64 a = true -> finite64 e = true -> 0 <= B2R e ->
  approximatelyEqual (A := B64) a a e = true /\ essentiallyEqual (A := B64) a a e = true /\
  definitelyLessThan (A := B64) a a e = false.
Proof.
  intros Fa Fe He. rewrite B_approx, B_essential by auto.
  replace (B2R a - B2R a) with 0 by lra. rewrite R64_0, Rabs_R0.
  split; [apply tol_pos; auto|]. split.
  - unfold tol_min. apply R64_pos. rewrite Rmin_left by lra. pose proof (Rabs_pos (B2R a)). nra.
  - destruct (definitelyLessThan a a e) eqn:E; auto. apply B_less_lt in E; auto. lra.
Qed.

(** Symmetry holds for all doubles, including infinities and NaN. *)
Lemma sub_abs_sym (a b : double) : Babs (Bsub a b) = Babs (Bsub b a).
Proof.
  destruct (finite64 a) eqn:Fa, (finite64 b) eqn:Fb.
  - destruct (X_sub a b Fa Fb) as [X1 N1], (X_sub b a Fb Fa) as [X2 N2].
    apply Babs_inj; auto. rewrite X1, X2. rewrite (R64_swap a b). now rewrite Rabs_Ropp.
  - destruct a as [|[]| |[]], b as [|[]| |]; try discriminate; reflexivity.
  - destruct a as [|[]| |], b as [|[]| |[]]; try discriminate; reflexivity.
  - destruct a as [|[]| |], b as [|[]| |]; try discriminate; reflexivity.
Qed.

Lemma pick_sym (a b : double) : nan a = false -> nan b = false ->
  (if Bltb (Babs a) (Babs b) then Babs b else Babs a) =
  (if Bltb (Babs b) (Babs a) then Babs a else Babs b).
Proof.
  intros Na Nb.
  destruct (Bltb (Babs a) (Babs b)) eqn:E1, (Bltb (Babs b) (Babs a)) eqn:E2; auto.
  - apply X_ltb in E1, E2; rewrite ?nan_abs; auto. lra.
  - apply X_ltb_false in E1, E2; rewrite ?nan_abs; auto. rewrite !X_abs in * .
    apply Babs_inj; auto. lra.
Qed.

Lemma nan_sub_l (a b : double) : nan a = true -> Bsub a b = B754_nan.
Proof. destruct a; try discriminate. destruct b; reflexivity. Qed.
Lemma nan_sub_r (a b : double) : nan b = true -> Bsub a b = B754_nan.
Proof. destruct b; try discriminate. destruct a; reflexivity. Qed.

Lemma B_approx_sym a b e : approximatelyEqual (A := B64) a b e = approximatelyEqual (A := B64) b a e.
Proof.
  unfold approximatelyEqual. cbn. unfold double. rewrite (sub_abs_sym b a).
  destruct (nan a) eqn:Na; [|destruct (nan b) eqn:Nb].
  - rewrite (nan_sub_l a b Na). reflexivity.
  - rewrite (nan_sub_r a b Nb). reflexivity.
  - rewrite (pick_sym a b) by auto. reflexivity.
Qed.

Lemma B_essential_sym a b e : essentiallyEqual (A := B64) a b e = essentiallyEqual (A := B64) b a e.
Proof.
  unfold essentiallyEqual. cbn. unfold double. rewrite (sub_abs_sym b a).
  destruct (nan a) eqn:Na; [|destruct (nan b) eqn:Nb].
  - rewrite (nan_sub_l a b Na). reflexivity.
  - rewrite (nan_sub_r a b Nb). reflexivity.
  - assert (P : (if Bltb (Babs b) (Babs a) then Babs b else Babs a) =
                (if Bltb (Babs a) (Babs b) then Babs a else Babs b)).
    { destruct (Bltb (Babs a) (Babs b)) eqn:E1, (Bltb (Babs b) (Babs a)) eqn:E2; auto.
      - apply X_ltb in E1, E2; rewrite ?nan_abs; auto. lra.
      - apply X_ltb_false in E1, E2; rewrite ?nan_abs; auto. rewrite !X_abs in * .
        apply Babs_inj; auto. lra. }
    rewrite P. reflexivity.
Qed.

Lemma B_greater_less a b e : definitelyGreaterThan (A := B64) a b e = definitelyLessThan (A := B64) b a e.
Proof.
  unfold definitelyGreaterThan, definitelyLessThan. cbn. unfold double.
  destruct (nan a) eqn:Na; [|destruct (nan b) eqn:Nb].
  - rewrite (nan_sub_l a b Na). rewrite !nan_ltb_r; auto.
  - rewrite (nan_sub_r a b Nb). rewrite !nan_ltb_r; auto.
  - rewrite (pick_sym a b) by auto. reflexivity.
Qed.

Lemma B_asym a b e : finite64 a = true -> finite64 b = true -> finite64 e = true -> 0 <= B2R e ->
  definitelyLessThan (A := B64) a b e = true -> definitelyLessThan (A := B64) b a e = false.
Proof.
  intros Fa Fb Fe He H. destruct (definitelyLessThan b a e) eqn:E; auto.
  apply B_less_lt in H, E; auto. lra.
Qed.

(** The default tolerances. *)
Lemma default_eps_ok : finite64 (default_eps (A := B64)) = true /\ 0 <= B2R (default_eps (A := B64)).
Proof.
  assert (F : finite64 (default_eps (A := B64)) = true) by (vm_compute; reflexivity).
  split; [exact F|]. apply Bsign_pos; [exact F|]. vm_compute. reflexivity.
Qed.

Lemma bin_eps_ok : finite64 (bin_eps (A := B64)) = true /\ 0 <= B2R (bin_eps (A := B64)).
Proof.
  assert (F : finite64 (bin_eps (A := B64)) = true) by (vm_compute; reflexivity).
  split; [exact F|]. apply Bsign_pos; [exact F|]. vm_compute. reflexivity.
Qed.

(** ** xlogx *)

Ltac fin := repeat split; intros;
  repeat match goal with
         | H : _ \/ _ |- _ => destruct H
         | H : _ /\ _ |- _ => destruct H
         end; try discriminate; try reflexivity; auto; try (exfalso; auto; lra).

Lemma xlogx_B64 (log2 : double -> double) (x : double) :
  (xlogx (A := B64) log2 x = Throw RuntimeError <-> nan x = false /\ X x < 0) /\
  (nan x = false -> X x = 0 -> xlogx (A := B64) log2 x = Ret (B754_zero false)) /\
  (nan x = true \/ 0 < X x -> xlogx (A := B64) log2 x = Ret (Bmul x (log2 x))) /\
  (nan x = true -> Bmul x (log2 x) = B754_nan).
Proof.
  unfold xlogx. cbn. change (Bz 0) with (B754_zero false : double). unfold double.
  destruct (nan x) eqn:Nx.
  - rewrite nan_ltb_l by auto. rewrite nan_eqb_r by auto. repeat split; auto; try discriminate.
    + intros [? _]; discriminate.
    + intros _. destruct x; try discriminate. reflexivity.
  - pose proof (X_ltb x (B754_zero false) Nx eq_refl) as L.
    pose proof (X_eqb (B754_zero false) x eq_refl Nx) as E.
    rewrite X_sign_pos_zero in L, E.
    destruct (Bltb x (B754_zero false)) eqn:L1; [|destruct (Beqb (B754_zero false) x) eqn:E1].
    + assert (X x < 0) by (apply L; auto). fin.
    + assert (0 = X x) by (apply E; auto). fin.
    + assert (~ X x < 0) by (intros K; apply L in K; discriminate).
      assert (~ 0 = X x) by (intros K; apply E in K; discriminate). fin.
Qed.

(** ** Bins *)


Lemma bin_add_count (A : arith) (x y : bin A) : b_count (bin_add x y) = (b_count x + b_count y)%nat.
Proof. reflexivity. Qed.

Lemma bin_add_edges (x y : bin B64) : fin_bin x -> fin_bin y ->
  let r := bin_add x y in
  (b_left r = b_left x \/ b_left r = b_left y) /\
  (b_right r = b_right x \/ b_right r = b_right y) /\
  (definitelyLessThan (A := B64) (b_left x) (b_left y) bin_eps = true \/
   definitelyLessThan (A := B64) (b_left y) (b_left x) bin_eps = true ->
     B2R (b_left r) = Rmin (B2R (b_left x)) (B2R (b_left y))) /\
  (definitelyLessThan (A := B64) (b_right x) (b_right y) bin_eps = true \/
   definitelyLessThan (A := B64) (b_right y) (b_right x) bin_eps = true ->
     B2R (b_right r) = Rmax (B2R (b_right x)) (B2R (b_right y))) /\
  (approximatelyEqual (A := B64) (b_left x) (b_left y) bin_eps = true -> b_left r = b_left x) /\
  (approximatelyEqual (A := B64) (b_right x) (b_right y) bin_eps = true -> b_right r = b_right x).
Proof.
  intros [Fl1 Fr1] [Fl2 Fr2]. cbv zeta. destruct bin_eps_ok as [Fe He].
  unfold bin_add. cbn [b_left b_right].
  pose proof (B_trichotomy (b_left y) (b_left x) _ Fl2 Fl1 Fe He) as TL.
  pose proof (B_trichotomy (b_right y) (b_right x) _ Fr2 Fr1 Fe He) as TR.
  cbv zeta in TL, TR.
  rewrite (B_approx_sym (b_left x) (b_left y)), (B_approx_sym (b_right x) (b_right y)).
  rewrite (B_greater_less (b_left y)) in TL. rewrite (B_greater_less (b_right y)) in TR.
  rewrite (B_greater_less (b_right y)).
  split; [destruct (definitelyLessThan (b_left y) (b_left x) bin_eps); auto|].
  split; [destruct (definitelyLessThan (b_right x) (b_right y) bin_eps); auto|].
  split; [|split; [|split]].
  - intros H. destruct (definitelyLessThan (b_left y) (b_left x) bin_eps) eqn:E.
    + apply B_less_lt in E; auto. rewrite Rmin_right; lra.
    + destruct H as [H|H]; [|discriminate]. apply B_less_lt in H; auto. rewrite Rmin_left; lra.
  - intros H. destruct (definitelyLessThan (b_right x) (b_right y) bin_eps) eqn:E.
    + apply B_less_lt in E; auto. rewrite Rmax_right; lra.
    + destruct H as [H|H]; [discriminate|]. apply B_less_lt in H; auto. rewrite Rmax_left; lra.
  - intros H. destruct TL as [(T1 & T2 & T3)|[(T1 & T2 & T3)|(T1 & T2 & T3)]]; try congruence.
    rewrite T1. auto.
  - intros H. destruct TR as [(T1 & T2 & T3)|[(T1 & T2 & T3)|(T1 & T2 & T3)]]; try congruence.
    rewrite T2. auto.
Qed.

(** In exact arithmetic the hull is cut by at most a millionth of the larger edge. *)
Lemma bin_add_hull_RA (x y : bin RA) :
  let r := bin_add x y in
  Rmin (b_left x) (b_left y) <= b_left r <=
    Rmin (b_left x) (b_left y) + Rmax (Rabs (b_left x)) (Rabs (b_left y)) * (1 / 1000000) /\
  Rmax (b_right x) (b_right y) - Rmax (Rabs (b_right x)) (Rabs (b_right y)) * (1 / 1000000)
    <= b_right r <= Rmax (b_right x) (b_right y).
Proof.
  cbv zeta. unfold bin_add. cbn [b_left b_right].
  pose proof (RA_less (b_left y) (b_left x) bin_eps) as L.
  pose proof (RA_greater (b_right y) (b_right x) bin_eps) as G.
  change (@bin_eps RA) with (1 / 1000000) in L, G. change (@bin_eps RA) with (1 / 1000000).
  rewrite (Rmax_comm (Rabs (b_left y))) in L. rewrite (Rmax_comm (Rabs (b_right y))) in G.
  pose proof (Rmax_l (Rabs (b_left x)) (Rabs (b_left y))).
  pose proof (Rmax_l (Rabs (b_right x)) (Rabs (b_right y))).
  pose proof (Rabs_pos (b_left x)). pose proof (Rabs_pos (b_right x)).
  change (num RA) with R in * .
  set (ML := Rmax (Rabs (b_left x)) (Rabs (b_left y))) in * .
  set (MR := Rmax (Rabs (b_right x)) (Rabs (b_right y))) in * .
  split.
  - destruct (definitelyLessThan (b_left y) (b_left x) (1 / 1000000)).
    + assert (ML * (1 / 1000000) < b_left x - b_left y) by (apply L; auto).
      rewrite Rmin_right by lra. lra.
    + assert (~ ML * (1 / 1000000) < b_left x - b_left y) by (intros K; apply L in K; discriminate).
      unfold Rmin. destruct (Rle_dec (b_left x) (b_left y)); lra.
  - destruct (definitelyGreaterThan (b_right y) (b_right x) (1 / 1000000)).
    + assert (MR * (1 / 1000000) < b_right y - b_right x) by (apply G; auto).
      rewrite Rmax_right by lra. lra.
    + assert (~ MR * (1 / 1000000) < b_right y - b_right x) by (intros K; apply G in K; discriminate).
      unfold Rmax. destruct (Rle_dec (b_right x) (b_right y)); lra.
Qed.

Lemma bin_eq_RA (x y : bin RA) :
  bin_eq x y = true <->
  Rabs (b_left x - b_left y) <= Rmin (Rabs (b_left x)) (Rabs (b_left y)) * (1 / 10000) /\
  Rabs (b_right x - b_right y) <= Rmin (Rabs (b_right x)) (Rabs (b_right y)) * (1 / 10000).
Proof.
  unfold bin_eq. rewrite andb_true_iff, !RA_essential.
  change (@default_eps RA) with (1 / 10000). tauto.
Qed.

Lemma bin_lt_RA (x y : bin RA) :
  bin_lt x y = true <->
  Rmax (Rabs (b_left x)) (Rabs (b_left y)) * (1 / 10000) < b_left y - b_left x.
Proof. unfold bin_lt. rewrite RA_less. change (@default_eps RA) with (1 / 10000). tauto. Qed.

Lemma bin_eq_B64 (x y : bin B64) : fin_bin x ->
  bin_eq x x = true /\ bin_eq x y = bin_eq y x.
Proof.
  intros [Fl Fr]. destruct default_eps_ok as [Fe He]. unfold bin_eq. split.
  - rewrite andb_true_iff. split; apply B_refl; auto.
  - now rewrite (B_essential_sym (b_left x)), (B_essential_sym (b_right x)).
Qed.

Lemma bin_lt_B64 (x y : bin B64) : fin_bin x -> fin_bin y ->
  bin_lt x x = false /\
  (bin_lt x y = true -> B2R (b_left x) < B2R (b_left y) /\ bin_lt y x = false /\ bin_eq x y = false).
Proof.
  intros [Fl Fr] [Fl' Fr']. destruct default_eps_ok as [Fe He]. unfold bin_lt, bin_eq. split.
  - apply B_refl; auto.
  - intros H. split; [eapply B_less_lt; eauto|]. split; [eapply B_asym; eauto|].
    rewrite andb_false_iff. left. destruct (essentiallyEqual (b_left x) (b_left y) default_eps) eqn:E; auto.
    apply B_ess_approx in E; auto.
    destruct (B_trichotomy (b_left x) (b_left y) _ Fl Fl' Fe He) as [(T1&T2&T3)|[(T1&T2&T3)|(T1&T2&T3)]]; congruence.
Qed.

Lemma bin_counts_ignored (A : arith) (l r l' r' : A) c1 c2 c1' c2' :
  bin_eq (Bin l r c1) (Bin l' r' c2) = bin_eq (Bin l r c1') (Bin l' r' c2') /\
  bin_lt (Bin l r c1) (Bin l' r' c2) = bin_lt (Bin l r c1') (Bin l' r' c2').
Proof. split; reflexivity. Qed.

Lemma not_strict_weak :
  exists a b c : double,
    finite64 a = true /\ finite64 b = true /\ finite64 c = true /\
    definitelyLessThan (A := B64) a b default_eps = false /\
    definitelyLessThan (A := B64) b a default_eps = false /\
    definitelyLessThan (A := B64) b c default_eps = false /\
    definitelyLessThan (A := B64) c b default_eps = false /\
    definitelyLessThan (A := B64) a c default_eps = true.
Proof.
  exists (Bz 1), (lit (A := B64) 100009 100000), (lit (A := B64) 100018 100000).
  repeat split; vm_compute; reflexivity.
Qed.

Lemma infinite_undecided :
  exists a b : double,
    definitelyLessThan (A := B64) a b default_eps = false /\
    definitelyGreaterThan (A := B64) a b default_eps = false /\
    approximatelyEqual (A := B64) a b default_eps = false /\
    a = b /\ a = B754_infinity false.
Proof.
  exists (B754_infinity false), (B754_infinity false). repeat split; vm_compute; reflexivity.
Qed.
