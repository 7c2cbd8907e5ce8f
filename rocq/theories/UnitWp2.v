(** WindowedP2Quantile and StreamingIQR in a unit that is a power of two times
    larger or smaller, in doubles, for positive observations. *)

From Coq Require Import List Reals ZArith Lra Lia Bool Arith.
From Flocq Require Import Core.Core IEEE754.BinarySingleNaN.
From Verif Require Import Outcome Arith Spec P2 P2Spec ListFacts P2Facts P2Float FloatSpec FloatFacts AskSpec UnitSpec UnitNum UnitP2.
From Verif Require P2Affine.
Import ListNotations.
Open Scope R_scope.

Section UnitWp2.
  Variables (k : Z).
  Local Notation f := (ldexp64 k).
  Local Notation D := (measured k 500).
  Local Notation P := (measured_pos k 500).

  (** What p2_evaluate returns. *)
  Lemma eval_D (s s' : p2 B64) (v : double) : uinv k s -> p2_evaluate s = Ret (s', v) -> D v.
  Proof.
    intros (h0 & h1 & h2 & h3 & h4 & n0 & n1 & n2 & n3 & n4 & (Eh & _) & FD & _ & _) E. unfold p2_evaluate in E.
    assert (FD' : Forall D (p_heights s)) by (rewrite Eh; exact FD). clear FD Eh.
    assert (AT : forall (l : list double) i w, Forall D l -> at_ l i = Ret w -> D w).
    { intros l i w F A. unfold at_ in A. destruct (nth_error l i) as [y|] eqn:K; [|discriminate]. injection A as <-.
      rewrite Forall_forall in F. apply F. now apply nth_error_In in K. }
    destruct (Nat.leb (p_history s) 5).
    - destruct (std_sort_scale k (p_heights s) FD') as [_ E2]. cbn [B64 num] in E, E2. rewrite E2 in E. cbn [bind] in E.
      destruct (round_int _) as [z|]; [|discriminate]. destruct (_ && _)%bool; [|discriminate].
      apply bind_Ret in E as (w & Ew & E). injection E as _ <-.
      destruct (Z.ltb z 0); [discriminate|]. apply (AT _ _ _) in Ew; auto.
      apply (Permutation.Permutation_Forall (Permutation.Permutation_sym (sort_list_perm (A := B64) (p_heights s)))). exact FD'.
    - apply bind_Ret in E as (w & Ew & E). injection E as _ <-. eapply AT; eauto.
  Qed.

  (** The estimator after evaluate and clear. *)
  Lemma clear_uinv (s s' : p2 B64) (v : double) : uinv k s -> p2_evaluate s = Ret (s', v) -> uinv k (p2_clear s').
  Proof.
    intros (h0 & h1 & h2 & h3 & h4 & n0 & n1 & n2 & n3 & n4 & (Eh & En & Hn & Hd) & FD & _ & _) E. unfold p2_evaluate in E.
    assert (FD' : Forall D (p_heights s)) by (rewrite Eh; exact FD).
    assert (G : forall l : list double, Forall D l -> length l = 5%nat ->
      uinv k (p2_clear (P2 (A := B64) (p_quantile s) (p_desired s) (p_pos s) l (p_history s)))).
    { intros m Fm L. destruct (list5 m L) as (a & b & c & d & g & ->).
      exists a, b, c, d, g, n0, n1, n2, n3, n4. unfold p2_clear. cbn [p_quantile p_desired p_pos p_heights p_history firstn].
      split; [|split; [exact Fm|split; [constructor|lia]]].
      split; [reflexivity|]. split; [exact En|]. split; [exact Hn|exact Hd]. }
    destruct (Nat.leb (p_history s) 5).
    - destruct (std_sort_scale k (p_heights s) FD') as [_ E2]. cbn [B64 num] in E, E2. rewrite E2 in E. cbn [bind] in E.
      destruct (round_int _) as [z|]; [|discriminate]. destruct (_ && _)%bool; [|discriminate].
      apply bind_Ret in E as (w & Ew & E). injection E as <- _. apply G.
      + apply (Permutation.Permutation_Forall (Permutation.Permutation_sym (sort_list_perm (A := B64) (p_heights s)))). exact FD'.
      + etransitivity; [apply (sort_list_length (A := B64))|]. rewrite Eh. reflexivity.
    - apply bind_Ret in E as (w & Ew & E). injection E as <- _.
      pose proof (G (p_heights s) FD' ltac:(rewrite Eh; reflexivity)) as H. destruct s. exact H.
  Qed.

  Lemma clear_scale (s : p2 B64) : p2_clear (mS k s) = mS k (p2_clear s).
  Proof. reflexivity. Qed.

  Definition wS (s : wp2 B64) : wp2 B64 := WP2 (A := B64) (mS k (w_p2 s)) (f (w_previous s)) (w_wsize s) (w_history s).
  Definition winv (s : wp2 B64) : Prop := uinv k (w_p2 s) /\ D (w_previous s).

  Lemma wupdate_scale (s : wp2 B64) (x : double) : winv s -> P x ->
    wp2_update (wS s) (f x) = omap wS (wp2_update s x) /\ (forall s', wp2_update s x = Ret s' -> winv s' /\ w_wsize s' = w_wsize s).
  Proof.
    intros [U Dp] Px. destruct (update_scale k (w_p2 s) x U Px) as [E1 E2].
    unfold wp2_update. cbn [wS w_p2 w_previous w_wsize w_history].
    destruct (Nat.ltb 0 (w_wsize s) && Nat.eqb (S (w_history s) mod (w_wsize s + 1)) 0)%bool.
    - split.
      + etransitivity; [eapply (f_equal (fun o => bind o _) E1)|]. rewrite P2Affine.bind_omap, P2Affine.omap_bind.
        apply P2Affine.bind_ext. intros p Ep. rewrite (eval_scale k p) by auto. rewrite P2Affine.bind_omap, P2Affine.omap_bind.
        apply P2Affine.bind_ext. intros [p' v] _. reflexivity.
      + intros s' E. apply bind_Ret in E as (p & Ep & E). apply bind_Ret in E as ([p' v] & Ev & E). injection E as <-.
        split; [|reflexivity]. split; cbn [w_p2 w_previous].
        * exact (clear_uinv p p' v (E2 p Ep) Ev).
        * exact (eval_D p p' v (E2 p Ep) Ev).
    - split.
      + etransitivity; [eapply (f_equal (fun o => bind o _) E1)|]. rewrite P2Affine.bind_omap, P2Affine.omap_bind.
        apply P2Affine.bind_ext. intros p Ep. reflexivity.
      + intros s' E. apply bind_Ret in E as (p & Ep & E). injection E as <-. split; [|reflexivity].
        split; cbn [w_p2 w_previous]; auto.
  Qed.

  (** Multiplication by the zero weight of the previous window. *)
  Lemma mul_zero_scale (c y : double) : finite64 c = true -> B2R c = 0 -> D y ->
    Bmul c (f y) = f (Bmul c y) /\ D (Bmul c y).
  Proof.
    intros Fc Ec Dy. destruct (ldexp_val k 500 y ltac:(lia) Dy) as (Ey & Fy & Sy).
    assert (Z : forall z : double, finite64 z = true -> B2R (Bmul c z) = 0 /\ finite64 (Bmul c z) = true /\ Bsign (Bmul c z) = xorb (Bsign c) (Bsign z)).
    { intros z Fz. destruct (mul_ok c z Fc Fz) as (E & F & S).
      - rewrite Ec, Rmult_0_l, rnd_0, Rabs_R0. apply big_pos.
      - split; [rewrite E, Ec, Rmult_0_l; apply rnd_0|]. split; auto. }
    destruct (Z y (proj1 Dy)) as (A1 & A2 & A3). destruct (Z (f y) Fy) as (B1 & B2 & B3).
    assert (DM : D (Bmul c y)) by (split; [exact A2|left; exact A1]).
    split; auto. apply ldexp_is with (e := 500%Z); auto; [lia| |].
    - rewrite A1, B1. ring.
    - now rewrite A3, B3, Sy.
  Qed.

  (** The weighted mean of two windows, window size up to 2^32. *)
  Lemma weights_scale (w : nat) (p v : double) : (1 <= Z.of_nat w <= 2 ^ 32)%Z -> D p -> D v ->
    let c := Bsub (Bz 1) (Bz (Z.of_nat w)) in
    Badd (Bmul c (f p)) (Bmul (Bz (Z.of_nat w)) (f v)) = f (Badd (Bmul c p) (Bmul (Bz (Z.of_nat w)) v)) /\
    measured k 585 (Badd (Bmul c p) (Bmul (Bz (Z.of_nat w)) v)).
  Proof.
    intros Hw Dp Dv c. destruct (Bz_sub_val 1 (Z.of_nat w)) as [Ec Fc]; [lia|lia|]. fold c in Ec, Fc.
    destruct (mul_scale_l k 500 32 (Bz (Z.of_nat w)) v ltac:(lia) ltac:(lia) ltac:(lia)) as [M2 E2]; [apply steady_int; lia|exact Dv|].
    change (500 + 32)%Z with 532%Z in M2.
    assert (K : Bmul c (f p) = f (Bmul c p) /\ measured k 532 (Bmul c p)).
    { destruct (Z.eq_dec (Z.of_nat w) 1) as [W|W].
      - destruct (mul_zero_scale c p Fc) as [A B]; [rewrite Ec, W; reflexivity|exact Dp|]. split; [exact A|].
        revert B. apply measured_mono. lia.
      - destruct (mul_scale_l k 500 32 c p ltac:(lia) ltac:(lia) ltac:(lia)) as [A B]; [|exact Dp|split; [exact B|exact A]].
        apply (steady_val (1 - Z.of_nat w)); auto. lia. }
    destruct K as [E1 M1]. rewrite E1, E2.
    destruct (add_scale k 532 _ _ ltac:(lia) M1 M2) as [M3 E3]. split; [exact E3|exact M3].
  Qed.

  Definition wvS (sv : wp2 B64 * double) : wp2 B64 * double := let '(s, v) := sv in (wS s, f v).

  Lemma weval_scale (s : wp2 B64) : winv s -> (Z.of_nat (w_wsize s) <= 2 ^ 32)%Z ->
    wp2_evaluate (wS s) = omap wvS (wp2_evaluate s) /\ (forall s' v, wp2_evaluate s = Ret (s', v) -> measured k 585 v).
  Proof.
    intros [U Dp] Hw. unfold wp2_evaluate. cbn [wS w_p2 w_previous w_wsize w_history].
    destruct (Nat.ltb _ _).
    - rewrite (eval_scale k (w_p2 s)) by auto. split.
      + rewrite P2Affine.bind_omap, P2Affine.omap_bind. apply P2Affine.bind_ext. intros [p v] _. reflexivity.
      + intros s' v E. apply bind_Ret in E as ([p u] & Eu & E). injection E as _ <-.
        apply (eval_D _ _ _ U) in Eu. revert Eu. apply measured_mono. lia.
    - destruct (Nat.eqb_spec (w_wsize s) 0) as [Z|N]; [split; [reflexivity|discriminate]|].
      cbv zeta. set (w2 := (w_history s mod w_wsize s + 1)%nat).
      assert (W2 : (1 <= Z.of_nat w2 <= 2 ^ 32)%Z).
      { unfold w2. pose proof (Nat.mod_upper_bound (w_history s) (w_wsize s) N). lia. }
      clearbody w2. rewrite (eval_scale k (w_p2 s)) by auto. split.
      + rewrite P2Affine.bind_omap, P2Affine.omap_bind. apply P2Affine.bind_ext. intros [p v] Ev.
        apply (eval_D _ _ _ U) in Ev. cbn [pS omap bind wvS wS w_p2 w_previous w_wsize w_history].
        destruct (weights_scale w2 (w_previous s) v W2 Dp Ev) as [E _].
        apply (f_equal (fun z => Ret (WP2 (A := B64) (mS k p) (f (w_previous s)) (w_wsize s) (w_history s), z))). exact E.
      + intros s' v E. apply bind_Ret in E as ([p u] & Eu & E). injection E as _ <-.
        apply (eval_D _ _ _ U) in Eu. exact (proj2 (weights_scale w2 (w_previous s) u W2 Dp Eu)).
  Qed.

  Lemma wnew_winv (q : double) (w : nat) (s0 : wp2 B64) : wp2_new (A := B64) q w = Ret s0 -> winv s0 /\ wS s0 = s0 /\ w_wsize s0 = w.
  Proof.
    intros E. unfold wp2_new in E. apply bind_Ret in E as (p & Ep & E). injection E as <-.
    destruct (new_uinv k q p Ep) as (U & M & _). split; [|split; [|reflexivity]].
    - split; cbn [w_p2 w_previous]; auto. split; [reflexivity|left; reflexivity].
    - unfold wS. cbn [w_p2 w_previous w_wsize w_history]. rewrite M. reflexivity.
  Qed.

  (** A run of any object whose update commutes with the change of unit. *)
  Lemma run_commutes {S : Type} (g : S -> S) (up : S -> double -> outcome S) (inv : S -> Prop) :
    (forall s x, inv s -> P x -> up (g s) (f x) = omap g (up s x) /\ (forall s', up s x = Ret s' -> inv s')) ->
    forall s0 xs, inv s0 -> g s0 = s0 -> Forall P xs ->
    update_all up s0 (map f xs) = omap g (update_all up s0 xs) /\ (forall s, update_all up s0 xs = Ret s -> inv s).
  Proof.
    intros H s0 xs I0 G0. induction xs as [|x xs IH] using rev_ind; intros F.
    - split; [cbn [map update_all omap bind]; now rewrite G0|]. intros h E. injection E as <-. exact I0.
    - apply Forall_app in F as (F & Fx). inversion Fx as [|? ? Tx _]; subst. destruct (IH F) as (E & T).
      rewrite map_app. cbn [map]. rewrite !update_all_snoc. split.
      + etransitivity; [eapply (f_equal (fun o => bind o _) E)|]. rewrite P2Affine.bind_omap, P2Affine.omap_bind.
        apply P2Affine.bind_ext. intros h Eh. apply H; auto.
      + intros h Eh. apply bind_Ret in Eh as (h1 & E1 & Eh). exact (proj2 (H h1 x (T h1 E1) Tx) h Eh).
  Qed.

  Lemma wp2_ldexp (q : double) (w : nat) (xs : list double) : (Z.of_nat w <= 2 ^ 32)%Z -> Forall P xs ->
    let answer ys := let* s0 := wp2_new (A := B64) q w in let* s := update_all wp2_update s0 ys in
                     let* (_, v) := wp2_evaluate s in Ret v in
    answer (map f xs) = omap f (answer xs).
  Proof.
    intros Hw F answer. unfold answer. rewrite P2Affine.omap_bind. apply P2Affine.bind_ext. intros s0 E0.
    destruct (wnew_winv q w s0 E0) as (I0 & G0 & W0).
    destruct (run_commutes wS wp2_update (fun s => winv s /\ w_wsize s = w)) with (s0 := s0) (xs := xs) as [E U]; auto.
    { intros s x [I W] Px. destruct (wupdate_scale s x I Px) as [E1 E2]. split; [exact E1|].
      intros s' Es. destruct (E2 s' Es) as [I' W']. split; [exact I'|congruence]. }
    etransitivity; [eapply (f_equal (fun o => bind o _) E)|]. rewrite P2Affine.bind_omap, P2Affine.omap_bind.
    apply P2Affine.bind_ext. intros s Es. destruct (U s Es) as [I W].
    rewrite (proj1 (weval_scale s I ltac:(rewrite W; exact Hw))). rewrite P2Affine.bind_omap, P2Affine.omap_bind.
    apply P2Affine.bind_ext. intros [s' v] _. reflexivity.
  Qed.

  (** ** StreamingIQR *)

  Definition iS (s : iqr B64) : iqr B64 := IQR (A := B64) (wS (i_low s)) (wS (i_high s)) (i_history s).

  Lemma iqr_ldexp (low high : double) (w : nat) (xs : list double) : (Z.of_nat w <= 2 ^ 32)%Z -> Forall P xs ->
    let answer ys := let* s0 := iqr_new_range (A := B64) low high w in let* s := update_all iqr_update s0 ys in
                     let* (_, v) := iqr_evaluate s in Ret v in
    answer (map f xs) = omap f (answer xs).
  Proof.
    intros Hw F answer. unfold answer. rewrite P2Affine.omap_bind. apply P2Affine.bind_ext. intros s0 E0.
    unfold iqr_new_range in E0. apply bind_Ret in E0 as (l0 & El & E0). apply bind_Ret in E0 as (h0 & Eh & E0). injection E0 as <-.
    destruct (wnew_winv low w l0 El) as (Il & Gl & Wl). destruct (wnew_winv high w h0 Eh) as (Ih & Gh & Wh).
    set (inv := fun s : iqr B64 => (winv (i_low s) /\ w_wsize (i_low s) = w) /\ (winv (i_high s) /\ w_wsize (i_high s) = w)).
    destruct (run_commutes iS iqr_update inv) with (s0 := IQR (A := B64) l0 h0 0) (xs := xs) as [E U]; auto.
    { intros s x [[I1 W1] [I2 W2]] Px. destruct (wupdate_scale _ x I1 Px) as [A1 A2]. destruct (wupdate_scale _ x I2 Px) as [B1 B2].
      unfold iqr_update. split.
      - cbn [iS i_low i_high i_history].
        etransitivity; [eapply (f_equal (fun o => bind o _) A1)|]. rewrite P2Affine.bind_omap, P2Affine.omap_bind.
        apply P2Affine.bind_ext. intros l _.
        etransitivity; [eapply (f_equal (fun o => bind o _) B1)|]. rewrite P2Affine.bind_omap, P2Affine.omap_bind.
        apply P2Affine.bind_ext. intros h _. reflexivity.
      - intros s' Es. apply bind_Ret in Es as (l & Hl & Es). apply bind_Ret in Es as (h & Hh & Es). injection Es as <-.
        destruct (A2 l Hl) as [J1 V1]. destruct (B2 h Hh) as [J2 V2].
        split; cbn [i_low i_high]; (split; [assumption|congruence]). }
    { split; cbn [i_low i_high]; auto. }
    { unfold iS. cbn [i_low i_high i_history]. now rewrite Gl, Gh. }
    etransitivity; [eapply (f_equal (fun o => bind o _) E)|]. rewrite P2Affine.bind_omap, P2Affine.omap_bind.
    apply P2Affine.bind_ext. intros s Es. destruct (U s Es) as [[I1 W1] [I2 W2]].
    unfold iqr_evaluate. cbn [iS i_low i_high i_history].
    destruct (weval_scale (i_high s) I2 ltac:(rewrite W2; exact Hw)) as [A1 A2].
    destruct (weval_scale (i_low s) I1 ltac:(rewrite W1; exact Hw)) as [B1 B2].
    rewrite !P2Affine.omap_bind. rewrite A1, B1.
    destruct (wp2_evaluate (i_high s)) as [[h vh]|x|u]; [|reflexivity|reflexivity].
    destruct (wp2_evaluate (i_low s)) as [[l vl]|x|u]; [|reflexivity|reflexivity].
    cbn [omap bind wvS]. specialize (A2 h vh eq_refl). specialize (B2 l vl eq_refl).
    apply (f_equal (@Ret double)). exact (proj2 (sub_scale k 585 vh vl ltac:(lia) A2 B2)).
  Qed.
End UnitWp2.
