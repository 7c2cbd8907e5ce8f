(** How far the answers of WindowedP2Quantile and StreamingIQR can lie outside
    the data, in exact arithmetic. *)

From Coq Require Import List Reals ZArith Lra Lia Bool Arith Permutation Sorting.Sorted.
From Flocq Require Import Core.Core IEEE754.BinarySingleNaN.
From Verif Require Import Outcome Arith P2 P2Spec Spec ListFacts UtilsFacts AskSpec P2Facts P2Jain P2JainFacts P2Float P2Window P2WinLife P2Affine P2Witness FloatSpec.
Import ListNotations.
Local Open Scope nat_scope.

(** ** The index of a small-sample answer *)
Lemma small_index (n : nat) (q : R) : (0 < q < 1)%R -> n <= 5 ->
  (0 <= Rround_away (Rabs (INR n - 1) * q) <= 4)%Z.
Proof.
  intros Hq Hn. assert (0 <= Rabs (INR n - 1) <= 4)%R.
  { split; [apply Rabs_pos|]. apply le_INR in Hn. pose proof (pos_INR n). cbn [INR] in Hn. apply Rabs_le. lra. }
  pose proof (@Zrnd_le (Znearest (Z.leb 0)) (valid_rnd_N (Z.leb 0)) 0 (Rabs (INR n - 1) * q) ltac:(nra)) as K1.
  pose proof (@Zrnd_le (Znearest (Z.leb 0)) (valid_rnd_N (Z.leb 0)) (Rabs (INR n - 1) * q) 4 ltac:(nra)) as K2.
  change 0%R with (IZR 0) in K1 at 1. change 4%R with (IZR 4) in K2. rewrite (@Zrnd_IZR _ (valid_rnd_N (Z.leb 0))) in K1, K2.
  unfold Rround_away. split; assumption.
Qed.

Lemma p2_new_RA (q : R) : (0 < q < 1)%R -> exists p0, p2_new (A := RA) q = Ret p0.
Proof.
  intros H. unfold p2_new. replace (_ || _)%bool with false; [eauto|]. symmetry. apply orb_false_iff.
  cbn [leb of_Z zero RA]. split; apply Rleb_false; cbn; lra.
Qed.

Lemma evaluate_in (p : p2 RA) : length (p_heights p) = 5 -> (0 < p_quantile p < 1)%R ->
  exists p' v, p2_evaluate p = Ret (p', v) /\ In v (p_heights p) /\ Permutation (p_heights p') (p_heights p).
Proof.
  intros L Hq. unfold p2_evaluate. destruct (Nat.leb_spec (p_history p) 5) as [H|H].
  - rewrite std_sort_RA. cbn [bind]. cbn [round_int RA].
    pose proof (small_index (p_history p) (p_quantile p) Hq H) as K.
    replace (Rround_away _) with (Rround_away (Rabs (INR (p_history p) - 1) * p_quantile p))
      by (unfold of_nat; cbn [fabs sub mul of_Z RA]; now rewrite INR_IZR_INZ).
    set (z := Rround_away _) in * . clearbody z.
    replace (int_min <=? z)%Z with true by (symmetry; apply Z.leb_le; unfold int_min; lia).
    replace (z <=? int_max)%Z with true by (symmetry; apply Z.leb_le; unfold int_max; lia). cbn [andb].
    destruct (Z.ltb_spec z 0); [lia|].
    assert (Ls : @length R (sort_list (A := RA) (p_heights p)) = 5) by (etransitivity; [apply sort_list_length|exact L]).
    destruct (nth_error (sort_list (A := RA) (p_heights p)) (Z.to_nat z)) as [v|] eqn:E.
    2: { apply nth_error_None in E. change (num RA) with R in E. lia. }
    unfold at_. rewrite E. cbn [bind]. eexists _, v. split; [reflexivity|]. split.
    + apply (sort_list_In (A := RA)). eapply nth_error_In; eauto.
    + cbn [p_heights]. apply sort_list_perm.
  - destruct (list5 (p_heights p) L) as (a & b & c & d & e & E). rewrite E. cbn [at_ nth_error bind].
    eexists p, c. split; [reflexivity|]. split; [cbn; auto|]. now rewrite E.
Qed.

Lemma evaluate_equal (p : p2 RA) c : length (p_heights p) = 5 -> (0 < p_quantile p < 1)%R ->
  Forall (fun h => h = c) (p_heights p) -> exists p', p2_evaluate p = Ret (p', c).
Proof.
  intros L Hq F. destruct (evaluate_in p L Hq) as (p' & v & E & I & _).
  rewrite Forall_forall in F. apply F in I. subst v. eauto.
Qed.

Lemma ask_intro {S} (new : outcome S) upd ev s0 s s' v xs : new = Ret s0 -> update_all upd s0 xs = Ret s -> ev s = Ret (s', v) ->
  ask new upd ev xs = Ret v.
Proof. intros E0 E Ev. unfold ask. rewrite E0. cbn [bind]. rewrite E. cbn [bind]. now rewrite Ev. Qed.

(** ** The invariant *)
Section Range.
  Context (lo hi : R).
  Definition inr (x : R) : Prop := (lo <= x <= hi)%R.

  Record rinv (q : R) (W n : nat) (s : wp2 RA) : Prop := {
    ri_wf : wf (w_p2 s) (4 + Z.of_nat (late W n));
    ri_h : p_history (w_p2 s) = n mod (W + 1);
    ri_q : p_quantile (w_p2 s) = q;
    ri_w : w_wsize s = W;
    ri_n : w_history s = n;
    ri_in : Forall inr (firstn n (p_heights (w_p2 s)));
    ri_sorted : 5 <= p_history (w_p2 s) -> StronglySorted Rle (p_heights (w_p2 s));
    ri_prev : W + 1 <= n -> inr (w_previous s)
  }.

  Definition good (h0 h1 h2 h3 h4 : R) : Prop := chainR h0 h1 h2 h3 h4 /\ (lo <= h0)%R /\ (h4 <= hi)%R.

  Lemma good_core des h0 h1 h2 h3 h4 nm ni np : (nm < ni < np)%Z -> good h0 h1 h2 h3 h4 ->
    good h0 (fst (core (A := RA) des h0 h1 h2 nm ni np)) h2 h3 h4 /\
    good h0 h1 (fst (core (A := RA) des h1 h2 h3 nm ni np)) h3 h4 /\
    good h0 h1 h2 (fst (core (A := RA) des h2 h3 h4 nm ni np)) h4.
  Proof.
    intros Hn ((A1 & A2 & A3 & A4) & B & C).
    pose proof (core_between_RA des h0 h1 h2 nm ni np Hn (conj A1 A2)).
    pose proof (core_between_RA des h1 h2 h3 nm ni np Hn (conj A2 A3)).
    pose proof (core_between_RA des h2 h3 h4 nm ni np Hn (conj A3 A4)).
    unfold good, chainR. repeat split; lra.
  Qed.

  Lemma sorted5 (a b c d e : R) : StronglySorted Rle [a; b; c; d; e] <-> chainR a b c d e.
  Proof.
    unfold chainR. split.
    - intros H. repeat match goal with K : StronglySorted _ (_ :: _) |- _ => inversion_clear K end.
      repeat match goal with K : Forall _ (_ :: _) |- _ => inversion_clear K end. auto.
    - intros (H1 & H2 & H3 & H4).
      repeat (apply SSorted_cons || apply SSorted_nil || apply Forall_cons || apply Forall_nil); lra.
  Qed.

  Lemma update_range (q : R) W n (p : p2 RA) x :
    wf p (4 + Z.of_nat (late W n)) -> p_history p = n mod (W + 1) -> p_quantile p = q -> 4 <= W ->
    Forall inr (firstn n (p_heights p)) -> (5 <= p_history p -> StronglySorted Rle (p_heights p)) -> inr x ->
    (4 + Z.of_nat (late W (S n)) <= int_max)%Z ->
    exists p', p2_update p x = Ret p' /\ wf p' (4 + Z.of_nat (late W (S n))) /\
      p_history p' = S (n mod (W + 1)) /\ p_quantile p' = q /\
      Forall inr (firstn (S n) (p_heights p')) /\ (5 <= p_history p' -> StronglySorted Rle (p_heights p')).
  Proof.
    intros Iw Ih Iq HW F So Hx. pose proof (wf_len _ _ Iw) as [L5 D5]. rewrite late_S.
    assert (Hnn : n mod (W + 1) <= n) by (apply Nat.mod_le; lia).
    destruct (Nat.leb_spec 5 (n mod (W + 1))) as [H5|H5]; intros Hm.
    - destruct Iw as ([[[[h0 h1] h2] h3] h4] & m1 & m2 & m3 & Sh). pose proof Sh as (Eh & _).
      rewrite Eh in F, So, L5. rewrite firstn_all2 in F by (cbn; lia).
      specialize (So ltac:(lia)). apply sorted5 in So.
      assert (G : good h0 h1 h2 h3 h4).
      { repeat match goal with K : Forall _ (_ :: _) |- _ => inversion_clear K end. unfold good, inr in * . intuition lra. }
      pose proof (fk_observe h0 h1 h2 h3 h4 0 m1 m2 m3 (4 + Z.of_nat (late W n))%Z x So) as Ho.
      destruct (update_big (A := RA) pos_RA neg_RA good p x h0 h1 h2 h3 h4 0 m1 m2 m3 (4 + Z.of_nat (late W n)))
        as (t & k1 & k2 & k3 & l1 & l2 & l3 & E' & HS & Hy' & Hq').
      { intros. now apply good_core. }
      { lia. }
      { exact Sh. }
      { lia. }
      { change (num RA) with R in * . destruct (fk (A := RA) h0 h1 h2 h3 h4 x) as [[a b] k].
        destruct Ho as (C & -> & -> & _). split; [exact C|]. destruct G as (_ & G1 & G2), Hx as (X1 & X2).
        unfold Rmin, Rmax. split; [destruct (Rle_dec h0 x)|destruct (Rle_dec h4 x)]; lra. }
      exists t. split; [exact E'|]. destruct (fk (A := RA) h0 h1 h2 h3 h4 x) as [[a b] k]. destruct HS as [Sh' G'].
      split.
      { exists (a, k1, k2, k3, b), l1, l2, l3.
        replace (4 + Z.of_nat (late W n + 1))%Z with (4 + Z.of_nat (late W n) + 1)%Z by lia. exact Sh'. }
      split; [rewrite Hy', Ih; reflexivity|]. split; [congruence|].
      destruct Sh' as (-> & _). destruct G' as (C' & G1 & G2). split.
      + rewrite firstn_all2 by (cbn; lia). destruct C' as (? & ? & ? & ?). unfold inr. repeat (apply Forall_cons || apply Forall_nil); lra.
      + intros _. now apply sorted5.
    - rewrite Nat.add_0_r in * . unfold p2_update. destruct (Nat.ltb_spec (p_history p) 5); [|lia].
      rewrite store_Ret by lia. cbn [bind]. set (h' := set_nth (p_heights p) (p_history p) x).
      assert (Lh : length h' = 5) by (unfold h'; now rewrite set_nth_length).
      assert (Fh : Forall inr (firstn (S n) h')).
      { unfold h'. destruct (le_lt_dec 5 n) as [N|N].
        - rewrite firstn_all2 in F |- * by (rewrite ?set_nth_length; lia). apply Forall_set_nth; auto.
        - rewrite Ih, Nat.mod_small by lia. rewrite firstn_set_nth by lia. apply Forall_app. auto. }
      destruct (Nat.eqb_spec (S (p_history p)) 5) as [K|K].
      + rewrite std_sort_RA. cbn [bind]. eexists. split; [reflexivity|]. cbn [p_history p_quantile p_heights].
        assert (Ls : @length R (sort_list (A := RA) h') = 5) by (etransitivity; [apply sort_list_length|exact Lh]).
        split; [apply (wf_fields p); auto|]. split; [congruence|]. split; [exact Iq|]. split.
        * assert (N5 : 5 <= S n) by lia.
          rewrite firstn_all2 in Fh by lia. rewrite firstn_all2 by (change (num RA) with R; lia).
          eapply Permutation_Forall; [apply Permutation_sym, (sort_list_perm (A := RA))|exact Fh].
        * intros _. apply sortedR_sort.
      + eexists. split; [reflexivity|]. cbn [p_history p_quantile p_heights].
        split; [apply (wf_fields p); auto|]. split; [congruence|]. split; [exact Iq|]. split; [exact Fh|]. intros; lia.
  Qed.

  Lemma rinv_step (q : R) W n s (x : R) : (0 < q < 1)%R -> 4 <= W -> rinv q W n s -> inr x ->
    (4 + Z.of_nat (late W (S n)) <= int_max)%Z ->
    exists s', wp2_update s x = Ret s' /\ rinv q W (S n) s'.
  Proof.
    intros Hq HW I Hx Hm. destruct I as [Iw Ih Iq Isz In' If Is Ip].
    destruct (update_range q W n (w_p2 s) x) as (p & Ep & Wp & Hp & Qp & Fp & Sp); auto.
    unfold wp2_update. rewrite Isz, In', Ep. cbn [bind].
    destruct (Nat.ltb_spec 0 W); [|lia]. cbn [andb].
    rewrite mod_succ by lia. destruct (Nat.eqb_spec (S (n mod (W + 1))) (W + 1)) as [K|K].
    - cbn [Nat.eqb]. pose proof (wf_len _ _ Wp) as [Lp Dp].
      assert (NW : W <= n) by (pose proof (Nat.mod_le n (W + 1)); lia).
      rewrite firstn_all2 in Fp by (change (num RA) with R in *; lia).
      destruct (evaluate_in p Lp) as (p' & v & Ev & Iv & Pv); [now rewrite Qp|].
      rewrite Ev. cbn [bind]. destruct (eval_fields _ _ _ Ev) as (E1 & E2 & E3 & E4 & E5).
      eexists. split; [reflexivity|]. constructor; cbn [w_p2 w_wsize w_history w_previous p2_clear p_history p_quantile p_heights]; auto.
      + apply (wf_fields p); unfold p2_clear; cbn [p_heights p_pos p_desired]; [exact Wp|rewrite E5; exact Lp|exact E3|rewrite E2; exact Dp].
      + rewrite mod_succ by lia. destruct (Nat.eqb_spec (S (n mod (W + 1))) (W + 1)); [reflexivity|lia].
      + congruence.
      + rewrite firstn_all2 by (rewrite E5; lia). eapply Permutation_Forall; [apply Permutation_sym, Pv|exact Fp].
      + intros; lia.
      + intros _. rewrite Forall_forall in Fp. auto.
    - cbn [Nat.eqb]. eexists. split; [reflexivity|]. constructor; cbn [w_p2 w_wsize w_history w_previous]; auto.
      + rewrite mod_succ by lia. destruct (Nat.eqb_spec (S (n mod (W + 1))) (W + 1)); [lia|exact Hp].
      + intros B. apply Ip. destruct (Nat.eq_dec n W) as [->|]; [|lia]. rewrite Nat.mod_small in K by lia. lia.
  Qed.

  Lemma late_bound W n : 4 <= W -> 5 <= n -> late W n + 5 <= n.
  Proof.
    intros HW H. induction H.
    - enough (late W 5 = 0) by lia. rewrite late_closed by lia.
      destruct (Nat.eq_dec W 4) as [->|]; [reflexivity|]. rewrite Nat.div_small, Nat.mod_small by lia. lia.
    - rewrite late_S. destruct (Nat.leb _ _); lia.
  Qed.

  Lemma late_int W n : 4 <= W -> (Z.of_nat n <= 2 ^ 31)%Z -> (4 + Z.of_nat (late W n) <= int_max)%Z.
  Proof.
    intros HW H. change int_max with (2 ^ 31 - 1)%Z. destruct (le_lt_dec 5 n) as [K|K].
    - pose proof (late_bound W n HW K). lia.
    - pose proof (late_mono W n 5 ltac:(lia)). pose proof (late_bound W 5 HW ltac:(lia)). lia.
  Qed.

  Lemma rinv_run (q : R) W s0 (xs : list R) : wp2_new (A := RA) q W = Ret s0 -> (0 < q < 1)%R -> 4 <= W ->
    (Z.of_nat (length xs) <= 2 ^ 31)%Z -> Forall inr xs ->
    exists s, update_all wp2_update s0 xs = Ret s /\ rinv q W (length xs) s.
  Proof.
    intros E0 Hq HW. unfold wp2_new in E0. apply bind_Ret in E0 as (p0 & Ep & E0). injection E0 as <-.
    apply new_shape in Ep as [Ep Sh].
    induction xs as [|x xs IH] using rev_ind; intros HL F.
    - eexists. split; [reflexivity|]. constructor; cbn [w_p2 w_wsize w_history w_previous length firstn]; subst p0; auto.
      + exists (IZR 0, IZR 0, IZR 0, IZR 0, IZR 0), 1%Z, 2%Z, 3%Z. exact Sh.
      + cbn [p_history]. now rewrite Nat.mod_small by lia.
      + cbn. lia.
      + lia.
    - rewrite app_length in * . cbn [length] in * . apply Forall_app in F as [F Fx]. inversion_clear Fx.
      destruct IH as (s & E & I); auto; [lia|]. rewrite update_all_snoc, E. cbn [bind].
      replace (length xs + 1) with (S (length xs)) by lia. apply rinv_step; auto.
      apply late_int; auto. lia.
  Qed.

  (** ** The answers *)
  Lemma rinv_evaluate q W n s : (0 < q < 1)%R -> 4 <= W -> 5 <= n -> rinv q W n s ->
    exists s' v, wp2_evaluate s = Ret (s', v) /\
      let k := if Nat.ltb n W then 0%R else INR (n mod W) in
      exists e c, inr e /\ inr c /\ v = (c - k * (e - c))%R.
  Proof.
    intros Hq HW Hn I. destruct I as [Iw Ih Iq Isz In' If Is Ip]. pose proof (wf_len _ _ Iw) as [L5 _].
    rewrite firstn_all2 in If by (change (num RA) with R in *; lia). rewrite Forall_forall in If.
    destruct (evaluate_in (w_p2 s) L5) as (p' & v & Ev & Iv & _); [now rewrite Iq|]. apply If in Iv.
    unfold wp2_evaluate. rewrite Isz, In'. destruct (Nat.ltb_spec n W) as [K|K].
    - rewrite Ev. cbn [bind]. eexists _, v. split; [reflexivity|]. exists v, v. cbv zeta. repeat split; try apply Iv. cbn. lra.
    - destruct (Nat.eqb_spec W 0); [lia|]. rewrite Ev. cbn [bind]. eexists _, _. split; [reflexivity|].
      destruct (Nat.eq_dec n W) as [->|N].
      + exists v, v. rewrite Nat.mod_same by lia. cbv zeta. repeat split; try apply Iv.
        unfold of_nat. cbn [Nat.add Z.of_nat of_Z add sub mul RA INR]. cbn. lra.
      + exists (w_previous s), v. cbv zeta. split; [apply Ip; lia|]. split; [exact Iv|].
        unfold of_nat. cbn [of_Z add sub mul RA]. rewrite <- INR_IZR_INZ, plus_INR. cbn [INR]. lra.
  Qed.

  Lemma run_wp2 q W xs : (0 < q < 1)%R -> 4 <= W -> 5 <= length xs -> (Z.of_nat (length xs) <= 2 ^ 31)%Z -> Forall inr xs ->
    exists s0 s s' v, wp2_new (A := RA) q W = Ret s0 /\ update_all wp2_update s0 xs = Ret s /\ wp2_evaluate s = Ret (s', v) /\
      let k := if Nat.ltb (length xs) W then 0%R else INR (length xs mod W) in
      exists e c, inr e /\ inr c /\ v = (c - k * (e - c))%R.
  Proof.
    intros Hq HW H5 HL F. destruct (p2_new_RA q Hq) as (p0 & Ep).
    assert (E0 : wp2_new (A := RA) q W = Ret (WP2 p0 (of_Z 0) W 0)) by (unfold wp2_new; rewrite Ep; reflexivity).
    destruct (rinv_run q W _ xs E0 Hq HW HL F) as (s & E & I).
    destruct (rinv_evaluate q W _ s Hq HW H5 I) as (s' & v & Ev & K). eauto 10.
  Qed.

  Lemma wp2_range q W xs : (0 < q < 1)%R -> 4 <= W -> 5 <= length xs -> (Z.of_nat (length xs) <= 2 ^ 31)%Z -> Forall inr xs ->
    exists r, ask (wp2_new (A := RA) q W) wp2_update wp2_evaluate xs = Ret r /\
      let k := if Nat.ltb (length xs) W then 0%R else INR (length xs mod W) in
      (lo - k * (hi - lo) <= r <= hi + k * (hi - lo))%R.
  Proof.
    intros Hq HW H5 HL F. destruct (run_wp2 q W xs Hq HW H5 HL F) as (s0 & s & s' & v & E0 & E & Ev & K).
    exists v. split; [exact (ask_intro _ _ _ s0 s s' v xs E0 E Ev)|]. cbv zeta in * .
    set (k := if Nat.ltb _ _ then _ else _) in * . assert (0 <= k)%R by (unfold k; destruct (Nat.ltb _ _); [lra|apply pos_INR]).
    destruct K as (e & c & He & Hc & ->). unfold inr in * . clearbody k. nra.
  Qed.

  Lemma iqr_range ql qh W xs : (0 < ql < 1)%R -> (0 < qh < 1)%R -> 4 <= W -> 5 <= length xs ->
    (Z.of_nat (length xs) <= 2 ^ 31)%Z -> Forall inr xs ->
    exists r, ask (iqr_new_range (A := RA) ql qh W) iqr_update iqr_evaluate xs = Ret r /\
      let k := if Nat.ltb (length xs) W then 0%R else INR (length xs mod W) in
      (Rabs r <= (2 * k + 1) * (hi - lo))%R.
  Proof.
    intros Hl Hh HW H5 HL F.
    destruct (run_wp2 ql W xs Hl HW H5 HL F) as (l0 & l & l' & vl & El0 & El & Evl & Kl).
    destruct (run_wp2 qh W xs Hh HW H5 HL F) as (h0 & h & h' & vh & Eh0 & Eh & Evh & Kh).
    assert (E0 : iqr_new_range (A := RA) ql qh W = Ret (IQR l0 h0 0)) by (rewrite iqr_new_pair, El0, Eh0; reflexivity).
    exists (vh - vl)%R. split.
    { eapply (ask_intro _ _ _ (IQR l0 h0 0) (IQR l h (length xs)) (IQR l' h' (length xs)) (vh - vl)%R xs E0).
      - apply (iqr_run ql qh W _ l0 h0 xs E0 El0 Eh0). eauto.
      - exact (iqr_evaluate_diff l h l' h' (length xs) vl vh Evl Evh). }
    cbv zeta in * .
    set (k := if Nat.ltb _ _ then _ else _) in * . assert (0 <= k)%R by (unfold k; destruct (Nat.ltb _ _); [lra|apply pos_INR]).
    destruct Kl as (e & c & He & Hc & ->), Kh as (e' & c' & He' & Hc' & ->). unfold inr in * . clearbody k. apply Rabs_le. nra.
  Qed.
End Range.

(** ** A calm period after a restart *)
Lemma list_bounds (xs : list R) : exists lo hi, Forall (inr lo hi) xs.
Proof.
  induction xs as [|x xs (lo & hi & F)]; [exists 0%R, 0%R; constructor|].
  exists (Rmin x lo), (Rmax x hi). constructor.
  - split; [apply Rmin_l|apply Rmax_l].
  - eapply Forall_impl; [|exact F]. intros y [A B]. pose proof (Rmin_r x lo). pose proof (Rmax_r x hi). split; lra.
Qed.

Lemma repeat_snoc {X} (c : X) m : repeat c (S m) = repeat c m ++ [c].
Proof. cbn [repeat]. apply repeat_cons. Qed.

(** Updates that do not reach the next restart. *)
Lemma wp2_inner {A : arith} (s : wp2 A) ys : 1 <= w_wsize s ->
  w_history s mod (w_wsize s + 1) + length ys <= w_wsize s ->
  update_all wp2_update s ys =
  let* p := update_all p2_update (w_p2 s) ys in Ret (WP2 p (w_previous s) (w_wsize s) (w_history s + length ys)).
Proof.
  intros HW. induction ys as [|y ys IH] using rev_ind; intros HL.
  - cbn. rewrite Nat.add_0_r. now destruct s.
  - rewrite app_length in HL |- * . cbn [length] in HL |- * . rewrite !update_all_snoc, IH by lia.
    destruct (update_all p2_update (w_p2 s) ys) as [p| |]; cbn [bind]; auto.
    unfold wp2_update. cbn [w_p2 w_history w_wsize w_previous].
    destruct (p2_update p y) as [p'| |]; cbn [bind]; auto.
    replace (Nat.eqb _ 0) with false; [rewrite andb_false_r; do 2 f_equal; lia|].
    symmetry. apply Nat.eqb_neq. set (n := w_history s) in * . set (W := w_wsize s) in * .
    assert (K : S (n + length ys) mod (W + 1) = n mod (W + 1) + length ys + 1); [|lia].
    pose proof (Nat.div_mod n (W + 1) ltac:(lia)) as D.
    symmetry. apply Nat.mod_unique with (n / (W + 1)); lia.
Qed.

Lemma calm_run (q : R) W (p : p2 RA) c m : wf p (4 + Z.of_nat (late W (W + 1))) -> p_history p = 0 -> p_quantile p = q -> 4 <= W ->
  5 <= m -> m <= W -> (Z.of_nat (W + 1 + m) <= 2 ^ 31)%Z ->
  exists p', update_all p2_update p (repeat c m) = Ret p' /\ wf p' (4 + Z.of_nat (late W (W + 1 + m))) /\
    p_history p' = m /\ p_quantile p' = q /\ Forall (inr c c) (p_heights p').
Proof.
  intros Wp Hp Qp HW Hm. induction Hm as [|m Hm IH]; intros HmW HZ.
  - pose proof (wf_len _ _ Wp) as [Lp Dp].
    assert (K : late W (W + 1 + 5) = late W (W + 1)).
    { replace (W + 1 + 5) with (S (S (S (S (S (W + 1)))))) by lia. rewrite !late_S.
      assert (M : forall j, j < 5 -> (W + 1 + j) mod (W + 1) = j).
      { intros j Hj. replace (W + 1 + j) with (j + 1 * (W + 1)) by lia. rewrite Nat.mod_add by lia. apply Nat.mod_small. lia. }
      replace (S (S (S (S (W + 1))))) with (W + 1 + 4) by lia. replace (S (S (S (W + 1)))) with (W + 1 + 3) by lia.
      replace (S (S (W + 1))) with (W + 1 + 2) by lia. replace (S (W + 1)) with (W + 1 + 1) by lia.
      replace ((W + 1) mod (W + 1)) with ((W + 1 + 0) mod (W + 1)) by (f_equal; lia). rewrite !M by lia. cbn. lia. }
    rewrite (run_five (A := RA) p (repeat c 5) Hp Lp (repeat_length _ _)).
    rewrite not_nan_RA. eexists. split; [reflexivity|]. rewrite K. cbn [p_history p_quantile p_heights].
    split; [apply (wf_fields p); auto; cbn [p_heights]; etransitivity; [apply sort_list_length|reflexivity]|].
    repeat split; auto. apply (Permutation_Forall (Permutation_sym (sort_list_perm (A := RA) (repeat c 5)))).
    apply Forall_forall. intros x Hx. apply repeat_spec in Hx. subst x. unfold inr. lra.
  - destruct IH as (p' & E & Wp' & Hp' & Qp' & F); try lia. pose proof (wf_len _ _ Wp') as [Lp' _].
    destruct (update_range c c q W (W + 1 + m) p' c) as (p'' & E' & Wp'' & Hp'' & Qp'' & F'' & _); auto.
    + rewrite Hp'. replace (W + 1 + m) with (m + 1 * (W + 1)) by lia. rewrite Nat.mod_add by lia. symmetry. apply Nat.mod_small. lia.
    + rewrite firstn_all2 by (change (num RA) with R in *; lia). exact F.
    + intros _. destruct (list5 _ Lp') as (h0 & h1 & h2 & h3 & h4 & Eh). rewrite Eh in F |- * . apply sorted5.
      repeat match goal with K : Forall _ (_ :: _) |- _ => inversion_clear K end. unfold inr, chainR in * . intuition lra.
    + unfold inr. lra.
    + apply late_int; auto. lia.
    + exists p''. rewrite repeat_snoc, update_all_snoc, E. cbn [bind]. split; [exact E'|].
      replace (W + 1 + S m) with (S (W + 1 + m)) by lia. split; [exact Wp''|]. split.
      { rewrite Hp''. f_equal. replace (W + 1 + m) with (m + 1 * (W + 1)) by lia. rewrite Nat.mod_add by lia. apply Nat.mod_small. lia. }
      split; [exact Qp''|]. rewrite firstn_all2 in F''; [exact F''|].
      apply wf_len in Wp'' as [L'' _]. change (num RA) with R in * . lia.
Qed.

(** The first block, the restart and the calm period together. *)
Lemma calm_states (q : R) W xs c m : (0 < q < 1)%R -> length xs = W + 1 -> 5 <= m -> m + 2 <= W -> (Z.of_nat (W + 1 + m) <= 2 ^ 31)%Z ->
  exists e s0 s s', ask (p2_new (A := RA) q) p2_update p2_evaluate xs = Ret e /\
    wp2_new (A := RA) q W = Ret s0 /\ update_all wp2_update s0 (xs ++ repeat c m) = Ret s /\
    wp2_evaluate s = Ret (s', (c - (INR m + 1) * (e - c))%R).
Proof.
  intros Hq HL Hm HW HZ. destruct (p2_new_RA q Hq) as (p0 & Ep).
  assert (E0 : wp2_new (A := RA) q W = Ret (WP2 p0 (of_Z 0) W 0)) by (unfold wp2_new; rewrite Ep; reflexivity).
  destruct (list_bounds xs) as (lo & hi & F).
  destruct (rinv_run lo hi q W _ xs E0 Hq ltac:(lia) ltac:(lia) F) as (s1 & E1 & [Iw Ih Iq Isz In' _ _ _]).
  rewrite HL in * .
  (* what the restart remembers *)
  assert (P : ask (p2_new (A := RA) q) p2_update p2_evaluate xs = Ret (w_previous s1)).
  { destruct (rev xs) as [|x ys] eqn:Er.
    { apply (f_equal (@length _)) in Er. rewrite rev_length in Er. cbn in Er. lia. }
    apply (f_equal (@rev _)) in Er. rewrite rev_involutive in Er. cbn [rev] in Er. set (zs := rev ys) in * . clearbody zs. subst xs.
    rewrite app_length in HL. cbn [length] in HL. rewrite update_all_snoc in E1.
    rewrite (wp2_first_window (A := RA) q W _ p0 zs E0 Ep) in E1 by (right; change (num RA) with R; lia).
    destruct (update_all p2_update p0 zs) as [p| |] eqn:Ez; cbn [bind] in E1; try discriminate.
    unfold wp2_update in E1. cbn [w_p2 w_history w_wsize w_previous] in E1.
    destruct (p2_update p x) as [p'| |] eqn:Ex; cbn [bind] in E1; try discriminate.
    change (num RA) with R in * . replace (S (length zs)) with (W + 1) in E1 by lia. rewrite Nat.mod_same in E1 by lia.
    replace (Nat.ltb 0 W) with true in E1 by (symmetry; apply Nat.ltb_lt; lia). cbn [Nat.eqb andb] in E1.
    destruct (p2_evaluate p') as [[p'' v]| |] eqn:Ev; cbn [bind] in E1; try discriminate.
    injection E1 as <-. cbn [w_previous].
    apply (ask_intro _ _ _ p0 p' p'' v (zs ++ [x]) Ep); [|exact Ev]. rewrite update_all_snoc, Ez. exact Ex. }
  rewrite Nat.mod_same in Ih by lia.
  destruct (calm_run q W (w_p2 s1) c m Iw Ih Iq ltac:(lia) Hm ltac:(lia) HZ) as (p' & Ec & Wp & Hp & Qp & Fp).
  pose proof (wf_len _ _ Wp) as [Lp _].
  destruct (evaluate_equal p' c Lp) as (p'' & Ev); [now rewrite Qp| |].
  { eapply Forall_impl; [|exact Fp]. unfold inr. intros; lra. }
  assert (Ei : update_all wp2_update (WP2 p0 (of_Z 0) W 0) (xs ++ repeat c m) =
    Ret (WP2 p' (w_previous s1) W (W + 1 + m))).
  { rewrite update_all_app, E1. cbn [bind]. rewrite wp2_inner; rewrite ?Isz, ?In', ?repeat_length, ?Nat.mod_same by lia; try lia.
    match goal with |- bind ?o _ = _ => replace o with (Ret p') by (symmetry; exact Ec) end.
    reflexivity. }
  exists (w_previous s1), (WP2 p0 (of_Z 0) W 0), (WP2 p' (w_previous s1) W (W + 1 + m)).
  eexists. split; [exact P|]. split; [exact E0|]. split; [exact Ei|].
  unfold wp2_evaluate. cbn [w_p2 w_history w_wsize w_previous]. destruct (Nat.ltb_spec (W + 1 + m) W); [lia|].
  destruct (Nat.eqb_spec W 0); [lia|]. rewrite Ev. cbn [bind].
  replace ((W + 1 + m) mod W) with (m + 1).
  2: { apply Nat.mod_unique with 1; lia. }
  do 2 f_equal. unfold of_nat. cbn [of_Z add sub mul RA]. rewrite <- INR_IZR_INZ, !plus_INR. cbn [INR].
  match goal with |- ?x = ?y => change (@eq R x y) end. ring.
Qed.

Lemma wp2_calm (q : R) W xs c m : (0 < q < 1)%R -> length xs = W + 1 -> 5 <= m -> m + 2 <= W -> (Z.of_nat (W + 1 + m) <= 2 ^ 31)%Z ->
  exists e, ask (p2_new (A := RA) q) p2_update p2_evaluate xs = Ret e /\
    ask (wp2_new (A := RA) q W) wp2_update wp2_evaluate (xs ++ repeat c m) = Ret (c - (INR m + 1) * (e - c))%R.
Proof.
  intros Hq HL Hm HW HZ. destruct (calm_states q W xs c m Hq HL Hm HW HZ) as (e & s0 & s & s' & P & E0 & E & Ev).
  exists e. split; [exact P|]. exact (ask_intro _ _ _ s0 s s' _ _ E0 E Ev).
Qed.

Lemma iqr_calm (ql qh : R) W xs c m : (0 < ql < 1)%R -> (0 < qh < 1)%R -> length xs = W + 1 -> 5 <= m -> m + 2 <= W ->
  (Z.of_nat (W + 1 + m) <= 2 ^ 31)%Z ->
  exists el eh, ask (p2_new (A := RA) ql) p2_update p2_evaluate xs = Ret el /\
    ask (p2_new (A := RA) qh) p2_update p2_evaluate xs = Ret eh /\
    ask (iqr_new_range (A := RA) ql qh W) iqr_update iqr_evaluate (xs ++ repeat c m) = Ret (- (INR m + 1) * (eh - el))%R.
Proof.
  intros Hl Hh HL Hm HW HZ.
  destruct (calm_states ql W xs c m Hl HL Hm HW HZ) as (el & l0 & l & l' & Pl & El0 & El & Evl).
  destruct (calm_states qh W xs c m Hh HL Hm HW HZ) as (eh & h0 & h & h' & Ph & Eh0 & Eh & Evh).
  exists el, eh. split; [exact Pl|]. split; [exact Ph|].
  assert (E0 : iqr_new_range (A := RA) ql qh W = Ret (IQR l0 h0 0)) by (rewrite iqr_new_pair, El0, Eh0; reflexivity).
  set (ys := xs ++ repeat c m) in * .
  replace (- (INR m + 1) * (eh - el))%R with ((c - (INR m + 1) * (eh - c)) - (c - (INR m + 1) * (el - c)))%R by ring.
  eapply (ask_intro _ _ _ (IQR l0 h0 0) (IQR l h (length ys)) (IQR l' h' (length ys)) _ ys E0).
  - apply (iqr_run ql qh W _ l0 h0 ys E0 El0 Eh0). eauto.
  - exact (iqr_evaluate_diff l h l' h' (length ys) _ _ Evl Evh).
Qed.

(** The bound is reached: a constant block followed by another constant. *)
Lemma wp2_sharp (q a b : R) W : (0 < q < 1)%R -> 7 <= W -> (Z.of_nat (2 * W) <= 2 ^ 31)%Z ->
  ask (wp2_new (A := RA) q W) wp2_update wp2_evaluate (repeat a (W + 1) ++ repeat b (W - 2)) =
  Ret (b - INR ((W + 1 + (W - 2)) mod W) * (a - b))%R.
Proof.
  intros Hq HW HZ.
  destruct (wp2_calm q W (repeat a (W + 1)) b (W - 2) Hq (repeat_length _ _)) as (e & P & E); try lia.
  rewrite E. do 2 f_equal. replace e with a.
  2: { assert (F : Forall (inr a a) (repeat a (W + 1))).
       { apply Forall_forall. intros x Hx. apply repeat_spec in Hx. subst x. unfold inr. lra. }
       destruct (run_wp2 a a q (W + 2) (repeat a (W + 1)) Hq) as (s0 & s & s' & v & E0 & Es & Ev & K); auto;
         rewrite ?repeat_length; try lia.
       destruct (p2_new_RA q Hq) as (p0 & Ep).
       assert (S0 : s0 = WP2 p0 (of_Z 0) (W + 2) 0) by (unfold wp2_new in E0; rewrite Ep in E0; cbn [bind] in E0; congruence).
       rewrite (wp2_first_window (A := RA) q (W + 2) s0 p0 _ E0 Ep) in Es by (rewrite repeat_length; lia).
       destruct (update_all p2_update p0 (repeat a (W + 1))) as [p| |] eqn:Eu; try discriminate. cbn [bind] in Es. injection Es as <-.
       unfold wp2_evaluate in Ev. cbn [w_p2 w_history w_wsize w_previous] in Ev. rewrite repeat_length in Ev, K.
       replace (Nat.ltb (W + 1) (W + 2)) with true in Ev, K by (symmetry; apply Nat.ltb_lt; lia).
       destruct (p2_evaluate p) as [[p' w]| |] eqn:Ew; try discriminate. cbn [bind] in Ev. assert (Vw : v = w) by congruence.
       pose proof (ask_intro _ _ _ p0 p p' w _ Ep Eu Ew) as P'. rewrite P in P'. injection P' as We. rewrite We, <- Vw.
       destruct K as (e1 & c1 & He & Hc & ->). unfold inr in * . lra. }
  replace ((W + 1 + (W - 2)) mod W) with (W - 2 + 1) by (apply Nat.mod_unique with 1; lia).
  rewrite plus_INR. cbn [INR]. ring.
Qed.

Lemma wp2_reached (q a b : R) W : (0 < q < 1)%R -> 7 <= W -> (Z.of_nat (2 * W) <= 2 ^ 31)%Z ->
  ask (wp2_new (A := RA) q W) wp2_update wp2_evaluate (repeat a (W + 1) ++ repeat b (W - 2)) =
  Ret (b - INR ((W + 1 + (W - 2)) mod W) * (a - b))%R /\ (W + 1 + (W - 2)) mod W = W - 1.
Proof.
  intros Hq HW HZ. split; [now apply wp2_sharp|]. symmetry. apply Nat.mod_unique with 1; lia.
Qed.

Lemma wp2_seven :
  Forall (fun x => 0 <= x <= 1)%R (repeat 0%R 8 ++ repeat 1%R 5) /\
  ask (wp2_new (A := RA) (1 / 2)%R 7) wp2_update wp2_evaluate (repeat 0%R 8 ++ repeat 1%R 5) = Ret 7%R.
Proof.
  split.
  - apply Forall_app. split; apply Forall_forall; intros x Hx; apply repeat_spec in Hx; lra.
  - destruct (wp2_reached (1 / 2)%R 0%R 1%R 7 ltac:(lra) ltac:(lia) ltac:(lia)) as [E _].
    etransitivity; [exact E|]. f_equal. cbn. lra.
Qed.

(** ** Doubles *)
Definition calm13 : list double := map Bz [1; 2; 3; 4; 5; 6; 7; 8; 9; 9; 9; 9; 9]%Z.
Lemma calm13_run :
  ok (let* s0 := iqr_new (A := B64) 7 in update_all iqr_update s0 calm13)
     (fun s => ok (iqr_evaluate s) (fun '(_, v) => Bleb (v : double) (Bz (-12)))) = true.
Proof. vm_compute. reflexivity. Qed.

Lemma iqr_calm_double :
  exists (W : nat) (xs : list double) (s0 s s' : iqr B64) (v : double),
    iqr_new (A := B64) W = Ret s0 /\ update_all iqr_update s0 xs = Ret s /\ iqr_evaluate s = Ret (s', v) /\
    Forall (fun x => Bleb (Bz 1) x = true /\ Bleb x (Bz 9) = true) xs /\ Bleb v (Bz (-12)) = true.
Proof.
  pose proof calm13_run as H. destruct (iqr_new (A := B64) 7) as [s0| |] eqn:E0; try discriminate H. cbn [bind] in H.
  destruct (update_all iqr_update s0 calm13) as [s| |] eqn:E; try discriminate H. cbn [ok] in H.
  destruct (iqr_evaluate s) as [[s' v]| |] eqn:Ev; try discriminate H. cbn [ok] in H.
  exists 7, calm13, s0, s, s', v. repeat (split; [assumption|]). split; [|exact H].
  apply Forall_forall. intros x Hx. unfold calm13 in Hx. apply in_map_iff in Hx as (z & <- & Hz).
  cbn [In] in Hz. repeat (destruct Hz as [<-|Hz]; [split; vm_compute; reflexivity|]). destruct Hz.
Qed.
