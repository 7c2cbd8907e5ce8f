(** What contraction can change in one call of decrement. *)

From Coq Require Import List Reals ZArith Lra Lia Bool Arith.
From Flocq Require Import Core.Core IEEE754.BinarySingleNaN.
From Verif Require Import Outcome Arith Utils IBin Histogram Mean Entropy Contract Spec ListFacts FloatSpec FloatFacts UtilsFacts
  MeanError EntropyRound P2Witness ContractFacts.
Import ListNotations.
Local Open Scope R_scope.

Lemma fin_of_add (x y : double) : finite64 (Badd x y) = true -> finite64 x = true /\ finite64 y = true.
Proof.
  destruct x as [sx|sx| |sx mx ex Hx], y as [sy|sy| |sy my ey Hy]; intros H; split; try reflexivity; try discriminate H;
    revert H; unfold Badd, Bplus; destruct (Bool.eqb sx sy); intros H; discriminate H.
Qed.

Lemma fin_of_mul (x y : double) : finite64 (Bmul x y) = true -> finite64 x = true /\ finite64 y = true.
Proof.
  destruct x as [sx|sx| |sx mx ex Hx], y as [sy|sy| |sy my ey Hy]; intros H; split; try reflexivity; try discriminate H.
Qed.

Lemma fin_of_fused (x y z : double) : finite64 (Bfused x y z) = true -> finite64 x = true /\ finite64 y = true /\ finite64 z = true.
Proof.
  intros H. assert (G : finite64 x && finite64 y && finite64 z = true).
  { revert H. destruct x as [sx|sx| |sx mx ex Hx], y as [sy|sy| |sy my ey Hy], z as [sz|sz| |sz mz ez Hz]; intros H; try reflexivity;
      try discriminate H; revert H; unfold Bfused, Bfma; cbn [finite64 is_finite_SF]; 
      destruct (Bool.eqb (xorb sx sy) sz); intros H; discriminate H. }
  apply andb_prop in G as [G Gz]. apply andb_prop in G as [Gx Gy]. auto.
Qed.

Definition product_sum (c : bool) (a b l : double) : double := if c then Bfused a b l else Badd (Bmul a b) l.

Lemma back (z : double) r M : X z = R64 r /\ nan z = false -> finite64 z = true -> Rabs (B2R z) <= M -> M <= 1024 -> Rabs r <= M + / 1024.
Proof.
  intros [E N] F H HM. rewrite (X_fin _ F) in E. pose proof (rnd_any r) as D. pose proof tiny as T.
  assert (U : 0 < u <= / 1048576 * / 1048576).
  { split; [apply u_pos|]. unfold u. change (/ 1048576) with (bpow radix2 (-20)). rewrite <- bpow_plus. apply bpow_le. lia. }
  assert (B : Rabs (rnd r) < big).
  { destruct (Rlt_or_le (Rabs (rnd r)) big) as [G|G]; auto. exfalso. pose proof (B2R_lt_big z) as L. rewrite E in L.
    unfold R64 in L. rewrite sat_out in L by auto. pose proof big_pos. revert L. destruct (Rlt_bool (rnd r) 0);
      [rewrite Rabs_Ropp|]; rewrite Rabs_pos_eq; lra. }
  unfold R64 in E. rewrite sat_in in E by auto. rewrite E in H.
  assert (Ab : Rabs r <= Rabs (rnd r) + Rabs (rnd r - r)).
  { replace r with (rnd r + - (rnd r - r)) at 1 by ring. eapply Rle_trans; [apply Rabs_triang|]. rewrite Rabs_Ropp. lra. }
  pose proof (Rabs_pos r). assert (u * Rabs r <= / 1048576 * / 1048576 * Rabs r) by (apply Rmult_le_compat_r; lra). lra.
Qed.

Lemma product_sum_close c1 c2 (a b l : double) : finite64 (product_sum c1 a b l) = true -> Rabs (B2R (product_sum c1 a b l)) <= 60 ->
  Rabs (B2R l) <= 1 ->
  finite64 (product_sum c2 a b l) = true /\ Rabs (B2R (product_sum c2 a b l) - B2R (product_sum c1 a b l)) <= bpow radix2 (-44).
Proof.
  intros F H L.
  assert (Fin : finite64 a = true /\ finite64 b = true /\ finite64 l = true).
  { destruct c1; cbn [product_sum] in F; [now apply fin_of_fused|].
    apply fin_of_add in F as [F Fl]. apply fin_of_mul in F as [Fa Fb]. auto. }
  destruct Fin as (Fa & Fb & Fl). set (P := B2R a * B2R b).
  assert (K : 0 < k <= / 1024) by (unfold k; split; [apply bpow_gt_0|change (/ 1024) with (bpow radix2 (-10)); apply bpow_le; lia]).
  assert (E4 : bpow radix2 (-44) = 4 * k) by (unfold k; change 4 with (bpow radix2 2); rewrite <- bpow_plus; reflexivity).
  assert (HP : Rabs P <= 62).
  { pose proof (Rabs_triang (P + B2R l) (- B2R l)) as T. rewrite Rabs_Ropp in T. replace (P + B2R l + - B2R l) with P in T by ring.
    destruct c1; cbn [product_sum] in F, H.
    - pose proof (back _ _ 60 (X_fused a b l Fa Fb Fl) F H ltac:(lra)) as B. fold P in B. lra.
    - pose proof F as Fm. apply fin_of_add in Fm as [Fm _].
      pose proof (back _ _ 60 (X_add _ l Fm Fl) F H ltac:(lra)) as B.
      assert (M : Rabs (B2R (Bmul a b)) <= 61 + / 512).
      { pose proof (Rabs_triang (B2R (Bmul a b) + B2R l) (- B2R l)) as T'. rewrite Rabs_Ropp in T'.
        replace (B2R (Bmul a b) + B2R l + - B2R l) with (B2R (Bmul a b)) in T' by ring. lra. }
      pose proof (back _ _ _ (X_mul a b Fa Fb) Fm M ltac:(lra)) as B'. fold P in B'. lra. }
  assert (All : forall c, finite64 (product_sum c a b l) = true /\ Rabs (B2R (product_sum c a b l) - (P + B2R l)) <= 2 * k).
  { intros c. assert (S : Rabs (P + B2R l) <= 63) by (eapply Rle_trans; [apply Rabs_triang|lra]).
    destruct c; cbn [product_sum].
    - destruct (op_k _ _ (X_fused a b l Fa Fb Fl)) as [Fz D]; [fold P; lra|]. fold P in D. split; auto. lra.
    - destruct (op_k _ _ (X_mul a b Fa Fb)) as [Fm D]; [fold P; lra|]. fold P in D.
      assert (S' : Rabs (B2R (Bmul a b) + B2R l) <= 64).
      { replace (B2R (Bmul a b) + B2R l) with ((B2R (Bmul a b) - P) + (P + B2R l)) by ring. eapply Rle_trans; [apply Rabs_triang|]. lra. }
      destruct (op_k _ _ (X_add _ l Fm Fl) S') as [Fz D']. split; auto.
      replace (B2R (Badd (Bmul a b) l) - (P + B2R l)) with ((B2R (Badd (Bmul a b) l) - (B2R (Bmul a b) + B2R l)) + (B2R (Bmul a b) - P)) by ring.
      eapply Rle_trans; [apply Rabs_triang|]. lra. }
  destruct (All c1) as [_ D1]. destruct (All c2) as [F2 D2]. split; auto. rewrite E4.
  replace (B2R (product_sum c2 a b l) - B2R (product_sum c1 a b l))
    with ((B2R (product_sum c2 a b l) - (P + B2R l)) + - (B2R (product_sum c1 a b l) - (P + B2R l))) by ring.
  eapply Rle_trans; [apply Rabs_triang|]. rewrite Rabs_Ropp. lra.
Qed.

(** The two ways to compile decrement. *)
Lemma decrement_close (log2 : double -> double) (c1 c2 : bool) (h : hist B64) (ent : double) (i : nat) (z1 : double) :
  (forall y : double, finite64 y = true -> / 2 <= B2R y <= 1 -> Rabs (B2R (log2 y)) <= 1) ->
  (2 <= h_total h)%nat -> (Z.of_nat (h_total h) <= 2 ^ 53)%Z ->
  entropy_decrement_c log2 c1 h ent i = Ret z1 -> finite64 z1 = true -> Rabs (B2R z1) <= 60 ->
  exists z2, entropy_decrement_c log2 c2 h ent i = Ret z2 /\ finite64 z2 = true /\ Rabs (B2R z2 - B2R z1) <= bpow radix2 (-44).
Proof.
  intros Lg H2 H53 E F H. unfold entropy_decrement_c in E |- * .
  set (n := Bsub (of_nat (A := B64) (h_total h)) (Bz 1)) in * .
  assert (Ll : Rabs (B2R (log2 (Bquot n (Badd n (Bz 1))))) <= 1).
  { destruct (of_nat_exact (h_total h) H53) as [Ft Et]. destruct (Bz_exact 1) as [E1 F1]; [lia|].
    assert (T2 : 2 <= INR (h_total h)) by (change 2 with (INR 2); apply le_INR; exact H2).
    assert (T53 : INR (h_total h) <= bpow radix2 53) by (rewrite INR_IZR_INZ; change (bpow radix2 53) with (IZR (2 ^ 53)); now apply IZR_le).
    assert (Hn : finite64 n = true /\ B2R n = INR (h_total h) - 1).
    { destruct (X_sub _ _ Ft F1) as [HX Nn]. fold n in HX, Nn. rewrite Et, E1 in HX.
      assert (G : R64 (INR (h_total h) - 1) = INR (h_total h) - 1).
      { rewrite INR_IZR_INZ, <- minus_IZR. destruct (Bz_exact (Z.of_nat (h_total h) - 1)) as [Em Fm]; [lia|]. rewrite <- Em. apply R64_B2R. }
      rewrite G in HX. assert (Fn : finite64 n = true).
      { apply fin_X; auto. rewrite HX, Rabs_pos_eq by lra. apply Rle_lt_trans with (bpow radix2 53); [lra|apply bpow_lt; lia]. }
      split; auto. now rewrite <- (X_fin _ Fn). }
    destruct Hn as [Fn En].
    assert (Hm : finite64 (Badd n (Bz 1)) = true /\ B2R (Badd n (Bz 1)) = INR (h_total h)).
    { destruct (X_add n _ Fn F1) as [HX Nn]. rewrite En, E1 in HX. replace (INR (h_total h) - 1 + 1) with (INR (h_total h)) in HX by ring.
      rewrite <- Et, R64_B2R, Et in HX.
      assert (Fm : finite64 (Badd n (Bz 1)) = true).
      { apply fin_X; auto. rewrite HX, Rabs_pos_eq by lra. apply Rle_lt_trans with (bpow radix2 53); [lra|apply bpow_lt; lia]. }
      split; auto. now rewrite <- (X_fin _ Fm). }
    destruct Hm as [Fm Em]. destruct (X_div n (Badd n (Bz 1)) Fn Fm) as [HX Nn]; [lra|]. rewrite En, Em in HX.
    assert (Q : / 2 <= (INR (h_total h) - 1) / INR (h_total h) <= 1).
    { split; apply Rmult_le_reg_r with (INR (h_total h)); try lra; unfold Rdiv; rewrite Rmult_assoc, Rinv_l by lra; lra. }
    assert (G : / 2 <= R64 ((INR (h_total h) - 1) / INR (h_total h)) <= 1).
    { destruct Q as [Q1 Q2]. apply R64_le in Q1, Q2.
      replace (R64 1) with 1 in Q2 by (rewrite <- E1; symmetry; apply R64_B2R).
      replace (R64 (/ 2)) with (/ 2) in Q1; auto. symmetry. unfold R64.
      rewrite rnd_fix; [apply sat_in; rewrite Rabs_pos_eq by lra; apply Rlt_trans with (bpow radix2 0); [simpl; lra|apply bpow_lt; lia]|].
      change (/ 2) with (bpow radix2 (-1)). apply generic_format_bpow. cbv. discriminate. }
    assert (Fq : finite64 (Bquot n (Badd n (Bz 1))) = true).
    { apply fin_X; auto. rewrite HX, Rabs_pos_eq by lra. apply Rle_lt_trans with (bpow radix2 0); [simpl; lra|apply bpow_lt; lia]. }
    apply Lg; auto. rewrite <- (X_fin _ Fq), HX. exact G. }
  destruct (hist_getBin h i) as [b0| |]; try discriminate E. cbn [bind] in E |- * .
  destruct (xlogx _ _) as [x1| |]; try discriminate E. cbn [bind] in E |- * .
  destruct (xlogx _ _) as [x2| |]; try discriminate E. cbn [bind] in E |- * .
  injection E as <-. eexists. split; [reflexivity|].
  exact (product_sum_close c1 c2 _ _ _ F H Ll).
Qed.

Lemma decrement_case : exists (log2 : double -> double) (h : hist B64) (ent : double) i z,
  (forall y : double, finite64 y = true -> / 2 <= B2R y <= 1 -> Rabs (B2R (log2 y)) <= 1) /\
  (2 <= h_total h)%nat /\ (Z.of_nat (h_total h) <= 2 ^ 53)%Z /\
  entropy_decrement_c log2 true h ent i = Ret z /\ finite64 z = true /\ Rabs (B2R z) <= 60.
Proof.
  assert (T : ok (let* h := update_all (hist_update (A := B64)) (hist_new (A := B64) 3 4 true) [Bz 1; Bz 5; Bz 1] in
                  let* z := entropy_decrement_c (fun _ => Bz (-1)) true h (Bz 1) 0 in Ret (h, z))
                 (fun hz => Nat.eqb (h_total (fst hz)) 3 && finite64 (snd hz) && Bleb (snd hz) (Bz 60) && Bleb (Bz (-60)) (snd hz)) = true)
    by (vm_compute; reflexivity).
  destruct (update_all _ _ _) as [h| |] in T; try discriminate T. cbn [bind] in T.
  destruct (entropy_decrement_c _ _ h _ _) as [z| |] eqn:E; try discriminate T. cbn [bind ok fst snd] in T.
  apply andb_prop in T as [T L2]. apply andb_prop in T as [T L1]. apply andb_prop in T as [T F]. apply Nat.eqb_eq in T.
  exists (fun _ => Bz (-1)), h, (Bz 1), 0%nat, z. rewrite T. split; [|split; [lia|split; [cbv; discriminate|split; [exact E|split; [exact F|]]]]].
  - intros y _ _. destruct (Bz_exact (-1)) as [-> _]; [lia|]. rewrite Rabs_left; lra.
  - destruct (Bz_exact 60) as [E1 F1]; [lia|]. destruct (Bz_exact (-60)) as [E2 F2]; [lia|].
    rewrite Bleb_correct in L1, L2 by auto. rewrite E1 in L1. rewrite E2 in L2. revert L1 L2. repeat case Rle_bool_spec; intros; try discriminate.
    apply Rabs_le. lra.
Qed.
