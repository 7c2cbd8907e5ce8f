(** Groups of reals and of doubles. *)

From Coq Require Import List Reals ZArith Lra Lia Bool Arith Permutation Sorting.Sorted.
From Flocq Require Import Core.Core IEEE754.BinarySingleNaN.
From Verif Require Import Outcome Arith Utils IBin Histogram Spec ListFacts HistSpec FloatSpec FloatFacts UtilsFacts HistFacts HistOrder HistStreams UnitNum HistWitness OrderFacts GroupSpec GroupFacts.
Import ListNotations.
Local Open Scope nat_scope.

Lemma ginv_spec {A : arith} (g : A -> nat) xs bins : ginv (fun x => In x xs) g xs bins -> bins_in_groups g xs bins.
Proof.
  intros (F & S & H). split; [|split].
  - eapply Forall_impl; [|exact F]. intros b (H1 & H2 & H3). repeat split; auto.
  - intros l b m c r ->. apply sorted_app in S as (_ & S & _). apply sorted_cons in S as [_ S].
    apply Forall_app in S as [_ S]. now inversion_clear S.
  - exact H.
Qed.

Lemma big_gap (x y : R) : (Rabs x <= bpow radix2 1022)%R -> (Rabs y <= bpow radix2 1022)%R ->
  definitelyLessThan (A := RA) (y - x)%R dbl_max default_eps = true.
Proof.
  intros Hx Hy. apply RA_less. unfold default_eps, lit. cbn [RA div of_Z dbl_max].
  assert (C : (bpow radix2 (-53) <= bpow radix2 (-4))%R) by (apply bpow_le; lia). change (bpow radix2 (-4)) with (/ 16)%R in C.
  pose proof (bpow_gt_0 radix2 (-53)). set (m := ((1 - bpow radix2 (-53)) * bpow radix2 1024)%R).
  assert (E : bpow radix2 1024 = (4 * bpow radix2 1022)%R).
  { change 1024%Z with (2 + 1022)%Z. rewrite bpow_plus. reflexivity. }
  pose proof (bpow_gt_0 radix2 1022).
  assert (M : (3 * bpow radix2 1022 <= m)%R) by (unfold m; rewrite E; nra). rewrite (Rabs_pos_eq m) by lra.
  apply Rabs_le_inv in Hx, Hy. rewrite Rmax_right; [lra|]. apply Rabs_le. lra.
Qed.

Section GroupR.
  Variables (n : nat) (width : R) (g : R -> nat) (xs : list R).
  Hypothesis G : groupedR n width g xs.

  Lemma real_run W : 1 <= n -> length xs <= W ->
    exists h, update_all hist_update (hist_new (A := RA) n W true) xs = Ret h /\
      ginv (A := RA) (fun x => In x xs) g xs (h_bins h) /\ h_total h = length xs /\ hist_size h <= n.
  Proof.
    intros Hn L.
    apply (grouped_run (A := RA) (fun x => In x xs) g n (fun d : R => Rabs d <= width)%R (fun e : R => width < e * (1 - 1 / 10000))%R); auto.
    - intros x I. now destruct (G x x I I) as (K & _).
    - intros x y Ix Iy K. destruct (G x y Ix Iy) as (_ & _ & _ & D). destruct (D K) as [D1 D2].
      assert (Lt : (x < y)%R).
      { pose proof (Rmax_l (Rabs x) (Rabs y)). pose proof (Rabs_pos x). lra. }
      split; [apply RA_less; exact D2|]. split.
      + destruct (definitelyLessThan (A := RA) y x default_eps) eqn:Q; auto. apply RA_less_lt in Q; [lra|]. unfold default_eps, lit. cbn. lra.
      + now apply Rleb_false.
    - intros x y Ix Iy K. destruct (G x y Ix Iy) as (_ & _ & D & _). rewrite Rabs_minus_sym. now apply D.
    - intros x y Ix Iy K. destruct (G x y Ix Iy) as (_ & _ & _ & D). now apply D.
    - intros d e Hd He. change (num RA) with R in d, e. pose proof (Rabs_pos d). assert (0 < e)%R by lra.
      assert (Lt : (Rabs d < e)%R) by lra. assert (d <= Rabs d)%R by apply Rle_abs. split.
      + apply RA_less. unfold default_eps, lit. cbn. rewrite (Rabs_pos_eq e), Rmax_right by lra. lra.
      + destruct (definitelyLessThan (A := RA) e d default_eps) eqn:Q; auto. apply RA_less_lt in Q; [lra|]. unfold default_eps, lit. cbn. lra.
    - intros x y Ix Iy. apply big_gap; [now destruct (G x x Ix Ix) as (_ & K & _)|now destruct (G y y Iy Iy) as (_ & K & _)].
    - apply Forall_forall. auto.
  Qed.
End GroupR.

Lemma rnd_half z : (bpow radix2 (-1010) <= Rabs z)%R -> rnd (z / 2) = (rnd z / 2)%R.
Proof.
  intros H. replace (z / 2)%R with (z * bpow radix2 (-1))%R by (change (bpow radix2 (-1)) with (/ 2)%R; field).
  rewrite rnd_scale; [change (bpow radix2 (-1)) with (/ 2)%R; field|]. right.
  change (bpow radix2 (-1)) with (/ 2)%R.
  assert (bpow radix2 (-1010) = 2 * bpow radix2 (-1011))%R by (change (-1010)%Z with (1 + -1011)%Z; rewrite bpow_plus; reflexivity).
  assert (bpow radix2 (-1022) <= bpow radix2 (-1011))%R by (apply bpow_le; lia). pose proof (bpow_gt_0 radix2 (-1011)). lra.
Qed.

Lemma sat_half r : sat (r / 2) = (sat r / 2)%R \/ (big <= Rabs r)%R.
Proof.
  destruct (Rlt_le_dec (Rabs r) big) as [H|H]; [left|now right]. rewrite !sat_in; auto.
  unfold Rdiv. rewrite Rabs_mult, (Rabs_pos_eq (/ 2)) by lra. pose proof (Rabs_pos r). lra.
Qed.

Lemma R64_half z : (bpow radix2 (-1010) <= z <= bpow radix2 1023)%R -> R64 (z / 2) = (R64 z / 2)%R.
Proof.
  intros H. pose proof (bpow_gt_0 radix2 (-1010)). unfold R64. rewrite rnd_half by (rewrite Rabs_pos_eq; lra).
  destruct (sat_half (rnd z)) as [K|K]; auto. exfalso.
  assert (rnd z <= bpow radix2 1023)%R by (rewrite <- (rnd_bpow 1023) by lia; apply rnd_le; lra).
  assert (0 <= rnd z)%R by (rewrite <- rnd_0; apply rnd_le; lra).
  rewrite Rabs_pos_eq in K by auto. assert (bpow radix2 1023 < big)%R by (apply bpow_lt; lia). lra.
Qed.

Lemma R64_pow e : (-1074 <= e < 1024)%Z -> R64 (bpow radix2 e) = bpow radix2 e.
Proof.
  intros H. unfold R64. rewrite rnd_bpow by lia. apply sat_in. rewrite Rabs_pos_eq by apply bpow_ge_0. apply bpow_lt. lia.
Qed.

Lemma low : (bpow radix2 (-1010) <= bpow radix2 (-1000) / 2)%R.
Proof.
  assert (bpow radix2 (-1000) = 2 * bpow radix2 (-1001))%R by (change (-1000)%Z with (1 + -1001)%Z; rewrite bpow_plus; reflexivity).
  assert (bpow radix2 (-1010) <= bpow radix2 (-1001))%R by (apply bpow_le; lia). lra.
Qed.

Section GroupB.
  Variables (n : nat) (width : R) (g : double -> nat) (xs : list double).
  Hypothesis G : groupedB n width g xs.

  Let near (d : double) : Prop := finite64 d = true /\ (Rabs (B2R d) <= R64 width)%R.
  Let far (e : double) : Prop := finite64 e = true /\ (2 * R64 width <= B2R e)%R /\
    (bpow radix2 (-1000) <= B2R e <= bpow radix2 1023)%R.

  Lemma eps_small : (0 <= B2R (default_eps (A := B64)) <= 1 / 4000)%R.
  Proof.
    split; [apply default_eps_ok|]. destruct default_eps_ok as [Fe _].
    unfold default_eps. rewrite (proj1 (lit_nearest 1 10000 ltac:(lia) ltac:(lia))).
    apply Rle_trans with (rnd (bpow radix2 (-12))); [apply rnd_le|rewrite rnd_bpow by lia]; change (bpow radix2 (-12)) with (/ 4096)%R; lra.
  Qed.

  Lemma diff_ok x y : In x xs -> In y xs -> finite64 (Bsub y x) = true /\ B2R (Bsub y x) = R64 (B2R y - B2R x) /\
    (Rabs (B2R y - B2R x) <= bpow radix2 1023)%R.
  Proof.
    intros Ix Iy. destruct (G x x Ix Ix) as (_ & Fx & Bx & _), (G y y Iy Iy) as (_ & Fy & By & _).
    apply Rabs_le_inv in Bx, By.
    assert (E : (bpow radix2 1023 = 2 * bpow radix2 1022)%R) by (change 1023%Z with (1 + 1022)%Z; rewrite bpow_plus; reflexivity).
    assert (K : (Rabs (B2R y - B2R x) <= bpow radix2 1023)%R) by (apply Rabs_le; lra).
    destruct (X_sub y x Fy Fx) as [Xs Ns].
    assert (F : finite64 (Bsub y x) = true).
    { apply fin_X; auto. rewrite Xs, R64_abs. apply Rle_lt_trans with (bpow radix2 1023); [|apply bpow_lt; lia].
      apply R64_le in K. rewrite R64_pow in K by lia. exact K. }
    split; auto. split; auto. now rewrite <- X_fin.
  Qed.

  Lemma double_run W : 1 <= n -> length xs <= W ->
    exists h, update_all hist_update (hist_new (A := B64) n W true) xs = Ret h /\
      ginv (A := B64) (fun x => In x xs) g xs (h_bins h) /\ h_total h = length xs /\ hist_size h <= n.
  Proof.
    intros Hn L. destruct default_eps_ok as [Fe _]. pose proof eps_small as He.
    apply (grouped_run (A := B64) (fun x => In x xs) g n near far); auto.
    - intros x I. now destruct (G x x I I) as (K & _).
    - intros x y Ix Iy K. destruct (G x y Ix Iy) as (_ & Fx & _ & _ & D). destruct (D K) as (D1 & D2 & D3).
      destruct (G y y Iy Iy) as (_ & Fy & _).
      pose proof (bpow_gt_0 radix2 (-1000)) as P0. destruct (diff_ok x y Ix Iy) as (Fd & Ed & Bd).
      rewrite Rabs_pos_eq in Bd by lra. split; [|split].
      + apply B_less; auto. unfold tol.
        apply Rle_lt_trans with (R64 ((B2R y - B2R x) / 2)).
        * apply R64_le. pose proof (Rmax_l (Rabs (B2R x)) (Rabs (B2R y))). pose proof (Rabs_pos (B2R x)). nra.
        * rewrite R64_half by (pose proof low; lra). assert (bpow radix2 (-1000) <= R64 (B2R y - B2R x))%R.
          { rewrite <- (R64_pow (-1000)) by lia. now apply R64_le. }
          lra.
      + destruct (definitelyLessThan (A := B64) y x default_eps) eqn:Q; auto. apply B_less_lt in Q; auto; lra.
      + cbn. apply X_leb_false; auto using fin_nan. rewrite !X_fin by auto. lra.
    - intros x y Ix Iy K. destruct (G x y Ix Iy) as (_ & _ & _ & D & _). specialize (D K).
      destruct (diff_ok x y Ix Iy) as (Fd & Ed & _). split; auto. cbn. rewrite Ed, R64_abs. apply R64_le. now rewrite Rabs_minus_sym.
    - intros x y Ix Iy K. destruct (G x y Ix Iy) as (_ & _ & _ & _ & D). destruct (D K) as (D1 & D2 & D3).
      destruct (diff_ok x y Ix Iy) as (Fd & Ed & Bd). pose proof (bpow_gt_0 radix2 (-1000)) as P0. rewrite Rabs_pos_eq in Bd by lra.
      split; [exact Fd|]. change (sub (a := B64) y x) with (Bsub y x). rewrite Ed. split; [|split].
      + assert (R64 width <= R64 ((B2R y - B2R x) / 2))%R by (apply R64_le; lra). rewrite R64_half in H by (pose proof low; lra). lra.
      + rewrite <- (R64_pow (-1000)) by lia. now apply R64_le.
      + rewrite <- (R64_pow 1023) by lia. now apply R64_le.
    - intros d e [Fd Hd] (Fe' & He1 & He2). change (num B64) with double in d, e. 
      pose proof (bpow_gt_0 radix2 (-1000)) as P0. pose proof (Rabs_pos (B2R d)) as Pd. pose proof (Rle_abs (B2R d)) as Ld. split.
      + apply B_less; auto. unfold tol. rewrite (Rabs_pos_eq (B2R e)), Rmax_right by lra.
        apply Rle_lt_trans with (R64 (B2R e / 2 / 2)); [apply R64_le; nra|].
        apply Rlt_le_trans with (R64 (B2R e / 2)); [|apply R64_le; lra].
        assert (Q : R64 (B2R e / 2) = (B2R e / 2)%R) by (rewrite R64_half, R64_B2R by (pose proof low; lra); reflexivity).
        assert (Q2 : R64 (B2R e / 2 / 2) = (B2R e / 2 / 2)%R).
        { rewrite R64_half, Q; [reflexivity|]. pose proof low. lra. }
        rewrite Q, Q2. lra.
      + destruct (definitelyLessThan (A := B64) e d default_eps) eqn:Q; auto. apply B_less_lt in Q; auto; lra.
    - intros x y Ix Iy. destruct (G x x Ix Ix) as (_ & Fx & Bx & _), (G y y Iy Iy) as (_ & Fy & By & _). now apply moderate_gap.
    - apply Forall_forall. auto.
  Qed.
End GroupB.

(** ** The theorems *)

Lemma groups_real n W width (g : R -> nat) xs : 1 <= n -> length xs <= W -> groupedR n width g xs ->
  exists h, update_all hist_update (hist_new (A := RA) n W true) xs = Ret h /\
    hist_size h <= n /\ bins_in_groups (A := RA) g xs (h_bins h) /\
    ((forall k, k < n -> 0 < members g k xs) -> one_bin_each (A := RA) n g xs h).
Proof.
  intros Hn L G. destruct (real_run n width g xs G W Hn L) as (h & E & I & T & Z). exists h. split; auto. split; auto.
  split; [now apply ginv_spec|]. intros M. destruct (one_each (A := RA) (fun x => In x xs) g n xs (h_bins h) I Z M) as [K1 K2].
  split; auto. rewrite (run_binCounts (A := RA) n W xs h E L). now rewrite K2.
Qed.

Lemma groups_double n W width (g : double -> nat) xs : 1 <= n -> length xs <= W -> groupedB n width g xs ->
  exists h, update_all hist_update (hist_new (A := B64) n W true) xs = Ret h /\
    hist_size h <= n /\ bins_in_groups (A := B64) g xs (h_bins h) /\
    ((forall k, k < n -> 0 < members g k xs) -> one_bin_each (A := B64) n g xs h).
Proof.
  intros Hn L G. destruct (double_run n width g xs G W Hn L) as (h & E & I & T & Z). exists h. split; auto. split; auto.
  split; [now apply ginv_spec|]. intros M. destruct (one_each (A := B64) (fun x => In x xs) g n xs (h_bins h) I Z M) as [K1 K2].
  split; auto. rewrite (run_binCounts (A := B64) n W xs h E L). now rewrite K2.
Qed.

Lemma members_perm {X} (g : X -> nat) k xs ys : Permutation xs ys -> members g k xs = members g k ys.
Proof.
  unfold members. induction 1 as [|x l l' _ IH|x y l|l l' l'' _ IH1 _ IH2]; auto.
  - cbn [filter]. destruct (Nat.eqb (g x) k); cbn [length]; lia.
  - cbn [filter]. destruct (Nat.eqb (g x) k), (Nat.eqb (g y) k); cbn [length]; lia.
  - congruence.
Qed.

Lemma grouped_perm n width g xs ys : Permutation xs ys -> groupedB n width g xs -> groupedB n width g ys.
Proof. intros P G x y Ix Iy. apply G; rewrite P; auto. Qed.

Lemma groups_any_order n W width (g : double -> nat) xs ys : 1 <= n -> length xs <= W -> groupedB n width g xs ->
  (forall k, k < n -> 0 < members g k xs) -> Permutation xs ys ->
  exists h h', update_all hist_update (hist_new (A := B64) n W true) xs = Ret h /\
    update_all hist_update (hist_new (A := B64) n W true) ys = Ret h' /\
    hist_binCounts h = hist_binCounts h' /\
    hist_binCounts h = Ret (map (fun k => members g k xs) (seq 0 n)).
Proof.
  intros Hn L G M P. destruct (groups_double n W width g xs Hn L G) as (h & E & _ & _ & K).
  destruct (groups_double n W width g ys Hn) as (h' & E' & _ & _ & K').
  { now rewrite <- (Permutation_length P). } { eapply grouped_perm; eauto. }
  destruct (K M) as [_ K1]. destruct K' as [_ K2].
  { intros k Hk. rewrite <- (members_perm g k xs ys P). auto. }
  exists h, h'. split; auto. split; auto. split; auto. rewrite K1, K2. f_equal. apply map_ext. intros k. now apply members_perm.
Qed.

(** One outlier and two bins: everything else shares a bin. *)
Definition outside (x : double) : nat := if Bleb x (Bz 1) then 0 else 1.

Lemma outlier W (xs ys : list double) : xs <> [] -> length xs < W ->
  Forall (fun x => finite64 x = true /\ (Rabs (B2R x) <= 1)%R) xs -> Permutation (Bz 1000000 :: xs) ys ->
  exists h, update_all hist_update (hist_new (A := B64) 2 W true) ys = Ret h /\ hist_binCounts h = Ret [length xs; 1].
Proof.
  intros N L F P. rewrite Forall_forall in F.
  destruct (Bz_exact 1000000) as [E6 F6]; [lia|]. destruct (Bz_exact 1) as [E1 F1]; [lia|].
  assert (O0 : forall x, In x xs -> outside x = 0).
  { intros x I. destruct (F x I) as [Fx Bx]. unfold outside. replace (Bleb x (Bz 1)) with true; auto. symmetry.
    apply X_leb; auto using fin_nan. rewrite !X_fin, E1 by auto. apply Rabs_le_inv in Bx. lra. }
  assert (O1 : outside (Bz 1000000) = 1) by (vm_compute; reflexivity).
  assert (B0 : (1000000 <= bpow radix2 1022)%R).
  { apply Rle_trans with (bpow radix2 20); [change (bpow radix2 20) with 1048576%R; lra|apply bpow_le; lia]. }
  assert (B1 : (bpow radix2 (-1000) <= 1)%R) by (change 1%R with (bpow radix2 0); apply bpow_le; lia).
  assert (G : groupedB 2 2 outside (Bz 1000000 :: xs)).
  { assert (C : forall x, In x (Bz 1000000 :: xs) -> x = Bz 1000000 /\ outside x = 1 \/ (In x xs /\ outside x = 0)).
    { intros x [<-|I]; auto. }
    intros x y Ix Iy. destruct (C x Ix) as [[Ex Ox]|[Jx Ox]], (C y Iy) as [[Ey Oy]|[Jy Oy]]; rewrite Ox, Oy.
    - subst x y. rewrite E6. split; [lia|]. split; auto. split; [now rewrite Rabs_pos_eq by lra|].
      split; [intros _; rewrite Rminus_eq_0, Rabs_R0; lra|lia].
    - subst x. rewrite E6. split; [lia|]. split; auto. split; [now rewrite Rabs_pos_eq by lra|]. split; lia.
    - subst y. destruct (F x Jx) as [Fx Bx]. rewrite E6. split; [lia|]. split; auto. split; [lra|]. split; [lia|]. intros _.
      pose proof (Rabs_le_inv _ _ Bx). split; [lra|]. split; [|lra]. rewrite (Rabs_pos_eq 1000000), Rmax_right by lra. lra.
    - destruct (F x Jx) as [Fx Bx], (F y Jy) as [Fy By]. split; [lia|]. split; auto. split; [lra|]. split; [|lia]. intros _.
      apply Rabs_le_inv in Bx, By. apply Rabs_le. lra. }
  assert (M0 : forall l, (forall x, In x l -> outside x = 0) -> members outside 0 l = length l /\ members outside 1 l = 0).
  { unfold members. induction l as [|x l IH]; intros Hl; [auto|]. cbn [filter]. rewrite (Hl x (or_introl eq_refl)). cbn [Nat.eqb length].
    destruct IH as [-> ->]; auto. intros; apply Hl; now right. }
  destruct (M0 xs O0) as [M1 M2].
  assert (Ms : members outside 0 (Bz 1000000 :: xs) = length xs /\ members outside 1 (Bz 1000000 :: xs) = 1).
  { unfold members in * |- . unfold members. cbn [filter]. rewrite O1. cbn [Nat.eqb length]. rewrite M1, M2. auto. }
  destruct (groups_any_order 2 W 2 outside (Bz 1000000 :: xs) ys) as (h & h' & E & E' & K1 & K2); auto.
  { intros k Hk. destruct Ms as [S1 S2]. destruct k as [|[|k]]; [rewrite S1; destruct xs; [congruence|cbn; lia]|rewrite S2; lia|lia]. }
  exists h'. split; auto. rewrite <- K1, K2. cbn [seq map]. destruct Ms as [-> ->]. reflexivity.
Qed.

Lemma too_close : exists h : hist B64, hist_stream 2 100 [1; 5; 12; 8]%Z = Ret h /\ hist_binCounts h = Ret [3; 1].
Proof. destruct hist_order_matters as (_ & h & g & _ & E & _ & K). exists g. split; auto. Qed.

(** Examples. *)
Definition half_up (x : double) : nat := if Bleb x (Bz 50) then 0 else if Bleb x (Bz 500) then 1 else 2.

Lemma half_up_grouped : groupedB 3 2 half_up (map Bz [1; 100; 2; 1000; 102; 3; 1001; 100]%Z) /\
  forall k, k < 3 -> 0 < members half_up k (map Bz [1; 100; 2; 1000; 102; 3; 1001; 100]%Z).
Proof.
  assert (V : forall z, (Z.abs z <= 2 ^ 53)%Z -> finite64 (Bz z) = true /\ B2R (Bz z) = IZR z) by (intros z Hz; destruct (Bz_exact z Hz); auto).
  assert (B1 : (bpow radix2 (-1000) <= 1)%R) by (change 1%R with (bpow radix2 0); apply bpow_le; lia).
  assert (B0 : (2000 <= bpow radix2 1022)%R).
  { apply Rle_trans with (bpow radix2 11); [change (bpow radix2 11) with 2048%R; lra|apply bpow_le; lia]. }
  split.
  - assert (C : forall z, In z [1; 100; 2; 1000; 102; 3; 1001; 100]%Z ->
      half_up (Bz z) = 0 /\ (1 <= z <= 3)%Z \/ half_up (Bz z) = 1 /\ (100 <= z <= 102)%Z \/ half_up (Bz z) = 2 /\ (1000 <= z <= 1002)%Z).
    { intros z I. cbn [In] in I. repeat destruct I as [<-|I]; try contradiction; first [left; split; [vm_compute; reflexivity|lia]|right; left; split; [vm_compute; reflexivity|lia]|right; right; split; [vm_compute; reflexivity|lia]]. }
    intros x y Ix Iy. apply in_map_iff in Ix as (a & <- & Ia), Iy as (b & <- & Ib). apply C in Ia, Ib.
    destruct (V a) as [Fa Ea]; [lia|]. destruct (V b) as [Fb Eb]; [lia|]. rewrite Ea, Eb, <- !abs_IZR, <- !minus_IZR.
    split; [lia|]. split; auto. split; [apply Rle_trans with 2000%R; [apply IZR_le; lia|auto]|]. split.
    + intros E. rewrite <- abs_IZR. apply IZR_le. lia.
    + intros E. split; [rewrite <- mult_IZR; apply IZR_le; lia|]. split.
      * assert (Rmax (IZR (Z.abs a)) (IZR (Z.abs b)) <= 2000)%R by (apply Rmax_lub; apply IZR_le; lia).
        assert (1 <= IZR (b - a))%R by (apply IZR_le; lia). lra.
      * apply Rle_trans with 1%R; auto. apply IZR_le. lia.
  - intros k Hk. destruct k as [|[|[|k]]]; [| | |lia]; vm_compute; lia.
Qed.

Definition small_big (x : R) : nat := if Rle_dec x 5 then 0 else 1.

Lemma small_big_grouped : groupedR 2 2 small_big [1; 10; 2; 12]%R /\ forall k, k < 2 -> 0 < members small_big k [1; 10; 2; 12]%R.
Proof.
  assert (B0 : (16 <= bpow radix2 1022)%R).
  { apply Rle_trans with (bpow radix2 4); [change (bpow radix2 4) with 16%R; lra|apply bpow_le; lia]. }
  assert (V : forall x, (x <= 5)%R -> small_big x = 0) by (intros x H; unfold small_big; destruct (Rle_dec x 5); [auto|lra]).
  assert (U : forall x, (5 < x)%R -> small_big x = 1) by (intros x H; unfold small_big; destruct (Rle_dec x 5); [lra|auto]).
  split.
  - assert (C : forall x, In x [1; 10; 2; 12]%R -> small_big x = 0 /\ (1 <= x <= 2)%R \/ small_big x = 1 /\ (10 <= x <= 12)%R).
    { intros x I. cbn [In] in I. repeat destruct I as [<-|I]; try contradiction;
        first [left; split; [apply V; lra|lra]|right; split; [apply U; lra|lra]]. }
    intros x y Ix Iy. destruct (C x Ix) as [[-> Hx]|[-> Hx]], (C y Iy) as [[-> Hy]|[-> Hy]];
      rewrite (Rabs_pos_eq x), (Rabs_pos_eq y) by lra; (split; [lia|]; split; [lra|]; split; [intros E; try lia; apply Rabs_le; lra|intros E; try lia]).
    rewrite Rmax_right; lra.
  - intros k Hk. unfold members. cbn [filter]. rewrite (V 1%R), (V 2%R), (U 10%R), (U 12%R) by lra.
    destruct k as [|[|k]]; [| |lia]; cbn; lia.
Qed.

Lemma outlier_example :
  [Bz (-1); Bz 0; Bz 1] <> [] /\ Forall (fun x => finite64 x = true /\ (Rabs (B2R x) <= 1)%R) [Bz (-1); Bz 0; Bz 1] /\
  Permutation (Bz 1000000 :: [Bz (-1); Bz 0; Bz 1]) [Bz (-1); Bz 1000000; Bz 0; Bz 1].
Proof.
  assert (V : forall z, (-1 <= z <= 1)%Z -> finite64 (Bz z) = true /\ (Rabs (B2R (Bz z)) <= 1)%R).
  { intros z Hz. destruct (Bz_exact z) as [E F]; [lia|]. split; auto. rewrite E, <- abs_IZR. apply IZR_le. lia. }
  split; [discriminate|]. split; [|apply perm_swap].
  constructor; [apply V; lia|]. constructor; [apply V; lia|]. constructor; [apply V; lia|constructor].
Qed.
