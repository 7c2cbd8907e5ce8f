(** The histogram and the entropy in a unit that is a power of two times larger
    or smaller, in doubles. *)

From Coq Require Import List Reals ZArith Lra Lia Bool Arith.
From Flocq Require Import Core.Core IEEE754.BinarySingleNaN.
From Verif Require Import Outcome Arith Utils IBin Histogram Entropy Spec ListFacts FloatSpec FloatFacts Defaults AskSpec P2Affine UnitSpec UnitNum.
From Verif Require HistScale.
Import ListNotations.
Open Scope R_scope.

Lemma steady_lit (m d : Z) g : (Z.abs m <= 2 ^ 53)%Z -> (0 < d <= 2 ^ 53)%Z -> (0 <= g <= 1000)%Z ->
  bp (- g) <= IZR m / IZR d <= bp g -> steady g (lit (A := B64) m d).
Proof.
  intros Hm Hd Hg [L U]. destruct (lit_nearest m d Hm Hd) as [E F]. split; auto. rewrite E.
  pose proof (bpow_gt_0 radix2 (- g)). pose proof (rnd_le _ _ L). pose proof (rnd_le _ _ U).
  rewrite rnd_bpow in * by lia. rewrite Rabs_pos_eq; lra.
Qed.

Lemma steady_default : steady 30 (@default_eps B64).
Proof.
  apply steady_lit; [vm_compute; discriminate|vm_compute; split; [reflexivity|discriminate]|lia|].
  replace (bp (- (30))) with (/ IZR (2 ^ 30)) by reflexivity. replace (bp 30) with (IZR (2 ^ 30)) by reflexivity.
  cbn [Z.pow Z.pow_pos Pos.iter Z.mul Pos.mul]. split; lra.
Qed.
Lemma steady_bin : steady 30 (@bin_eps B64).
Proof.
  apply steady_lit; [vm_compute; discriminate|vm_compute; split; [reflexivity|discriminate]|lia|].
  replace (bp (- (30))) with (/ IZR (2 ^ 30)) by reflexivity. replace (bp 30) with (IZR (2 ^ 30)) by reflexivity.
  cbn [Z.pow Z.pow_pos Pos.iter Z.mul Pos.mul]. split; lra.
Qed.

Section Unit.
  Variables (k : Z).
  Local Notation f := (ldexp64 k).
  Local Notation sb := (ldexp_bin k).
  Local Notation sh := (ldexp_hist k).
  Local Notation D := (measured k 800).

  Definition bmax (x y : double) : double := if Bltb (Babs x) (Babs y) then Babs y else Babs x.
  Lemma max_scale e x y : (0 <= e <= 1000)%Z -> measured k e x -> measured k e y ->
    measured k e (bmax x y) /\ bmax (f x) (f y) = f (bmax x y).
  Proof.
    intros He Mx My. destruct (abs_scale k e x He Mx) as [Ax Ex]. destruct (abs_scale k e y He My) as [Ay Ey].
    unfold bmax. rewrite Ex, Ey, (ltb_scale k e) by auto. destruct (Bltb (Babs x) (Babs y)); auto.
  Qed.

  Lemma less_scale e x y (c : double) : (0 <= e <= 900)%Z -> measured k e x -> measured k e y -> steady 30 c ->
    definitelyLessThan (A := B64) (f x) (f y) c = definitelyLessThan (A := B64) x y c.
  Proof.
    intros He Mx My C. unfold definitelyLessThan.
    change (Bltb (Bmul (bmax (f x) (f y)) c) (Bsub (f y) (f x)) =
            Bltb (Bmul (bmax x y) c) (Bsub y x)).
    destruct (max_scale e x y ltac:(lia) Mx My) as [M E]. rewrite E.
    destruct (mul_scale_r k e 30 c _ ltac:(lia) ltac:(lia) ltac:(lia) C M) as [M' E']. rewrite E'.
    destruct (sub_scale k e y x He My Mx) as [M2 E2]. rewrite E2.
    apply (ltb_scale k (e + 53)); auto; [lia|]. eapply measured_mono; [|exact M']. lia.
  Qed.
  Lemma greater_scale e x y (c : double) : (0 <= e <= 900)%Z -> measured k e x -> measured k e y -> steady 30 c ->
    definitelyGreaterThan (A := B64) (f x) (f y) c = definitelyGreaterThan (A := B64) x y c.
  Proof.
    intros He Mx My C. unfold definitelyGreaterThan.
    change (Bltb (Bmul (bmax (f x) (f y)) c) (Bsub (f x) (f y)) =
            Bltb (Bmul (bmax x y) c) (Bsub x y)).
    destruct (max_scale e x y ltac:(lia) Mx My) as [M E]. rewrite E.
    destruct (mul_scale_r k e 30 c _ ltac:(lia) ltac:(lia) ltac:(lia) C M) as [M' E']. rewrite E'.
    destruct (sub_scale k e x y He Mx My) as [M2 E2]. rewrite E2.
    apply (ltb_scale k (e + 53)); auto; [lia|]. eapply measured_mono; [|exact M']. lia.
  Qed.

  Definition Db (b : bin B64) : Prop := D (b_left b) /\ D (b_right b).

  Lemma scale_lt b c : Db b -> Db c -> bin_lt (sb b) (sb c) = bin_lt b c.
  Proof. intros [B _] [C _]. apply (less_scale 800); auto; [lia|apply steady_default]. Qed.
  Lemma scale_add b c : Db b -> Db c -> bin_add (sb b) (sb c) = sb (bin_add b c) /\ Db (bin_add b c).
  Proof.
    intros [B1 B2] [C1 C2]. unfold bin_add, ldexp_bin. cbn [b_left b_right b_count].
    pose proof (less_scale 800 (b_left c) (b_left b) (@bin_eps B64) ltac:(lia) C1 B1 steady_bin) as E1.
    pose proof (greater_scale 800 (b_right c) (b_right b) (@bin_eps B64) ltac:(lia) C2 B2 steady_bin) as E2.
    cbn [B64 num] in E1, E2 |- * . rewrite E1, E2. split.
    - destruct (definitelyLessThan (A := B64) (b_left c) (b_left b) bin_eps), (definitelyGreaterThan (A := B64) (b_right c) (b_right b) bin_eps); reflexivity.
    - clear E1 E2. split; cbn [b_left b_right]; [destruct (definitelyLessThan _ _ _)|destruct (definitelyGreaterThan _ _ _)]; auto.
  Qed.

  Lemma at_sb (l : list (bin B64)) i : at_ (map sb l) i = omap sb (at_ l i).
  Proof. unfold at_. rewrite nth_error_map. destruct (nth_error l i); reflexivity. Qed.
  Lemma set_sb (l : list (bin B64)) : forall i x, set_nth (map sb l) i (sb x) = map sb (set_nth l i x).
  Proof. induction l as [|y l IH]; intros [|i] x; cbn [set_nth map]; auto. f_equal. apply IH. Qed.
  Lemma erase_sb (l : list (bin B64)) i : erase_nth (map sb l) i = map sb (erase_nth l i).
  Proof. revert i. induction l as [|y l IH]; intros [|i]; cbn [erase_nth map]; auto. f_equal. apply IH. Qed.
  Lemma insert_sb (l : list (bin B64)) i x : insert_nth (map sb l) i (sb x) = map sb (insert_nth l i x).
  Proof. revert i. induction l as [|y l IH]; intros [|i]; cbn [insert_nth map]; auto. f_equal. apply IH. Qed.

  Definition Dl (l : list (bin B64)) : Prop := Forall Db l.
  Lemma Dl_at l i b : Dl l -> at_ l i = Ret b -> Db b.
  Proof. intros F E. apply at_Ret in E. apply nth_error_In in E. unfold Dl in F. rewrite Forall_forall in F. auto. Qed.
  Lemma Dl_set (l : list (bin B64)) i x : Dl l -> Db x -> Dl (set_nth l i x).
  Proof. apply HistScale.Forall_set. Qed.
  Lemma Dl_erase (l : list (bin B64)) i : Dl l -> Dl (erase_nth l i).
  Proof. apply HistScale.Forall_erase. Qed.
  Lemma Dl_insert (l : list (bin B64)) i x : Dl l -> Db x -> Dl (insert_nth l i x).
  Proof. apply HistScale.Forall_insert. Qed.

  Lemma bsearch_sb fuel : forall (l : list (bin B64)) b low high i, Dl l -> Db b ->
    bsearch fuel (map sb l) (sb b) low high i = bsearch fuel l b low high i.
  Proof.
    induction fuel as [|n IH]; intros l b low high i F Fb; cbn [bsearch]; destruct (Nat.ltb low high); auto.
    rewrite at_sb, bind_omap. apply bind_ext. intros c Ec. pose proof (Dl_at _ _ _ F Ec). rewrite scale_lt by auto. apply IH; auto.
  Qed.

  (** Any gap between measurements beats the initial value of the minimum. *)
  Lemma dblmax_val : finite64 (dbl_max (a := B64)) = true /\ bp 1023 <= B2R (dbl_max (a := B64)).
  Proof.
    split; [reflexivity|].
    set (P := B754_finite (prec := 53) (emax := 1024) false 4503599627370496 971 eq_refl).
    apply (Rle_trans _ (B2R P)).
    - unfold P, B2R, F2R. cbn [Fnum Fexp cond_Zopp]. change (Z.pos 4503599627370496) with (2 ^ 52)%Z.
      change 2%Z with (radix_val radix2). rewrite IZR_Zpower by lia. rewrite <- bpow_plus. apply bpow_le. lia.
    - assert (H : Bleb P Bdblmax = true) by (vm_compute; reflexivity).
      apply X_leb in H; [|reflexivity|reflexivity]. exact H.
  Qed.

  Lemma first_gap (x y : double) : finite64 x = true -> finite64 y = true -> Rabs (B2R x) <= bp 800 -> Rabs (B2R y) <= bp 800 ->
    definitelyLessThan (A := B64) (Bsub x y) (dbl_max (a := B64)) (@default_eps B64) = true.
  Proof.
    intros Fx Fy Hx Hy. destruct dblmax_val as [FM LM]. cbn [B64 dbl_max] in FM, LM. unfold definitelyLessThan.
    change (Bltb (Bmul (if Bltb (Babs (Bsub x y)) (Babs Bdblmax) then Babs Bdblmax else Babs (Bsub x y)) (@default_eps B64)) (Bsub Bdblmax (Bsub x y)) = true).
    set (M := Bdblmax) in * . set (d := Bsub x y). generalize steady_default eps_default. generalize (@default_eps B64). intros c [Fc _] [Ec _].
    assert (D1 : Rabs (B2R x - B2R y) <= bp 801).
    { unfold Rminus. pose proof (Rabs_triang (B2R x) (- B2R y)) as T. rewrite Rabs_Ropp in T.
      assert (bp 801 = bp 800 + bp 800) by (change 801%Z with (800 + 1)%Z; rewrite bpow_plus; change (bp 1) with 2; ring). lra. }
    assert (D2 : Rabs (rnd (B2R x - B2R y)) <= bp 801).
    { rewrite <- rnd_abs. rewrite <- (rnd_bpow 801) by lia. now apply rnd_le. }
    assert (D3 : bp 801 < big) by (apply bpow_lt; lia).
    destruct (sub_ok x y Fx Fy) as (E & F & _); [lra|]. fold d in E, F.
    assert (D4 : Rabs (B2R d) <= bp 801) by (rewrite E; exact D2). clearbody d.
    assert (D5 : bp 801 < bp 1022) by (apply bpow_lt; lia).
    assert (D6 : bp 1023 = bp 1022 + bp 1022) by (change 1023%Z with (1022 + 1)%Z; rewrite bpow_plus; change (bp 1) with 2; ring).
    pose proof (B2R_lt_big M) as UM. pose proof (bpow_gt_0 radix2 1022) as P22.
    assert (PM : Rabs (B2R M) = B2R M) by (apply Rabs_pos_eq; lra).
    assert (Q : Bltb (Babs d) (Babs M) = true).
    { apply X_ltb; [rewrite nan_abs; now apply fin_nan|rewrite nan_abs; now apply fin_nan|].
      rewrite !X_abs, !X_fin by auto. lra. }
    rewrite Q. assert (FA : finite64 (Babs M) = true) by (rewrite fin_abs; exact FM).
    destruct (X_mul (Babs M) c FA Fc) as [Xm Nm]. destruct (X_sub M d FM F) as [Xs Ns].
    apply X_ltb; [exact Nm|exact Ns|]. rewrite Xm, Xs.
    assert (BA : B2R (Babs M) = B2R M) by (rewrite B2R_Babs; exact PM). rewrite BA.
    assert (Lc : 0 <= B2R c <= bp (-13)).
    { rewrite Ec. split.
      - rewrite <- rnd_0. apply rnd_le. lra.
      - rewrite <- (rnd_bpow (-13)) by lia. apply rnd_le. change (bp (-13)) with (/ 8192). lra. }
    apply Rle_lt_trans with (R64 (bp 1011)).
    - apply R64_le. replace (bp 1011) with (big * bp (-13)).
      + rewrite PM in UM. apply Rmult_le_compat; lra.
      + unfold big. rewrite <- bpow_plus. reflexivity.
    - assert (S : forall e, (0 <= e <= 1022)%Z -> R64 (bp e) = bp e).
      { intros e He. unfold R64. rewrite rnd_bpow by lia. apply sat_in. rewrite Rabs_pos_eq by apply bpow_ge_0. apply bpow_lt. lia. }
      rewrite (S 1011%Z) by lia. apply Rlt_le_trans with (bp 1022); [apply bpow_lt; lia|].
      rewrite <- (S 1022%Z) by lia. apply R64_le. apply Rabs_le_inv in D4. lra.
  Qed.

  Lemma D_abs (x : double) : D x -> finite64 x = true /\ Rabs (B2R x) <= bp 800 /\ finite64 (f x) = true /\ Rabs (B2R (f x)) <= bp 800.
  Proof.
    intros M. destruct (ldexp_val k 800 x ltac:(lia) M) as (E & F & _). split; [apply M|].
    destruct M as [_ [Z|[[H1 H2] [H3 H4]]]].
    - rewrite E, Z, Rmult_0_l, Rabs_R0. repeat split; auto; apply bpow_ge_0.
    - rewrite E, Rabs_mult, (Rabs_pos_eq (bp k)) by apply bpow_ge_0. auto.
  Qed.

  Lemma min_gap_sb (l : list (bin B64)) : forall i m j, Dl l -> measured k 853 m ->
    min_gap (A := B64) (map sb l) i (f m) j = (f (fst (min_gap (A := B64) l i m j)), snd (min_gap (A := B64) l i m j)).
  Proof.
    induction l as [|b0 l IH]; intros i m j F M; [reflexivity|].
    destruct l as [|b1 l]; [reflexivity|].
    inversion F as [|? ? [_ F0] F']. subst. pose proof F' as F''. inversion F'' as [|? ? [_ F1] _]. subst.
    destruct (sub_scale k 800 (b_right b1) (b_right b0) ltac:(lia) F1 F0) as [MD ED].
    pose proof (less_scale 853 (Bsub (b_right b1) (b_right b0)) m (@default_eps B64) ltac:(lia) MD M steady_default) as E.
    change (min_gap (A := B64) (map sb (b0 :: b1 :: l)) i (f m) j) with
      (if definitelyLessThan (A := B64) (Bsub (f (b_right b1)) (f (b_right b0))) (f m) (@default_eps B64)
       then min_gap (A := B64) (map sb (b1 :: l)) (S i) (Bsub (f (b_right b1)) (f (b_right b0))) i
       else min_gap (A := B64) (map sb (b1 :: l)) (S i) (f m) j).
    rewrite ED, E. cbn [min_gap].
    change (sub (a := B64) (b_right b1) (b_right b0)) with (Bsub (b_right b1) (b_right b0)).
    destruct (definitelyLessThan _ m _); apply IH; auto.
  Qed.

  Lemma min_gap_big (l : list (bin B64)) j : Dl l ->
    snd (min_gap (A := B64) (map sb l) 0 (dbl_max (a := B64)) j) = snd (min_gap (A := B64) l 0 (dbl_max (a := B64)) j).
  Proof.
    intros T. destruct l as [|b0 [|b1 l]]; [reflexivity|reflexivity|].
    inversion T as [|? ? [_ T0] T']. subst. pose proof T' as T''. inversion T'' as [|? ? [_ T1] _]. subst.
    destruct (sub_scale k 800 (b_right b1) (b_right b0) ltac:(lia) T1 T0) as [MD ED].
    destruct (D_abs _ T0) as (A1 & A2 & A3 & A4). destruct (D_abs _ T1) as (B1 & B2 & B3 & B4).
    change (snd (if definitelyLessThan (A := B64) (Bsub (f (b_right b1)) (f (b_right b0))) (dbl_max (a := B64)) (@default_eps B64)
       then min_gap (A := B64) (map sb (b1 :: l)) 1 (Bsub (f (b_right b1)) (f (b_right b0))) 0
       else min_gap (A := B64) (map sb (b1 :: l)) 1 (dbl_max (a := B64)) j) =
      snd (if definitelyLessThan (A := B64) (Bsub (b_right b1) (b_right b0)) (dbl_max (a := B64)) (@default_eps B64)
       then min_gap (A := B64) (b1 :: l) 1 (Bsub (b_right b1) (b_right b0)) 0
       else min_gap (A := B64) (b1 :: l) 1 (dbl_max (a := B64)) j)).
    rewrite !first_gap by auto. rewrite ED, min_gap_sb by auto. reflexivity.
  Qed.

  Lemma merge_sb (l : list (bin B64)) : Dl l ->
    hist_merge (A := B64) (map sb l) = omap (fun '(m, i) => (map sb m, i)) (hist_merge (A := B64) l).
  Proof.
    intros T. pose proof (min_gap_big l (length l) T) as E. unfold hist_merge.
    rewrite map_length.
    destruct (min_gap (A := B64) (map sb l) 0 (dbl_max (a := B64)) (length l)) as [g i'].
    destruct (min_gap (A := B64) l 0 (dbl_max (a := B64)) (length l)) as [g2 i]. cbn [snd] in E. subst i'.
    unfold mergeBins. rewrite at_sb, !bind_assoc, bind_omap, omap_bind. apply bind_ext. intros b Eb.
    rewrite erase_sb, at_sb, !bind_assoc, bind_omap, omap_bind. apply bind_ext. intros c Ec.
    cbn [bind omap bin_add_assign fst].
    pose proof (Dl_at _ _ _ T Eb) as Tb. pose proof (Dl_at _ _ _ (Dl_erase _ _ T) Ec) as Tc.
    rewrite (proj1 (scale_add c b Tc Tb)), set_sb. reflexivity.
  Qed.

  Lemma decay_sb (h : hist B64) : hist_decayCounts (sh h) = omap sh (hist_decayCounts h).
  Proof.
    destruct h as [N W d l w t hs nw dl]. unfold hist_decayCounts, ldexp_hist.
    cbn [h_numBins h_windowSize h_decay h_bins h_window h_total h_history h_news h_deletes].
    destruct d; [|reflexivity]. destruct (Nat.ltb W t); [|reflexivity].
    destruct w as [[|del w]|]; [reflexivity| |reflexivity].
    rewrite at_sb, bind_omap, omap_bind. apply bind_ext. intros b _. cbn [omap bind]. f_equal.
    cbn [h_numBins h_windowSize h_decay h_bins h_window h_total h_history h_news h_deletes].
    set (b' := if Nat.ltb 0 (b_count b) then Bin (A := B64) (b_left b) (b_right b) (b_count b - 1) else b).
    assert (EB : (if Nat.ltb 0 (b_count (sb b)) then Bin (A := B64) (b_left (sb b)) (b_right (sb b)) (b_count (sb b) - 1) else sb b) = sb b').
    { unfold b'. cbn [ldexp_bin b_count b_left b_right]. destruct (Nat.ltb 0 (b_count b)); reflexivity. }
    rewrite EB, set_sb, map_length. cbn [ldexp_bin b_count]. f_equal.
    destruct (Nat.ltb N _); [|reflexivity]. destruct (Nat.eqb _ 0); [|reflexivity]. apply erase_sb.
  Qed.

  Lemma add_sb (h : hist B64) (x : double) : Dl (h_bins h) -> D x -> hist_add (sh h) (f x) = omap sh (hist_add h x).
  Proof.
    destruct h as [N W d l w t hs nw dl]. cbn [h_bins]. intros T Tx. unfold hist_add, hist_binSearch_bin, ldexp_hist.
    cbn [h_numBins h_windowSize h_decay h_bins h_window h_total h_history h_news h_deletes].
    change (Bin (A := B64) (f x) (f x) 1) with (sb (Bin (A := B64) x x 1)).
    rewrite map_length, bsearch_sb, omap_bind by (auto; split; exact Tx). apply bind_ext. intros i _.
    match goal with |- bind ?o _ = omap _ (bind ?o' _) => assert (EO : o = omap (fun '(m, k) => (map sb m, k)) o') end.
    { destruct (Nat.eqb 0 t); [cbn [omap bind]; now rewrite map_app|].
      destruct (Nat.eqb i (length l)); [cbn [omap bind]; now rewrite map_app|].
      rewrite at_sb, bind_omap, omap_bind. apply bind_ext. intros b Eb. pose proof (Dl_at _ _ _ T Eb) as [Tb _].
      change (leb (a := B64) (b_left (sb b)) (f x)) with (Bleb (f (b_left b)) (f x)).
      change (leb (a := B64) (b_left b) x) with (Bleb (b_left b) x).
      rewrite (leb_scale k 800) by (auto; lia). destruct (Bleb (b_left b) x).
      - cbn [omap bind]. do 2 f_equal. apply (set_sb l i (Bin (A := B64) (b_left b) (b_right b) (b_count b + 1))).
      - cbn [omap bind]. do 2 f_equal. apply (insert_sb l i (Bin (A := B64) x x 1)). }
    rewrite EO, bind_omap, omap_bind. apply bind_ext. intros [m j] _.
    destruct w as [w|]; [|reflexivity]. apply (decay_sb (Hist N W d m (Some (w ++ [i])) (t + 1) (hs + 1) (nw + 1) (dl + j))).
  Qed.

  Lemma decay_tame (h h' : hist B64) : Dl (h_bins h) -> hist_decayCounts h = Ret h' -> Dl (h_bins h').
  Proof.
    intros T. unfold hist_decayCounts. destruct (h_decay h); [|now intros [= <-]].
    destruct (Nat.ltb _ _); [|now intros [= <-]]. destruct (h_window h) as [[|del w]|]; try discriminate.
    intros E. apply bind_Ret in E as (b & Eb & E). injection E as <-. cbn [h_bins].
    pose proof (Dl_at _ _ _ T Eb) as Tb.
    assert (K : Dl (set_nth (h_bins h) del (if Nat.ltb 0 (b_count b) then Bin (b_left b) (b_right b) (b_count b - 1) else b))).
    { apply Dl_set; auto. destruct (Nat.ltb 0 (b_count b)); exact Tb. }
    revert K. generalize (if Nat.ltb 0 (b_count b) then Bin (b_left b) (b_right b) (b_count b - 1) else b). intros b' K.
    destruct (Nat.ltb _ _); auto. destruct (Nat.eqb _ _); auto. apply Dl_erase. exact K.
  Qed.

  Lemma add_tame (h h' : hist B64) (x : double) : Dl (h_bins h) -> D x -> hist_add h x = Ret h' -> Dl (h_bins h').
  Proof.
    intros T Tx E. unfold hist_add in E. apply bind_Ret in E as (i & _ & E). apply bind_Ret in E as ([m j] & Em & E).
    destruct (h_window h) as [w|]; [|discriminate]. apply decay_tame in E; auto. cbn [h_bins].
    assert (Tn : Dl [Bin (A := B64) x x 1]) by (constructor; [split; exact Tx|constructor]).
    destruct (Nat.eqb 0 _); [injection Em as <- _; apply Forall_app; split; auto|].
    destruct (Nat.eqb _ _); [injection Em as <- _; apply Forall_app; split; auto|].
    apply bind_Ret in Em as (b & Eb & Em). pose proof (Dl_at _ _ _ T Eb) as Tb. destruct (leb _ _).
    - injection Em as <- _. apply Dl_set; auto.
    - injection Em as <- _. apply Dl_insert; auto. split; exact Tx.
  Qed.

  Lemma update_tame (h h' : hist B64) (x : double) : Dl (h_bins h) -> D x -> hist_update h x = Ret h' -> Dl (h_bins h').
  Proof.
    intros T Tx E. unfold hist_update in E. apply bind_Ret in E as (h1 & E1 & E). apply add_tame in E1; auto.
    destruct (Nat.ltb _ _); [|injection E as <-; exact E1].
    apply bind_Ret in E as ([m i] & Em & E). apply bind_Ret in E as (w & _ & E). injection E as <-. cbn [h_bins].
    unfold hist_merge in Em. destruct (min_gap _ _ _ _) as [g j]. apply bind_Ret in Em as (m' & Em' & Em). injection Em as <- _.
    unfold mergeBins in Em'. apply bind_Ret in Em' as (b & Eb & Em'). apply bind_Ret in Em' as (c & Ec & Em').
    injection Em' as <-. pose proof (Dl_at _ _ _ E1 Eb) as Tb.
    pose proof (Dl_erase _ (j + 1) E1) as F. pose proof (Dl_at _ _ _ F Ec) as Tc. apply Dl_set; auto.
    apply (proj2 (scale_add c b Tc Tb)).
  Qed.

  Lemma update_sb (h : hist B64) (x : double) : Dl (h_bins h) -> D x ->
    hist_update (sh h) (f x) = omap sh (hist_update h x).
  Proof.
    intros T Tx. unfold hist_update. rewrite add_sb, bind_omap, omap_bind by auto. apply bind_ext. intros h1 E1.
    pose proof (add_tame h h1 x T Tx E1) as T1. destruct h1 as [N W d l w t hs nw dl]. unfold ldexp_hist.
    cbn [h_numBins h_windowSize h_decay h_bins h_window h_total h_history h_news h_deletes] in T1 |- * .
    rewrite map_length. destruct (Nat.ltb N (length l)); [|reflexivity].
    rewrite (merge_sb l T1), bind_omap, omap_bind. apply bind_ext. intros [m i] _.
    destruct d; [|reflexivity]. destruct w as [w|]; reflexivity.
  Qed.

  Lemma hist_ldexp N W d (xs : list double) : Forall D xs ->
    update_all hist_update (hist_new (A := B64) N W d) (map f xs) =
    omap sh (update_all hist_update (hist_new (A := B64) N W d) xs) /\
    (forall h, update_all hist_update (hist_new (A := B64) N W d) xs = Ret h -> Dl (h_bins h)).
  Proof.
    induction xs as [|x xs IH] using rev_ind; intros F.
    - split; [reflexivity|]. intros h E. injection E as <-. constructor.
    - apply Forall_app in F as (F & Fx). inversion Fx as [|? ? Tx _]; subst. destruct (IH F) as (E & T).
      rewrite map_app. cbn [map]. rewrite !update_all_snoc. split.
      + etransitivity; [eapply (f_equal (fun o => bind o _) E)|]. rewrite bind_omap, omap_bind. apply bind_ext. intros h Eh.
        apply update_sb; auto.
      + intros h Eh. apply bind_Ret in Eh as (h1 & E1 & Eh). eapply update_tame; eauto.
  Qed.

  (** What does not look at the edges. *)
  Lemma pdf_sb (h : hist B64) n : hist_pdf (sh h) n false = hist_pdf h n false.
  Proof. unfold hist_pdf. destruct h as [N W d l w t hs nw dl]; cbn [ldexp_hist h_bins h_total]. rewrite map_map. reflexivity. Qed.
  Lemma cdf_sb (h : hist B64) n : hist_cdf (sh h) n = hist_cdf h n.
  Proof. unfold hist_cdf. now rewrite pdf_sb. Qed.
  Lemma counts_sb (h : hist B64) : hist_binCounts (sh h) = hist_binCounts h.
  Proof. unfold hist_binCounts. destruct h as [N W d l w t hs nw dl]; cbn [ldexp_hist h_bins h_total]. rewrite map_map. reflexivity. Qed.
  Lemma getBin_sb (h : hist B64) i : hist_getBin (sh h) i = omap sb (hist_getBin h i).
  Proof.
    unfold hist_getBin. destruct h as [N W d l w t hs nw dl]; unfold ldexp_hist. cbn [h_bins]. rewrite map_length.
    destruct (Nat.ltb _ _); [reflexivity|apply at_sb].
  Qed.

  Definition entry_sb (e : (double * double) * nat) : (double * double) * nat :=
    let '((l, r), n) := e in ((f l, f r), n).
  Definition De (e : (double * double) * nat) : Prop := D (fst (fst e)) /\ D (snd (fst e)).

  Lemma key_sb (a b c d : double) : D a -> D b -> D c -> D d ->
    key_lt (A := B64) (f a, f b) (f c, f d) = key_lt (A := B64) (a, b) (c, d).
  Proof.
    intros Ma Mb Mc Md. unfold key_lt. cbn [fst snd]. change (ltb (a := B64)) with (@Bltb 53 1024).
    rewrite !(ltb_scale k 800) by (auto; lia). reflexivity.
  Qed.

  Lemma assign_sb (m : list ((double * double) * nat)) (l r : double) n : Forall De m -> D l -> D r ->
    map_assign (A := B64) (map entry_sb m) (f l, f r) n = map entry_sb (map_assign (A := B64) m (l, r) n) /\
    Forall De (map_assign (A := B64) m (l, r) n).
  Proof.
    intros F Ml Mr. induction F as [|[[a b] j] m [Ma Mb] F IH]; cbn [map map_assign entry_sb].
    - split; [reflexivity|]. constructor; [split; auto|constructor].
    - cbn [fst snd] in Ma, Mb. rewrite !key_sb by auto. destruct IH as [E1 E2].
      destruct (key_lt (A := B64) (l, r) (a, b)).
      { split; [reflexivity|]. constructor; [split; auto|]. constructor; [split; auto|auto]. }
      destruct (key_lt (A := B64) (a, b) (l, r)).
      + split; [cbn [map entry_sb]; f_equal; exact E1|]. constructor; [split; auto|exact E2].
      + split; [reflexivity|]. constructor; [split; auto|auto].
  Qed.

  Lemma report_sb (h : hist B64) : Dl (h_bins h) ->
    hist_report (sh h) = map entry_sb (hist_report h).
  Proof.
    unfold hist_report. destruct h as [N W d l w t hs nw dl]; unfold ldexp_hist. cbn [h_bins]. intros T.
    enough (G : forall m : list ((double * double) * nat), Forall De m ->
      fold_left (fun m b => map_assign m (b_left b, b_right b) (b_count b)) (map sb l) (map entry_sb m) =
      map entry_sb (fold_left (fun m b => map_assign (A := B64) m (b_left b, b_right b) (b_count b)) l m)) by exact (G [] (Forall_nil _)).
    induction T as [|b l [Tl Tr] T IH]; intros m Fm; cbn [map fold_left]; [reflexivity|].
    destruct (assign_sb m (b_left b) (b_right b) (b_count b) Fm Tl Tr) as [E1 E2].
    cbn [ldexp_bin b_left b_right b_count]. etransitivity; [|apply IH; exact E2]. f_equal. exact E1.
  Qed.

  Definition se (s : entropy B64) : entropy B64 :=
    Entropy (A := B64) (e_window s) (e_wsize s) (e_history s) (sh (e_hist s)) (e_value s).

  Lemma search_sb (h : hist B64) (x : double) : Dl (h_bins h) -> D x -> hist_binSearch (sh h) (f x) = hist_binSearch h x.
  Proof.
    intros T Tx.
    unfold hist_binSearch, hist_binSearch_bin. destruct h as [N W d l w t hs nw dl]; unfold ldexp_hist; cbn [h_bins]. rewrite map_length.
    apply (bsearch_sb _ _ (Bin (A := B64) x x 1)); [exact T|split; exact Tx].
  Qed.

  Lemma decrement_sb lg (h : hist B64) v i : entropy_decrement (A := B64) lg (sh h) v i = entropy_decrement (A := B64) lg h v i.
  Proof.
    unfold entropy_decrement. rewrite getBin_sb, bind_omap. apply bind_ext. intros b _. destruct h as [N W d l w t hs nw dl]; reflexivity.
  Qed.
  Lemma increment_sb lg (h : hist B64) v i : entropy_increment (A := B64) lg (sh h) v i = entropy_increment (A := B64) lg h v i.
  Proof.
    unfold entropy_increment. rewrite getBin_sb, bind_omap. apply bind_ext. intros b _. destruct h as [N W d l w t hs nw dl]; reflexivity.
  Qed.

  Lemma eupdate_sb lg (s : entropy B64) (x : double) : Dl (h_bins (e_hist s)) -> D x ->
    entropy_update lg (se s) (f x) = omap se (entropy_update lg s x) /\
    (forall s', entropy_update lg s x = Ret s' -> Dl (h_bins (e_hist s'))).
  Proof.
    destruct s as [w W hs h v]. cbn [e_hist]. intros T Tx. split.
    - unfold entropy_update, se. cbn [e_window e_wsize e_history e_hist e_value].
      rewrite search_sb, omap_bind by auto. apply bind_ext. intros i _. destruct w as [w|]; [|reflexivity].
      match goal with |- bind ?o _ = omap _ (bind ?o' _) => assert (EO : o = o') end.
      { destruct (Nat.ltb _ _); [|reflexivity]. destruct (w ++ [i]); [reflexivity|]. now rewrite decrement_sb. }
      rewrite EO, omap_bind. apply bind_ext. intros [w2 v2] _.
      rewrite update_sb, bind_omap, omap_bind by auto.
      apply bind_ext. intros h' _. rewrite increment_sb, omap_bind. reflexivity.
    - intros s' E. unfold entropy_update in E. cbn [e_window e_wsize e_history e_hist e_value] in E.
      apply bind_Ret in E as (i & _ & E). destruct w as [w|]; [|discriminate].
      apply bind_Ret in E as ([w2 v2] & _ & E). apply bind_Ret in E as (h' & Eh & E). apply bind_Ret in E as (v3 & _ & E).
      injection E as <-. cbn [e_hist]. eapply update_tame; eauto.
  Qed.

  Lemma entropy_ldexp lg W N (s0 : entropy B64) (xs : list double) : entropy_new (A := B64) W N = Ret s0 -> Forall D xs ->
    update_all (entropy_update lg) s0 (map f xs) = omap se (update_all (entropy_update lg) s0 xs) /\
    (forall s, update_all (entropy_update lg) s0 xs = Ret s -> Dl (h_bins (e_hist s))).
  Proof.
    intros E0. unfold entropy_new in E0. apply bind_Ret in E0 as (n & _ & E0). injection E0 as <-.
    induction xs as [|x xs IH] using rev_ind; intros F.
    - split; [reflexivity|]. intros h E. injection E as <-. constructor.
    - apply Forall_app in F as (F & Fx). inversion Fx as [|? ? Tx _]; subst. destruct (IH F) as (E & T).
      rewrite map_app. cbn [map]. rewrite !update_all_snoc. split.
      + etransitivity; [eapply (f_equal (fun o => bind o _) E)|]. rewrite bind_omap, omap_bind. apply bind_ext. intros h Eh.
        apply eupdate_sb; auto.
      + intros h Eh. apply bind_Ret in Eh as (h1 & E1 & Eh). eapply eupdate_sb; eauto.
  Qed.

  Lemma entropy_ldexp_answer lg W N (xs : list double) : Forall D xs ->
    let answer ys := let* s0 := entropy_new (A := B64) W N in omap entropy_evaluate (update_all (entropy_update lg) s0 ys) in
    answer (map f xs) = answer xs.
  Proof.
    intros F answer. unfold answer. apply bind_ext. intros s0 E0. rewrite (proj1 (entropy_ldexp lg W N s0 xs E0 F)).
    unfold omap at 1. rewrite bind_omap. reflexivity.
  Qed.
End Unit.

Lemma hist_unit k N W d (xs : list double) : Forall (measured k 800) xs ->
  update_all hist_update (hist_new (A := B64) N W d) (map (ldexp64 k) xs) =
    omap (ldexp_hist k) (update_all hist_update (hist_new (A := B64) N W d) xs) /\
  forall h, update_all hist_update (hist_new (A := B64) N W d) xs = Ret h ->
    (forall n, hist_pdf (ldexp_hist k h) n false = hist_pdf h n false) /\
    (forall n, hist_cdf (ldexp_hist k h) n = hist_cdf h n) /\
    hist_binCounts (ldexp_hist k h) = hist_binCounts h /\
    (forall i, hist_getBin (ldexp_hist k h) i = omap (ldexp_bin k) (hist_getBin h i)) /\
    (forall x, measured k 800 x -> hist_binSearch (ldexp_hist k h) (ldexp64 k x) = hist_binSearch h x) /\
    hist_report (ldexp_hist k h) =
      map (fun e => (ldexp64 k (fst (fst e)), ldexp64 k (snd (fst e)), snd e)) (hist_report h).
Proof.
  intros F. destruct (hist_ldexp k N W d xs F) as [E T]. split; [exact E|]. intros h Eh. specialize (T h Eh).
  split; [intros; apply pdf_sb|]. split; [intros; apply cdf_sb|]. split; [apply counts_sb|]. split; [intros; apply getBin_sb|].
  split; [intros; apply search_sb; auto|]. rewrite report_sb by exact T. apply map_ext. intros [[a b] n]. reflexivity.
Qed.
