(** The histogram's cdf and quantile as statements about the data. *)

From Coq Require Import List Sorting.Sorted Arith Bool Lia ZArith Reals Lra.
From Flocq Require Import Core.Core IEEE754.BinarySingleNaN.
From Verif Require Import Outcome Arith Utils IBin Histogram Spec ListFacts HistSpec UtilsFacts HistFacts
  FloatSpec FloatFacts UtilsMono HistOrder HistStreams HistQuant HistWitness HistExactSpec HistExact.
Import ListNotations.
Local Open Scope nat_scope.

Lemma total_counts N W (xs : list R) (h : hist RA) :
  update_all hist_update (hist_new (A := RA) N W true) xs = Ret h -> length xs <= W ->
  h_total h = counts_sum h /\ list_sum (map b_count (h_bins h)) = length xs.
Proof. intros E L. destruct (run_counts _ _ _ _ E) as [_ C]. destruct (C L) as [C1 C2]. split; [now rewrite C1, C2|exact C1]. Qed.

Lemma Fcum_upto N W (xs : list R) (h : hist RA) k b :
  update_all hist_update (hist_new (A := RA) N W true) xs = Ret h -> length xs <= W -> separated (A := RA) xs ->
  nth_error (h_bins h) k = Some b ->
  Fcum (map b_count (h_bins h)) k = (INR (upto (b_right b) xs) / INR (length xs))%R.
Proof.
  intros E L S Ek. destruct (total_counts _ _ _ _ E L) as [_ T]. unfold Fcum.
  rewrite (upto_RA _ _ _ _ _ _ E L S Ek), T, !INR_IZR_INZ. reflexivity.
Qed.

Lemma cdf_empirical N W (xs : list R) (h : hist RA) k b :
  update_all hist_update (hist_new (A := RA) N W true) xs = Ret h -> length xs <= W -> separated (A := RA) xs ->
  nth_error (h_bins h) k = Some b ->
  nth_error (hist_cdf h true) k = Some (INR (upto (b_right b) xs) / INR (length xs))%R.
Proof.
  intros E L S Ek. destruct (total_counts _ _ _ _ E L) as [T _].
  assert (Lk : k < length (h_bins h)) by (apply nth_error_Some; congruence).
  rewrite cdf_Fcum, (Fcum_upto _ _ _ _ _ _ E L S Ek); auto.
Qed.

Lemma selected_own cs k k' : Forall (fun c => 1 <= c) cs -> k < length cs -> k' < length cs ->
  selected cs (Fcum cs k) k' -> k' = k.
Proof.
  intros F L L' [[H1 H2]|(H1 & H2 & H3)].
  - destruct k; auto. pose proof (Fcum_strict cs 0 (S k) F ltac:(lia) L). lra.
  - destruct (lt_eq_lt_dec k' k) as [[C|C]|C]; auto.
    + specialize (H3 k C L). lra.
    + pose proof (Fcum_strict cs k k' F C L'). lra.
Qed.

Lemma quantile_inverts N W (xs : list R) (h : hist RA) k b q :
  update_all hist_update (hist_new (A := RA) N W true) xs = Ret h -> length xs <= W -> 2 <= hist_size h ->
  nth_error (h_bins h) k = Some b -> nth_error (hist_cdf h true) k = Some q ->
  hist_quantile h q = Ret (b_left b).
Proof.
  intros E L S Ek Ec. destruct (total_counts _ _ _ _ E L) as [T Sm].
  pose proof (run_positive _ _ _ _ E L) as Pos.
  assert (Lk : k < length (h_bins h)) by (apply nth_error_Some; congruence).
  rewrite cdf_Fcum in Ec by auto. injection Ec as <-.
  set (cs := map b_count (h_bins h)) in * . assert (Fc : Forall (fun c => 1 <= c) cs) by (unfold cs; now rewrite Forall_map).
  assert (Lc : length cs = length (h_bins h)) by apply map_length.
  pose proof (sum_positive cs Fc) as Sp.
  assert (Hq : (0 <= Fcum cs k <= 1)%R).
  { split.
    - unfold Fcum. apply Rmult_le_pos; [apply IZR_le; lia|]. left. apply Rinv_0_lt_compat, IZR_lt. unfold hist_size in S. lia.
    - rewrite <- (Fcum_last cs (length cs)) at 1; [|unfold hist_size in S; lia|lia]. apply Fcum_mono; unfold hist_size in S; lia. }
  destruct (run_quantile_RA N W xs h (Fcum cs k) E L S Hq) as (k' & b' & Sel & Eb & Cases). fold cs in Sel, Cases.
  assert (Lk' : k' < length (h_bins h)) by (apply nth_error_Some; congruence).
  apply selected_own in Sel; auto; try lia. subst k'. rewrite Ek in Eb. injection Eb as <-.
  destruct Cases as [[_ Q]|[Q _]]; [exact Q|exfalso].
  assert (Refl : essentiallyEqual (A := RA) (Fcum cs k) (Fcum cs k) default_eps = true).
  { apply RA_essential. rewrite Rminus_diag_eq, Rabs_R0 by auto.
    apply Rmult_le_pos; [apply Rmin_glb; apply Rabs_pos|]. unfold default_eps, lit. cbn. lra. }
  congruence.
Qed.

(** Where q lies in the data when it is beyond the first bin. *)
Lemma quantile_bracket N W (xs : list R) (h : hist RA) q b0 :
  update_all hist_update (hist_new (A := RA) N W true) xs = Ret h -> length xs <= W -> separated (A := RA) xs ->
  2 <= hist_size h -> nth_error (h_bins h) 0 = Some b0 ->
  (INR (upto (b_right b0) xs) < q * INR (length xs) < INR (length xs))%R ->
  exists k b b', nth_error (h_bins h) k = Some b /\ nth_error (h_bins h) (S k) = Some b' /\
    (INR (upto (b_right b) xs) <= q * INR (length xs) < INR (upto (b_right b') xs))%R /\
    (hist_quantile h q = Ret (b_left b) \/
     hist_quantile h q = Ret (b_left b +
       (if Req_EM_T (b_right b) (b_left b) then / INR N else b_right b - b_left b) *
       (INR (inside (b_left b') (b_right b') xs) / INR (inside (b_left b) (b_right b) xs)))%R).
Proof.
  intros E L Sp0 Sz E0 Hq. destruct (total_counts _ _ _ _ E L) as [T Sm].
  pose proof (run_positive _ _ _ _ E L) as Pos.
  set (n := INR (length xs)) in * . assert (Hn : (0 < n)%R).
  { unfold n. apply lt_0_INR. assert (Fc : Forall (fun c => 1 <= c) (map b_count (h_bins h))) by now rewrite Forall_map.
    pose proof (sum_positive _ Fc) as Sp. rewrite map_length in Sp. unfold hist_size in Sz. lia. }
  assert (Q01 : (0 <= q <= 1)%R).
  { pose proof (pos_INR (upto (b_right b0) xs)). split; nra. }
  assert (FU : forall k b, nth_error (h_bins h) k = Some b -> Fcum (map b_count (h_bins h)) k = (INR (upto (b_right b) xs) / n)%R).
  { intros. eapply Fcum_upto; eauto. }
  destruct (run_quantile_RA N W xs h q E L Sz Q01) as (k & b & Sel & Eb & Cases).
  destruct (exact_RA _ _ _ _ E L Sp0) as (_ & _ & Ex & _ & _). rewrite Forall_forall in Ex.
  assert (Lt : forall a, (a / n < q <-> a < q * n)%R).
  { intros a. split; intros H.
    - apply Rmult_lt_compat_r with (r := n) in H; auto. unfold Rdiv in H. rewrite Rmult_assoc, Rinv_l in H by lra. lra.
    - apply Rmult_lt_reg_r with n; auto. unfold Rdiv. rewrite Rmult_assoc, Rinv_l by lra. lra. }
  assert (Gt : forall a, (q < a / n <-> q * n < a)%R).
  { intros a. split; intros H.
    - apply Rmult_lt_compat_r with (r := n) in H; auto. unfold Rdiv in H. rewrite Rmult_assoc, Rinv_l in H by lra. lra.
    - apply Rmult_lt_reg_r with n; auto. unfold Rdiv. rewrite Rmult_assoc, Rinv_l by lra. lra. }
  destruct Sel as [[H _]|(_ & H2 & H3)].
  { exfalso. rewrite (FU 0 b0 E0) in H. apply Rle_not_lt in H. apply H, Lt. lra. }
  rewrite (FU k b Eb) in H2.
  assert (Lk : k < length (h_bins h)) by (apply nth_error_Some; congruence).
  destruct (nth_error (h_bins h) (S k)) as [b'|] eqn:Eb'.
  2:{ exfalso. apply nth_error_None in Eb'. assert (C : Fcum (map b_count (h_bins h)) k = 1%R).
      { apply Fcum_last; rewrite ?map_length; auto. rewrite Sm. apply INR_lt. exact Hn. }
      rewrite (FU k b Eb) in C. assert (1 < q \/ 1 <= q)%R as K by lra. nra. }
  exists k, b, b'. split; auto. split; auto. split.
  - split; [apply Rnot_lt_le; rewrite <- Gt; lra|]. apply Gt. rewrite <- (FU (S k) b' Eb'). apply H3; [lia|].
    rewrite map_length. apply nth_error_Some. congruence.
  - destruct Cases as [[_ C]|(_ & b2 & Eb2 & C)]; [left; exact C|right].
    replace (k + 1) with (S k) in Eb2 by lia. rewrite Eb' in Eb2. injection Eb2 as <-.
    etransitivity; [exact C|].
    destruct (Ex b (nth_error_In _ _ Eb)) as (_ & _ & _ & <-). destruct (Ex b' (nth_error_In _ _ Eb')) as (_ & _ & _ & <-).
    reflexivity.
Qed.

(** ** Concrete runs *)
Definition five : list R := [3; 1; 2; 5; 2]%R.

Lemma five_separated : separated (A := RA) five.
Proof.
  assert (D : forall a b, (1 <= a -> a + 1 <= b -> b <= 100 -> definitelyLessThan (A := RA) a b default_eps = true)%R).
  { intros a b H1 H2 H3. apply RA_less. unfold default_eps, lit. cbn. rewrite !Rabs_pos_eq, Rmax_right by lra. lra. }
  intros x y Ix Iy. unfold five in * . simpl in Ix, Iy.
  repeat destruct Ix as [<-|Ix]; try contradiction; repeat destruct Iy as [<-|Iy]; try contradiction;
    try (left; cbn; now apply Reqb_true); first [right; left; apply D; lra | right; right; apply D; lra].
Qed.

Lemma bounded_less (x y : R) : (0 <= x <= 100)%R -> (0 <= y <= 100)%R ->
  definitelyLessThan (A := RA) (y - x)%R dbl_max default_eps = true.
Proof.
  intros Hx Hy. apply RA_less. unfold default_eps, lit. cbn [RA div of_Z dbl_max].
  assert (B : (bpow radix2 8 <= bpow radix2 1024)%R) by (apply bpow_le; lia). change (bpow radix2 8) with 256%R in B.
  assert (C : (bpow radix2 (-53) <= bpow radix2 (-1))%R) by (apply bpow_le; lia). change (bpow radix2 (-1)) with (/ 2)%R in C.
  pose proof (bpow_gt_0 radix2 (-53)). set (m := ((1 - bpow radix2 (-53)) * bpow radix2 1024)%R).
  assert (M : (128 <= m)%R) by (unfold m; nra). rewrite (Rabs_pos_eq m) by lra.
  rewrite Rmax_right; [lra|]. apply Rabs_le. lra.
Qed.

Lemma five_run : exists h, update_all hist_update (hist_new (A := RA) 2 5 true) five = Ret h /\ hist_size h = 2.
Proof.
  destruct (run_safe (A := RA) (fun x : R => (0 <= x <= 100)%R) 2 5 five) as (h & E); auto.
  { unfold five. repeat constructor; lra. }
  { intros x y. apply bounded_less. }
  exists h. split; auto.
  destruct (exact_RA 2 5 five h E) as (S1 & _ & _ & Cov & Pt); auto using five_separated.
  destruct (le_lt_dec 2 (hist_size h)) as [C|C]; [lia|exfalso]. specialize (Pt C). rewrite Forall_forall in Pt.
  destruct (Cov 1%R) as (b & Ib & Hb); [unfold five; simpl; auto|].
  destruct (Cov 2%R) as (c & Ic & Hc); [unfold five; simpl; auto|].
  assert (b = c) as ->.
  { unfold hist_size in C. destruct (h_bins h) as [|d [|e l]]; simpl in *; [tauto| |lia]. destruct Ib as [<-|[]], Ic as [<-|[]]; auto. }
  specialize (Pt c Ic). lra.
Qed.

Lemma five_upto : upto 3 five = 4.
Proof.
  unfold upto, five. cbn [filter].
  repeat match goal with |- context [Rle_dec ?a ?b] => destruct (Rle_dec a b); try lra end. reflexivity.
Qed.

Lemma upto_missing hi x xs : In x xs -> (hi < x)%R -> upto hi xs < length xs.
Proof.
  intros I H. unfold upto. induction xs as [|y xs IH]; [destruct I|]. cbn [filter].
  assert (Le : length (filter (fun x => if Rle_dec x hi then true else false) xs) <= length xs) by (clear; induction xs as [|y xs IH]; auto; cbn [filter]; destruct (Rle_dec y hi); simpl; lia).
  destruct I as [->|I].
  - destruct (Rle_dec x hi); [lra|]. simpl. lia.
  - specialize (IH I). destruct (Rle_dec y hi); simpl; lia.
Qed.

Lemma five_first : exists h b0 q, update_all hist_update (hist_new (A := RA) 2 5 true) five = Ret h /\
  nth_error (h_bins h) 0 = Some b0 /\ 2 <= hist_size h /\
  (INR (upto (b_right b0) five) < q * INR (length five) < INR (length five))%R.
Proof.
  destruct five_run as (h & E & S).
  destruct (exact_RA 2 5 five h E) as (_ & So & Ed & _); auto using five_separated.
  unfold hist_size in * . destruct (h_bins h) as [|b [|c l]] eqn:Eb; try discriminate.
  assert (U : upto (b_right b) five < length five).
  { inversion_clear So as [|? ? _ F]. inversion_clear F as [|? ? F1 _].
    inversion_clear Ed as [|? ? _ Ed']. inversion_clear Ed' as [|? ? (Ic & _) _].
    eapply upto_missing; eauto. }
  apply lt_INR in U. set (u := INR (upto (b_right b) five)) in * . change (INR (length five)) with (1 + 1 + 1 + 1 + 1)%R in * .
  exists h, b, ((u + 5) / 10)%R. split; auto. rewrite Eb. split; auto. split; [simpl; lia|]. fold u. lra.
Qed.
