(** Proofs about StreamingMean and StreamingVariance. *)

From Coq Require Import List Reals ZArith Lra Lia Bool Arith.
From Flocq Require Import Core.Core IEEE754.BinarySingleNaN.
From Verif Require Import Outcome Arith Mean Spec MeanSpec ListFacts FloatFacts UtilsFacts.
Import ListNotations.

(** ** Any arithmetic *)

Section Any.
  Context {A : arith}.

  (** The running sum as the code computes it. *)
  Definition next_sum (W : nat) (xs : list A) (sum x : A) : A :=
    match W with
    | O => sum +. x
    | S _ => match lastn W xs with
             | f :: _ => if Nat.ltb (length xs) W then sum +. x else (sum -. f) +. x
             | [] => sum +. x
             end
    end.

  Record mean_inv (W : nat) (xs : list A) (s : mean A) : Prop := {
    mi_window : mn_window s = if Nat.ltb 0 W then Some (lastn W xs) else None;
    mi_wsize : mn_wsize s = W;
    mi_history : mn_history s = length xs
  }.

  Lemma mean_new_inv W : mean_inv W [] (mean_new W).
  Proof. split; auto. Qed.

  Lemma mean_step W xs s x : mean_inv W xs s ->
    exists s', mean_update s x = Ret s' /\ mean_inv W (xs ++ [x]) s' /\
      mn_sum s' = next_sum W xs (mn_sum s) x.
  Proof.
    intros [Hw Hs Hh]. unfold mean_update, next_sum. rewrite Hw, Hs. destruct W as [|W'].
    - simpl. eexists. split; [reflexivity|]. split; auto. split; simpl; auto.
      rewrite app_length, Hh. auto.
    - set (W := S W') in * . change (Nat.ltb 0 W) with true. cbv iota.
      rewrite lastn_length. destruct (Nat.ltb_spec (length xs) W).
      + replace (W <? Nat.min W (length xs) + 1)%nat with false by (symmetry; apply Nat.ltb_ge; lia).
        simpl. eexists. split; [reflexivity|]. split.
        * split; simpl; auto; [|rewrite app_length, Hh; auto].
          rewrite lastn_snoc_short, lastn_all by lia. auto.
        * simpl. destruct (lastn W xs); auto.
      + replace (W <? Nat.min W (length xs) + 1)%nat with true by (symmetry; apply Nat.ltb_lt; lia).
        destruct (lastn W xs) as [|f w] eqn:E.
        { assert (L : length (lastn W xs) = 0%nat) by (rewrite E; auto). rewrite lastn_length in L.
          unfold W in *; lia. }
        simpl. eexists. split; [reflexivity|]. split; auto.
        split; simpl; auto; [|rewrite app_length, Hh; auto].
        rewrite lastn_snoc by (unfold W; lia).
        replace (length xs <? W)%nat with false by (symmetry; apply Nat.ltb_ge; lia). rewrite E. auto.
  Qed.

  Lemma mean_run W (xs : list A) :
    exists s, update_all mean_update (mean_new W) xs = Ret s /\ mean_inv W xs s.
  Proof.
    apply update_all_total; [apply mean_new_inv|]. intros ys s x H.
    destruct (mean_step W ys s x H) as (s' & E & H' & _). eauto.
  Qed.

  (** Runs with a property of the sum. *)
  Lemma mean_run_sum W (P : list A -> A -> Prop) (Q : A -> Prop) :
    P [] (of_Z 0) ->
    (forall xs sum x, Forall Q (xs ++ [x]) -> P xs sum -> P (xs ++ [x]) (next_sum W xs sum x)) ->
    forall xs, Forall Q xs ->
    exists s, update_all mean_update (mean_new W) xs = Ret s /\ mean_inv W xs s /\ P xs (mn_sum s).
  Proof.
    intros H0 Hstep. induction xs as [|x xs IH] using rev_ind; intros HQ.
    - eexists. split; [reflexivity|]. split; [apply mean_new_inv|exact H0].
    - destruct IH as (s & E & Hi & Hp); [apply Forall_app in HQ; tauto|].
      destruct (mean_step W xs s x Hi) as (s' & E' & Hi' & Hsum).
      exists s'. rewrite update_all_snoc, E. simpl. split; [exact E'|]. split; [exact Hi'|].
      rewrite Hsum. apply Hstep; auto.
  Qed.

  Lemma mean_window_facts W (xs : list A) :
    exists s, update_all mean_update (mean_new W) xs = Ret s /\
      mn_window s = (if Nat.ltb 0 W then Some (lastn W xs) else None) /\
      mn_history s = length xs.
  Proof. destruct (mean_run W xs) as (s & E & [? ? ?]). eauto. Qed.

  (** Variance: both moments see the same window, the object's own one is untouched. *)
  Record var_inv (W : nat) (xs : list A) (s : variance A) : Prop := {
    vi_window : va_window s = new_window W;
    vi_history : va_history s = 0%nat;
    vi_mean : update_all mean_update (mean_new W) xs = Ret (va_mean s);
    vi_sq : update_all mean_update (mean_new W) (map (fun x => x *. x) xs) = Ret (va_sq s)
  }.

  Lemma var_run W (xs : list A) :
    exists s, update_all variance_update (variance_new W) xs = Ret s /\ var_inv W xs s.
  Proof.
    apply update_all_total; [split; reflexivity|]. intros ys s x [H1 H2 H3 H4].
    unfold variance_update.
    destruct (mean_run W ys) as (m & E & Hi). rewrite H3 in E. injection E as <-.
    destruct (mean_step W ys _ x Hi) as (m' & Em & _). rewrite Em. simpl.
    destruct (mean_run W (map (fun x => x *. x) ys)) as (q & E & Hi'). rewrite H4 in E. injection E as <-.
    destruct (mean_step W _ _ (x *. x) Hi') as (q' & Eq & _). rewrite Eq. simpl.
    eexists. split; [reflexivity|]. split; simpl; auto.
    - rewrite update_all_snoc, H3. auto.
    - rewrite map_app; cbn [map]; rewrite update_all_snoc, H4. auto.
  Qed.

  Lemma variance_public_window W (xs : list A) :
    exists s, update_all variance_update (variance_new W) xs = Ret s /\
      va_window s = (if Nat.ltb 0 W then Some [] else None) /\ va_history s = 0%nat.
  Proof. destruct (var_run W xs) as (s & E & [H1 H2 _ _]). exists s. rewrite H1. auto. Qed.
End Any.

(** ** Exact arithmetic *)

Open Scope R_scope.

Lemma rsum_app l1 l2 : rsum (l1 ++ l2) = rsum l1 + rsum l2.
Proof. induction l1; simpl; lra. Qed.

Lemma next_sum_RA W (xs : list R) sum x :
  sum = rsum (window_of W xs) ->
  next_sum (A := RA) W xs sum x = rsum (window_of W (xs ++ [x])).
Proof.
  intros ->. unfold next_sum, window_of. change (num RA) with R. destruct W as [|W'].
  - rewrite rsum_app. cbn. lra.
  - set (W := S W'). rewrite (lastn_snoc W) by (unfold W; lia). rewrite rsum_app.
    destruct (Nat.ltb_spec (length xs) W).
    + destruct (lastn W xs); cbn; lra.
    + destruct (lastn W xs) as [|f w]; cbn; lra.
Qed.

Lemma mean_exact_state W (xs : list R) :
  exists s, update_all (mean_update (A := RA)) (mean_new W) xs = Ret s /\
    mean_inv (A := RA) W xs s /\ mn_sum s = rsum (window_of W xs).
Proof.
  assert (H : Forall (fun _ : R => True) xs) by (apply Forall_forall; auto).
  destruct (mean_run_sum (A := RA) W (fun ys sum => sum = rsum (window_of W ys)) (fun _ => True))
    with (xs := xs) as (s & E & Hi & Hs); auto.
  - destruct W; reflexivity.
  - intros ys sum x _ Hs. apply next_sum_RA; auto.
  - eauto.
Qed.

Lemma mean_exact W (xs : list R) :
  exists s, update_all (mean_update (A := RA)) (mean_new W) xs = Ret s /\
    mean_evaluate (A := RA) s = avg (window_of W xs).
Proof.
  destruct (mean_exact_state W xs) as (s & E & [Hw Hs Hh] & Hsum).
  exists s. split; [exact E|]. unfold mean_evaluate. rewrite Hh, Hw, Hsum. unfold avg. change (num RA) with R.
  destruct (Nat.eqb_spec (length xs) 0) as [L|L].
  - destruct xs; [|discriminate]. destruct W; reflexivity.
  - destruct W as [|W']; cbn.
    + unfold of_nat. cbn. rewrite <- INR_IZR_INZ. destruct xs; [contradiction|auto].
    + unfold of_nat. cbn. rewrite <- INR_IZR_INZ.
      destruct (lastn (S W') xs) eqn:E'; [|auto].
      assert (K : length (lastn (S W') xs) = 0%nat) by (rewrite E'; auto). rewrite lastn_length in K. lia.
Qed.

(** Variance. *)
Lemma rsum_map_sq c l : rsum (map (fun x => (x - c) ^ 2) l) =
  rsum (map (fun x => x * x) l) - 2 * c * rsum l + INR (length l) * (c * c).
Proof.
  induction l as [|x l IH]; [simpl; lra|]. cbn [map rsum length]. rewrite IH, S_INR. ring.
Qed.

Lemma pvar_moments l : pvar l = avg (map (fun x => x * x) l) - avg l * avg l.
Proof.
  unfold pvar. destruct l as [|x l]; [unfold avg; simpl; lra|].
  set (L := x :: l). assert (HL : 0 < INR (length L)) by (apply lt_0_INR; unfold L; simpl; lia).
  assert (U : forall f : R -> R, avg (map f L) = rsum (map f L) / INR (length L))
    by (intros f; unfold avg, L; cbn; rewrite map_length; auto).
  rewrite !U, rsum_map_sq.
  replace (avg L) with (rsum L / INR (length L)) by reflexivity. field. lra.
Qed.

Lemma map_window {X Y} (f : X -> Y) W xs : map f (window_of W xs) = window_of W (map f xs).
Proof. destruct W; auto. unfold window_of, lastn. rewrite map_length. symmetry. apply skipn_map. Qed.

Lemma variance_exact W (xs : list R) :
  exists s, update_all (variance_update (A := RA)) (variance_new W) xs = Ret s /\
    variance_evaluate (A := RA) s = pvar (window_of W xs).
Proof.
  destruct (var_run (A := RA) W xs) as (s & E & [_ _ Hm Hq]).
  exists s. split; [exact E|]. unfold variance_evaluate.
  destruct (mean_exact W xs) as (m & Em & Vm). rewrite Hm in Em. injection Em as ->.
  destruct (mean_exact W (map (fun x => x * x) xs)) as (q & Eq & Vq).
  assert (EE : Ret (va_sq s) = Ret q) by (rewrite <- Hq, <- Eq; reflexivity).
  injection EE as ->.
  rewrite Vm, Vq, pvar_moments, map_window. reflexivity.
Qed.

Lemma rsum_nonneg l : Forall (fun x => 0 <= x) l -> 0 <= rsum l.
Proof. induction 1; simpl; lra. Qed.

Lemma rsum_zero l : Forall (fun x => 0 <= x) l -> rsum l = 0 -> Forall (fun x => x = 0) l.
Proof.
  induction 1 as [|x l Hx Hl IH]; intros E; constructor; simpl in E;
    pose proof (rsum_nonneg l Hl); try lra. apply IH. lra.
Qed.

Lemma sq_nonneg c l : Forall (fun x => 0 <= x) (map (fun x => (x - c) ^ 2) l).
Proof. apply Forall_forall. intros y Hy. apply in_map_iff in Hy as (x & <- & _). apply pow2_ge_0. Qed.

Lemma pvar_nonneg l : 0 <= pvar l.
Proof.
  unfold pvar, avg at 1. destruct l; [simpl; lra|]. cbn [map]. set (L := _ :: map _ l).
  assert (0 < INR (length L)) by (apply lt_0_INR; simpl; lia).
  apply Rmult_le_pos; [|left; apply Rinv_0_lt_compat; auto].
  apply rsum_nonneg. apply (sq_nonneg _ (r :: l)).
Qed.

Lemma rsum_const c l : Forall (fun x => x = c) l -> rsum l = INR (length l) * c.
Proof.
  induction 1 as [|x l -> Hl IH]; [simpl; lra|]. cbn [rsum length]. rewrite IH, S_INR. ring.
Qed.

Lemma pvar_zero l : pvar l = 0 <-> (forall x y, In x l -> In y l -> x = y).
Proof.
  destruct l as [|a l]; [split; [intros _ x y []|reflexivity]|].
  set (L := a :: l). assert (HL : 0 < INR (length L)) by (apply lt_0_INR; unfold L; simpl; lia).
  unfold pvar. assert (U : avg (map (fun x => (x - avg L) ^ 2) L) =
                           rsum (map (fun x => (x - avg L) ^ 2) L) / INR (length L))
    by (unfold avg at 1, L; cbn; rewrite map_length; auto).
  rewrite U. split.
  - intros H. assert (H0 : rsum (map (fun x => (x - avg L) ^ 2) L) = 0).
    { apply (Rmult_eq_compat_r (INR (length L))) in H. unfold Rdiv in H.
      rewrite Rmult_assoc, Rinv_l in H by lra. lra. }
    apply rsum_zero in H0; [|apply sq_nonneg]. rewrite Forall_forall in H0.
    assert (K : forall x, In x L -> x = avg L).
    { intros x Hx. specialize (H0 _ (in_map (fun x => (x - avg L) ^ 2) L x Hx)). nra. }
    intros x y Hx Hy. rewrite (K x Hx), (K y Hy). auto.
  - intros H. assert (F : Forall (fun x => x = a) L).
    { apply Forall_forall. intros x Hx. apply H; auto. left; auto. }
    assert (M : avg L = a).
    { replace (avg L) with (rsum L / INR (length L)) by reflexivity. rewrite (rsum_const a L F). field. lra. }
    rewrite M. rewrite rsum_const with (c := 0).
    + unfold Rdiv. lra.
    + apply Forall_forall. intros y Hy. apply in_map_iff in Hy as (x & <- & Hx).
      rewrite Forall_forall in F. rewrite (F x Hx). nra.
Qed.

(** ** binary64: integers are summed exactly *)

Lemma IZR_bound z : (Z.abs z <= 2 ^ 53)%Z -> R64 (IZR z) = IZR z /\ Rabs (IZR z) < big.
Proof.
  intros Hz. assert (Hb : Rabs (IZR z) < big).
  { apply Rle_lt_trans with (bpow radix2 53).
    - rewrite <- abs_IZR. change (bpow radix2 53) with (IZR (2 ^ 53)). apply IZR_le; auto.
    - apply bpow_lt. lia. }
  split; auto. unfold R64. rewrite rnd_fix by (apply format_IZR; auto). apply sat_in; auto.
Qed.

Lemma add_int x y a b : finite64 x = true -> finite64 y = true ->
  B2R x = IZR a -> B2R y = IZR b -> (Z.abs (a + b) <= 2 ^ 53)%Z ->
  finite64 (Badd x y) = true /\ B2R (Badd x y) = IZR (a + b).
Proof.
  intros Fx Fy Ex Ey Hz. destruct (X_add x y Fx Fy) as [HX Hn]. rewrite Ex, Ey, <- plus_IZR in HX.
  destruct (IZR_bound _ Hz) as [E Hb]. rewrite E in HX.
  assert (F : finite64 (Badd x y) = true) by (apply fin_X; auto; rewrite HX; auto).
  split; auto. rewrite <- X_fin; auto.
Qed.

Lemma sub_int x y a b : finite64 x = true -> finite64 y = true ->
  B2R x = IZR a -> B2R y = IZR b -> (Z.abs (a - b) <= 2 ^ 53)%Z ->
  finite64 (Bsub x y) = true /\ B2R (Bsub x y) = IZR (a - b).
Proof.
  intros Fx Fy Ex Ey Hz. destruct (X_sub x y Fx Fy) as [HX Hn]. rewrite Ex, Ey, <- minus_IZR in HX.
  destruct (IZR_bound _ Hz) as [E Hb]. rewrite E in HX.
  assert (F : finite64 (Bsub x y) = true) by (apply fin_X; auto; rewrite HX; auto).
  split; auto. rewrite <- X_fin; auto.
Qed.

Lemma zsum_app l1 l2 : zsum (l1 ++ l2) = (zsum l1 + zsum l2)%Z.
Proof. induction l1; simpl; lia. Qed.

Lemma zsum_bound B l : Forall (fun z => Z.abs z <= B)%Z l -> (Z.abs (zsum l) <= B * Z.of_nat (length l))%Z.
Proof. induction 1; simpl length; simpl zsum; lia. Qed.

Lemma Forall_lastn {X} (P : X -> Prop) n l : Forall P l -> Forall P (lastn n l).
Proof.
  intros H. rewrite Forall_forall in * . intros x Hx. apply H.
  rewrite <- (firstn_skipn (length l - n) l). apply in_or_app. right. exact Hx.
Qed.

Definition int_double (z : Z) (x : double) : Prop := finite64 x = true /\ B2R x = IZR z.

Lemma mean_int_state W B zs : (1 <= B)%Z ->
  Forall (fun z => Z.abs z <= B)%Z zs ->
  (B * Z.of_nat (match W with O => length zs | _ => W end) <= 2 ^ 53)%Z ->
  exists s, update_all (mean_update (A := B64)) (mean_new W) (map Bz zs) = Ret s /\
    mean_inv (A := B64) W (map Bz zs) s /\ int_double (zsum (window_of W zs)) (mn_sum s).
Proof.
  intros HB. induction zs as [|z zs IH] using rev_ind; intros HF HW.
  - eexists. split; [reflexivity|]. split; [apply mean_new_inv|].
    destruct W; (split; [reflexivity|]); apply (Bz_exact 0); lia.
  - apply Forall_app in HF as [HF Hz]. inversion_clear Hz as [|? ? Hz' _].
    destruct IH as (s & E & Hi & Hsum); auto.
    { destruct W; auto. rewrite app_length in HW. simpl in HW. nia. }
    destruct (mean_step (A := B64) W _ s (Bz z) Hi) as (s' & E' & Hi' & Hs').
    exists s'. rewrite map_app. simpl map. rewrite update_all_snoc, E. simpl bind.
    split; [exact E'|]. split; [exact Hi'|]. rewrite Hs'. clear s' E' Hi' Hs' E.
    assert (Z53 : (Z.abs z <= 2 ^ 53)%Z) by (destruct W; [rewrite app_length in HW; simpl in HW|]; nia).
    destruct (Bz_exact z Z53) as [Ez Fz]. destruct Hsum as [Fs Es].
    unfold next_sum. change (num B64) with double. destruct W as [|W'].
    + cbn. simpl in Es. rewrite zsum_app. simpl. replace (z + 0)%Z with z by lia.
      pose proof (zsum_bound B zs HF). rewrite app_length in HW. simpl in HW.
      apply add_int; auto. nia.
    + set (W := S W') in * . assert (WO : forall l : list Z, window_of W l = lastn W l) by reflexivity.
      rewrite WO in Es |- * .
      assert (LM : lastn W (map Bz zs) = map Bz (lastn W zs)).
      { unfold lastn. rewrite map_length. apply skipn_map. }
      rewrite LM, map_length. rewrite (lastn_snoc W) by (unfold W; lia). rewrite zsum_app.
      replace (zsum [z]) with z by (simpl; lia).
      pose proof (Forall_lastn _ W zs HF) as HL. pose proof (zsum_bound B _ HL) as SB.
      rewrite lastn_length in SB.
      destruct (Nat.ltb_spec (length zs) W) as [Hlt|Hge].
      * assert (K : int_double (zsum (lastn W zs) + z) (Badd (mn_sum s) (Bz z))).
        { destruct (add_int (mn_sum s) (Bz z) _ _ Fs Fz Es Ez) as [? ?]; [nia|]. split; auto. }
        destruct (lastn W zs); cbn; exact K.
      * destruct (lastn W zs) as [|f w] eqn:El.
        { assert (L : length (lastn W zs) = 0%nat) by (rewrite El; auto). rewrite lastn_length in L.
          unfold W in *; lia. }
        cbn [map tl]. inversion_clear HL as [|? ? Hf Hw].
        assert (Lw : (length w + 1 = W)%nat).
        { assert (L : length (lastn W zs) = S (length w)) by (rewrite El; auto). rewrite lastn_length in L. lia. }
        pose proof (zsum_bound B w Hw) as SW. cbn [zsum fold_right] in Es, SB. fold (zsum w) in Es, SB.
        assert (F53 : (Z.abs f <= 2 ^ 53)%Z) by nia.
        destruct (Bz_exact f F53) as [Ef Ff].
        destruct (sub_int (mn_sum s) (Bz f) _ _ Fs Ff Es Ef) as [F1 E1]; [nia|].
        replace (f + zsum w - f)%Z with (zsum w) in E1 by lia.
        destruct (add_int _ (Bz z) _ _ F1 Fz E1 Ez) as [F2 E2]; [nia|].
        split; auto.
Qed.

Lemma mean_int W B zs : (1 <= B)%Z -> zs <> [] ->
  Forall (fun z => Z.abs z <= B)%Z zs ->
  (B * Z.of_nat (match W with O => length zs | _ => W end) <= 2 ^ 53)%Z ->
  exists s, update_all (mean_update (A := B64)) (mean_new W) (map Bz zs) = Ret s /\
    finite64 (mean_evaluate (A := B64) s) = true /\
    B2R (mean_evaluate (A := B64) s) =
      rnd (IZR (zsum (window_of W zs)) / INR (length (window_of W zs))).
Proof.
  intros HB Hne HF HW. destruct (mean_int_state W B zs HB HF HW) as (s & E & [Hw Hs Hh] & [Fs Es]).
  exists s. split; [exact E|].
  assert (Len : (0 < length zs)%nat) by (destruct zs; simpl; [contradiction|lia]).
  assert (EV : mean_evaluate (A := B64) s = Bquot (mn_sum s) (Bz (Z.of_nat (length (window_of W zs))))).
  { unfold mean_evaluate. rewrite Hh, Hw, map_length.
    destruct (Nat.eqb_spec (length zs) 0); [lia|].
    destruct W; cbn; auto. unfold of_nat. cbn. unfold lastn. rewrite map_length, skipn_map, map_length. auto. }
  rewrite EV. set (w := window_of W zs) in * .
  assert (Lw : (0 < length w)%nat /\ (Z.of_nat (length w) <= 2 ^ 53)%Z).
  { unfold w, window_of. destruct W; [nia|]. rewrite lastn_length. nia. }
  assert (HFw : Forall (fun z => Z.abs z <= B)%Z w).
  { unfold w, window_of. destruct W; auto. apply Forall_lastn; auto. }
  destruct (Bz_exact (Z.of_nat (length w))) as [En Fn]; [lia|].
  assert (P : 0 < IZR (Z.of_nat (length w))) by (apply IZR_lt; lia).
  destruct (X_div (mn_sum s) _ Fs Fn) as [HX Hn]; [rewrite En; lra|].
  rewrite Es, En in HX. rewrite INR_IZR_INZ.
  assert (Bd : Rabs (rnd (IZR (zsum w) / IZR (Z.of_nat (length w)))) < big).
  { rewrite <- rnd_abs. apply Rle_lt_trans with (rnd (IZR (2 ^ 53))).
    - apply rnd_le. unfold Rdiv. rewrite Rabs_mult, (Rabs_pos_eq (/ _)) by (left; apply Rinv_0_lt_compat; auto).
      rewrite <- abs_IZR. apply Rmult_le_reg_r with (IZR (Z.of_nat (length w))); auto.
      rewrite Rmult_assoc, Rinv_l, Rmult_1_r, <- mult_IZR by lra. apply IZR_le.
      pose proof (zsum_bound B w HFw). assert (B <= 2 ^ 53)%Z; [|nia].
      unfold w, window_of in * . destruct W; nia.
    - rewrite rnd_fix by (apply format_IZR; lia). change (IZR (2 ^ 53)) with (bpow radix2 53). apply bpow_lt. lia. }
  unfold R64 in HX. rewrite sat_in in HX by auto.
  assert (F : finite64 (Bquot (mn_sum s) (Bz (Z.of_nat (length w)))) = true)
    by (apply fin_X; auto; rewrite HX; auto).
  split; auto. rewrite <- (X_fin _ F). exact HX.
Qed.

(** ** binary64: drift and contamination *)

Lemma nan_add_l (a b : double) : nan a = true -> Badd a b = B754_nan.
Proof. destruct a; try discriminate. destruct b; reflexivity. Qed.
Lemma nan_add_r (a b : double) : nan b = true -> Badd a b = B754_nan.
Proof. destruct b; try discriminate. destruct a; reflexivity. Qed.
Lemma nan_div_l (a b : double) : nan a = true -> Bquot a b = B754_nan.
Proof. destruct a; try discriminate. destruct b; reflexivity. Qed.

(** Values that can only become worse: NaN, or one fixed infinity. *)
Definition stuck (sg : bool) (x : double) : Prop := x = B754_nan \/ x = B754_infinity sg.

Lemma stuck_add sg x y : stuck sg x -> stuck sg (Badd x y).
Proof.
  intros [-> | ->]; [left; apply nan_add_l; auto|].
  destruct y as [|s| |]; destruct sg; try destruct s; (right; reflexivity) || (left; reflexivity).
Qed.
Lemma stuck_sub sg x y : stuck sg x -> stuck sg (Bsub x y).
Proof.
  intros [-> | ->]; [left; apply nan_sub_l; auto|].
  destruct y as [|s| |]; destruct sg; try destruct s; (right; reflexivity) || (left; reflexivity).
Qed.
Lemma add_inf sg x : stuck sg (Badd x (B754_infinity sg)).
Proof.
  destruct x as [|s| |]; destruct sg; try destruct s; (right; reflexivity) || (left; reflexivity).
Qed.
Lemma stuck_sub_inf sg x : stuck sg x -> Bsub x (B754_infinity sg) = B754_nan.
Proof. intros [-> | ->]; destruct sg; reflexivity. Qed.

Lemma update_all_Ret_app {S Y} (u : S -> Y -> outcome S) s xs ys s2 :
  update_all u s (xs ++ ys) = Ret s2 ->
  exists s1, update_all u s xs = Ret s1 /\ update_all u s1 ys = Ret s2.
Proof. rewrite update_all_app. apply bind_Ret. Qed.

Lemma run64 W (xs : list double) s :
  update_all (mean_update (A := B64)) (mean_new W) xs = Ret s -> mean_inv (A := B64) W xs s.
Proof. intros E. destruct (mean_run (A := B64) W xs) as (s' & E' & H). congruence. Qed.

Lemma mean_nan_forever (W : nat) (xs ys : list double) s1 s2 :
  update_all (mean_update (A := B64)) (mean_new W) xs = Ret s1 -> mn_sum s1 = B754_nan ->
  update_all (mean_update (A := B64)) (mean_new W) (xs ++ ys) = Ret s2 -> mn_sum s2 = B754_nan.
Proof.
  intros E1 Hn. revert s2. induction ys as [|y ys IH] using rev_ind; intros s2 E2.
  - rewrite app_nil_r in E2. congruence.
  - rewrite app_assoc in E2. apply update_all_Ret_app in E2 as (s & Es & E2). specialize (IH s Es).
    simpl in E2. pose proof (run64 W _ _ Es) as Hi.
    destruct (mean_step (A := B64) W _ s y Hi) as (s3 & E3 & _ & Hs). rewrite E3 in E2.
    injection E2 as <-. rewrite Hs. unfold next_sum. change (num B64) with double. rewrite IH.
    destruct W; [apply nan_add_l; auto|].
    destruct (lastn (S W) (xs ++ ys)); [apply nan_add_l; auto|].
    destruct (Nat.ltb _ _); apply nan_add_l; auto.
Qed.

Lemma lastn_head {Y} W (pre post : list Y) x : (length post + 1)%nat = W ->
  lastn W (pre ++ x :: post) = x :: post.
Proof.
  intros H. unfold lastn. rewrite app_length. simpl. replace (length pre + S (length post) - W)%nat with (length pre + 0)%nat by lia.
  rewrite skipn_app. rewrite skipn_all2 by lia. replace (length pre + 0 - length pre)%nat with 0%nat by lia. auto.
Qed.

Lemma mean_stuck W (pre post : list double) sg s : (1 <= W)%nat -> (length post < W)%nat ->
  update_all (mean_update (A := B64)) (mean_new W) (pre ++ B754_infinity sg :: post) = Ret s ->
  stuck sg (mn_sum s).
Proof.
  intros HW. revert s. induction post as [|y post IH] using rev_ind; intros s Hl E.
  - destruct (update_all_Ret_app _ _ _ _ _ E) as (s1 & E1 & E2). simpl in E2.
    pose proof (run64 W _ _ E1) as Hi.
    destruct (mean_step (A := B64) W _ s1 (B754_infinity sg) Hi) as (s3 & E3 & _ & Hs). rewrite E3 in E2.
    injection E2 as <-. rewrite Hs. unfold next_sum. change (num B64) with double.
    destruct W; [apply add_inf|]. destruct (lastn (S W) pre); [apply add_inf|].
    destruct (Nat.ltb _ _); apply add_inf.
  - rewrite app_length in Hl. simpl in Hl.
    rewrite app_comm_cons, app_assoc in E. apply update_all_Ret_app in E as (s1 & E1 & E2).
    assert (K : stuck sg (mn_sum s1)) by (apply IH; auto; lia). simpl in E2.
    pose proof (run64 W _ _ E1) as Hi.
    destruct (mean_step (A := B64) W _ s1 y Hi) as (s3 & E3 & _ & Hs). rewrite E3 in E2.
    injection E2 as <-. rewrite Hs. unfold next_sum. change (num B64) with double.
    destruct W; [lia|]. destruct (lastn (S W) _); [apply stuck_add; auto|].
    destruct (Nat.ltb _ _); apply stuck_add; auto. apply stuck_sub; auto.
Qed.

Lemma mean_sum_nan W (pre post : list double) (x : double) s : (1 <= W)%nat ->
  finite64 x = false -> (nan x = false -> (W <= length post)%nat) ->
  update_all (mean_update (A := B64)) (mean_new W) (pre ++ x :: post) = Ret s ->
  mn_sum s = B754_nan.
Proof.
  intros HW Fx Hl E. destruct (nan x) eqn:Nx.
  - replace (pre ++ x :: post) with ((pre ++ [x]) ++ post) in E by (rewrite <- app_assoc; auto).
    destruct (update_all_Ret_app _ _ (pre ++ [x]) _ _ E) as (s1 & E1 & _).
    eapply mean_nan_forever; [exact E1| |exact E].
    apply update_all_Ret_app in E1 as (s0 & E0 & E1). simpl in E1.
    pose proof (run64 W _ _ E0) as Hi.
    destruct (mean_step (A := B64) W _ s0 x Hi) as (s3 & E3 & _ & Hs). rewrite E3 in E1.
    injection E1 as <-. rewrite Hs. unfold next_sum. change (num B64) with double.
    destruct W; [apply nan_add_r; auto|]. destruct (lastn (S W) pre); [apply nan_add_r; auto|].
    destruct (Nat.ltb _ _); apply nan_add_r; auto.
  - destruct x as [|sg| |]; try discriminate. specialize (Hl eq_refl).
    set (p1 := firstn (W - 1) post). assert (L1 : length p1 = (W - 1)%nat).
    { unfold p1. rewrite firstn_length. lia. }
    destruct (skipn (W - 1) post) as [|y p2] eqn:E2.
    { assert (L : length (skipn (W - 1) post) = 0%nat) by (rewrite E2; auto). rewrite skipn_length in L. lia. }
    assert (Ep : post = p1 ++ y :: p2) by (unfold p1; rewrite <- E2; symmetry; apply firstn_skipn).
    rewrite Ep in E.
    assert (E' : update_all (mean_update (A := B64)) (mean_new W)
              (((pre ++ B754_infinity sg :: p1) ++ [y]) ++ p2) = Ret s)
      by (rewrite <- !app_assoc; exact E).
    clear E. rename E' into E.
    destruct (update_all_Ret_app _ _ ((pre ++ B754_infinity sg :: p1) ++ [y]) _ _ E) as (s1 & E1 & _).
    eapply mean_nan_forever; [exact E1| |exact E].
    apply update_all_Ret_app in E1 as (s0 & E0 & E1). simpl in E1.
    assert (K : stuck sg (mn_sum s0)) by (eapply mean_stuck with (post := p1); eauto; lia).
    pose proof (run64 W _ _ E0) as Hi.
    destruct (mean_step (A := B64) W _ s0 y Hi) as (s3 & E3 & _ & Hs). rewrite E3 in E1.
    injection E1 as <-. rewrite Hs. unfold next_sum. change (num B64) with double. destruct W; [lia|].
    rewrite lastn_head by lia.
    replace (length (pre ++ B754_infinity sg :: p1) <? S W)%nat with false
      by (symmetry; apply Nat.ltb_ge; rewrite app_length; simpl; lia).
    cbn. rewrite stuck_sub_inf by auto. apply nan_add_l; auto.
Qed.

Lemma mean_contaminated W (pre post : list double) (x : double) : (1 <= W)%nat ->
  finite64 x = false -> (nan x = false -> (W <= length post)%nat) ->
  exists s, update_all (mean_update (A := B64)) (mean_new W) (pre ++ x :: post) = Ret s /\
    mean_evaluate (A := B64) s = B754_nan.
Proof.
  intros HW Fx Hl. destruct (mean_run (A := B64) W (pre ++ x :: post)) as (s & E & [Hw _ Hh]).
  exists s. split; [exact E|]. pose proof (mean_sum_nan W pre post x s HW Fx Hl E) as Hn.
  unfold mean_evaluate. rewrite Hh, app_length. simpl length.
  replace (Nat.eqb (length pre + S (length post)) 0) with false by (symmetry; apply Nat.eqb_neq; lia).
  rewrite Hw, Hn. destruct (Nat.ltb 0 W); apply nan_div_l; auto.
Qed.

(** 1e17, 1, 1 with window 2. *)
Lemma mean_drift :
  exists x y s : double, exists st,
    finite64 x = true /\ finite64 y = true /\
    update_all (mean_update (A := B64)) (mean_new 2) [x; y; y] = Ret st /\
    Beqb (mean_evaluate (A := B64) st) s = true /\ Beqb y (Bmul (Bz 2) s) = true /\
    Beqb y (Bz 1) = true.
Proof.
  exists (Bz 100000000000000000), (Bz 1), (lit (A := B64) 1 2).
  destruct (mean_run (A := B64) 2 [Bz 100000000000000000; Bz 1; Bz 1]) as (st & E & _).
  exists st. split; [vm_compute; reflexivity|]. split; [vm_compute; reflexivity|].
  split; [exact E|]. split; [|split; vm_compute; reflexivity].
  apply (f_equal (fun o => match o with Ret s => Beqb (mean_evaluate (A := B64) s) (lit (A := B64) 1 2) | _ => false end)) in E.
  rewrite <- E. vm_compute. reflexivity.
Qed.

Lemma variance_negative :
  exists st, update_all (variance_update (A := B64)) (variance_new 0)
               [lit (A := B64) 1 10; lit (A := B64) 1 10; lit (A := B64) 1 10] = Ret st /\
    Bltb (variance_evaluate (A := B64) st) (Bz 0) = true.
Proof.
  destruct (var_run (A := B64) 0 [lit (A := B64) 1 10; lit (A := B64) 1 10; lit (A := B64) 1 10]) as (st & E & _).
  exists st. split; [exact E|].
  apply (f_equal (fun o => match o with Ret s => Bltb (variance_evaluate (A := B64) s) (Bz 0) | _ => false end)) in E.
  rewrite <- E. vm_compute. reflexivity.
Qed.
