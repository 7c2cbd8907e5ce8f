(** pdf, cdf and quantile of the histogram. *)

From Coq Require Import List Sorting.Sorted Arith Bool Lia ZArith Reals Lra.
From Flocq Require Import Core.Core IEEE754.BinarySingleNaN Relative.
From Verif Require Import Outcome Arith Utils IBin Histogram Spec ListFacts HistSpec UtilsFacts HistFacts
  FloatSpec FloatFacts UtilsMono HistOrder HistStreams.
Import ListNotations.
Local Open Scope nat_scope.

Section Gen.
  Context {A : arith}.
  Implicit Types (h : hist A) (q : A).

  (** ** Counts stay positive inside the window *)

  Lemma run_positive N W xs h : update_all hist_update (hist_new N W true) xs = Ret h -> length xs <= W ->
    Forall (fun b => 1 <= b_count b) (h_bins h).
  Proof.
    revert h. induction xs as [|x xs IH] using rev_ind; intros h E L.
    - injection E as <-. constructor.
    - rewrite app_length in L. simpl in L. rewrite update_all_snoc in E. apply bind_Ret in E as (t & Et & E).
      assert (F := IH _ Et ltac:(lia)). pose proof Et as Ec. rewrite <- calls_updates in Ec.
      destruct (run_basic _ _ _ _ Ec) as ((w & Lv & _) & T & _). rewrite hist_items_updates in T.
      destruct (update_inv _ _ _ _ _ _ Lv E) as (i & bins & w' & f & _ & _ & Eb & U & _). rewrite Eb. clear Eb E.
      destruct U as [i0 bins1 f' bins2 w2 bins3 w3 tot Ff Ha Hd Hm].
      assert (F1 : Forall (fun b => 1 <= b_count b) bins1).
      { destruct Ha as [C|l b r _ E1 E2 H|l b r _ E1 E2 H].
        - apply Forall_app. split; [auto|repeat constructor].
        - rewrite E1 in F. apply Forall_app in F as [F1 F2]. inversion_clear F2. apply Forall_app. split; auto.
          constructor; auto. cbn. lia.
        - rewrite E1 in F. apply Forall_app in F as [F1 F2]. apply Forall_app. split; auto. }
      destruct Hd as [(_ & -> & _ & _)|(K & _)]; [|lia].
      destruct Hm as [(_ & -> & _)|(_ & l & a & c & r & -> & _ & -> & _)]; auto.
      apply Forall_app in F1 as [F1 F2]. inversion_clear F2 as [|? ? Fa F3]. inversion_clear F3 as [|? ? Fc F4].
      apply Forall_app. split; auto. constructor; auto. rewrite bin_add_count. lia.
  Qed.

  (** ** lower_bound *)

  Definition below_prefix (l : list A) q : Prop :=
    forall j k x y, j < k -> nth_error l j = Some x -> nth_error l k = Some y -> ltb y q = true -> ltb x q = true.

  Lemma lower_bound_spec (l : list A) q : below_prefix l q ->
    exists i, lower_bound l q = Ret i /\ i <= length l /\
      (forall j x, j < i -> nth_error l j = Some x -> ltb x q = true) /\
      (forall j x, i <= j -> nth_error l j = Some x -> ltb x q = false).
  Proof.
    induction l as [|x l IH]; intros H.
    - exists 0. cbn. repeat split; auto; [lia|]. intros [|j] y _ Ey; discriminate.
    - cbn [lower_bound]. destruct (ltb x q) eqn:Lx.
      + destruct IH as (i & E & Li & P1 & P2).
        { intros j k y z Ljk Ej Ek. apply (H (S j) (S k)); simpl; auto. lia. }
        rewrite E. cbn [bind]. exists (S i). simpl. split; auto. split; [lia|]. split.
        * intros [|j] y Lj Ej; simpl in Ej; [congruence|]. apply (P1 j); auto. lia.
        * intros [|j] y Lj Ej; simpl in Ej; [lia|]. apply (P2 j); auto. lia.
      + assert (N : forall j y, nth_error (x :: l) j = Some y -> ltb y q = false).
        { intros [|j] y Ej; [simpl in Ej; congruence|]. destruct (ltb y q) eqn:K; auto.
          rewrite (H 0 (S j) x y) in Lx; auto. lia. }
        replace (forallb (fun y => negb (ltb y q)) l) with true.
        * exists 0. split; auto. split; [lia|]. split; [lia|]. intros j y _ Ej. eapply N; eauto.
        * symmetry. apply forallb_forall. intros y Iy. apply In_nth_error in Iy as (j & Ej).
          rewrite (N (S j) y Ej). auto.
  Qed.

  (** ** Shape of quantile *)

  (** The cdf position used. *)
  Definition position (cdf : list A) q i : nat :=
    if Nat.eqb i (length cdf) then length cdf - 1
    else if Nat.eqb i 0 then 0
    else match nth_error cdf i with Some c => if ltb q c then i - 1 else i | None => i end.

  Lemma quantile_shape h q i : ltb q zero || ltb (of_Z 1) q = false -> lower_bound (hist_cdf h true) q = Ret i ->
    i <= length (hist_cdf h true) -> 1 <= length (hist_cdf h true) ->
    let k := position (hist_cdf h true) q i in
    k < length (hist_cdf h true) /\
    forall c b, nth_error (hist_cdf h true) k = Some c -> nth_error (h_bins h) k = Some b ->
    hist_quantile h q =
    (if essentiallyEqual q c default_eps then Ret (b_left b)
     else match nth_error (hist_cdf h true) (k + 1) with
          | None => Undef OutOfBounds
          | Some c1 =>
              let width0 := sub (b_right b) (b_left b) in
              let width := if eqb width0 (of_Z 0) then div (of_Z 1) (of_nat (h_numBins h)) else width0 in
              Ret (add (b_left b) (div (mul (mul width (sub c1 c)) (of_nat (h_total h))) (of_nat (b_count b))))
          end).
  Proof.
    intros Hq El Li Hn k. set (cdf := hist_cdf h true) in * .
    assert (Ek : (if Nat.eqb i (length cdf)
                  then match length cdf with O => Undef OutOfBounds | S m => Ret m end
                  else if Nat.eqb i 0 then Ret i
                  else let* c := at_ cdf i in if ltb q c then Ret (i - 1) else Ret i) = Ret k /\ k < length cdf).
    { unfold k, position. destruct (Nat.eqb_spec i (length cdf)) as [E|E].
      - destruct (length cdf); [lia|]. simpl. rewrite Nat.sub_0_r. split; auto.
      - destruct (Nat.eqb_spec i 0) as [->|E0]; [split; auto; lia|].
        unfold at_. destruct (nth_error cdf i) as [c|] eqn:Ec; [|apply nth_error_None in Ec; lia].
        cbn [bind]. destruct (ltb q c); split; auto; lia. }
    destruct Ek as [Ek Lk]. split; auto. intros c b Ec Eb. unfold hist_quantile.
    change (q >?. of_Z 1)%num with (ltb (of_Z 1) q). rewrite Hq. fold cdf. rewrite El. cbn [bind].
    rewrite Ek. cbn [bind]. unfold at_. rewrite Ec. cbn [bind]. rewrite Eb. cbn [bind].
    destruct (essentiallyEqual q c default_eps); auto.
    replace (Nat.leb (length cdf) k) with false by (symmetry; apply Nat.leb_gt; auto).
    destruct (nth_error cdf (k + 1)); cbn [bind]; auto. rewrite Eb. reflexivity.
  Qed.

  Lemma pdf_length h nz d : length (hist_pdf h nz d) = length (h_bins h).
  Proof. unfold hist_pdf. destruct d; apply map_length. Qed.

  Lemma partial_from_length (l : list A) acc : length (partial_sum_from acc l) = length l.
  Proof. revert acc. induction l; simpl; auto. Qed.

  Lemma cdf_length h nz : length (hist_cdf h nz) = length (h_bins h).
  Proof.
    unfold hist_cdf. rewrite <- (pdf_length h nz false). destruct (hist_pdf h nz false); simpl; auto.
    now rewrite partial_from_length.
  Qed.
End Gen.

(** ** Exact arithmetic *)

Lemma partial_from_RA (t : R) cs : forall pre, partial_sum_from (A := RA) (IZR (Z.of_nat pre) / t)%R
    (map (fun c => IZR (Z.of_nat c) / t)%R cs) =
  map (fun k => IZR (Z.of_nat (pre + below cs (S k))) / t)%R (seq 0 (length cs)).
Proof.
  induction cs as [|c cs IH]; intros pre; simpl; auto. f_equal.
  - unfold below. simpl. rewrite Nat.add_0_r, Nat2Z.inj_add, plus_IZR. unfold Rdiv. ring.
  - replace (IZR (Z.of_nat pre) / t + IZR (Z.of_nat c) / t)%R with (IZR (Z.of_nat (pre + c)) / t)%R
      by (rewrite Nat2Z.inj_add, plus_IZR; unfold Rdiv; ring).
    rewrite IH, <- seq_shift, map_map. apply map_ext. intros k. unfold below. simpl. do 3 f_equal. lia.
Qed.

Lemma cdf_RA (h : hist RA) (nz : bool) : hist_cdf h nz =
  map (fun k => IZR (Z.of_nat (below (map b_count (h_bins h)) (S k))) / (if nz then IZR (Z.of_nat (h_total h)) else 1))%R
      (seq 0 (length (h_bins h))).
Proof.
  unfold hist_cdf, hist_pdf, of_nat. cbn [of_Z RA div num].
  set (t := if nz then IZR (Z.of_nat (h_total h)) else 1%R).
  rewrite <- (map_map b_count (fun c => IZR (Z.of_nat c) / t)%R).
  rewrite <- (map_length b_count (h_bins h)).
  generalize (map b_count (h_bins h)) as cs. intros [|c cs]; auto.
  cbn [map partial_sum length seq]. f_equal.
  - unfold below. cbn [firstn list_sum fold_right]. now rewrite Nat.add_0_r.
  - rewrite partial_from_RA, <- seq_shift, map_map. apply map_ext. intros k. unfold below. reflexivity.
Qed.

Lemma below_mono cs j k : j <= k -> below cs j <= below cs k.
Proof.
  unfold below. revert j k. induction cs as [|c cs IH]; intros j k L.
  - now rewrite !firstn_nil.
  - destruct j, k; simpl; try lia. specialize (IH j k). lia.
Qed.

Lemma below_all cs k : length cs <= k -> below cs k = list_sum cs.
Proof. intros. unfold below. now rewrite firstn_all2. Qed.

Lemma below_S cs k c : nth_error cs k = Some c -> below cs (S k) = below cs k + c.
Proof.
  unfold below. revert k. induction cs as [|d cs IH]; intros [|k] E; simpl in *; try discriminate.
  - injection E as ->. lia.
  - specialize (IH _ E). simpl in IH. lia.
Qed.

Lemma cdf_Fcum (h : hist RA) : h_total h = counts_sum h ->
  forall k, k < length (h_bins h) -> nth_error (hist_cdf h true) k = Some (Fcum (map b_count (h_bins h)) k).
Proof.
  intros T k L. rewrite cdf_RA, T. erewrite map_nth_error; [reflexivity|].
  rewrite (nth_error_nth' _ 0) by (rewrite seq_length; auto). now rewrite seq_nth.
Qed.

Lemma Fcum_mono cs j k : 1 <= list_sum cs -> j <= k -> (Fcum cs j <= Fcum cs k)%R.
Proof.
  intros S L. unfold Fcum. pose proof (below_mono cs (Datatypes.S j) (Datatypes.S k) ltac:(lia)).
  apply Rmult_le_compat_r; [|apply IZR_le; lia]. left. apply Rinv_0_lt_compat. apply IZR_lt. lia.
Qed.

Lemma Fcum_last cs k : 1 <= list_sum cs -> length cs <= S k -> Fcum cs k = 1%R.
Proof.
  intros S L. unfold Fcum. rewrite below_all by auto. apply Rinv_r. apply not_0_IZR. lia.
Qed.

Lemma sum_positive cs : Forall (fun c => 1 <= c) cs -> length cs <= list_sum cs.
Proof. induction 1; simpl; lia. Qed.

Lemma Fcum_strict cs j k : Forall (fun c => 1 <= c) cs -> j < k -> k < length cs -> (Fcum cs j < Fcum cs k)%R.
Proof.
  intros F L Lk. pose proof (sum_positive cs F).
  assert (B : below cs (S j) < below cs (S k)).
  { destruct (nth_error cs k) as [c|] eqn:E; [|apply nth_error_None in E; lia].
    rewrite (below_S _ _ _ E). rewrite Forall_forall in F. specialize (F c (nth_error_In _ _ E)).
    pose proof (below_mono cs (S j) k ltac:(lia)). lia. }
  unfold Fcum. apply Rmult_lt_compat_r; [|apply IZR_lt; lia]. apply Rinv_0_lt_compat, IZR_lt. lia.
Qed.

Lemma quantile_RA (h : hist RA) (q : R) : h_total h = counts_sum h -> Forall (fun b => 1 <= b_count b) (h_bins h) ->
  2 <= length (h_bins h) -> (0 <= q <= 1)%R ->
  let cs := map b_count (h_bins h) in
  exists k b, selected cs q k /\ nth_error (h_bins h) k = Some b /\
    (essentiallyEqual (A := RA) q (Fcum cs k) default_eps = true /\ hist_quantile h q = Ret (b_left b) \/
     essentiallyEqual (A := RA) q (Fcum cs k) default_eps = false /\
     exists b', nth_error (h_bins h) (k + 1) = Some b' /\
       hist_quantile h q = Ret (b_left b +
         (if Req_EM_T (b_right b) (b_left b) then / INR (h_numBins h) else b_right b - b_left b) *
         (INR (b_count b') / INR (b_count b)))%R).
Proof.
  intros T F Ln Hq cs.
  assert (Fc : Forall (fun c => 1 <= c) cs) by (unfold cs; now rewrite Forall_map).
  assert (Lc : length cs = length (h_bins h)) by apply map_length.
  assert (S1 : 1 <= list_sum cs) by (pose proof (sum_positive cs Fc); lia).
  assert (Ecdf := cdf_Fcum h T). fold cs in Ecdf.
  assert (Hr : ltb q (zero (A := RA)) || ltb (of_Z 1) q = false).
  { cbn. apply orb_false_iff. split; apply Rltb_false; unfold zero; cbn; lra. }
  destruct (lower_bound_spec (hist_cdf h true) q) as (i & El & Li & P1 & P2).
  { intros j k x y L Ej Ek H. assert (k < length (h_bins h)) by (rewrite <- (cdf_length h true); apply nth_error_Some; congruence).
    rewrite Ecdf in Ej, Ek by lia. injection Ej as <-. injection Ek as <-. cbn in * . rewrite Rltb_true in * .
    pose proof (Fcum_mono cs j k S1 ltac:(lia)). lra. }
  rewrite cdf_length in Li.
  assert (Li' : i < length (h_bins h)).
  { destruct (Nat.eq_dec i (length (h_bins h))) as [E|]; [|lia]. exfalso.
    specialize (P1 (length (h_bins h) - 1) _ ltac:(lia) (Ecdf (length (h_bins h) - 1) ltac:(lia))). cbn in P1. rewrite Rltb_true in P1.
    rewrite (Fcum_last cs) in P1 by lia. lra. }
  assert (P1' : forall j, j < i -> (Fcum cs j < q)%R).
  { intros j L. specialize (P1 j _ L (Ecdf j ltac:(lia))). cbn in P1. now rewrite Rltb_true in P1. }
  assert (P2' : forall j, i <= j -> j < length cs -> (q <= Fcum cs j)%R).
  { intros j L L'. specialize (P2 j _ L (Ecdf j ltac:(lia))). cbn in P2. now rewrite Rltb_false in P2. }
  destruct (quantile_shape h q i Hr El) as (Lk & Eq); [rewrite cdf_length; lia..|].
  set (k := position (hist_cdf h true) q i) in * . rewrite cdf_length in Lk.
  assert (Hk : selected cs q k /\ (essentiallyEqual (A := RA) q (Fcum cs k) default_eps = false -> k + 1 < length (h_bins h))).
  { assert (Refl : forall j, Fcum cs j = q -> essentiallyEqual (A := RA) q (Fcum cs j) default_eps = true).
    { intros j ->. apply RA_essential. rewrite Rminus_diag_eq, Rabs_R0 by auto.
      apply Rmult_le_pos; [apply Rmin_glb; apply Rabs_pos|]. unfold default_eps, lit. cbn. lra. }
    unfold k, position. rewrite cdf_length. destruct (Nat.eqb_spec i (length (h_bins h))); [lia|].
    destruct (Nat.eqb_spec i 0) as [E0|E0].
    - split; [left|intros; lia]. split; auto. apply P2'; lia.
    - rewrite Ecdf by auto. cbn [ltb RA]. assert (P0 : (Fcum cs 0 < q)%R) by (apply P1'; lia).
      destruct (Rltb q (Fcum cs i)) eqn:G.
      + apply Rltb_true in G. split; [|intros; lia]. right. split; auto. split; [apply Rlt_le, P1'; lia|].
        intros j L L'. apply Rlt_le_trans with (Fcum cs i); auto. apply Fcum_mono; auto. lia.
      + apply Rltb_false in G. pose proof (P2' i ltac:(lia) ltac:(lia)). assert (E : Fcum cs i = q) by lra. split.
        * right. split; auto. split; [lra|]. intros j L L'. rewrite <- E. apply Fcum_strict; auto.
        * intros H0. rewrite Refl in H0; auto. discriminate. }
  destruct Hk as [Sel Next]. destruct (nth_error (h_bins h) k) as [b|] eqn:Eb; [|apply nth_error_None in Eb; lia].
  specialize (Eq _ _ (Ecdf k Lk) eq_refl). exists k, b. split; auto. split; auto.
  destruct (essentiallyEqual (A := RA) q (Fcum cs k) default_eps) eqn:Ee; [left; split; auto|right].
  split; auto. specialize (Next eq_refl).
  destruct (nth_error (h_bins h) (k + 1)) as [b'|] eqn:Eb'; [|apply nth_error_None in Eb'; lia].
  exists b'. split; auto. rewrite Ecdf in Eq by auto. etransitivity; [exact Eq|]. f_equal.
  assert (Cb : 1 <= b_count b) by (rewrite Forall_forall in F; apply F; eapply nth_error_In; eauto).
  assert (D : (Fcum cs (k + 1) - Fcum cs k = INR (b_count b') / INR (list_sum cs))%R).
  { unfold Fcum. replace (k + 1) with (S k) in Eb' |- * by lia.
    rewrite (below_S cs (S k) (b_count b')) by (unfold cs; now apply map_nth_error).
    rewrite Nat2Z.inj_add, plus_IZR, !INR_IZR_INZ. field. apply not_0_IZR. lia. }
  unfold of_nat. cbn [of_Z add sub mul div eqb RA]. rewrite D, T. unfold counts_sum. fold cs.
  rewrite !INR_IZR_INZ.
  assert (Nz1 : IZR (Z.of_nat (list_sum cs)) <> 0%R) by (apply not_0_IZR; lia).
  assert (Nz2 : IZR (Z.of_nat (b_count b)) <> 0%R) by (apply not_0_IZR; lia).
  assert (G : forall u, (b_left b + u * (IZR (Z.of_nat (b_count b')) / IZR (Z.of_nat (list_sum cs))) *
     IZR (Z.of_nat (list_sum cs)) / IZR (Z.of_nat (b_count b)) =
     b_left b + u * (IZR (Z.of_nat (b_count b')) / IZR (Z.of_nat (b_count b))))%R) by (intros; field; auto).
  unfold Reqb. destruct (Req_EM_T (b_right b - b_left b) 0) as [Z|Z], (Req_EM_T (b_right b) (b_left b)) as [Z'|Z'];
    try (exfalso; lra); rewrite G; auto. unfold Rdiv at 1. now rewrite Rmult_1_l.
Qed.

Lemma Rsum_counts (t : R) cs : Rsum (map (fun c => IZR (Z.of_nat c) / t)%R cs) = (IZR (Z.of_nat (list_sum cs)) / t)%R.
Proof.
  induction cs as [|c cs IH]; simpl; [unfold Rdiv; ring|].
  rewrite IH, Nat2Z.inj_add, plus_IZR. unfold Rdiv. ring.
Qed.

Lemma pdf_sum_RA (h : hist RA) : h_total h = counts_sum h -> 1 <= h_total h -> Rsum (hist_pdf h true false) = 1%R.
Proof.
  intros T L. unfold hist_pdf, of_nat. cbn [of_Z RA div num].
  rewrite <- (map_map b_count (fun c => IZR (Z.of_nat c) / IZR (Z.of_nat (h_total h)))%R), Rsum_counts.
  fold (counts_sum h). rewrite <- T. apply Rinv_r. apply not_0_IZR. lia.
Qed.

Lemma widthR_pos b : (0 < widthR b)%R.
Proof. unfold widthR. destruct (Rle_dec _ _); lra. Qed.

Lemma density_RA (h : hist RA) nz : hist_pdf h nz true =
  map (fun b => IZR (Z.of_nat (b_count b)) / (IZR (Z.of_nat (h_total h)) * widthR b))%R (h_bins h).
Proof.
  unfold hist_pdf, of_nat, zero. cbn [of_Z RA div mul sub leb num]. apply map_ext. intros b. unfold widthR, Rleb.
  destruct (Rle_dec _ _); reflexivity.
Qed.

Lemma density_sum_RA (h : hist RA) nz : h_total h = counts_sum h -> 1 <= h_total h ->
  Rsum (map (fun p => (fst p * snd p)%R) (combine (hist_pdf h nz true) (map widthR (h_bins h)))) = 1%R.
Proof.
  intros T L. rewrite <- (pdf_sum_RA h T L), density_RA. unfold hist_pdf, of_nat. cbn [of_Z RA div num].
  assert (Nz : IZR (Z.of_nat (h_total h)) <> 0%R) by (apply not_0_IZR; lia).
  generalize (h_bins h) as bins. induction bins as [|b bins IH]; simpl; auto. rewrite IH. f_equal.
  pose proof (widthR_pos b). field. lra.
Qed.

Lemma nonneg_div (a b : R) : (0 <= a)%R -> (0 <= b)%R -> (0 <= a / b)%R.
Proof.
  intros Ha Hb. destruct (Rle_lt_or_eq_dec _ _ Hb) as [H| <-].
  - apply Rmult_le_pos; auto. left. now apply Rinv_0_lt_compat.
  - unfold Rdiv. rewrite Rinv_0. lra.
Qed.

Lemma pdf_nonneg_RA (h : hist RA) nz d : Forall (fun p : R => (0 <= p)%R) (hist_pdf h nz d).
Proof.
  assert (P : forall n, (0 <= IZR (Z.of_nat n))%R) by (intros; apply IZR_le; lia).
  destruct d.
  - rewrite density_RA, Forall_map. apply Forall_forall. intros b _. apply nonneg_div; auto.
    apply Rmult_le_pos; auto. left. apply widthR_pos.
  - unfold hist_pdf, of_nat. cbn [of_Z RA div num]. rewrite Forall_map. apply Forall_forall. intros b _.
    apply nonneg_div; auto. destruct nz; auto. lra.
Qed.

Lemma cdf_last_RA (h : hist RA) : h_total h = counts_sum h -> 1 <= length (h_bins h) -> 1 <= h_total h ->
  nth_error (hist_cdf h true) (length (h_bins h) - 1) = Some 1%R.
Proof.
  intros T L L'. rewrite cdf_Fcum by (auto; lia). f_equal. apply Fcum_last.
  - rewrite T in L'. exact L'.
  - rewrite map_length. lia.
Qed.

(** ** Doubles *)

Lemma add_nonneg (x y : double) : nonneg x -> finite64 y = true -> (0 <= B2R y)%R ->
  nonneg (Badd x y) /\ (X x <= X (Badd x y))%R.
Proof.
  intros [Nx Px] Fy Py. destruct (finite64 x) eqn:Fx.
  - destruct (X_add x y Fx Fy) as [E N].
    assert (L : (X x <= X (Badd x y))%R).
    { rewrite E, X_fin by auto. rewrite <- (R64_B2R x) at 1. apply R64_le. lra. }
    split; auto. split; auto. lra.
  - assert (E : Badd x y = x).
    { destruct x as [s|s| |s m e B]; try discriminate. destruct y as [s'|s'| |s' m' e' B']; try discriminate; reflexivity. }
    rewrite E. split; [split; auto|lra].
Qed.

Lemma from_nonneg (l : list double) : forall acc, nonneg acc ->
  Forall (fun y => finite64 y = true /\ (0 <= B2R y)%R) l ->
  Forall (fun y => nonneg y /\ (X acc <= X y)%R) (partial_sum_from (A := B64) acc l) /\
  StronglySorted (fun x y => X x <= X y)%R (partial_sum_from (A := B64) acc l).
Proof.
  induction l as [|y l IH]; intros acc Ha F; [repeat constructor|].
  inversion_clear F as [|? ? [Fy Py] F']. cbn [partial_sum_from].
  change (acc +. y)%num with (Badd acc y). destruct (add_nonneg acc y Ha Fy Py) as [N L].
  destruct (IH _ N F') as [G S]. split.
  - constructor; auto. eapply Forall_impl; [|exact G]. cbn. intros z [Hz Hl]. split; auto. lra.
  - constructor; auto. eapply Forall_impl; [|exact G]. cbn. tauto.
Qed.

Lemma partial_nonneg (l : list double) : Forall (fun y => finite64 y = true /\ (0 <= B2R y)%R) l ->
  Forall nonneg (partial_sum (A := B64) l) /\ StronglySorted (fun x y => X x <= X y)%R (partial_sum (A := B64) l).
Proof.
  intros F. destruct l as [|y l]; [split; constructor|]. inversion_clear F as [|? ? [Fy Py] F'].
  assert (N : nonneg y) by (split; [now apply fin_nan|rewrite X_fin; auto]).
  destruct (from_nonneg l y N F') as [G S]. cbn [partial_sum]. split; constructor; auto.
  - eapply Forall_impl; [|exact G]. cbn. tauto.
  - eapply Forall_impl; [|exact G]. cbn. tauto.
Qed.

Lemma of_nat_nonneg c : (Z.of_nat c < 2 ^ 64)%Z ->
  finite64 (of_nat (A := B64) c) = true /\ (0 <= B2R (of_nat (A := B64) c) <= bpow radix2 64)%R.
Proof.
  intros H. destruct c as [|c].
  - change (of_nat (A := B64) 0) with (Bz 0). destruct (Bz_exact 0) as [E F]; [lia|]. rewrite E. split; auto.
    split; [lra|apply bpow_ge_0].
  - destruct (of_nat_ok (S c)) as [F L]; [lia|auto|]. split; auto. lra.
Qed.

(** Normalised and plain counts in doubles. *)
Lemma pdf_entry (t : double) c : finite64 t = true -> (1 <= B2R t)%R -> (Z.of_nat c < 2 ^ 64)%Z ->
  finite64 (Bquot (of_nat (A := B64) c) t) = true /\ (0 <= B2R (Bquot (of_nat (A := B64) c) t))%R.
Proof.
  intros Ft Pt Hc. destruct (of_nat_nonneg c Hc) as [Fc Pc].
  destruct (X_div _ t Fc Ft) as [E N]; [lra|]. destruct (Bz_pow 64) as [E6 F6]; [lia|].
  set (x := of_nat c) in * . clearbody x.
  assert (I : (0 <= B2R x / B2R t <= bpow radix2 64)%R).
  { split; [apply nonneg_div; lra|]. apply Rle_trans with (B2R x / 1)%R; [|lra].
    apply Rmult_le_compat_l; [lra|]. apply Rinv_le; lra. }
  assert (L : (0 <= X (Bquot x t) <= bpow radix2 64)%R).
  { rewrite E. split.
    - rewrite <- R64_0. apply R64_le. lra.
    - rewrite <- E6 at 1. rewrite <- (R64_B2R (Bz (2 ^ 64))), E6. apply R64_le. lra. }
  assert (F : finite64 (Bquot x t) = true).
  { apply fin_X; auto. rewrite Rabs_pos_eq by lra. apply Rle_lt_trans with (bpow radix2 64); [lra|apply bpow_lt; lia]. }
  split; auto. rewrite <- X_fin by auto. lra.
Qed.

Lemma pdf_B64 (h : hist B64) nz : 1 <= h_total h -> (Z.of_nat (h_total h) < 2 ^ 64)%Z ->
  Forall (fun b => (Z.of_nat (b_count b) < 2 ^ 64)%Z) (h_bins h) ->
  Forall (fun y : double => finite64 y = true /\ (0 <= B2R y)%R) (hist_pdf h nz false).
Proof.
  intros L1 L2 F. unfold hist_pdf. cbn [num B64]. rewrite Forall_map. eapply Forall_impl; [|exact F]. cbn beta. intros b Hb.
  change (div (of_nat (b_count b)) (if nz then of_nat (h_total h) else of_Z 1%Z))
    with (Bquot (of_nat (A := B64) (b_count b)) (if nz then of_nat (A := B64) (h_total h) else Bz 1)).
  destruct nz.
  - destruct (of_nat_ok (h_total h) L1 L2) as [Ft Pt]. apply pdf_entry; auto. lra.
  - destruct (Bz_exact 1) as [E1 F1]; [lia|].
    assert (P1 : (1 <= B2R (Bz 1))%R) by (rewrite E1; lra). apply pdf_entry; auto.
Qed.

Lemma cdf_B64 (h : hist B64) nz : 1 <= h_total h -> (Z.of_nat (h_total h) < 2 ^ 64)%Z ->
  Forall (fun b => (Z.of_nat (b_count b) < 2 ^ 64)%Z) (h_bins h) ->
  Forall nonneg (hist_cdf h nz) /\ StronglySorted (fun x y => X x <= X y)%R (hist_cdf h nz).
Proof. intros L1 L2 F. apply partial_nonneg. apply pdf_B64; auto. Qed.

(** *** The last entry of the cdf in doubles *)

Definition u53 : R := bpow radix2 (-53).

Lemma R64_lower (r t : R) : (bpow radix2 (-1022) <= r)%R -> (t <= r * (1 - u53))%R -> (t <= big)%R -> (t <= R64 r)%R.
Proof.
  intros Hr Ht Hb. unfold R64.
  assert (P : (0 < r)%R) by (eapply Rlt_le_trans; [apply bpow_gt_0|exact Hr]).
  assert (L : (r * (1 - u53) <= rnd r)%R).
  { pose proof (relative_error_N_FLT radix2 (-1074) 53 eq_refl (fun z => negb (Z.even z)) r) as H.
    rewrite Rabs_pos_eq with (x := r) in H by lra. specialize (H Hr).
    change (round radix2 (FLT_exp (-1074) 53) ZnearestE r) with (rnd r) in H.
    replace (/ 2 * bpow radix2 (- (53) + 1))%R with u53 in H.
    - apply Rabs_le_inv in H. lra.
    - unfold u53. change (-53)%Z with (-1 + (-53 + 1))%Z. rewrite bpow_plus. reflexivity. }
  unfold sat. destruct (Rlt_bool_spec (Rabs (rnd r)) big); [lra|].
  destruct (Rlt_bool_spec (rnd r) 0); [|lra]. pose proof (rnd_le 0 r ltac:(lra)) as K. rewrite rnd_0 in K. lra.
Qed.

Lemma u53_small : (0 < u53 <= / 1048576)%R.
Proof.
  unfold u53. split; [apply bpow_gt_0|]. apply Rle_trans with (bpow radix2 (-20)); [apply bpow_le; lia|].
  right. reflexivity.
Qed.

Lemma pow_one_le (a : R) n m : (0 <= a <= 1)%R -> n <= m -> (a ^ m <= a ^ n)%R.
Proof.
  intros Ha L. replace m with (n + (m - n)) by lia. rewrite pow_add.
  assert (0 <= a ^ n)%R by (apply pow_le; lra).
  assert (a ^ (m - n) <= 1)%R by (rewrite <- (pow1 (m - n)); apply pow_incr; lra). nra.
Qed.

(** Each partial sum is at least the exact one times (1-u)^(k+1). *)
Lemma from_lower (t : R) cs : (1 <= t)%R -> (t <= bpow radix2 53)%R -> forall (l : list double) (acc : double) pre m,
  Forall (fun c => 1 <= c) cs ->
  Forall2 (fun c y => finite64 y = true /\ (0 <= B2R y)%R /\ (IZR (Z.of_nat c) / t * (1 - u53) <= B2R y)%R) cs l ->
  nonneg acc -> (IZR (Z.of_nat pre) / t * (1 - u53) ^ m <= X acc)%R -> 1 <= m -> 1 <= pre ->
  (IZR (Z.of_nat (pre + list_sum cs)) / t <= 1)%R ->
  forall s, last (partial_sum_from (A := B64) acc l) acc = s ->
  nonneg s /\ (IZR (Z.of_nat (pre + list_sum cs)) / t * (1 - u53) ^ (m + length cs) <= X s)%R.
Proof.
  intros Ht Ht'. pose proof u53_small as U. induction cs as [|c cs IH]; intros l acc pre m Fc F2 Na La Hm Hp Hs s Es.
  - inversion F2; subst l. cbn in Es. subst s. cbn. rewrite !Nat.add_0_r. auto.
  - inversion F2 as [|? y ? l' (Fy & Py & Ly) F2']. subst l. clear F2. inversion_clear Fc as [|? ? Pc Fc'].
    cbn [partial_sum_from] in Es. change (acc +. y)%num with (Badd acc y) in Es.
    destruct (add_nonneg acc y Na Fy Py) as [N1 L1].
    assert (Ip : (0 < / t)%R) by (apply Rinv_0_lt_compat; lra).
    assert (Hle : (IZR (Z.of_nat (pre + c)) / t <= 1)%R).
    { eapply Rle_trans; [|exact Hs]. apply Rmult_le_compat_r; [lra|]. apply IZR_le. simpl. lia. }
    assert (Hpw : forall n, (0 <= (1 - u53) ^ n <= 1)%R).
    { intros n. split; [apply pow_le; lra|]. apply (pow_one_le (1 - u53) 0 n); [lra|lia]. }
    assert (Pp : (0 <= IZR (Z.of_nat pre) / t)%R) by (apply nonneg_div; [apply IZR_le; lia|lra]).
    assert (Pcc : (0 <= IZR (Z.of_nat c) / t)%R) by (apply nonneg_div; [apply IZR_le; lia|lra]).
    assert (Split : (IZR (Z.of_nat (pre + c)) / t = IZR (Z.of_nat pre) / t + IZR (Z.of_nat c) / t)%R).
    { rewrite Nat2Z.inj_add, plus_IZR. unfold Rdiv. ring. }
    assert (L2 : (IZR (Z.of_nat (pre + c)) / t * (1 - u53) ^ (S m) <= X (Badd acc y))%R).
    { destruct (finite64 acc) eqn:Facc.
      - destruct (X_add acc y Facc Fy) as [Ea _]. rewrite Ea. rewrite X_fin in La by auto.
        pose proof (Hpw m) as H1. pose proof (Hpw (S m)) as H2.
        assert (Sum : (IZR (Z.of_nat (pre + c)) / t * (1 - u53) ^ m <= B2R acc + B2R y)%R).
        { rewrite Split. assert ((1 - u53) ^ m <= 1 - u53)%R.
          { rewrite <- (pow_1 (1 - u53)) at 2. apply pow_one_le; [lra|auto]. }
          nra. }
        apply R64_lower.
        + apply Rle_trans with (/ t * (1 - u53))%R.
          * apply Rle_trans with (bpow radix2 (-53) * / 2)%R.
            -- change (/ 2)%R with (bpow radix2 (-1)). rewrite <- bpow_plus. apply bpow_le. lia.
            -- apply Rmult_le_compat; [apply bpow_ge_0|lra| |lra].
               change (-53)%Z with (- (53))%Z. rewrite bpow_opp. apply Rinv_le; [lra|exact Ht'].
          * apply Rle_trans with (B2R y); [|destruct Na as [_ Pn]; rewrite (X_fin _ Facc) in Pn; lra].
            eapply Rle_trans; [|exact Ly]. apply Rmult_le_compat_r; [lra|].
            rewrite <- (Rmult_1_l (/ t)) at 1. apply Rmult_le_compat_r; [lra|]. apply (IZR_le 1). lia.
        + change ((1 - u53) ^ S m)%R with ((1 - u53) * (1 - u53) ^ m)%R. nra.
        + apply Rle_trans with 1%R; [|apply (bpow_le radix2 0 1024); lia]. nra.
      - assert (E : Badd acc y = acc /\ X acc = big).
        { destruct Na as [Nn Pn]. destruct acc as [s0|s0| |s0 m0 e0 B0]; try discriminate.
          destruct s0; [cbn in Pn; pose proof big_pos; lra|].
          destruct y as [s'|s'| |s' m' e' B']; try discriminate; split; reflexivity. }
        destruct E as [-> ->]. apply Rle_trans with 1%R; [|apply (bpow_le radix2 0 1024); lia].
        pose proof (Hpw (S m)). nra. }
    destruct (IH l' (Badd acc y) (pre + c) (S m) Fc' F2' N1 L2) with (s := s) as [Ns Ls]; try lia.
    + replace (pre + c + list_sum cs) with (pre + list_sum (c :: cs)) by (simpl; lia). exact Hs.
    + rewrite <- Es. clear. cbn [last].
      destruct (partial_sum_from (Badd acc y) l') as [|z q] eqn:E; auto.
      clear. revert z. induction q as [|w q IH]; intros z; auto. apply (IH w).
    + split; auto. replace (pre + list_sum (c :: cs)) with (pre + c + list_sum cs) by (simpl; lia).
      replace (m + length (c :: cs)) with (S m + length cs) by (simpl; lia). exact Ls.
Qed.

Lemma bernoulli (u : R) n : (0 <= u <= 1)%R -> (1 - INR n * u <= (1 - u) ^ n)%R.
Proof.
  intros Hu. induction n as [|n IH]; [simpl; lra|]. rewrite S_INR. cbn [pow].
  assert (0 <= INR n)%R by apply pos_INR. nra.
Qed.

Lemma nth_last {T} (l : list T) d : l <> [] -> nth_error l (length l - 1) = Some (last l d).
Proof.
  induction l as [|x [|y l] IH]; intros H; [easy|auto|].
  simpl length in * . replace (S (S (length l)) - 1) with (S (S (length l) - 1)) by lia. cbn [nth_error].
  rewrite IH by easy. reflexivity.
Qed.

Lemma last_irrel {T} (l : list T) d d' : l <> [] -> last l d = last l d'.
Proof. induction l as [|x [|y l] IH]; intros H; [easy|auto|]. apply IH. easy. Qed.

Lemma cdf_last_B64 (h : hist B64) : h_total h = counts_sum h -> Forall (fun b => 1 <= b_count b) (h_bins h) ->
  1 <= length (h_bins h) -> (Z.of_nat (length (h_bins h)) <= 2 ^ 32)%Z -> (Z.of_nat (h_total h) <= 2 ^ 53)%Z ->
  exists s : double, nth_error (hist_cdf h true) (length (h_bins h) - 1) = Some s /\ nonneg s /\
    (1 - bpow radix2 (-21) <= X s)%R.
Proof.
  intros T Pos L1 Ln Lt. unfold counts_sum in T. pose proof u53_small as U.
  assert (Fc : Forall (fun c => 1 <= c) (map b_count (h_bins h))) by now rewrite Forall_map.
  pose proof (sum_positive _ Fc) as Sp. rewrite map_length in Sp. rewrite <- T in Sp.
  destruct (Bz_exact (Z.of_nat (h_total h))) as [Et Ft]; [lia|]. fold (of_nat (A := B64) (h_total h)) in Et, Ft.
  set (t := IZR (Z.of_nat (h_total h))) in * .
  assert (Ht : (1 <= t)%R) by (apply (IZR_le 1); lia).
  assert (Ht' : (t <= bpow radix2 53)%R) by (unfold t; rewrite <- (IZR_Zpower radix2) by lia; apply IZR_le; exact Lt).
  assert (Ip : (0 < / t)%R) by (apply Rinv_0_lt_compat; lra).
  assert (Entry : forall c, 1 <= c -> (Z.of_nat c <= 2 ^ 53)%Z ->
    let y := Bquot (of_nat (A := B64) c) (of_nat (A := B64) (h_total h)) in
    finite64 y = true /\ (0 <= B2R y)%R /\ (IZR (Z.of_nat c) / t * (1 - u53) <= B2R y)%R).
  { intros c Hc Hc' y. destruct (pdf_entry (of_nat (A := B64) (h_total h)) c) as [Fy Py]; auto;
      [change (1 <= B2R (Bz (Z.of_nat (h_total h))))%R; rewrite Et; exact Ht|lia|].
    split; auto. split; auto. destruct (Bz_exact (Z.of_nat c)) as [Ec Fcc]; [lia|].
    destruct (X_div (Bz (Z.of_nat c)) (Bz (Z.of_nat (h_total h))) Fcc Ft) as [Ex _]; [rewrite Et; lra|].
    change (of_nat (A := B64) c) with (Bz (Z.of_nat c)) in y. change (of_nat (A := B64) (h_total h)) with (Bz (Z.of_nat (h_total h))) in y.
    rewrite <- (X_fin y Fy). unfold y. rewrite Ex, Et, Ec.
    assert (C1 : (1 <= IZR (Z.of_nat c) <= bpow radix2 53)%R).
    { split; [apply (IZR_le 1); lia|]. rewrite <- (IZR_Zpower radix2) by lia. apply IZR_le. exact Hc'. }
    assert (I : (/ t <= IZR (Z.of_nat c) / t <= bpow radix2 53)%R).
    { split; [rewrite <- (Rmult_1_l (/ t)) at 1; apply Rmult_le_compat_r; lra|].
      apply Rle_trans with (IZR (Z.of_nat c) / 1)%R; [|lra]. apply Rmult_le_compat_l; [lra|]. apply Rinv_le; lra. }
    apply R64_lower; [|lra|].
    - apply Rle_trans with (/ t)%R; [|lra]. apply Rle_trans with (bpow radix2 (- (53)));
        [apply bpow_le; lia|rewrite bpow_opp; apply Rinv_le; lra].
    - apply Rle_trans with (bpow radix2 53); [|apply bpow_le; lia]. nra. }
  assert (Small : forall c, In c (map b_count (h_bins h)) -> (Z.of_nat c <= 2 ^ 53)%Z).
  { intros c Ic. apply in_split in Ic as (l & r & E). assert (c <= h_total h); [|lia].
    rewrite T, E, list_sum_app. simpl. lia. }
  unfold hist_cdf, hist_pdf. rewrite <- (map_map b_count (fun c => div (of_nat c) (of_nat (A := B64) (h_total h)))).
  rewrite <- (map_length b_count (h_bins h)) in L1, Ln |- * .
  assert (Hsum : (t = IZR (Z.of_nat (list_sum (map b_count (h_bins h)))))%R) by (unfold t; now rewrite T).
  revert Fc Small L1 Ln Hsum. generalize (map b_count (h_bins h)) as cs. intros [|c cs] Fc Small L1 Ln Hsum; [simpl in L1; lia|].
  inversion_clear Fc as [|? ? Pc Fc']. cbn [map partial_sum].
  set (y := div (of_nat c) (of_nat (A := B64) (h_total h))). set (l := map _ cs).
  destruct (Entry c Pc (Small c (or_introl eq_refl))) as (Fy & Py & Ly). change (finite64 y = true) in Fy. change (0 <= B2R y)%R in Py.
  change (IZR (Z.of_nat c) / t * (1 - u53) <= B2R y)%R in Ly.
  assert (Xy : X y = B2R y) by exact (X_fin _ Fy). clearbody y.
  destruct (from_lower t cs Ht Ht' l y c 1) with (s := last (partial_sum_from y l) y) as [Ns Ls]; auto.
  - unfold l. clear -Fc' Small Entry. induction Fc' as [|d cs Hd F IH]; simpl; constructor.
    + apply Entry; auto. apply Small. simpl. auto.
    + apply IH. intros e Ie. apply Small. simpl in * . tauto.
  - split; [exact (fin_nan _ Fy)|]. rewrite Xy. exact Py.
  - rewrite Xy, pow_1. exact Ly.
  - change (c + list_sum cs) with (list_sum (c :: cs)). rewrite <- Hsum. right. apply Rinv_r. lra.
  - exists (last (partial_sum_from y l) y). split; [|split; auto].
    + assert (Len : length (y :: partial_sum_from y l) = length (c :: cs)).
      { simpl. rewrite partial_from_length. unfold l. now rewrite map_length. }
      rewrite <- Len. rewrite (nth_last _ y) by easy. f_equal. simpl. destruct (partial_sum_from y l) eqn:E; auto.
    + eapply Rle_trans; [|exact Ls]. change (c + list_sum cs) with (list_sum (c :: cs)). rewrite <- Hsum.
      unfold Rdiv. rewrite Rinv_r, Rmult_1_l by lra.
      eapply Rle_trans; [|apply bernoulli; lra].
      assert (INR (1 + length cs) * u53 <= bpow radix2 (-21))%R; [|lra].
      apply Rle_trans with (bpow radix2 32 * u53)%R.
      * apply Rmult_le_compat_r; [lra|]. rewrite INR_IZR_INZ, <- (IZR_Zpower radix2) by lia. apply IZR_le. exact Ln.
      * unfold u53. rewrite <- bpow_plus. apply bpow_le. lia.
Qed.

(** Close to one is essentially equal. *)
Lemma near_one_essential (q s : double) : finite64 q = true -> finite64 s = true ->
  (1 - bpow radix2 (-21) <= B2R s)%R -> (B2R s <= B2R q)%R -> (B2R q <= 1)%R ->
  essentiallyEqual (A := B64) q s default_eps = true.
Proof.
  intros Fq Fs H1 H2 H3. destruct default_eps_ok as [Fe _]. apply (B_essential q s default_eps Fq Fs Fe).
  assert (E21 : (bpow radix2 (-21) = / 2097152)%R) by reflexivity.
  assert (Fx : forall e, (-1000 <= e <= 1000)%Z -> R64 (bpow radix2 e) = bpow radix2 e).
  { intros e He. unfold R64. rewrite rnd_fix.
    - apply sat_in. rewrite Rabs_pos_eq by apply bpow_ge_0. apply bpow_lt. lia.
    - apply generic_format_bpow. unfold fexp64, SpecFloat.fexp, SpecFloat.emin. lia. }
  assert (P : (0 <= R64 (B2R q - B2R s) <= bpow radix2 (-21))%R).
  { split; [rewrite <- R64_0; apply R64_le; lra|]. rewrite <- (Fx (-21)%Z) by lia. apply R64_le. lra. }
  rewrite Rabs_pos_eq by lra.
  apply Rle_trans with (bpow radix2 (-15)); [eapply Rle_trans; [apply P|apply bpow_le; lia]|].
  unfold tol_min. rewrite <- (Fx (-15)%Z) by lia. apply R64_le.
  rewrite !Rabs_pos_eq by lra. rewrite Rmin_right by lra.
  assert (De : (/ 16384 <= B2R (default_eps (A := B64)))%R).
  { assert (K : Bleb (lit (A := B64) 1 16384) (default_eps (A := B64)) = true) by (vm_compute; reflexivity).
    assert (F6 : finite64 (lit (A := B64) 1 16384) = true) by (vm_compute; reflexivity).
    apply X_leb in K; auto using fin_nan. rewrite (X_fin _ F6), (X_fin _ Fe) in K.
    eapply Rle_trans; [|exact K]. unfold lit. cbn [of_Z div B64].
    destruct (Bz_exact 1) as [E1 F1]; [lia|]. destruct (Bz_exact 16384) as [E2 F2]; [lia|].
    destruct (X_div (Bz 1) (Bz 16384) F1 F2) as [Ex _]; [rewrite E2; lra|].
    rewrite <- (X_fin (Bquot (Bz 1) (Bz 16384)) F6), Ex, E1, E2.
    replace (1 / 16384)%R with (bpow radix2 (-14)) by (simpl; lra). rewrite Fx by lia. simpl. lra. }
  change (bpow radix2 (-15)) with (/ 32768)%R. nra.
Qed.

Lemma quantile_safe_B64 (h : hist B64) (q : double) :
  h_total h = counts_sum h -> Forall (fun b => 1 <= b_count b) (h_bins h) ->
  2 <= length (h_bins h) -> (Z.of_nat (length (h_bins h)) <= 2 ^ 32)%Z -> (Z.of_nat (h_total h) <= 2 ^ 53)%Z ->
  Bltb q (Bz 0) = false -> Bltb (Bz 1) q = false ->
  exists v, hist_quantile h q = Ret v.
Proof.
  intros T Pos L2 Ln Lt Q0 Q1.
  destruct (cdf_last_B64 h T Pos) as (s & Es & Ns & Ls); [lia|auto|auto|].
  assert (Hr : ltb q (zero (A := B64)) || ltb (of_Z 1%Z) q = false).
  { unfold zero. cbn [ltb of_Z B64]. now rewrite Q0, Q1. }
  assert (Tp : 1 <= h_total h).
  { rewrite T. assert (Fc : Forall (fun c => 1 <= c) (map b_count (h_bins h))) by now rewrite Forall_map.
    pose proof (sum_positive _ Fc) as Sp. rewrite map_length in Sp. unfold counts_sum. lia. }
  destruct (cdf_B64 h true) as [Nn So]; auto; [lia| |].
  { apply Forall_forall. intros b Ib. apply in_split in Ib as (l & r & E).
    assert (b_count b <= h_total h); [|lia]. rewrite T. unfold counts_sum. rewrite E, map_app, list_sum_app. simpl. lia. }
  rewrite Forall_forall in Nn.
  destruct (lower_bound_spec (hist_cdf h true) q) as (i & El & Li & P1 & P2).
  { intros j k x y L Ej Ek H. cbn [ltb B64] in * .
    destruct (nan q) eqn:Nq; [rewrite nan_ltb_r in H by auto; discriminate|].
    destruct (Nn x (nth_error_In _ _ Ej)) as [Nx _]. destruct (Nn y (nth_error_In _ _ Ek)) as [Ny _].
    pose proof (sorted_nth _ _ So j k x y L Ej Ek) as M. cbn beta in M.
    apply X_ltb in H; auto. apply X_ltb; auto. lra. }
  destruct (quantile_shape h q i Hr El Li) as (Lk & Eq); [rewrite cdf_length; lia|].
  rewrite cdf_length in * . set (k := position (hist_cdf h true) q i) in * .
  destruct (nth_error (hist_cdf h true) k) as [c|] eqn:Ec; [|apply nth_error_None in Ec; rewrite cdf_length in Ec; lia].
  destruct (nth_error (h_bins h) k) as [b|] eqn:Eb; [|apply nth_error_None in Eb; lia].
  rewrite (Eq c b eq_refl eq_refl). clear Eq.
  destruct (essentiallyEqual q c default_eps) eqn:Ee; [eauto|].
  destruct (nth_error (hist_cdf h true) (k + 1)) as [c1|] eqn:E1; [eauto|]. exfalso.
  apply nth_error_None in E1. rewrite cdf_length in E1.
  assert (Ek : k = length (h_bins h) - 1) by lia. assert (c = s) by congruence. subst c. clear E1 Ec.
  assert (Lst : nan q = false /\ (X s <= X q)%R).
  { unfold k, position in Ek. rewrite cdf_length in Ek.
    destruct (Nat.eqb_spec i (length (h_bins h))) as [E|E].
    - specialize (P1 (length (h_bins h) - 1) s ltac:(lia) Es). cbn [ltb B64] in P1.
      destruct (nan q) eqn:Nq; [rewrite nan_ltb_r in P1 by auto; discriminate|].
      split; auto. apply X_ltb in P1; [lra|apply Ns|auto].
    - destruct (Nat.eqb_spec i 0) as [E0|E0]; [lia|].
      destruct (nth_error (hist_cdf h true) i) as [c|] eqn:Ei; [|apply nth_error_None in Ei; rewrite cdf_length in Ei; lia].
      destruct (ltb q c) eqn:G; [lia|]. rewrite <- Ek in Es. assert (c = s) by congruence. subst c.
      destruct (nth_error (hist_cdf h true) 0) as [c0|] eqn:E00; [|apply nth_error_None in E00; rewrite cdf_length in E00; lia].
      specialize (P1 0 c0 ltac:(lia) E00). cbn [ltb B64] in P1, G.
      destruct (nan q) eqn:Nq; [rewrite nan_ltb_r in P1 by auto; discriminate|].
      split; auto. apply X_ltb_false in G; auto. apply Ns. }
  destruct Lst as [Nq Lsq]. destruct (Bz_exact 1) as [B1 F1]; [lia|].
  apply X_ltb_false in Q1; auto using fin_nan. rewrite (X_fin _ F1), B1 in Q1.
  pose proof u53_small.
  assert (G21 : (0 <= 1 - bpow radix2 (-21))%R) by (change (bpow radix2 (-21)) with (/ 2097152)%R; lra).
  assert (Bg : (1 < big)%R) by (apply (bpow_lt radix2 0 1024); lia).
  assert (Fq : finite64 q = true) by (apply fin_X; auto; rewrite Rabs_pos_eq by lra; lra).
  assert (Fs : finite64 s = true) by (apply fin_X; [apply Ns|]; rewrite Rabs_pos_eq by lra; lra).
  rewrite (X_fin _ Fq), (X_fin _ Fs) in * .
  rewrite near_one_essential in Ee; auto; try lra.
Qed.
