(** The entropy once the window slides, and its range inside the window. *)

From Coq Require Import List Sorting.Sorted Arith Bool Lia ZArith Reals Lra.
From Flocq Require Import Core.Core IEEE754.BinarySingleNaN.
From Verif Require Import Outcome Arith Utils IBin Histogram Mean Entropy Spec ListFacts HistSpec UtilsFacts
  HistFacts FloatSpec FloatFacts UtilsMono HistOrder HistStreams HistQuant HistWitness EntropySpec EntropyFacts.
Import ListNotations.
Local Open Scope nat_scope.

(** ** Range *)

Lemma ln_below x : (0 < x)%R -> (ln x <= x - 1)%R.
Proof. intros H. pose proof (exp_ineq1_le (ln x)) as E. rewrite exp_ln in E by auto. lra. Qed.

Lemma ln_below_strict x : (0 < x)%R -> x <> 1%R -> (ln x < x - 1)%R.
Proof.
  intros H N. assert (ln x <> 0)%R.
  { intros E. apply N. rewrite <- (exp_ln x H), E. apply exp_0. }
  pose proof (exp_ineq1 (ln x) H0) as E. rewrite exp_ln in E by auto. lra.
Qed.

Lemma ln_above x : (0 < x)%R -> (1 - / x <= ln x)%R.
Proof.
  intros H. pose proof (ln_below (/ x) (Rinv_0_lt_compat _ H)) as E. rewrite ln_Rinv in E by auto. lra.
Qed.

Lemma share_pos xs v : In v xs -> (0 < share xs v <= 1)%R.
Proof.
  intros I. unfold share. assert (L : 1 <= length xs) by (destruct xs; [destruct I|simpl; lia]).
  assert (C : 1 <= count_occ Req_EM_T xs v) by (apply (count_occ_In Req_EM_T) in I; lia).
  assert (C2 : count_occ Req_EM_T xs v <= length xs) by apply count_occ_bound.
  assert (0 < INR (length xs))%R by (apply lt_0_INR; lia). split.
  - apply Rdiv_lt_0_compat; auto. apply lt_0_INR. lia.
  - apply Rmult_le_reg_r with (INR (length xs)); auto. unfold Rdiv. rewrite Rmult_assoc, Rinv_l by lra.
    rewrite Rmult_1_r, Rmult_1_l. now apply le_INR.
Qed.

Lemma log2R_neg p : (0 < p <= 1)%R -> (log2R p <= 0)%R.
Proof.
  intros [P Q]. pose proof (ln_below p P). pose proof ln2_pos. unfold log2R.
  apply Rmult_le_reg_r with (ln 2); auto. unfold Rdiv. rewrite Rmult_assoc, Rinv_l by lra. lra.
Qed.

Lemma Rsum_le {X} (f g : X -> R) l : (forall v, In v l -> (f v <= g v)%R) -> (Rsum (map f l) <= Rsum (map g l))%R.
Proof.
  induction l as [|y l IH]; intros H; cbn; [lra|]. pose proof (H y (or_introl eq_refl)).
  assert (Rsum (map f l) <= Rsum (map g l))%R by (apply IH; intros; apply H; simpl; auto). lra.
Qed.

Lemma shannon_nonneg xs vs : (forall v, In v vs -> In v xs) -> (0 <= shannon xs vs)%R.
Proof.
  intros I. unfold shannon. assert (Rsum (map (fun v => share xs v * log2R (share xs v)) vs) <= 0)%R; [|lra].
  rewrite <- (Rmult_0_l (INR (length vs))).
  assert (Z : forall l : list R, Rsum (map (fun _ => 0%R) l) = (0 * INR (length l))%R).
  { induction l; cbn [map Rsum length]; [cbn; ring|]. rewrite IHl. ring. }
  rewrite <- Z. apply Rsum_le. intros v Iv. pose proof (share_pos xs v (I v Iv)) as P.
  pose proof (log2R_neg _ P). nra.
Qed.

Lemma sum_share xs : 1 <= length xs -> Rsum (map (share xs) (distinct xs)) = 1%R.
Proof.
  intros L. assert (0 < INR (length xs))%R by (apply lt_0_INR; lia).
  rewrite (map_ext _ (fun v => (/ INR (length xs) * INR (cnt xs v) + 0 * 0)%R)).
  - rewrite (Rsum_linear (fun v => INR (cnt xs v)) (fun _ => 0%R)), sum_cnt. rewrite Rinv_l by lra. ring.
  - intros v. unfold share, cnt, Rdiv. ring.
Qed.

Lemma Rsum_const (r : R) (l : list R) : Rsum (map (fun _ => r) l) = (r * INR (length l))%R.
Proof. induction l as [|y l IH]; cbn [map Rsum length]; [cbn; ring|]. rewrite S_INR, IH. ring. Qed.

(** Gibbs' inequality against the uniform distribution. *)
Lemma shannon_max xs : 1 <= length xs -> (shannon xs (distinct xs) <= log2R (INR (length (distinct xs))))%R.
Proof.
  intros L. set (k := length (distinct xs)).
  assert (Hk : 1 <= k).
  { unfold k. destruct xs as [|y xs]; [simpl in L; lia|]. destruct (distinct (y :: xs)) eqn:E; [|simpl; lia].
    exfalso. assert (K : In y (distinct (y :: xs))) by (apply nodup_In; simpl; auto). rewrite E in K. destruct K. }
  assert (Pk : (0 < INR k)%R) by (apply lt_0_INR; lia). pose proof ln2_pos as P2.
  assert (G : (Rsum (map (fun v => - (share xs v * log2R (share xs v)) - share xs v * log2R (INR k)) (distinct xs)) <=
              Rsum (map (fun v => (/ ln 2) * (/ INR k) + (- / ln 2) * share xs v) (distinct xs)))%R).
  { apply Rsum_le. intros v Iv. apply nodup_In in Iv. destruct (share_pos xs v Iv) as [P _]. set (p := share xs v) in * .
    replace (- (p * log2R p) - p * log2R (INR k))%R with (p * / ln 2 * ln (/ (p * INR k)))%R.
    - assert (Ppk : (0 < p * INR k)%R) by (apply Rmult_lt_0_compat; auto).
      pose proof (ln_below (/ (p * INR k)) (Rinv_0_lt_compat _ Ppk)) as B.
      apply Rle_trans with (p * / ln 2 * (/ (p * INR k) - 1))%R.
      + apply Rmult_le_compat_l; auto. apply Rmult_le_pos; [lra|]. left. now apply Rinv_0_lt_compat.
      + right. field. lra.
    - rewrite ln_Rinv, ln_mult by (auto; apply Rmult_lt_0_compat; auto). unfold log2R. field. lra. }
  rewrite (Rsum_linear (fun _ => (/ INR k)%R) (share xs)), sum_share, Rsum_const in G by auto. fold k in G.
  replace (/ INR k * INR k)%R with 1%R in G by (field; lra).
  assert (E : Rsum (map (fun v => (- (share xs v * log2R (share xs v)) - share xs v * log2R (INR k))%R) (distinct xs)) =
              (shannon xs (distinct xs) - log2R (INR k))%R).
  { rewrite (map_ext _ (fun v => (-1 * (share xs v * log2R (share xs v)) + (- log2R (INR k)) * share xs v)%R)).
    - rewrite (Rsum_linear (fun v => (share xs v * log2R (share xs v))%R) (share xs)), sum_share by auto.
      unfold shannon. ring.
    - intros v. ring. }
  rewrite E in G. lra.
Qed.

(** ** Sliding *)

Lemma decrement_RA (h : hist RA) ent i b c : nth_error (h_bins h) i = Some b -> b_count b = S c -> 1 <= h_total h ->
  entropy_decrement log2R h ent i = Ret
    (let n := INR (h_total h) in
     n / (n - 1) * (ent + INR (S c) / n * log2R (INR (S c) / n) - INR c / n * log2R (INR c / n)) + log2R ((n - 1) / n))%R.
Proof.
  intros Hb Hc T. unfold entropy_decrement, hist_getBin, at_.
  assert (i < length (h_bins h)) by (apply nth_error_Some; congruence).
  destruct (Nat.ltb_spec (length (h_bins h)) i); [lia|]. rewrite Hb. cbn [bind]. rewrite !of_nat_RA, Hc.
  assert (Pn : (0 < INR (h_total h))%R) by (apply lt_0_INR; lia). set (n := INR (h_total h)) in * .
  assert (M : max_ (A := RA) 0%R (INR (S c) - 1)%R = INR c).
  { unfold max_. rewrite S_INR. replace (INR c + 1 - 1)%R with (INR c) by ring. cbn.
    destruct (Rltb 0 (INR c)) eqn:E; auto. apply Rltb_false in E. pose proof (pos_INR c). lra. }
  cbn [sub add mul div of_Z RA num]. rewrite M. replace (n - 1 + 1)%R with n by ring.
  replace (INR c + 1)%R with (INR (S c)) by now rewrite S_INR.
  rewrite !xlogx_RA by (apply Rmult_le_pos; [apply pos_INR|left; now apply Rinv_0_lt_compat]).
  cbn [bind]. f_equal.
Qed.

(** Value after [a] and [k] times [b]. *)
Definition drift_value (W k : nat) : R :=
  if Nat.ltb k W then (log2R (INR (S k)) - clog k / INR (S k))%R
  else if Nat.eqb k W then 0%R
  else (- (clog (W - 1) + clog (W + 1) - 2 * clog W) / INR W)%R.

Lemma clog_1 : clog 1 = 0%R.
Proof. unfold clog. cbn. rewrite log2R_1. ring. Qed.

Lemma value_inside k :
  let n := INR (S (S k)) in
  ((n - 1) / n * (log2R (INR (S k)) - clog k / INR (S k) - log2R ((n - 1) / n)) +
   (- (INR (S k) / n * log2R (INR (S k) / n)) + INR k / n * log2R (INR k / n)) = log2R n - clog (S k) / n)%R.
Proof.
  intros n. unfold n. rewrite !share_term by lia. assert (Pk : (0 < INR (S k))%R) by (apply lt_0_INR; lia).
  replace (INR (S (S k)) - 1)%R with (INR (S k)) by (rewrite (S_INR (S k)); ring).
  assert (Pn : (0 < INR (S (S k)))%R) by (apply lt_0_INR; lia). rewrite log2R_div by auto.
  unfold clog. rewrite (S_INR (S k)) in * . set (lg := log2R (INR (S k) + 1)).
  set (m := INR (S k)) in * . assert (Ek : INR k = (m - 1)%R) by (unfold m; rewrite S_INR; ring).
  set (lk := log2R (INR k)). set (lm := log2R m). rewrite Ek. field. lra.
Qed.

(** Removing the only [a] leaves [W-1] equal values. *)
Lemma value_remove_first m : 1 <= m ->
  let n := INR (S m) in
  (n / (n - 1) * (log2R n - clog m / n + INR 1 / n * log2R (INR 1 / n) - INR 0 / n * log2R (INR 0 / n)) + log2R ((n - 1) / n) = 0)%R.
Proof.
  intros Hm n. unfold n. rewrite !share_term by lia. rewrite clog_1.
  assert (Pm : (0 < INR m)%R) by (apply lt_0_INR; lia).
  replace (INR (S m) - 1)%R with (INR m) by (rewrite S_INR; ring).
  assert (Pn : (0 < INR (S m))%R) by (apply lt_0_INR; lia). rewrite log2R_div by auto.
  unfold clog. change (INR 1) with 1%R. change (INR 0) with 0%R. rewrite S_INR in * . set (lg := log2R (INR m + 1)).
  set (lm := log2R (INR m)). field. lra.
Qed.

Lemma value_remove_last m : 1 <= m ->
  let n := INR (S m) in
  (n / (n - 1) * (0 + INR (S m) / n * log2R (INR (S m) / n) - INR m / n * log2R (INR m / n)) + log2R ((n - 1) / n) = 0)%R.
Proof.
  intros Hm n. unfold n. rewrite !share_term by lia.
  assert (Pm : (0 < INR m)%R) by (apply lt_0_INR; lia).
  replace (INR (S m) - 1)%R with (INR m) by (rewrite S_INR; ring).
  assert (Pn : (0 < INR (S m))%R) by (apply lt_0_INR; lia). rewrite log2R_div by auto.
  unfold clog. rewrite S_INR in * . set (lg := log2R (INR m + 1)).
  set (lm := log2R (INR m)). field. lra.
Qed.

(** Adding the [W]-th resp. a surplus [b] to [W-1] equal values. *)
Lemma value_add W c : 1 <= W ->
  let n := INR W in
  let rhs := (- (INR (S c) / n * log2R (INR (S c) / n)) + INR c / n * log2R (INR c / n))%R in
  (if Nat.eqb W 1 then rhs else (n - 1) / n * (0 - log2R ((n - 1) / n)) + rhs)%R =
  ((- clog (W - 1) - clog (S c) + clog c + INR W * log2R (INR W)) / n)%R.
Proof.
  intros HW n rhs. unfold rhs, n. rewrite !share_term by lia. destruct (Nat.eqb_spec W 1) as [->|K].
  - cbn [Nat.sub]. unfold clog. cbn [INR]. rewrite log2R_1. field.
  - assert (Pm : (0 < INR (W - 1))%R) by (apply lt_0_INR; lia). assert (Pn : (0 < INR W)%R) by (apply lt_0_INR; lia).
    assert (E : INR (W - 1) = (INR W - 1)%R) by (rewrite minus_INR by lia; reflexivity).
    replace (INR W - 1)%R with (INR (W - 1)) by lra. rewrite log2R_div by auto.
    unfold clog. rewrite S_INR. rewrite E. set (lg := log2R (INR W)). set (l1 := log2R (INR W - 1)).
    set (l2 := log2R (INR c + 1)). set (l3 := log2R (INR c)). field. lra.
Qed.

Lemma update_sliding {A : arith} (log2 : A -> A) (e : entropy A) x f w i : e_window e = Some (f :: w) ->
  e_wsize e = S (length w) -> hist_binSearch (e_hist e) x = Ret i ->
  entropy_update log2 e x =
  let* ent1 := entropy_decrement log2 (e_hist e) (e_value e) f in
  let* h' := hist_update (e_hist e) x in
  let* ent2 := entropy_increment log2 h' ent1 i in
  Ret (Entropy (Some (w ++ [i])) (e_wsize e) (S (e_history e)) h' ent2).
Proof.
  intros Hw L Hi. unfold entropy_update. rewrite Hi, Hw. cbn [bind app].
  destruct (Nat.ltb_spec (e_wsize e) (length (f :: w ++ [i]))) as [H|H];
    [|simpl in H; rewrite app_length in H; simpl in H; lia].
  destruct (entropy_decrement log2 (e_hist e) (e_value e) f); reflexivity.
Qed.

Lemma drift_value_zero W c : 1 <= W -> c = W -> (- clog (W - 1) - clog c + clog (c - 1) + INR W * log2R (INR W))%R = 0%R.
Proof. intros HW ->. unfold clog at 2. ring. Qed.

Lemma drift_entropy (a b : R) N W k : definitelyLessThan (A := RA) a b default_eps = true ->
  2 <= N -> 1 <= W -> k <= W + 1 ->
  exists e, update_all (entropy_update log2R) (Entropy (new_window W) W 0 (hist_new (A := RA) N W true) 0%R) (a :: repeat b k) = Ret e /\
    update_all hist_update (hist_new (A := RA) N W true) (a :: repeat b k) = Ret (e_hist e) /\
    e_wsize e = W /\ e_window e = Some (skipn (S k - W) (0 :: repeat 1 k)) /\ e_value e = drift_value W k.
Proof.
  intros H1 HN HW. induction k as [|k IH]; intros Hk.
  - cbn [repeat update_all]. unfold entropy_update. cbn [e_hist].
    replace (hist_binSearch (hist_new (A := RA) N W true) a) with (Ret 0) by reflexivity. cbn [bind e_window e_hist e_wsize].
    unfold new_window. destruct (Nat.ltb_spec 0 W); [|lia]. cbn [app length]. destruct (Nat.ltb_spec W 1); [lia|]. cbn [bind].
    rewrite first_update by lia. cbn [bind e_value].
    rewrite (increment_at log2R _ _ 0 (Bin a a 1)) by reflexivity. cbn [h_total b_count].
    rewrite ent_value_RA by lia. cbn [bind]. eexists. split; [reflexivity|]. cbn [e_hist e_wsize e_window e_value].
    split; [reflexivity|]. split; [reflexivity|]. split; [now replace (1 - W) with 0 by lia|].
    cbn [Nat.eqb]. unfold drift_value. destruct (Nat.ltb_spec 0 W); [|lia]. unfold clog. cbn [INR].
    unfold Rdiv. rewrite Rinv_1, !Rmult_1_r, log2R_1. match goal with |- ?x = ?y => change (@eq R x y) end. ring.
  - destruct IH as (e & E & Eh & Ws & Ew & Ev); [lia|].
    assert (H2 : definitelyLessThan (A := RA) b b default_eps = false).
    { destruct (definitelyLessThan (A := RA) b b default_eps) eqn:K; auto.
      apply (o_less _ _ ordered_RA) in K; try exact I. cbn in K. apply Rltb_true in K. lra. }
    assert (H3 : leb (a := RA) b b = true) by (cbn; apply Rleb_true; lra).
    destruct (drift_run (A := RA) a b N W (S k) H1 H2 H3 HN HW) as (h' & E' & _ & B' & T'); [lia|].
    rewrite repeat_snoc, app_comm_cons. rewrite !update_all_snoc. rewrite E, Eh. cbn [bind].
    rewrite repeat_snoc, app_comm_cons, update_all_snoc in E'.
    change (bind (update_all hist_update (hist_new (A := RA) N W true) (a :: repeat b k)) (fun s' => hist_update s' b) = Ret h') in E'.
    rewrite Eh in E'. cbn [bind] in E'.
    assert (Hk0 : h_bins (e_hist e) = (if Nat.eqb k 0 then [Bin a a 1] else [Bin a a (if Nat.leb (S k) W then 1 else 0); Bin b b (Nat.min k (2 * W))]) /\
                  h_total (e_hist e) = Nat.min (S k) W).
    { destruct k as [|k].
      - cbn [repeat update_all] in Eh. rewrite first_update in Eh by lia. injection Eh as <-. cbn [h_bins h_total Nat.eqb]. split; auto. lia.
      - destruct (drift_run (A := RA) a b N W (S k) H1 H2 H3 HN HW) as (h0 & E0 & _ & B0 & T0); [lia|].
        assert (Eq : Ret (e_hist e) = Ret h0) by (rewrite <- Eh; exact E0). injection Eq as ->. auto. }
    destruct Hk0 as [B T].
    assert (Es : hist_binSearch (e_hist e) b = Ret 1).
    { unfold hist_binSearch. destruct (search_found (e_hist e) (Bin b b 1)) as (i & -> & _ & Fi). f_equal.
      rewrite B in Fi. destruct (Nat.eqb k 0).
      - eapply found_after; [|exact Fi]. exact H1.
      - eapply found_two; [| |exact Fi]; auto. }
    rewrite E'.
    assert (Inc : forall ent, entropy_increment log2R h' ent 1 = ent_value log2R (Nat.min (S (S k)) W) (S k) ent).
    { intros ent. rewrite (increment_at log2R h' ent 1 _ ltac:(rewrite B'; reflexivity)). cbn [b_count].
      rewrite T'. now replace (Nat.min (S k) (2 * W)) with (S k) by lia. }
    destruct (lt_dec (S k) W) as [C|C].
    + (* growing *)
      replace (S k - W) with 0 in Ew by lia. cbn [skipn] in Ew.
      rewrite (update_inside log2R e b _ 1 Ew) by (auto; rewrite Ws; simpl; rewrite repeat_length; lia).
      rewrite E'. cbn [bind]. rewrite Inc. replace (Nat.min (S (S k)) W) with (S (S k)) by lia.
      rewrite ent_value_RA by lia. cbn [bind]. eexists. split; [reflexivity|]. cbn [e_hist e_wsize e_window e_value].
      split; auto. split; auto. split.
      * replace (S (S k) - W) with 0 by lia. cbn [skipn]. now rewrite repeat_snoc.
      * cbn [Nat.eqb]. rewrite Ev. unfold drift_value. destruct (Nat.ltb_spec k W); [|lia].
        destruct (Nat.ltb_spec (S k) W); [|lia]. apply value_inside.
    + (* sliding *)
      assert (Hw : exists f w, e_window e = Some (f :: w) /\ length w = W - 1 /\ w ++ [1] = skipn (S (S k) - W) (0 :: repeat 1 (S k)) /\
                (f = 0 /\ S k = W \/ f = 1 /\ k = W)).
      { destruct (Nat.eq_dec (S k) W) as [K|K].
        - exists 0, (repeat 1 k). rewrite Ew. replace (S k - W) with 0 by lia. cbn [skipn]. rewrite repeat_length.
          split; auto. split; [lia|]. split; auto. replace (S (S k) - W) with 1 by lia. cbn [skipn]. now rewrite repeat_snoc.
        - assert (k = W) as -> by lia. destruct W as [|W']; [lia|]. exists 1, (repeat 1 W'). rewrite Ew.
          replace (S (S W') - S W') with 1 by lia. cbn [skipn repeat]. rewrite repeat_length.
          split; auto. split; [lia|]. split; auto. replace (S (S (S W')) - S W') with 2 by lia.
          symmetry. apply (repeat_snoc 1 W'). }
      destruct Hw as (f & w & Ew' & Lw & Ew2 & Cf).
      rewrite (update_sliding log2R e b f w 1 Ew') by (auto; lia).
      assert (Dec : exists ent1, entropy_decrement log2R (e_hist e) (e_value e) f = Ret ent1 /\ (2 <= W -> ent1 = 0%R)).
      { destruct Cf as [[-> K]|[-> K]].
        - rewrite (decrement_RA (e_hist e) (e_value e) 0 (Bin a a 1) 0).
          + eexists. split; [reflexivity|]. intros W2. rewrite T. replace (Nat.min (S k) W) with (S k) by lia.
            rewrite Ev. unfold drift_value. destruct (Nat.ltb_spec k W); [|lia]. apply value_remove_first. lia.
          + rewrite B. destruct (Nat.eqb_spec k 0); auto. destruct (Nat.leb_spec (S k) W); [reflexivity|lia].
          + reflexivity.
          + rewrite T. lia.
        - rewrite (decrement_RA (e_hist e) (e_value e) 1 (Bin b b W) (W - 1)).
          + eexists. split; [reflexivity|]. intros W2. rewrite T. replace (Nat.min (S k) W) with (S (W - 1)) by lia.
            rewrite Ev. unfold drift_value. destruct (Nat.ltb_spec k W); [lia|]. destruct (Nat.eqb_spec k W); [|lia].
            apply value_remove_last. lia.
          + rewrite B. destruct (Nat.eqb_spec k 0); [lia|]. cbn. do 2 f_equal. lia.
          + cbn. lia.
          + rewrite T. lia. }
      destruct Dec as (ent1 & -> & D0). cbn [bind]. rewrite E'. cbn [bind]. rewrite Inc.
      replace (Nat.min (S (S k)) W) with W by lia. rewrite ent_value_RA by lia. cbn [bind].
      eexists. split; [reflexivity|]. cbn [e_hist e_wsize e_window e_value].
      split; auto. split; auto. split; [now rewrite Ew2|].
      transitivity (let n := INR W in
        let rhs := (- (INR (S k) / n * log2R (INR (S k) / n)) + INR k / n * log2R (INR k / n))%R in
        (if Nat.eqb W 1 then rhs else (n - 1) / n * (0 - log2R ((n - 1) / n)) + rhs)%R).
      { destruct (Nat.eqb_spec W 1); auto. rewrite D0 by lia. reflexivity. }
      match goal with |- ?x = ?y => change (@eq R x y) end.
      rewrite value_add by lia. unfold drift_value. destruct (Nat.ltb_spec (S k) W); [lia|].
      destruct (Nat.eqb_spec (S k) W) as [K|K].
      * replace k with (S k - 1) at 2 by lia. rewrite drift_value_zero by lia. unfold Rdiv. ring.
      * replace k with W by lia. replace (W + 1) with (S W) by lia. unfold clog at 3. unfold clog at 5. unfold Rdiv. ring.
Qed.

(** x log2 x is strictly convex. *)
Lemma clog_convex W : 1 <= W -> (0 < clog (W - 1) + clog (W + 1) - 2 * clog W)%R.
Proof.
  intros HW. assert (Pn : (0 < INR W)%R) by (apply lt_0_INR; lia). pose proof ln2_pos as P2.
  unfold clog, log2R. rewrite plus_INR, minus_INR by lia. change (INR 1) with 1%R. set (n := INR W) in * .
  assert (N1 : (1 <= n)%R) by (unfold n; apply (le_INR 1); auto).
  assert (U : (1 < (n + 1) * (ln (n + 1) - ln n))%R).
  { pose proof (ln_below_strict (n / (n + 1))) as B.
    assert (E : ln (n / (n + 1)) = (ln n - ln (n + 1))%R) by (unfold Rdiv; rewrite ln_mult, ln_Rinv by (try apply Rinv_0_lt_compat; lra); ring).
    rewrite E in B. assert (Q : (0 < n / (n + 1))%R) by (apply Rdiv_lt_0_compat; lra).
    assert (Q1 : (n / (n + 1) = 1 - / (n + 1))%R) by (field; lra).
    assert (Q2 : (0 < / (n + 1))%R) by (apply Rinv_0_lt_compat; lra).
    specialize (B Q ltac:(lra)). rewrite Q1 in B.
    apply Rmult_lt_reg_l with (/ (n + 1))%R; auto. rewrite <- Rmult_assoc, Rinv_l by lra. lra. }
  assert (V : (-1 <= (n - 1) * (ln (n - 1) - ln n))%R).
  { destruct (Req_dec n 1) as [->|Hn]; [replace (1 - 1)%R with 0%R by ring; lra|].
    pose proof (ln_below (n / (n - 1))) as B.
    assert (E : ln (n / (n - 1)) = (ln n - ln (n - 1))%R) by (unfold Rdiv; rewrite ln_mult, ln_Rinv by (try apply Rinv_0_lt_compat; lra); ring).
    rewrite E in B. assert (Q : (0 < n / (n - 1))%R) by (apply Rdiv_lt_0_compat; lra).
    assert (Q1 : (n / (n - 1) = 1 + / (n - 1))%R) by (field; lra).
    specialize (B Q). rewrite Q1 in B.
    assert ((n - 1) * (ln n - ln (n - 1)) <= (n - 1) * (1 + / (n - 1) - 1))%R by (apply Rmult_le_compat_l; lra).
    replace ((n - 1) * (1 + / (n - 1) - 1))%R with 1%R in H by (field; lra). lra. }
  replace ((n - 1) * (ln (n - 1) / ln 2) + (n + 1) * (ln (n + 1) / ln 2) - 2 * (n * (ln n / ln 2)))%R
    with (((n - 1) * (ln (n - 1) - ln n) + (n + 1) * (ln (n + 1) - ln n)) * / ln 2)%R by (field; lra).
  apply Rmult_lt_0_compat; [lra|now apply Rinv_0_lt_compat].
Qed.

Lemma drift_negative W : 1 <= W -> (drift_value W (W + 1) < 0)%R.
Proof.
  intros HW. unfold drift_value. destruct (Nat.ltb_spec (W + 1) W); [lia|]. destruct (Nat.eqb_spec (W + 1) W) as [K|_]; [lia|].
  assert (Pn : (0 < INR W)%R) by (apply lt_0_INR; lia). pose proof (clog_convex W HW) as G.
  apply Rmult_lt_reg_r with (INR W); auto. unfold Rdiv. rewrite Rmult_assoc, Rinv_l by lra. lra.
Qed.

(** ** Reachable states and the statements *)

Lemma entropy_reach {A : arith} (log2 : A -> A) W N (e0 e : entropy A) xs : entropy_new W N = Ret e0 ->
  update_all (entropy_update log2) e0 xs = Ret e -> 1 <= W ->
  h_numBins (e_hist e) = h_numBins (e_hist e0) /\
  hist_calls (hist_new (h_numBins (e_hist e0)) W true) (map HUpdate xs) = Ret (e_hist e) /\
  e_wsize e = W /\ e_history e = length xs /\ exists w, e_window e = Some w /\ length w = Nat.min (length xs) W.
Proof.
  intros E0 E HW. unfold entropy_new in E0. apply bind_Ret in E0 as (B & _ & E0). injection E0 as <-. cbn [e_hist].
  change (h_numBins (hist_new B W true)) with B. revert e E.
  induction xs as [|x xs IH] using rev_ind; intros e E.
  - injection E as <-. cbn. split; auto. split; auto. split; auto. split; auto. unfold new_window.
    destruct (Nat.ltb_spec 0 W); [|lia]. exists []. split; auto.
  - rewrite update_all_snoc in E. apply bind_Ret in E as (e1 & E1 & E).
    destruct (IH e1 E1) as (Hn & Hc & Hws & Hh & w & Hw & Lw). clear IH.
    assert (Eh : exists h', hist_update (e_hist e1) x = Ret h' /\ e_hist e = h' /\ e_wsize e = W /\
              e_history e = S (e_history e1) /\ exists w', e_window e = Some w' /\ length w' = Nat.min (S (length xs)) W).
    { unfold entropy_update in E. apply bind_Ret in E as (i & _ & E). rewrite Hw in E.
      apply bind_Ret in E as ((w2, ent1) & E2 & E). apply bind_Ret in E as (h' & Eu & E).
      apply bind_Ret in E as (ent2 & _ & E). injection E as <-. cbn [e_hist e_wsize e_history e_window].
      exists h'. split; auto. split; auto. split; auto. split; auto. exists w2. split; auto.
      destruct (Nat.ltb_spec (e_wsize e1) (length (w ++ [i]))) as [C|C]; rewrite app_length in C; simpl in C.
      - destruct (w ++ [i]) as [|f w'] eqn:Ew; [discriminate|]. apply bind_Ret in E2 as (d & _ & E2). injection E2 as <- _.
        apply (f_equal (@length nat)) in Ew. rewrite app_length in Ew. simpl in Ew. lia.
      - injection E2 as <- _. rewrite app_length. cbn [length]. lia. }
    destruct Eh as (h' & Eu & <- & Ws & Hi & w' & Hw' & Lw').
    assert (Hc' : hist_calls (hist_new B W true) (map HUpdate (xs ++ [x])) = Ret (e_hist e)).
    { rewrite map_app. cbn [map]. rewrite hist_calls_snoc, Hc. exact Eu. }
    destruct (run_basic _ _ _ _ Hc') as ((hw & (Hn' & _) & _) & _).
    split; [exact Hn'|]. split; auto. split; auto. rewrite app_length, Nat.add_1_r. cbn [length].
    split; [lia|]. eauto.
Qed.

Lemma new_bins {A : arith} W N : 1 <= N ->
  entropy_new (A := A) W N = Ret (Entropy (new_window W) W 0 (hist_new N W true) (of_Z 0)).
Proof. intros HN. unfold entropy_new, entropy_bins. destruct (Nat.eqb_spec N 0); [lia|]. reflexivity. Qed.

Lemma new_default {A : arith} W : 1 <= W ->
  entropy_new (A := A) W 0 = Ret (Entropy (new_window W) W 0 (hist_new (Nat.log2_up W + 1) W true) (of_Z 0)).
Proof.
  intros HW. unfold entropy_new, entropy_bins. cbn [Nat.eqb]. destruct (Nat.eqb_spec W 0); [lia|]. cbn [bind].
  now replace (Nat.max 0 (Nat.log2_up W + 1)) with (Nat.log2_up W + 1) by lia.
Qed.

Lemma entropy_exact W N B (xs : list R) : 1 <= N /\ B = N \/ N = 0 /\ 1 <= W /\ B = Nat.log2_up W + 1 ->
  length xs <= W -> separated (A := RA) xs -> few (A := RA) B xs ->
  exists e0 e, entropy_new (A := RA) W N = Ret e0 /\ update_all (entropy_update log2R) e0 xs = Ret e /\
    forall vs, NoDup vs -> (forall v, In v vs <-> In v xs) ->
      entropy_evaluate e = shannon xs vs /\ (0 <= entropy_evaluate e)%R /\
      (1 <= length xs -> (entropy_evaluate e <= log2R (INR (length vs)))%R).
Proof.
  intros HB L S F.
  assert (E0 : entropy_new (A := RA) W N = Ret (Entropy (new_window W) W 0 (hist_new B W true) (of_Z (a := RA) 0))).
  { destruct HB as [[HN ->]|(-> & HW & ->)]; [now apply new_bins|now apply new_default]. }
  eexists. assert (G : exists e, update_all (entropy_update log2R) (Entropy (new_window W) W 0 (hist_new (A := RA) B W true) 0%R) xs = Ret e /\
    e_value e = shannon xs (distinct xs)).
  { destruct (Nat.eq_dec W 0) as [->|K].
    - destruct xs; [|simpl in L; lia]. eexists. split; [reflexivity|]. unfold shannon. cbn. ring.
    - destruct (entropy_run B W xs) as (e & E & _ & V); auto; [lia|eauto]. }
  destruct G as (e & E & V). exists e. split; [exact E0|]. split; [exact E|]. intros vs Nv Iv. unfold entropy_evaluate.
  rewrite V. rewrite <- (shannon_unique xs vs Nv Iv). split; auto. split.
  - apply shannon_nonneg. intros v. apply Iv.
  - intros Lx. replace (length vs) with (length (distinct xs)).
    + rewrite (shannon_unique xs vs Nv Iv). now apply shannon_max.
    + apply Nat.le_antisymm; apply NoDup_incl_length; auto; try apply NoDup_nodup;
        intros v Iv'; [apply nodup_In in Iv'; now apply Iv|apply nodup_In; now apply Iv].
Qed.

Lemma entropy_negative (a b : R) N W : definitelyLessThan (A := RA) a b default_eps = true -> 2 <= N -> 1 <= W ->
  exists e0 e, entropy_new (A := RA) W N = Ret e0 /\
    update_all (entropy_update log2R) e0 (a :: repeat b (W + 1)) = Ret e /\ (entropy_evaluate e < 0)%R.
Proof.
  intros H HN HW. destruct (drift_entropy a b N W (W + 1) H HN HW) as (e & E & _ & _ & _ & V); [lia|].
  eexists _, e. split; [apply new_bins; lia|]. split; [exact E|]. unfold entropy_evaluate. rewrite V. now apply drift_negative.
Qed.

Lemma zero_window {A : arith} (log2 : A -> A) N x : 1 <= N ->
  exists e0, entropy_new (A := A) 0 N = Ret e0 /\ entropy_update log2 e0 x = Undef NullDeref.
Proof. intros HN. eexists. split; [now apply new_bins|]. now apply update_null. Qed.
