(** The entropy of a sliding window, when new values only appear above the old
    ones. *)

From Coq Require Import List Sorting.Sorted Arith Bool Lia ZArith Reals Lra.
From Verif Require Import Outcome Arith Utils IBin Histogram Mean Entropy Spec ListFacts HistSpec HistSlideSpec UtilsFacts
  HistFacts HistOrder HistStreams HistSlide EntropySpec EntropySlideSpec EntropyFacts EntropyDrift.
Import ListNotations.
Local Open Scope nat_scope.

Lemma gain_clog W k : 1 <= W -> 1 <= k -> gain W k = ((clog k - clog (k - 1) - log2R (INR W)) / INR W)%R.
Proof.
  intros HW Hk. unfold gain. rewrite !share_term by auto. rewrite minus_INR by auto. change (INR 1) with 1%R.
  assert (0 < INR W)%R by (apply lt_0_INR; lia). field. lra.
Qed.

Lemma gain_mono W k : 1 <= W -> 1 <= k -> (gain W k < gain W (S k))%R.
Proof.
  intros HW Hk. rewrite !gain_clog by lia. pose proof (clog_convex k Hk) as G.
  replace (S k - 1) with k by lia. rewrite Nat.add_1_r in G.
  assert (0 < INR W)%R by (apply lt_0_INR; lia). unfold Rdiv. apply Rmult_lt_compat_r; [now apply Rinv_0_lt_compat|lra].
Qed.

(** increment and decrement for any count. *)
Lemma max_pred (c : nat) : max_ (A := RA) 0%R (INR c - 1)%R = INR (c - 1).
Proof.
  unfold max_. cbn. destruct c as [|c].
  - cbn [INR Nat.sub]. destruct (Rltb 0 (0 - 1)) eqn:E; auto. apply Rltb_true in E. lra.
  - rewrite S_INR. replace (INR c + 1 - 1)%R with (INR c) by ring. replace (S c - 1) with c by lia.
    destruct (Rltb 0 (INR c)) eqn:E; auto. apply Rltb_false in E. pose proof (pos_INR c). lra.
Qed.

Lemma increment_any n c ent : 2 <= n -> ent_value (A := RA) log2R n c ent = Ret
  ((INR n - 1) / INR n * (ent - log2R ((INR n - 1) / INR n)) - gain n c)%R.
Proof.
  intros Hn. assert (P : (0 < INR n)%R) by (apply lt_0_INR; lia). unfold ent_value. rewrite !of_nat_RA. cbn [div sub of_Z RA num].
  rewrite max_pred. rewrite !xlogx_RA by (apply Rmult_le_pos; [apply pos_INR|left; now apply Rinv_0_lt_compat]).
  cbn [bind]. cbn [sub add mul eqb RA of_Z].
  replace (Reqb 1 (INR n)) with false.
  - unfold gain. f_equal. ring.
  - symmetry. destruct (Reqb 1 (INR n)) eqn:E; auto. apply Reqb_true in E. apply (INR_eq 1) in E. lia.
Qed.

Lemma decrement_any (h : hist RA) ent i b : nth_error (h_bins h) i = Some b -> 2 <= h_total h ->
  entropy_decrement log2R h ent i = Ret
    (let n := INR (h_total h) in n / (n - 1) * (ent + gain (h_total h) (Nat.max 1 (b_count b))) + log2R ((n - 1) / n))%R.
Proof.
  intros Hb T. unfold entropy_decrement, hist_getBin, at_.
  assert (i < length (h_bins h)) by (apply nth_error_Some; congruence).
  destruct (Nat.ltb_spec (length (h_bins h)) i); [lia|]. rewrite Hb. cbn [bind]. rewrite !of_nat_RA.
  assert (Pn : (0 < INR (h_total h))%R) by (apply lt_0_INR; lia).
  cbn [sub add mul div of_Z RA num]. rewrite max_pred. unfold gain. set (n := INR (h_total h)) in * .
  replace (n - 1 + 1)%R with n by ring.
  replace (INR (b_count b - 1) + 1)%R with (INR (Nat.max 1 (b_count b))).
  2: { rewrite <- S_INR. f_equal. lia. }
  rewrite !xlogx_RA by (apply Rmult_le_pos; [apply pos_INR|left; now apply Rinv_0_lt_compat]).
  cbn [bind]. replace (Nat.max 1 (b_count b) - 1) with (b_count b - 1) by lia. f_equal. cbn zeta.
  match goal with |- ?x = ?y => change (@eq R x y) end. ring.
Qed.

Lemma slide_alg (n v a b l : R) : (2 <= n)%R -> ((n - 1) / n * (n / (n - 1) * (v + a) + l - l) - b = v + a - b)%R.
Proof. intros H. field. lra. Qed.

(** ** The state *)

Definition ridx (vs : list R) (x : R) : nat := idx (A := RA) vs x.

Record estate (N W : nat) (xs : list R) (e : entropy RA) (vs : list R) : Prop := {
  es_hist : sinv (A := RA) N W W W xs (e_hist e) vs;
  es_size : e_wsize e = W;
  es_window : e_window e = Some (lastn W (map (ridx vs) xs))
}.

Lemma map_lastn {X Y} (f : X -> Y) n l : lastn n (map f l) = map f (lastn n l).
Proof. unfold lastn. rewrite map_length. symmetry. rewrite !skipn_map. reflexivity. Qed.

Lemma anyD (xs : list R) : Forall (fun _ : R => True) xs.
Proof. apply Forall_forall. auto. Qed.

Lemma in_lastn {X} n (l : list X) y : In y (lastn n l) -> In y l.
Proof. intros H. rewrite <- (firstn_skipn (length l - n) l). apply in_or_app. auto. Qed.

(** One update: it succeeds, and once the window is full the entropy changes by
    the gain of the value leaving and that of the value entering. *)
Lemma estate_step N W xs e vs x : 1 <= W -> estate N W xs e vs ->
  separated (A := RA) (xs ++ [x]) -> few (A := RA) N (xs ++ [x]) -> rising_news (A := RA) (xs ++ [x]) ->
  exists e' vs', entropy_update log2R e x = Ret e' /\ estate N W (xs ++ [x]) e' vs' /\
    forall y, 2 <= W -> nth_error xs (length xs - W) = Some y -> W <= length xs ->
      ridx vs y <> 0 -> ridx vs' x <> 0 ->
      e_value e' = (e_value e + gain W (occurrences (A := RA) y (lastn (2 * W) xs))
                      - gain W (occurrences (A := RA) x (lastn (2 * W) (xs ++ [x]))))%R.
Proof.
  intros HW [Hs Hz Hw] Sep Few Ris.
  destruct (sinv_step ordered_RA N W W W xs (e_hist e) vs x (conj HW (le_n _)) Hs (anyD _) Sep Few Ris) as (h' & vs' & Eu & Hs' & Kx' & Es').
  assert (Kx : forall z : R, In z xs -> ridx vs' z = ridx vs z) by exact Kx'.
  assert (Es : hist_binSearch (e_hist e) x = Ret (ridx vs' x)) by exact Es'. clear Kx' Es'.
  assert (T : h_total (e_hist e) = Nat.min (length xs) W).
  { pose proof (si_total _ _ _ _ _ _ _ Hs) as Q. change (num RA) with R in Q. lia. }
  assert (T' : h_total h' = Nat.min (length xs + 1) W).
  { pose proof (si_total _ _ _ _ _ _ _ Hs') as Q. change (num RA) with R in Q. rewrite app_length in Q. simpl in Q. lia. }
  (* the bin of a value that occurred *)
  assert (At : forall ys h vs z, sinv (A := RA) N W W W ys h vs -> In z ys ->
      exists b, nth_error (h_bins h) (ridx vs z) = Some b /\
        (ridx vs z <> 0 -> b_count b = occurrences (A := RA) z (lastn (2 * W) ys))).
  { clear. intros ys h vs z [_ _ Sv Iv Cv Lb Hb] Iz. destruct (Cv z Iz) as (v & Ivv & Ev).
    apply In_nth_error in Ivv as (k & Ek). replace (ridx vs z) with k by (symmetry; apply (idx_at ordered_RA vs k v z); auto using anyD; exact I).
    destruct (Hb k v Ek) as (c & Ec & _ & Q). exists (Bin v v c). split; auto. intros K. cbn [b_count].
    rewrite (Q (or_introl K)). replace (2 * W) with (W + W) by lia.
    apply (occ_ext ordered_RA); auto using anyD; try exact I. apply (eqb_sym ordered_RA); auto; exact I. }
  assert (Ix : In x (xs ++ [x])) by (apply in_or_app; simpl; auto).
  destruct (At _ _ _ x Hs' Ix) as (bx & Ebx & Cx).
  assert (Hw' : lastn W (map (ridx vs) xs) = lastn W (map (ridx vs') xs)).
  { rewrite !map_lastn. apply map_ext_in. intros z Iz. symmetry. apply Kx. eapply in_lastn; eauto. }
  destruct (le_lt_dec W (length xs)) as [C|C].
  - (* full *)
    destruct (nth_error xs (length xs - W)) as [y|] eqn:Ey; [|apply nth_error_None in Ey; lia].
    assert (Iy : In y xs) by (eapply nth_error_In; eauto).
    destruct (At _ _ _ y Hs Iy) as (b & Eb & Cy).
    assert (Sp : exists w, lastn W (map (ridx vs) xs) = ridx vs y :: w /\ length w = W - 1).
    { apply nth_error_split in Ey as (l & r & Ex & Hl). exists (map (ridx vs) r). rewrite map_lastn.
      assert (G : lastn W xs = y :: r).
      { unfold lastn. rewrite <- Hl. rewrite Ex at 1. apply skipn_len. }
      split; [exact (f_equal (map (ridx vs)) G)|]. apply (f_equal (@length R)) in G.
      rewrite lastn_length in G. cbn [length] in G. rewrite map_length.
      lia. }
    destruct Sp as (w & Sp & Lw). rewrite Sp in Hw.
    assert (Sz : e_wsize e = S (length w)) by (rewrite Hz, Lw; clear -HW; lia).
    rewrite (update_sliding log2R e x _ w _ Hw Sz Es).
    assert (New : Some (w ++ [ridx vs' x]) = Some (lastn W (map (ridx vs') (xs ++ [x])))).
    { rewrite map_app. cbn [map]. rewrite lastn_snoc by lia. rewrite map_length.
      destruct (Nat.ltb_spec (length xs) W); [lia|]. rewrite <- Hw', Sp. reflexivity. }
    assert (Ok : exists ent1, entropy_decrement log2R (e_hist e) (e_value e) (ridx vs y) = Ret ent1 /\
              (2 <= W -> ent1 = (let n := INR W in n / (n - 1) * (e_value e + gain W (Nat.max 1 (b_count b))) + log2R ((n - 1) / n))%R)).
    { destruct (le_lt_dec 2 W) as [W2|W2].
      - eexists. rewrite (decrement_any (e_hist e) (e_value e) _ b Eb) by lia. split; [reflexivity|]. intros _.
        replace (h_total (e_hist e)) with W by lia. reflexivity.
      - assert (W = 1) as -> by lia. destruct (b_count b) as [|c] eqn:Ec.
        + unfold entropy_decrement, hist_getBin, at_.
          assert (ridx vs y < length (h_bins (e_hist e))) by (apply nth_error_Some; congruence).
          destruct (Nat.ltb_spec (length (h_bins (e_hist e))) (ridx vs y)); [lia|]. rewrite Eb. cbn [bind].
          rewrite !of_nat_RA. cbn [sub add mul div of_Z RA num]. rewrite max_pred, Ec.
          replace (h_total (e_hist e)) with 1 by lia. cbn [INR Nat.sub].
          rewrite !xlogx_RA by (unfold Rdiv; replace (1 - 1 + 1)%R with 1%R by ring; rewrite Rinv_1; lra). cbn [bind].
          eexists. split; [reflexivity|lia].
        + eexists. rewrite (decrement_RA (e_hist e) (e_value e) _ b c Eb Ec) by lia. split; [reflexivity|lia]. }
    destruct Ok as (ent1 & -> & Q1). cbn [bind]. rewrite Eu. cbn [bind].
    rewrite (increment_at log2R h' ent1 _ bx Ebx).
    assert (Ok2 : exists ent2, ent_value (A := RA) log2R (h_total h') (b_count bx) ent1 = Ret ent2 /\
              (2 <= W -> ent2 = ((INR W - 1) / INR W * (ent1 - log2R ((INR W - 1) / INR W)) - gain W (b_count bx))%R)).
    { destruct (le_lt_dec 2 W) as [W2|W2].
      - eexists. rewrite increment_any by lia. split; [reflexivity|]. intros _. replace (h_total h') with W by lia. reflexivity.
      - replace (h_total h') with 1 by lia. destruct (b_count bx) as [|c].
        + unfold ent_value. rewrite !of_nat_RA. cbn [div sub of_Z RA num]. rewrite max_pred. cbn [INR Nat.sub].
          rewrite !xlogx_RA by (unfold Rdiv; rewrite Rinv_1; lra). cbn [bind]. destruct (eqb _ _); eexists; (split; [reflexivity|lia]).
        + rewrite ent_value_RA by lia. eexists. split; [reflexivity|lia]. }
    destruct Ok2 as (ent2 & -> & Q2). cbn [bind].
    eexists _, vs'. split; [reflexivity|]. split; [constructor; cbn [e_hist e_wsize e_window]; auto|].
    intros y0 W2 E0 _ K1 K2. injection E0 as <-. cbn [e_value]. rewrite (Q2 W2), (Q1 W2). rewrite Cx by auto.
    assert (Oy : 1 <= occurrences (A := RA) y (lastn (2 * W) xs)).
    { rewrite occurrences_RA. apply count_occ_In.
      apply nth_error_split in Ey as (l & r & Ex & Hl). unfold lastn.
      replace xs with (firstn (length xs - 2 * W) xs ++ skipn (length xs - 2 * W) xs) in Ex at 1 by apply firstn_skipn.
      assert (G : skipn (length xs - 2 * W) xs = skipn (length xs - 2 * W) l ++ y :: r).
      { rewrite firstn_skipn in Ex. rewrite Ex at 2. rewrite skipn_app. f_equal.
        replace (length xs - 2 * W - length l) with 0 by lia. reflexivity. }
      rewrite G. apply in_or_app. simpl. auto. }
    assert (Ob : 1 <= b_count b) by (rewrite (Cy K1); exact Oy). rewrite (Nat.max_r 1 (b_count b) Ob).
    transitivity (e_value e + gain W (b_count b) - gain W (occurrences (A := RA) x (lastn (2 * W) (xs ++ [x]))))%R; [|now rewrite (Cy K1)].
    assert (P : (2 <= INR W)%R) by (apply (le_INR 2); auto). cbn zeta. match goal with |- ?x = ?y => change (@eq R x y) end.
    now apply slide_alg.
  - (* filling *)
    rewrite lastn_all in Hw by (rewrite map_length; lia).
    rewrite (update_inside log2R e x _ _ Hw ltac:(rewrite Hz, map_length; exact C) Es).
    rewrite Eu. cbn [bind]. rewrite (increment_at log2R h' _ _ bx Ebx).
    assert (Ok2 : exists ent2, ent_value (A := RA) log2R (h_total h') (b_count bx) (e_value e) = Ret ent2).
    { destruct (le_lt_dec 2 (h_total h')) as [W2|W2].
      - eexists. rewrite increment_any by lia. reflexivity.
      - replace (h_total h') with 1 by lia. destruct (b_count bx) as [|c].
        + unfold ent_value. rewrite !of_nat_RA. cbn [div sub of_Z RA num]. rewrite max_pred. cbn [INR Nat.sub].
          rewrite !xlogx_RA by (unfold Rdiv; rewrite Rinv_1; lra). cbn [bind]. destruct (eqb _ _); eauto.
        + rewrite ent_value_RA by lia. eauto. }
    destruct Ok2 as (ent2 & ->). cbn [bind].
    eexists _, vs'. split; [reflexivity|]. split; [|lia]. constructor; cbn [e_hist e_wsize e_window]; auto.
    rewrite map_app. cbn [map]. rewrite lastn_all by (rewrite app_length, map_length; simpl; lia). do 2 f_equal.
    apply map_ext_in. intros z Iz. symmetry. auto.
Qed.

Lemma estate_run N W xs : 1 <= W -> separated (A := RA) xs -> few (A := RA) N xs -> rising_news (A := RA) xs ->
  exists e vs, update_all (entropy_update log2R) (Entropy (new_window W) W 0 (hist_new (A := RA) N W true) 0%R) xs = Ret e /\
    estate N W xs e vs.
Proof.
  intros HW. induction xs as [|x xs IH] using rev_ind; intros S F Ri.
  - destruct (sinv_run ordered_RA N W [] HW (anyD _) S F Ri) as (h & vs & E & I). injection E as <-.
    eexists _, vs. split; [reflexivity|]. constructor; cbn [e_hist e_wsize e_window]; auto.
    unfold new_window. destruct (Nat.ltb_spec 0 W); [|lia]. unfold lastn. cbn [map length Nat.sub]. now rewrite skipn_nil.
  - destruct IH as (e & vs & E & I); [eapply separated_prefix; eauto|eapply few_prefix; eauto|eapply rising_prefix; eauto|].
    destruct (estate_step N W xs e vs x HW I S F Ri) as (e' & vs' & Eu & I' & _).
    exists e', vs'. rewrite update_all_snoc, E. auto.
Qed.

Lemma idx_pos (xs : list R) vs z y : (forall x, In x xs -> exists v, In v vs /\ eqb (a := RA) x v = true) ->
  In z xs -> (z < y)%R -> ridx vs y <> 0.
Proof.
  intros Cv Iz L. destruct (Cv z Iz) as (v & Iv & E). cbn in E. apply Reqb_true in E. subst v.
  unfold ridx, idx. intros K. assert (In z (filter (fun v => ltb (a := RA) v y) vs)).
  { apply filter_In. split; auto. cbn. now apply Rltb_true. }
  apply length_zero_iff_nil in K. rewrite K in H. destruct H.
Qed.

(** ** The statements *)

Lemma slide_safe W N (xs : list R) : 1 <= N -> 1 <= W -> separated (A := RA) xs -> few (A := RA) N xs -> rising_news (A := RA) xs ->
  exists e0 e, entropy_new (A := RA) W N = Ret e0 /\ update_all (entropy_update log2R) e0 xs = Ret e.
Proof.
  intros HN HW S F Ri. destruct (estate_run N W xs HW S F Ri) as (e & vs & E & _). eexists _, e. split; [now apply new_bins|exact E].
Qed.

Lemma slide_formula W N (xs : list R) (x y z : R) e0 e e' : 1 <= N -> 2 <= W ->
  separated (A := RA) (xs ++ [x]) -> few (A := RA) N (xs ++ [x]) -> rising_news (A := RA) (xs ++ [x]) ->
  entropy_new (A := RA) W N = Ret e0 -> update_all (entropy_update log2R) e0 xs = Ret e -> entropy_update log2R e x = Ret e' ->
  W <= length xs -> nth_error xs (length xs - W) = Some y -> In z xs -> (z < y)%R -> (z < x)%R ->
  entropy_evaluate e' = (entropy_evaluate e + gain W (occurrences (A := RA) y (lastn (2 * W) xs))
                          - gain W (occurrences (A := RA) x (lastn (2 * W) (xs ++ [x]))))%R.
Proof.
  intros HN HW S F Ri E0 E E' L Ey Iz Zy Zx. rewrite new_bins in E0 by auto. injection E0 as <-.
  destruct (estate_run N W xs) as (e1 & vs & E1 & I1); [lia|eapply separated_prefix; eauto|eapply few_prefix; eauto|eapply rising_prefix; eauto|].
  assert (Q : Ret e = Ret e1) by (rewrite <- E; exact E1). injection Q as ->.
  destruct (estate_step N W xs e1 vs x ltac:(lia) I1 S F Ri) as (e2 & vs' & Eu & I2 & G).
  rewrite Eu in E'. injection E' as ->. unfold entropy_evaluate. apply (G y); auto.
  - apply (idx_pos xs vs z y); auto. apply I1.
  - apply (idx_pos (xs ++ [x]) vs' z x); auto; [apply I2|apply in_or_app; auto].
Qed.

(** ** Bursts *)

Lemma INR_archimed' (r : R) : exists n, (r < INR n)%R.
Proof.
  destruct (archimed r) as [H _]. exists (Z.to_nat (up r)). destruct (Z_lt_le_dec (up r) 0) as [L|L].
  - apply IZR_lt in L. pose proof (pos_INR (Z.to_nat (up r))). lra.
  - rewrite INR_IZR_INZ, Z2Nat.id by auto. lra.
Qed.


Lemma cnt_app xs ys v : cnt (xs ++ ys) v = cnt xs v + cnt ys v.
Proof. unfold cnt. apply count_occ_app. Qed.

Lemma cnt_cons x xs v : cnt (x :: xs) v = (if Req_EM_T x v then 1 else 0) + cnt xs v.
Proof. unfold cnt. cbn [count_occ]. destruct (Req_EM_T x v); reflexivity. Qed.

Lemma cnt_repeat x n v : cnt (repeat x n) v = if Req_EM_T x v then n else 0.
Proof.
  induction n as [|n IH]; [cbn; now destruct (Req_EM_T x v)|]. cbn [repeat]. rewrite cnt_cons, IH.
  destruct (Req_EM_T x v); lia.
Qed.

Lemma lastn_exact {X} n (q T : list X) : length T = n -> lastn n (q ++ T) = T.
Proof. intros H. unfold lastn. rewrite app_length. replace (length q + length T - n) with (length q) by lia. apply skipn_len. Qed.

Lemma lastn_tail (q T : list R) c m : length T <= m -> lastn m (q ++ repeat c m ++ T) = repeat c (m - length T) ++ T.
Proof.
  intros H. replace m with (length T + (m - length T)) at 2 by lia. rewrite repeat_app. rewrite <- app_assoc, app_assoc.
  apply lastn_exact. rewrite app_length, repeat_length. lia.
Qed.

Lemma nth_back {X} (Q T : list X) W : W <= length T ->
  nth_error (Q ++ T) (length (Q ++ T) - W) = nth_error T (length T - W).
Proof. intros H. rewrite app_length, nth_error_app2 by lia. f_equal. lia. Qed.

Lemma nth_tail (q T : list R) c m W : length T < W <= m ->
  nth_error (q ++ repeat c m ++ T) (length (q ++ repeat c m ++ T) - W) = Some c.
Proof.
  intros H. rewrite nth_back by (rewrite app_length, repeat_length; lia).
  rewrite app_length, repeat_length, nth_error_app1 by (rewrite repeat_length; lia).
  apply nth_error_repeat. lia.
Qed.

Section Bursts.
  Context (a b c : R) (N W : nat).
  Context (Hab : definitelyLessThan (A := RA) a b default_eps = true).
  Context (Hbc : definitelyLessThan (A := RA) b c default_eps = true).
  Context (HN : 3 <= N) (HW : 2 <= W).

  Lemma lt_ab : (a < b)%R.
  Proof. apply (o_less _ _ ordered_RA) in Hab; try exact I. cbn in Hab. now apply Rltb_true. Qed.
  Lemma lt_bc : (b < c)%R.
  Proof. apply (o_less _ _ ordered_RA) in Hbc; try exact I. cbn in Hbc. now apply Rltb_true. Qed.

  Definition good (xs : list R) : Prop := exists ys, xs = a :: b :: ys /\ Forall (fun x => x = b \/ x = c) ys.

  Lemma good_in xs x : good xs -> In x xs -> x = a \/ x = b \/ x = c.
  Proof.
    intros (ys & -> & F) I. rewrite Forall_forall in F. destruct I as [<-|[<-|I]]; auto.
  Qed.

  Lemma good_app xs ys : good xs -> Forall (fun x => x = b \/ x = c) ys -> good (xs ++ ys).
  Proof. intros (zs & -> & F) G. exists (zs ++ ys). split; auto. apply Forall_app. auto. Qed.

  Lemma less_ac : definitelyLessThan (A := RA) a c default_eps = true.
  Proof.
    apply (RA_less_trans a b c); auto. unfold default_eps, lit. cbn. lra.
  Qed.

  Lemma eqb_self (x : R) : eqb (a := RA) x x = true.
  Proof. cbn. now apply Reqb_true. Qed.

  Lemma good_separated xs : good xs -> separated (A := RA) xs.
  Proof.
    intros G x y Ix Iy. pose proof less_ac. destruct (good_in xs x G Ix) as [->|[->| ->]], (good_in xs y G Iy) as [->|[->| ->]]; auto using eqb_self.
  Qed.

  Lemma good_few xs : good xs -> few (A := RA) N xs.
  Proof.
    intros G vs Sv Iv. apply Nat.le_trans with 3; auto.
    change (length vs <= length [a; b; c]). apply NoDup_incl_length.
    - clear -Sv. induction Sv as [|v vs Sv IH F]; constructor; auto. intros I. rewrite Forall_forall in F.
      apply F in I. cbn in I. apply Rltb_true in I. lra.
    - intros v I. apply Iv in I. destruct (good_in xs v G I) as [->|[->| ->]]; simpl; auto.
  Qed.

  Lemma good_rising xs : good xs -> rising_news (A := RA) xs.
  Proof.
    intros G l x r E. pose proof lt_ab as L1. pose proof lt_bc as L2.
    destruct l as [|l0 l]; [right; intros y []|]. destruct G as (ys & Ey & F). rewrite Ey in E. injection E as <- E.
    destruct l as [|l1 l].
    - injection E as <- _. right. intros y [<-|[]]. cbn. now apply Rltb_true.
    - injection E as <- E. rewrite Forall_forall in F.
      destruct (F x) as [-> | ->]; [rewrite E; apply in_or_app; simpl; auto| |].
      + left. exists b. split; [simpl; auto|apply eqb_self].
      + destruct (in_dec Req_EM_T c l) as [I|I]; [left; exists c; split; [simpl; auto|apply eqb_self]|].
        right. intros y Iy. cbn. apply Rltb_true. destruct Iy as [<-|[<-|Iy]]; try lra.
        destruct (F y) as [-> | ->]; [rewrite E; apply in_or_app; auto|lra|contradiction].
  Qed.

  Definition val (xs : list R) (v : R) : Prop :=
    exists e vs, update_all (entropy_update log2R) (Entropy (new_window W) W 0 (hist_new (A := RA) N W true) 0%R) xs = Ret e /\
      estate N W xs e vs /\ e_value e = v.

  Lemma val_start xs : good xs -> exists v, val xs v.
  Proof.
    intros G. destruct (estate_run N W xs ltac:(lia) (good_separated _ G) (good_few _ G) (good_rising _ G)) as (e & vs & E & I).
    exists (e_value e), e, vs. auto.
  Qed.

  Lemma val_step xs v x y : good xs -> val xs v -> W <= length xs -> nth_error xs (length xs - W) = Some y ->
    y = b \/ y = c -> x = b \/ x = c ->
    val (xs ++ [x]) (v + gain W (cnt (lastn (2 * W) xs) y) - gain W (cnt (lastn (2 * W) (xs ++ [x])) x))%R.
  Proof.
    intros G (e & vs & E & I & Q) L Ey Yb Xb. assert (G' : good (xs ++ [x])) by (apply good_app; auto).
    destruct (estate_step N W xs e vs x ltac:(lia) I (good_separated _ G') (good_few _ G') (good_rising _ G')) as (e' & vs' & Eu & I' & H).
    exists e', vs'. split; [rewrite update_all_snoc; rewrite E; exact Eu|]. split; auto.
    rewrite (H y); auto; [rewrite !occurrences_RA, Q; reflexivity| |].
    - apply (idx_pos xs vs a y); [apply I| |].
      + destruct G as (ys & -> & _). simpl. auto.
      + pose proof lt_ab; pose proof lt_bc. destruct Yb as [-> | ->]; lra.
    - apply (idx_pos (xs ++ [x]) vs' a x); [apply I'| |].
      + apply in_or_app. left. destruct G as (ys & -> & _). simpl. auto.
      + pose proof lt_ab; pose proof lt_bc. destruct Xb as [-> | ->]; lra.
  Qed.

  Lemma cnt_b T : cnt (b :: T) b = S (cnt T b).
  Proof. rewrite cnt_cons. destruct (Req_EM_T b b); [lia|congruence]. Qed.
  Lemma cnt_bc T : cnt (b :: T) c = cnt T c.
  Proof. pose proof lt_bc. rewrite cnt_cons. destruct (Req_EM_T b c); [lra|lia]. Qed.
  Lemma cnt_cb n : cnt (repeat c n) b = 0.
  Proof. pose proof lt_bc. rewrite cnt_repeat. destruct (Req_EM_T c b); [lra|lia]. Qed.
  Lemma cnt_cc n : cnt (repeat c n) c = n.
  Proof. rewrite cnt_repeat. destruct (Req_EM_T c c); [lia|congruence]. Qed.
  Lemma cnt_nil v : cnt [] v = 0.
  Proof. reflexivity. Qed.
  Lemma all_c n : Forall (fun x => x = b \/ x = c) (repeat c n).
  Proof. apply Forall_forall. intros x I. apply repeat_spec in I. auto. Qed.

  Ltac cnts := rewrite ?cnt_app, ?cnt_b, ?cnt_bc, ?cnt_cb, ?cnt_cc, ?cnt_nil; cbn [length]; rewrite ?repeat_length.

  Section One.
    Context (q : list R) (G : good (q ++ repeat c (2 * W))) (v : R) (V : val (q ++ repeat c (2 * W)) v).
    Let K := 2 * W.
    Let upto j := q ++ repeat c K ++ b :: b :: repeat c j.

    Lemma upto_S j : upto (S j) = upto j ++ [c].
    Proof. unfold upto. rewrite <- !app_assoc. cbn [app]. do 4 f_equal. change [c] with (repeat c 1). rewrite <- repeat_app. f_equal. lia. Qed.

    Lemma upto_good j : good (upto j).
    Proof. unfold upto. rewrite app_assoc. apply good_app; [exact G|]. repeat constructor; auto. apply all_c. Qed.

    Lemma two_b : val (upto 0) (v + gain W K - gain W 1 + gain W (K - 1) - gain W 2)%R.
    Proof.
      pose proof (val_step _ v b c G V) as H1. cbv zeta in H1.
      assert (L : W <= length (q ++ repeat c K)) by (rewrite app_length, repeat_length; unfold K; lia).
      specialize (H1 L).
      assert (E1 : nth_error (q ++ repeat c K) (length (q ++ repeat c K) - W) = Some c).
      { pose proof (nth_tail q [] c K W) as H. rewrite app_nil_r in H. apply H. unfold K. simpl. lia. }
      specialize (H1 E1 (or_intror eq_refl) (or_introl eq_refl)).
      assert (A0 : lastn K (q ++ repeat c K) = repeat c K) by (apply lastn_exact, repeat_length).
      assert (A1 : lastn K ((q ++ repeat c K) ++ [b]) = repeat c (K - 1) ++ [b]).
      { rewrite <- app_assoc. rewrite lastn_tail by (unfold K; simpl; lia). reflexivity. }
      fold K in H1. rewrite A0, A1 in H1. revert H1. cnts. intros H1. cbn [Nat.add] in H1.
      assert (G1 : good ((q ++ repeat c K) ++ [b])) by (apply good_app; auto).
      pose proof (val_step _ _ b c G1 H1) as H2.
      assert (L2 : W <= length ((q ++ repeat c K) ++ [b])) by (rewrite app_length; lia).
      specialize (H2 L2).
      assert (E2 : nth_error ((q ++ repeat c K) ++ [b]) (length ((q ++ repeat c K) ++ [b]) - W) = Some c).
      { rewrite <- app_assoc. apply nth_tail. unfold K. simpl. lia. }
      specialize (H2 E2 (or_intror eq_refl) (or_introl eq_refl)). fold K in H2. rewrite A1 in H2.
      assert (A2 : lastn K (((q ++ repeat c K) ++ [b]) ++ [b]) = repeat c (K - 2) ++ [b; b]).
      { rewrite <- !app_assoc. cbn [app]. rewrite lastn_tail by (unfold K; simpl; lia). reflexivity. }
      rewrite A2 in H2. revert H2. cnts. intros H2. unfold upto. cbn [repeat].
      replace (q ++ repeat c K ++ [b; b]) with (((q ++ repeat c K) ++ [b]) ++ [b]) by (rewrite <- !app_assoc; reflexivity).
      replace (K - 1 + 0) with (K - 1) in H2 by lia. exact H2.
    Qed.

    Lemma window_at j : j + 2 <= K -> lastn K (upto j) = repeat c (K - (j + 2)) ++ b :: b :: repeat c j.
    Proof.
      intros H. unfold upto. rewrite lastn_tail by (cbn [length]; rewrite repeat_length; lia).
      cbn [length]. rewrite repeat_length. do 2 f_equal. lia.
    Qed.

    Lemma popped j : nth_error (upto j) (length (upto j) - W) =
      Some (if (j + 2 =? W) || (j + 1 =? W) then b else c).
    Proof.
      unfold upto. destruct (le_lt_dec W (j + 2)) as [H|H].
      - rewrite app_assoc. rewrite nth_back by (cbn [length]; rewrite repeat_length; lia).
        cbn [length]. rewrite repeat_length.
        destruct (Nat.eqb_spec (j + 2) W) as [E|E]; cbn [orb]; [replace (S (S j) - W) with 0 by lia; reflexivity|].
        destruct (Nat.eqb_spec (j + 1) W) as [E'|E']; [replace (S (S j) - W) with 1 by lia; reflexivity|].
        replace (S (S j) - W) with (S (S (j - W))) by lia. cbn [nth_error]. apply nth_error_repeat. lia.
      - rewrite nth_tail by (cbn [length]; rewrite repeat_length; unfold K; lia).
        destruct (Nat.eqb_spec (j + 2) W); [lia|]. destruct (Nat.eqb_spec (j + 1) W); [lia|]. reflexivity.
    Qed.

    Lemma upto_len j : W <= length (upto j).
    Proof. unfold upto. rewrite !app_length, repeat_length. unfold K. lia. Qed.

    Let X := (gain W 2 - gain W (K - 2))%R.
    Let V0 := (v + gain W K - gain W 1 + gain W (K - 1) - gain W 2)%R.
    Lemma middle j : j + 2 <= K ->
      val (upto j) (V0 + (if W <=? j + 1 then X else 0) + (if W <=? j then X else 0))%R.
    Proof.
      induction j as [|j IH]; intros H.
      - destruct (Nat.leb_spec W (0 + 1)); [lia|]. destruct (Nat.leb_spec W 0); [lia|].
        rewrite !Rplus_0_r. apply two_b.
      - specialize (IH ltac:(lia)). pose proof (val_step _ _ c _ (upto_good j) IH (upto_len j) (popped j)) as Q.
        rewrite <- upto_S in Q. fold K in Q. rewrite !window_at in Q by lia.
        specialize (Q ltac:(destruct (_ || _); auto) (or_intror eq_refl)).
        replace (cnt (repeat c (K - (S j + 2)) ++ b :: b :: repeat c (S j)) c) with (K - 2) in Q by (cnts; lia).
        match type of Q with val _ ?x => match goal with |- val _ ?y => replace y with x; [exact Q|] end end.
        destruct (Nat.eqb_spec (j + 2) W) as [E|E]; cbn [orb].
        + replace (cnt (repeat c (K - (j + 2)) ++ b :: b :: repeat c j) b) with 2 by (cnts; lia).
          destruct (Nat.leb_spec W (j + 1)); [lia|]. destruct (Nat.leb_spec W j); [lia|].
          destruct (Nat.leb_spec W (S j + 1)); [|lia]. destruct (Nat.leb_spec W (S j)); [lia|]. unfold X. ring.
        + destruct (Nat.eqb_spec (j + 1) W) as [E'|E'].
          * replace (cnt (repeat c (K - (j + 2)) ++ b :: b :: repeat c j) b) with 2 by (cnts; lia).
            destruct (Nat.leb_spec W (j + 1)); [|lia]. destruct (Nat.leb_spec W j); [lia|].
            destruct (Nat.leb_spec W (S j + 1)); [|lia]. destruct (Nat.leb_spec W (S j)); [|lia]. unfold X. ring.
          * replace (cnt (repeat c (K - (j + 2)) ++ b :: b :: repeat c j) c) with (K - 2) by (cnts; lia).
            destruct (Nat.leb_spec W (j + 1)), (Nat.leb_spec W j), (Nat.leb_spec W (S j + 1)), (Nat.leb_spec W (S j)); try lia; ring.
    Qed.

    Lemma burst_gain : val (q ++ repeat c K ++ burst W b c) (v + (gain W 2 - gain W 1 + gain W (K - 1) - gain W (K - 2)))%R.
    Proof.
      unfold burst. fold K. change (val (upto K) (v + (gain W 2 - gain W 1 + gain W (K - 1) - gain W (K - 2)))%R).
      assert (HK : K >= 4) by (unfold K; lia).
      pose proof (middle (K - 2) ltac:(lia)) as Q.
      destruct (Nat.leb_spec W (K - 2 + 1)); [|unfold K in *; lia]. destruct (Nat.leb_spec W (K - 2)); [|unfold K in *; lia].
      pose proof (val_step _ _ c _ (upto_good _) Q (upto_len _) (popped _)) as Q1.
      destruct (Nat.eqb_spec (K - 2 + 2) W) as [E|_]; [unfold K in *; lia|].
      destruct (Nat.eqb_spec (K - 2 + 1) W) as [E|_]; [unfold K in *; lia|]. cbn [orb] in Q1.
      specialize (Q1 (or_intror eq_refl) (or_intror eq_refl)). rewrite <- upto_S in Q1. fold K in Q1.
      rewrite window_at in Q1 by lia. replace (S (K - 2)) with (K - 1) in Q1 by lia.
      assert (A1 : lastn K (upto (K - 1)) = b :: repeat c (K - 1)).
      { unfold upto. replace (q ++ repeat c K ++ b :: b :: repeat c (K - 1)) with ((q ++ repeat c K ++ [b]) ++ b :: repeat c (K - 1)).
        - apply lastn_exact. cbn [length]. rewrite repeat_length. lia.
        - rewrite <- !app_assoc. reflexivity. }
      rewrite A1 in Q1.
      pose proof (val_step _ _ c _ (upto_good _) Q1 (upto_len _) (popped _)) as Q2.
      destruct (Nat.eqb_spec (K - 1 + 2) W) as [E|_]; [unfold K in *; lia|].
      destruct (Nat.eqb_spec (K - 1 + 1) W) as [E|_]; [unfold K in *; lia|]. cbn [orb] in Q2.
      specialize (Q2 (or_intror eq_refl) (or_intror eq_refl)). rewrite <- upto_S in Q2. fold K in Q2.
      rewrite A1 in Q2. replace (S (K - 1)) with K in Q2 by lia.
      assert (A2 : lastn K (upto K) = repeat c K).
      { unfold upto. replace (q ++ repeat c K ++ b :: b :: repeat c K) with ((q ++ repeat c K ++ [b; b]) ++ repeat c K).
        - apply lastn_exact. rewrite repeat_length. lia.
        - rewrite <- !app_assoc. reflexivity. }
      rewrite A2 in Q2.
      match type of Q2 with val _ ?x => match goal with |- val _ ?y => replace y with x; [exact Q2|] end end.
      cnts. replace (K - (K - 2 + 2) + (K - 2)) with (K - 2) by lia. unfold V0, X. ring.
    Qed.
  End One.

  Lemma bursts_end n : exists q, bursts W n a b c = q ++ repeat c (2 * W).
  Proof.
    unfold bursts. destruct n as [|n].
    - exists [a; b; b]. cbn [repeat concat]. rewrite app_nil_r. reflexivity.
    - replace (S n) with (n + 1) by lia. rewrite repeat_app, concat_app. cbn [repeat concat]. rewrite app_nil_r. unfold burst at 3.
      eexists. rewrite app_assoc. instantiate (1 := ((a :: burst W b c) ++ concat (repeat (burst W b c) n)) ++ [b; b]).
      rewrite <- !app_assoc. reflexivity.
  Qed.

  Lemma bursts_S n : bursts W (S n) a b c = bursts W n a b c ++ burst W b c.
  Proof.
    unfold bursts. rewrite <- app_assoc. f_equal. clear. induction n as [|n IH]; [cbn; now rewrite app_nil_r|].
    cbn [repeat concat]. rewrite <- app_assoc. f_equal. exact IH.
  Qed.

  Lemma bursts_good n : good (bursts W n a b c).
  Proof.
    induction n as [|n IH].
    - exists (b :: repeat c (2 * W)). unfold bursts, burst. cbn [repeat concat app]. rewrite app_nil_r. split; auto.
      constructor; auto. apply all_c.
    - rewrite bursts_S. apply good_app; auto. unfold burst. repeat constructor; auto. apply all_c.
  Qed.

  Definition lift : R := (gain W 2 - gain W 1 + gain W (2 * W - 1) - gain W (2 * W - 2))%R.
  Lemma lift_pos : (0 < lift)%R.
  Proof.
    unfold lift. pose proof (gain_mono W 1 ltac:(lia) ltac:(lia)). pose proof (gain_mono W (2 * W - 2) ltac:(lia) ltac:(lia)) as H2.
    replace (S (2 * W - 2)) with (2 * W - 1) in H2 by lia. lra.
  Qed.

  Lemma bursts_val : exists v, forall n, val (bursts W n a b c) (v + INR n * lift)%R.
  Proof.
    destruct (val_start _ (bursts_good 0)) as (v & V). exists v. induction n as [|n IH].
    - cbn [INR]. rewrite Rmult_0_l, Rplus_0_r. exact V.
    - rewrite bursts_S. pose proof (bursts_good n) as G. destruct (bursts_end n) as (q & E). rewrite E in G, IH |- * .
      rewrite <- app_assoc. rewrite S_INR. replace (v + (INR n + 1) * lift)%R with ((v + INR n * lift) + lift)%R by ring.
      apply burst_gain; auto.
  Qed.

  Lemma bursts_true n : shannon (lastn W (bursts W n a b c)) [c] = 0%R.
  Proof.
    destruct (bursts_end n) as (q & ->). replace (2 * W) with (W + W) by lia. rewrite repeat_app, app_assoc.
    rewrite lastn_exact by apply repeat_length. unfold shannon, share. cbn [map Rsum].
    change (count_occ Req_EM_T (repeat c W) c) with (cnt (repeat c W) c). rewrite cnt_cc, repeat_length.
    assert (0 < INR W)%R by (apply lt_0_INR; lia). unfold Rdiv. rewrite Rinv_r by lra. unfold log2R. rewrite ln_1.
    unfold Rsum. cbn. unfold Rdiv. ring.
  Qed.

  Lemma bursts_unbounded (M : R) : exists n e0 e, entropy_new (A := RA) W N = Ret e0 /\
    update_all (entropy_update log2R) e0 (bursts W n a b c) = Ret e /\ (M < entropy_evaluate e)%R /\
    shannon (lastn W (bursts W n a b c)) [c] = 0%R.
  Proof.
    destruct bursts_val as (v & Q). pose proof lift_pos as P.
    destruct (INR_archimed' ((M - v) / lift)) as (n & Hn).
    destruct (Q n) as (e & vs & E & _ & Ev). exists n. eexists _, e. split; [apply new_bins; lia|]. split; [exact E|].
    split; [|apply bursts_true].
    unfold entropy_evaluate. rewrite Ev. apply Rmult_lt_compat_r with (r := lift) in Hn; auto.
    unfold Rdiv in Hn. rewrite Rmult_assoc, Rinv_l in Hn by lra. lra.
  Qed.
End Bursts.
