(** The histogram of data that fall into groups. *)

From Coq Require Import List Reals ZArith Lra Lia Bool Arith Permutation Sorting.Sorted.
From Flocq Require Import Core.Core IEEE754.BinarySingleNaN.
From Verif Require Import Outcome Arith Utils IBin Histogram Spec ListFacts HistSpec FloatSpec HistFacts HistOrder GroupSpec OrderFacts.
Import ListNotations.
Local Open Scope nat_scope.

Lemma sorted_repeat_or_short (l : list nat) n : StronglySorted le l -> Forall (fun k => k < n) l ->
  length l <= n \/ exists u k v, l = u ++ k :: k :: v.
Proof.
  intros S F.
  assert (D : StronglySorted lt l \/ exists u k v, l = u ++ k :: k :: v).
  { clear F. induction S as [|x l S IH F]; [left; constructor|].
    destruct IH as [IH|(u & k & v & ->)]; [|right; exists (x :: u), k, v; reflexivity].
    destruct l as [|y l]; [left; repeat constructor|]. inversion F as [|? ? L F']; subst.
    destruct (Nat.eq_dec x y) as [->|N]; [right; exists [], y, l; reflexivity|]. left. constructor; auto.
    inversion IH as [|? ? S' F2]; subst. constructor; [lia|]. eapply Forall_impl; [|exact F2]. cbn. intros; lia. }
  destruct D as [D|D]; [left|now right].
  assert (ND : NoDup l).
  { clear -D. induction D as [|x l S IH F]; constructor; auto. intros I. rewrite Forall_forall in F. apply F in I. lia. }
  rewrite <- (seq_length n 0). apply NoDup_incl_length; auto. intros k I. rewrite Forall_forall in F. apply F in I. apply in_seq. lia.
Qed.

Section Groups.
  Context {A : arith}.
  Variables (P : A -> Prop) (g : A -> nat) (n : nat).
  (** In-group and cross-group differences. *)
  Variables (near far : A -> Prop).
  Hypothesis gn : forall x, P x -> g x < n.
  Hypothesis apart : forall x y, P x -> P y -> g x < g y ->
    definitelyLessThan x y default_eps = true /\ definitelyLessThan y x default_eps = false /\ leb y x = false.
  Hypothesis near_in : forall x y, P x -> P y -> g x = g y -> near (y -. x)%num.
  Hypothesis far_in : forall x y, P x -> P y -> g x < g y -> far (y -. x)%num.
  Hypothesis near_far : forall d e, near d -> far e ->
    definitelyLessThan d e default_eps = true /\ definitelyLessThan e d default_eps = false.
  Hypothesis any_max : forall x y, P x -> P y -> definitelyLessThan (y -. x)%num dbl_max default_eps = true.

  Definition gb (b : bin A) : nat := g (b_left b).
  Definition pure (b : bin A) : Prop := P (b_left b) /\ P (b_right b) /\ g (b_right b) = gb b.
  Definition held (k : nat) (bins : list (bin A)) : nat :=
    list_sum (map b_count (filter (fun b => Nat.eqb (gb b) k) bins)).
  Definition ginv (xs : list A) (bins : list (bin A)) : Prop :=
    Forall pure bins /\ StronglySorted (fun b c => gb b <= gb c) bins /\ (forall k, held k bins = members g k xs).

  Lemma held_app k u v : held k (u ++ v) = held k u + held k v.
  Proof. unfold held. now rewrite filter_app, map_app, list_sum_app. Qed.
  Lemma held_cons k b v : held k (b :: v) = (if Nat.eqb (gb b) k then b_count b else 0) + held k v.
  Proof. unfold held. cbn [filter]. destruct (Nat.eqb (gb b) k); reflexivity. Qed.
  Lemma members_snoc k xs x : members g k (xs ++ [x]) = members g k xs + (if Nat.eqb (g x) k then 1 else 0).
  Proof. unfold members. rewrite filter_app, app_length. cbn [filter]. destruct (Nat.eqb (g x) k); reflexivity. Qed.

  Lemma found_groups bins x i : Forall pure bins -> StronglySorted (fun b c => gb b <= gb c) bins -> P x ->
    found bins (Bin x x 1) i ->
    exists l r, bins = l ++ r /\ length l = i /\ Forall (fun b => gb b <= g x) l /\ Forall (fun b => g x <= gb b) r.
  Proof.
    intros F S Px (l & r & E & Li & Hl & Hr). exists l, r. split; auto. split; auto. subst bins.
    apply sorted_app in S as (Sl & Sr & Slr). apply Forall_app in F as [Fl Fr]. split.
    - destruct Hl as [->|(l' & c & -> & Hc)]; [constructor|].
      assert (Kc : gb c <= g x).
      { destruct (le_lt_dec (gb c) (g x)) as [|K]; auto. apply Forall_app in Fl as [_ Fc]. inversion_clear Fc as [|? ? (Pc & _) _].
        unfold gb in K. destruct (apart x (b_left c) Px Pc K) as (_ & K2 & _). unfold bin_lt in Hc. cbn [b_left] in Hc. congruence. }
      apply sorted_app in Sl as (_ & _ & Sl). apply Forall_app. split; [|constructor; auto].
      apply Forall_forall. intros b Ib. specialize (Sl b c Ib (or_introl eq_refl)). cbn in Sl. lia.
    - destruct Hr as [->|(c & r' & -> & Hc)]; [constructor|].
      assert (Kc : g x <= gb c).
      { destruct (le_lt_dec (g x) (gb c)) as [|K]; auto. inversion_clear Fr as [|? ? (Pc & _) _].
        unfold gb in K. destruct (apart (b_left c) x Pc Px K) as (K2 & _). unfold bin_lt in Hc. cbn [b_left] in Hc. congruence. }
      apply sorted_cons in Sr as [_ Sr]. constructor; auto. eapply Forall_impl; [|exact Sr]. cbn. intros; lia.
  Qed.

  Lemma adding_groups xs bins x i bins' f t : ginv xs bins -> (t = 0 -> bins = []) -> P x ->
    found bins (Bin x x 1) i -> adding t x bins i bins' f -> ginv (xs ++ [x]) bins'.
  Proof.
    intros (F & S & H) T0 Px Ff Ha. destruct (found_groups bins x i F S Px Ff) as (L & R & EL & LL & FL & FR).
    assert (Fx : pure (Bin x x 1)) by (repeat split; auto).
    destruct Ha as [C|l b r _ E1 E2 Hle|l b r _ E1 E2 Hle].
    - assert (R = []) as ->.
      { destruct C as [C|C]; [specialize (T0 C); subst bins; destruct L, R; auto; discriminate|].
        rewrite EL, app_length, <- LL in C. destruct R; auto. cbn [length] in C. lia. }
      rewrite app_nil_r in EL. subst L. split; [|split].
      + apply Forall_app; split; auto.
      + apply sorted_app. split; auto. split; [repeat constructor|]. intros a c Ia [<-|[]]. rewrite Forall_forall in FL. apply FL; auto.
      + intros k. rewrite held_app, held_cons, members_snoc, H. unfold held, gb. cbn. destruct (Nat.eqb (g x) k); lia.
    - subst bins.
      assert (L = l /\ R = b :: r) as [-> ->].
      { rewrite <- E2 in LL. clear -EL LL. revert L EL LL.
        induction l as [|y l IH]; intros [|z L] E Hl; simpl in *; try discriminate; auto.
        injection E as <- E. destruct (IH L E) as [-> ->]; auto. }
      apply Forall_app in F as [F1 F2]. inversion_clear F2 as [|? ? Fb F3]. inversion_clear FR as [|? ? Kb FR'].
      assert (Eg : gb b = g x).
      { destruct (le_lt_dec (gb b) (g x)) as [K|K]; [lia|]. unfold gb in K. destruct (apart x (b_left b) Px (proj1 Fb) K) as (_ & _ & K2). congruence. }
      split; [|split].
      + apply Forall_app. split; auto.
      + apply sorted_app in S as (S1 & S2 & S3). apply sorted_cons in S2 as [S2 S4]. apply sorted_app. split; auto. split.
        * apply sorted_cons. split; auto.
        * intros a c Ia [<-|Ic]; [apply (S3 a b Ia); now left|apply S3; [auto|now right]].
      + intros k. specialize (H k). rewrite held_app, held_cons in H |- * . rewrite members_snoc, <- H.
        change (gb (Bin (b_left b) (b_right b) (b_count b + 1))) with (gb b). rewrite <- Eg.
        destruct (Nat.eqb (gb b) k); cbn [b_count]; lia.
    - subst bins.
      assert (L = l /\ R = b :: r) as [-> ->].
      { rewrite <- E2 in LL. clear -EL LL. revert L EL LL.
        induction l as [|y l IH]; intros [|z L] E Hl; simpl in *; try discriminate; auto.
        injection E as <- E. destruct (IH L E) as [-> ->]; auto. }
      apply Forall_app in F as [F1 F2]. split; [|split].
      + apply Forall_app. split; auto.
      + apply sorted_app in S as (S1 & S2 & S3). apply sorted_app. split; auto. split.
        * apply sorted_cons. split; auto.
        * intros a c Ia [<-|Ic]; [rewrite Forall_forall in FL; apply FL; auto|apply S3; auto].
      + intros k. specialize (H k). rewrite held_app in H |- * . rewrite held_cons, members_snoc, <- H.
        unfold gb at 1. cbn [b_left b_count]. destruct (Nat.eqb (g x) k); lia.
  Qed.

  (** The merge stays inside a group as long as some group has two bins. *)
  Lemma min_gap_near (bins : list (bin A)) : forall idx m i, Forall pure bins -> StronglySorted (fun b c => gb b <= gb c) bins ->
    (m = dbl_max \/ far m) -> (exists u b c v, bins = u ++ b :: c :: v /\ gb b = gb c) ->
    exists u b c v, bins = u ++ b :: c :: v /\ gb b = gb c /\ snd (min_gap bins idx m i) = idx + length u.
  Proof.
    assert (KEEP : forall (bins : list (bin A)) idx m i, Forall pure bins -> StronglySorted (fun b c => gb b <= gb c) bins -> near m ->
      snd (min_gap bins idx m i) = i \/
      exists u b c v, bins = u ++ b :: c :: v /\ gb b = gb c /\ snd (min_gap bins idx m i) = idx + length u).
    { clear bins. intros bins. induction bins as [|b bins IH]; intros idx m i F S Nm; [now left|].
      destruct bins as [|c bins]; [now left|]. rewrite min_gap_cons. cbv zeta.
      inversion_clear F as [|? ? Fb F']. pose proof F' as F''. inversion_clear F'' as [|? ? Fc _].
      apply sorted_cons in S as [S Sb]. inversion_clear Sb as [|? ? Lbc _].
      assert (Eb := Fb). destruct Eb as (_ & Pb & Eb). assert (Ec := Fc). destruct Ec as (_ & Pc & Ec).
      destruct (Nat.eq_dec (gb b) (gb c)) as [E|E].
      - pose proof (near_in (b_right b) (b_right c) Pb Pc ltac:(congruence)) as Nd.
        destruct (definitelyLessThan _ m default_eps).
        + destruct (IH (Datatypes.S idx) _ idx F' S Nd) as [K|(u & x & y & v & K1 & K2 & K3)].
          * right. exists [], b, c, bins. split; auto. split; auto. rewrite K. cbn [length]. lia.
          * right. exists (b :: u), x, y, v. split; [now rewrite K1|]. split; auto. rewrite K3. cbn [length]. lia.
        + destruct (IH (Datatypes.S idx) m i F' S Nm) as [K|(u & x & y & v & K1 & K2 & K3)]; [now left|].
          right. exists (b :: u), x, y, v. split; [now rewrite K1|]. split; auto. rewrite K3. cbn [length]. lia.
      - pose proof (far_in (b_right b) (b_right c) Pb Pc ltac:(lia)) as Fd.
        destruct (near_far m _ Nm Fd) as [_ K0]. rewrite K0.
        destruct (IH (Datatypes.S idx) m i F' S Nm) as [K|(u & x & y & v & K1 & K2 & K3)]; [now left|].
        right. exists (b :: u), x, y, v. split; [now rewrite K1|]. split; auto. rewrite K3. cbn [length]. lia. }
    induction bins as [|b bins IH]; intros idx m i F S Hm (u & b0 & c0 & v & E & Eg).
    { destruct u; discriminate E. }
    destruct bins as [|c bins]; [destruct u as [|? [|? ?]]; discriminate E|].
    rewrite min_gap_cons. cbv zeta.
    inversion_clear F as [|? ? Fb F']. pose proof F' as F''. inversion_clear F'' as [|? ? Fc _].
    apply sorted_cons in S as [S Sb]. inversion_clear Sb as [|? ? Lbc _].
    assert (Eb := Fb). destruct Eb as (_ & Pb & Eb). assert (Ec := Fc). destruct Ec as (_ & Pc & Ec).
    destruct (Nat.eq_dec (gb b) (gb c)) as [E1|E1].
    - pose proof (near_in (b_right b) (b_right c) Pb Pc ltac:(congruence)) as Nd.
      assert (K0 : definitelyLessThan (b_right c -. b_right b)%num m default_eps = true).
      { destruct Hm as [->|Hm]; [now apply any_max|]. now apply near_far. }
      rewrite K0. destruct (KEEP (c :: bins) (Datatypes.S idx) _ idx F' S Nd) as [K|(u' & x & y & v' & K1 & K2 & K3)].
      + exists [], b, c, bins. split; auto. split; auto. rewrite K. cbn [length]. lia.
      + exists (b :: u'), x, y, v'. split; [now rewrite K1|]. split; auto. rewrite K3. cbn [length]. lia.
    - destruct u as [|z u]; [injection E as -> -> ->; congruence|]. cbn in E. injection E as -> E.
      assert (X : exists u b c' v, c :: bins = u ++ b :: c' :: v /\ gb b = gb c') by (exists u, b0, c0, v; auto).
      pose proof (far_in (b_right z) (b_right c) Pb Pc ltac:(lia)) as Fd.
      assert (K : forall m' i', m' = dbl_max \/ far m' ->
        exists u b c' v, z :: c :: bins = u ++ b :: c' :: v /\ gb b = gb c' /\ snd (min_gap (c :: bins) (Datatypes.S idx) m' i') = idx + length u).
      { intros m' i' Hm'. destruct (IH (Datatypes.S idx) m' i' F' S Hm' X) as (u' & x & y & v' & K1 & K2 & K3).
        exists (z :: u'), x, y, v'. split; [now rewrite K1|]. split; auto. rewrite K3. cbn [length]. lia. }
      destruct (definitelyLessThan _ m default_eps); apply K; auto.
  Qed.

  Lemma merging_groups xs bins l bins' : ginv xs bins -> n < length bins ->
    hist_merge bins = Ret (bins', l) -> ginv xs bins'.
  Proof.
    intros (F & S & H) L E.
    assert (X : exists u b c v, bins = u ++ b :: c :: v /\ gb b = gb c).
    { destruct (sorted_repeat_or_short (map gb bins) n) as [K|(u & k & v & K)].
      - clear -S. induction S; cbn [map]; constructor; auto. now apply Forall_map.
      - apply Forall_map. eapply Forall_impl; [|exact F]. intros b (Pb & _). now apply gn.
      - rewrite map_length in K. lia.
      - clear -K. revert u K. induction bins as [|b bins IH]; intros u K; [destruct u; discriminate K|].
        destruct u as [|z u]; cbn in K.
        + destruct bins as [|c bins]; [discriminate K|]. cbn in K. injection K as K1 K2 K3. exists [], b, c, bins. split; [reflexivity|congruence].
        + injection K as K1 K2. destruct (IH u K2) as (u' & x & y & v' & -> & E). exists (b :: u'), x, y, v'. auto. }
    destruct (min_gap_near bins 0 dbl_max (length bins) F S (or_introl eq_refl) X) as (u & b & c & v & -> & Eg & Ei).
    unfold hist_merge in E. destruct (min_gap _ _ _ _) as [m i] in E, Ei. cbn [snd] in Ei. subst i. cbn [Nat.add] in E.
    rewrite mergeBins_split in E. cbn [bind] in E. injection E as <- <-.
    apply Forall_app in F as [F1 F2]. inversion_clear F2 as [|? ? Fb F3]. inversion_clear F3 as [|? ? Fc F4].
    destruct Fb as (B1 & B2 & B3), Fc as (C1 & C2 & C3).
    assert (Ga : gb (bin_add b c) = gb b).
    { unfold bin_add, gb. cbn [b_left]. destruct (definitelyLessThan _ _ _); auto. }
    split; [|split].
    - apply Forall_app. split; auto. constructor; auto. unfold pure. rewrite Ga. unfold bin_add. cbn [b_left b_right].
      split; [destruct (definitelyLessThan _ _ _); auto|]. destruct (definitelyGreaterThan _ _ _); split; auto; congruence.
    - apply sorted_app in S as (S1 & S2 & S3). apply sorted_cons in S2 as [S2 S4]. apply sorted_cons in S2 as [S2 S5].
      apply sorted_app. split; auto. split.
      + apply sorted_cons. split; auto. rewrite Ga, Eg. exact S5.
      + intros a d Ia [<-|Id]; [rewrite Ga; apply S3; [auto|now left]|apply S3; [auto|now right; right]].
    - intros k. rewrite <- H, !held_app, !held_cons, Ga, <- Eg. cbn [bin_add b_count]. destruct (Nat.eqb (gb b) k); lia.
  Qed.

  Lemma grouped_run W xs : 1 <= n -> length xs <= W -> Forall P xs ->
    exists h, update_all hist_update (hist_new n W true) xs = Ret h /\ ginv xs (h_bins h) /\
      h_total h = length xs /\ hist_size h <= n.
  Proof.
    intros Hn L F. destruct (run_safe P n W xs Hn L F any_max) as (h & E). exists h. split; auto.
    pose proof E as Ec. rewrite <- calls_updates in Ec.
    destruct (run_basic _ _ _ _ Ec) as (_ & T & Lb & _). rewrite hist_items_updates in T.
    split; [|split; [rewrite T; lia|exact Lb]]. clear Ec T Lb.
    revert h E L F. induction xs as [|x xs IH] using rev_ind; intros h E L F.
    - injection E as <-. split; [constructor|]. split; [constructor|reflexivity].
    - rewrite app_length in L. cbn [length] in L. apply Forall_app in F as [F Fx]. inversion_clear Fx as [|? ? Px _].
      rewrite update_all_snoc in E. apply bind_Ret in E as (t & Et & E).
      pose proof Et as Ec. rewrite <- calls_updates in Ec.
      destruct (run_basic _ _ _ _ Ec) as ((w & Lv & _) & T & Lb & _). rewrite hist_items_updates in T.
      specialize (IH t Et ltac:(lia) F).
      destruct (update_inv t x h n W w Lv E) as (i & bins & w' & f & _ & _ & Eb & U & _). subst bins.
      destruct U as [i bins1 f' bins2 w2 bins3 w3 total' Ff Ha Hd Hm].
      assert (G1 : ginv (xs ++ [x]) bins1).
      { eapply adding_groups; eauto. intros Z. rewrite T in Z. assert (xs = []) as -> by (destruct xs; auto; cbn [length] in Z, L; lia). now injection Et as <-. }
      destruct Hd as [(_ & -> & _)|(K & _)]; [|exfalso; rewrite T in K; lia].
      destruct Hm as [(_ & -> & _)|(K & l & a & c & r & _ & Em & _)]; auto. eapply merging_groups; eauto.
  Qed.

  Lemma one_each xs bins : ginv xs bins -> length bins <= n -> (forall k, k < n -> 0 < members g k xs) ->
    map gb bins = seq 0 n /\ map b_count bins = map (fun k => members g k xs) (seq 0 n).
  Proof.
    intros (F & S & H) L M.
    assert (I : incl (seq 0 n) (map gb bins)).
    { intros k Ik. apply in_seq in Ik. specialize (M k ltac:(lia)). rewrite <- H in M. unfold held in M.
      destruct (filter (fun b => Nat.eqb (gb b) k) bins) as [|b r] eqn:E; [cbn in M; lia|].
      assert (Ib : In b (b :: r)) by now left. rewrite <- E in Ib. apply filter_In in Ib as [Ib Kb].
      apply Nat.eqb_eq in Kb. subst k. now apply in_map. }
    assert (E : map gb bins = seq 0 n).
    { assert (Pm : Permutation (seq 0 n) (map gb bins)).
      { apply NoDup_Permutation_bis; auto; [apply seq_NoDup|]. now rewrite map_length, seq_length. }
      assert (S1 : StronglySorted le (map gb bins)) by (clear -S; induction S; cbn [map]; constructor; auto; now apply Forall_map).
      assert (S2 : StronglySorted le (seq 0 n)).
      { generalize 0 as a. clear. induction n; intros a; cbn [seq]; constructor; auto. apply Forall_forall. intros k I. apply in_seq in I. lia. }
      revert S2 S1 Pm. generalize (map gb bins) as l2, (seq 0 n) as l1. clear.
      intros l2 l1. revert l2. induction l1 as [|x l1 IH]; intros l2 S1 S2 Pm; [now apply Permutation_nil in Pm|].
      destruct l2 as [|y l2]; [symmetry in Pm; now apply Permutation_nil in Pm|].
      apply sorted_cons in S1 as [S1 F1], S2 as [S2 F2]. rewrite Forall_forall in F1, F2.
      assert (x = y) as <-.
      { assert (In x (y :: l2)) as [K|K] by (rewrite <- Pm; now left); auto.
        assert (In y (x :: l1)) as [K'|K'] by (rewrite Pm; now left); auto. apply F1 in K'. apply F2 in K. lia. }
      f_equal. apply IH; auto. now apply Permutation_cons_inv in Pm. }
    split; auto. rewrite <- E, map_map. apply map_ext_in. intros b Ib. rewrite <- H.
    assert (ND : NoDup (map gb bins)) by (rewrite E; apply seq_NoDup).
    clear -ND Ib. unfold held. induction bins as [|c r IH]; [destruct Ib|].
    cbn [map] in ND. inversion_clear ND as [|? ? N1 N2]. cbn [filter]. destruct Ib as [->|Ib].
    - rewrite Nat.eqb_refl. cbn [map list_sum fold_right].
      assert (filter (fun c => Nat.eqb (gb c) (gb b)) r = []) as ->; [|cbn; lia].
      clear -N1. induction r as [|c r IH]; auto. cbn [filter]. destruct (Nat.eqb_spec (gb c) (gb b)) as [K|K].
      + exfalso. apply N1. rewrite <- K. now left.
      + apply IH. intros I. apply N1. now right.
    - destruct (Nat.eqb_spec (gb c) (gb b)) as [K|K]; [exfalso; apply N1; rewrite K; now apply in_map|]. now apply IH.
  Qed.
End Groups.
