(** Histogram facts that need the order of the arithmetic, proved once from a
    few order laws on a set [D] of values and instantiated with the reals and
    with the finite doubles. *)

From Coq Require Import List Sorting.Sorted Arith Bool Lia ZArith Reals Lra.
From Flocq Require Import Core.Core IEEE754.BinarySingleNaN.
From Verif Require Import Outcome Arith Utils IBin Histogram Spec ListFacts HistSpec UtilsFacts HistFacts
  FloatSpec FloatFacts UtilsMono.
Import ListNotations.

(** The order laws. *)
Record ordered (A : arith) (D : A -> Prop) : Prop := Ordered {
  o_irrefl : forall a : A, D a -> ltb a a = false;
  o_trans : forall a b c : A, D a -> D b -> D c -> ltb a b = true -> ltb b c = true -> ltb a c = true;
  o_ge_trans : forall a b c : A, D a -> D b -> D c -> ltb b a = false -> ltb c b = false -> ltb c a = false;
  o_leb : forall a b : A, D a -> D b -> leb a b = negb (ltb b a);
  o_eqb : forall a b : A, D a -> D b -> eqb a b = negb (ltb a b) && negb (ltb b a);
  o_less : forall a b : A, D a -> D b -> definitelyLessThan a b default_eps = true -> ltb a b = true;
  o_mono : forall a a' b : A, D a -> D a' -> D b -> ltb a a' = false ->
    definitelyLessThan a b default_eps = true -> definitelyLessThan a' b default_eps = true;
  o_less6 : forall a b : A, D a -> D b -> definitelyLessThan a b bin_eps = true -> ltb a b = true;
  o_greater6 : forall a b : A, D a -> D b -> definitelyGreaterThan a b bin_eps = true -> ltb b a = true
}.

Definition anyR : R -> Prop := fun _ => True.
Definition finD : double -> Prop := fun x => finite64 x = true.

Lemma ordered_RA : ordered RA anyR.
Proof.
  assert (E1 : 0 <= default_eps (A := RA) < 1) by (unfold default_eps, lit; cbn; lra).
  assert (E2 : 0 <= bin_eps (A := RA) < 1) by (unfold bin_eps, lit; cbn; lra).
  constructor; cbn [num RA ltb leb eqb]; intros.
  - apply Rltb_false. lra.
  - rewrite Rltb_true in * . lra.
  - rewrite Rltb_false in * . lra.
  - unfold Rleb, Rltb. destruct (Rle_dec a b), (Rlt_dec b a); simpl; auto; lra.
  - unfold Reqb, Rltb. destruct (Req_EM_T a b), (Rlt_dec a b), (Rlt_dec b a); simpl; auto; lra.
  - apply Rltb_true. apply RA_less_lt in H1; auto. lra.
  - rewrite Rltb_false in H2. eapply RA_less_mono; eauto. lra.
  - apply Rltb_true. apply RA_less_lt in H1; auto. lra.
  - apply Rltb_true. apply RA_greater in H1. pose proof (Rmax_l (Rabs a) (Rabs b)). pose proof (Rabs_pos a). nra.
Qed.

Lemma ordered_B64 : ordered B64 finD.
Proof.
  destruct default_eps_ok as [F1 P1]. destruct bin_eps_ok as [F2 P2].
  unfold finD. constructor; cbn [num B64 ltb leb eqb]; intros.
  - apply X_ltb_false; auto using fin_nan. lra.
  - apply X_ltb in H2, H3; auto using fin_nan. apply X_ltb; auto using fin_nan. lra.
  - apply X_ltb_false in H2, H3; auto using fin_nan. apply X_ltb_false; auto using fin_nan. lra.
  - destruct (Bltb b a) eqn:E; simpl.
    + apply X_ltb in E; auto using fin_nan. apply X_leb_false; auto using fin_nan.
    + apply X_ltb_false in E; auto using fin_nan. apply X_leb; auto using fin_nan.
  - pose proof (X_eqb a b (fin_nan _ H) (fin_nan _ H0)) as Q.
    destruct (Bltb a b) eqn:E1; destruct (Bltb b a) eqn:E2; simpl;
      first [apply X_ltb in E1; auto using fin_nan | apply X_ltb_false in E1; auto using fin_nan];
      first [apply X_ltb in E2; auto using fin_nan | apply X_ltb_false in E2; auto using fin_nan];
      first [apply Q; lra | destruct (Beqb a b); auto; exfalso; pose proof (proj1 Q eq_refl); lra].
  - apply X_ltb; auto using fin_nan. rewrite !X_fin by auto. eapply B_less_lt; [..|exact H1]; auto.
  - apply X_ltb_false in H2; auto using fin_nan. rewrite !X_fin in H2 by auto.
    eapply less_left; [exact F1|apply default_small|..|exact H3]; auto.
  - apply X_ltb; auto using fin_nan. rewrite !X_fin by auto. eapply B_less_lt; [..|exact H1]; auto.
  - apply X_ltb; auto using fin_nan. rewrite !X_fin by auto. rewrite B_greater_less in H1.
    eapply B_less_lt; [..|exact H1]; auto.
Qed.

Local Open Scope nat_scope.

Section Order.
  Context {A : arith} {D : A -> Prop} (O : ordered A D).
  Implicit Types (h : hist A) (x : A) (bins : list (bin A)).

  Definition Dbin (b : bin A) : Prop := D (b_left b) /\ D (b_right b).
  Definition Dbins bins : Prop := Forall Dbin bins.

  Lemma asym a b : D a -> D b -> ltb a b = true -> ltb b a = false.
  Proof.
    intros Da Db H. destruct (ltb b a) eqn:E; auto.
    pose proof (o_trans _ _ O a b a Da Db Da H E) as K. rewrite (o_irrefl _ _ O a Da) in K. discriminate.
  Qed.

  Lemma lt_le a b c : D a -> D b -> D c -> ltb a b = true -> ltb c b = false -> ltb a c = true.
  Proof.
    intros Da Db Dc H1 H2. destruct (ltb a c) eqn:E; auto.
    pose proof (o_ge_trans _ _ O b c a Db Dc Da H2 E) as K. congruence.
  Qed.

  Lemma le_lt a b c : D a -> D b -> D c -> ltb b a = false -> ltb b c = true -> ltb a c = true.
  Proof.
    intros Da Db Dc H1 H2. destruct (ltb a c) eqn:E; auto.
    pose proof (o_ge_trans _ _ O c a b Dc Da Db E H1) as K. congruence.
  Qed.

  (** ** Search in sorted bins *)

  Definition lefts_ascending bins : Prop := StronglySorted (fun a b => ltb (b_left b) (b_left a) = false) bins.

  Lemma increasing_ascending bins : Dbins bins -> lefts_increasing bins -> lefts_ascending bins.
  Proof.
    intros HD H. induction H as [|b bins H IH F]; constructor; inversion_clear HD as [|? ? [Hb _] HD']; auto.
    - apply IH; auto.
    - unfold Dbins in HD'. rewrite Forall_forall in F, HD' |- * . intros c Ic.
      apply asym; auto. apply HD'; auto.
  Qed.

  Lemma sorted_nth {X} (R : X -> X -> Prop) l : StronglySorted R l ->
    forall j k c d, j < k -> nth_error l j = Some c -> nth_error l k = Some d -> R c d.
  Proof.
    induction 1 as [|y l H IH F]; intros j k c d L Ej Ek; [destruct j; discriminate|].
    destruct j, k; simpl in *; try lia.
    - injection Ej as <-. rewrite Forall_forall in F. apply F. eapply nth_error_In; eauto.
    - apply (IH j k); auto. lia.
  Qed.

  Lemma ascending_prefix bins x : Dbins bins -> D x -> lefts_ascending bins ->
    forall j k c d, j < k -> nth_error bins j = Some c -> nth_error bins k = Some d ->
       bin_lt d (Bin x x 1) = true -> bin_lt c (Bin x x 1) = true.
  Proof.
    intros HD Dx S j k c d L Ej Ek H. pose proof (sorted_nth _ _ S j k c d L Ej Ek) as K.
    unfold Dbins in HD. rewrite Forall_forall in HD. unfold bin_lt in * . cbn [b_left] in * .
    apply (o_mono _ _ O (b_left d)); auto; apply HD; eapply nth_error_In; eauto.
  Qed.

  Lemma search_count h x : Dbins (h_bins h) -> D x -> lefts_ascending (h_bins h) ->
    hist_binSearch h x =
    Ret (length (filter (fun b => definitelyLessThan (b_left b) x default_eps) (h_bins h))).
  Proof.
    intros HD Dx S. destruct (search_found h (Bin x x 1)) as (i & E & _ & F).
    unfold hist_binSearch. rewrite E. f_equal. apply (found_count _ _ _ F). now apply ascending_prefix.
  Qed.

  Lemma found_split bins x i : Dbins bins -> D x -> lefts_ascending bins -> found bins (Bin x x 1) i ->
    exists l r, bins = l ++ r /\ length l = i /\
      Forall (fun b => definitelyLessThan (b_left b) x default_eps = true) l /\
      Forall (fun b => definitelyLessThan (b_left b) x default_eps = false) r.
  Proof.
    intros HD Dx Sb (l & r & -> & Hl & Pl & Pr). exists l, r. split; auto. split; auto.
    pose proof (ascending_prefix _ _ HD Dx Sb) as M. split; apply Forall_forall; intros b Ib.
    - destruct Pl as [->|(l' & c & -> & Hc)]; [destruct Ib|].
      apply in_app_or in Ib as [Ib|[<-|[]]]; [|exact Hc].
      apply In_nth_error in Ib as (j & Ej).
      assert (j < length l') by (apply nth_error_Some; congruence).
      apply (M j (length l') b c); auto.
      + rewrite <- !app_assoc, nth_error_app1 by lia. auto.
      + rewrite <- !app_assoc, nth_error_app2, Nat.sub_diag by lia. auto.
    - destruct Pr as [->|(c & r' & -> & Hc)]; [destruct Ib|]. destruct Ib as [<-|Ib]; [exact Hc|].
      apply In_nth_error in Ib as (j & Ej). destruct (definitelyLessThan (b_left b) x default_eps) eqn:B; auto.
      rewrite (M (length l) (length l + S j) c b) in Hc; auto; try lia.
      + rewrite nth_error_app2, Nat.sub_diag by lia. auto.
      + rewrite nth_error_app2 by lia. replace (length l + S j - length l) with (S j) by lia. auto.
  Qed.

  (** ** The bins stay sorted *)

  Definition good bins : Prop :=
    Dbins bins /\ lefts_increasing bins /\ Forall (fun b => ltb (b_right b) (b_left b) = false) bins.

  Lemma sorted_app {X} (R : X -> X -> Prop) l r : StronglySorted R (l ++ r) <->
    StronglySorted R l /\ StronglySorted R r /\ (forall a b, In a l -> In b r -> R a b).
  Proof.
    induction l as [|y l IH]; simpl.
    - split; [intros; repeat split; auto; [constructor|tauto]|tauto].
    - split.
      + intros H. inversion_clear H as [|? ? H1 F]. apply IH in H1 as (H1 & H2 & H3).
        apply Forall_app in F as [F1 F2]. split; [constructor; auto|]. split; auto.
        intros a b [<-|I] Ib; auto. rewrite Forall_forall in F2. auto.
      + intros (H1 & H2 & H3). inversion_clear H1 as [|? ? H4 F]. constructor.
        * apply IH. auto.
        * apply Forall_app. split; auto. apply Forall_forall. intros b Ib. apply H3; auto.
  Qed.

  Lemma sorted_cons {X} (R : X -> X -> Prop) y l : StronglySorted R (y :: l) <-> StronglySorted R l /\ Forall (R y) l.
  Proof. split; [intros H; inversion H; auto|intros []; constructor; auto]. Qed.

  (** Sortedness depends on the left edges only. *)
  Lemma increasing_map bins bins' : map b_left bins = map b_left bins' -> lefts_increasing bins -> lefts_increasing bins'.
  Proof.
    assert (G : forall l : list (bin A), lefts_increasing l <-> StronglySorted (fun a b => ltb a b = true) (map b_left l)).
    { induction l as [|y l IH]; unfold lefts_increasing in *; simpl.
      - split; constructor.
      - rewrite !sorted_cons, IH, Forall_map. reflexivity. }
    intros E. rewrite !G, E. auto.
  Qed.

  Lemma updating_good N W total bins w x i bins' w' total' :
    updating N W total bins w x i bins' w' total' -> D x -> good bins -> (total = 0 -> bins = []) -> good bins'.
  Proof.
    intros [i0 bins1 f bins2 w2 bins3 w3 tot Ff Ha Hd Hm] Dx (HD & S & F) T0.
    destruct (found_split _ _ _ HD Dx (increasing_ascending _ HD S) Ff) as (L & R & EL & LL & FL & FR).
    assert (H1 : good bins1).
    { destruct Ha as [C|l b r _ E1 E2 H|l b r _ E1 E2 H].
      - assert (R = []) as ->.
        { destruct C as [C|C]; [specialize (T0 C); subst bins; destruct L, R; auto; discriminate|].
          rewrite EL, app_length, <- LL in C. destruct R; auto. simpl in C. lia. }
        rewrite app_nil_r in EL. subst L. split; [apply Forall_app; split; [auto|repeat constructor; auto]|]. split.
        + apply sorted_app. split; auto. split; [repeat constructor|].
          intros a b Ia [<-|[]]. cbn. unfold Dbins, Dbin in HD. rewrite Forall_forall in HD, FL.
          apply (o_less _ _ O); auto. apply HD; auto.
        + apply Forall_app. split; auto. constructor; auto. cbn. apply (o_irrefl _ _ O); auto.
      - subst bins. apply Forall_app in HD as [D1 D2], F as [F1 F2]. inversion_clear D2 as [|? ? D3 D4].
        inversion_clear F2 as [|? ? F3 F4]. split; [apply Forall_app; split; [auto|constructor; auto]|]. split.
        + eapply increasing_map; [|exact S]. rewrite !map_app. reflexivity.
        + apply Forall_app. split; auto.
      - assert (L = l /\ R = b :: r) as [-> ->].
        { rewrite E1 in EL. rewrite <- E2 in LL. clear -EL LL. revert L EL LL.
          induction l as [|y l IH]; intros [|z L] E Hl; simpl in *; try discriminate; auto.
          injection E as <- E. destruct (IH L E) as [-> ->]; auto. }
        subst bins. apply sorted_app in S as (S1 & S2 & S3). pose proof HD as HD'.
        apply Forall_app in HD as [D1 D2], F as [F1 F2]. inversion_clear D2 as [|? ? D3 D4].
        inversion_clear F2 as [|? ? F3 F4]. destruct D3 as [D3 D3'].
        assert (Hb : ltb x (b_left b) = true).
        { rewrite (o_leb _ _ O) in H by auto. now apply negb_false_iff. }
        split; [apply Forall_app; split; [auto|constructor; [split; auto|constructor; [split; auto|auto]]]|].
        split.
        + apply sorted_app. split; auto. split.
          * apply sorted_cons. split; auto. constructor; auto. apply sorted_cons in S2 as [S2 S4].
            unfold Dbins in D4. rewrite Forall_forall in S4, D4 |- * . intros c Ic. cbn.
            apply (o_trans _ _ O x (b_left b)); auto. apply D4; auto.
          * intros a c Ia [<-|Ic]; [|auto]. cbn. rewrite Forall_forall in FL.
            unfold Dbins in D1. rewrite Forall_forall in D1. apply (o_less _ _ O); auto. apply D1; auto.
        + apply Forall_app. split; auto. constructor; auto. cbn. apply (o_irrefl _ _ O); auto. }
    assert (H2 : good bins2).
    { destruct Hd as [(_ & -> & _)|(_ & (del & _ & (l & b & r & -> & _ & Dc)) & _)]; auto.
      destruct H1 as (D1 & S1 & F1). apply Forall_app in D1 as [D1 D2], F1 as [F1 F2].
      inversion_clear D2 as [|? ? D3 D4]. inversion_clear F2 as [|? ? F3 F4].
      destruct Dc as [(_ & _ & ->)|(_ & ->)].
      - split; [apply Forall_app; auto|]. split; [|apply Forall_app; auto].
        apply sorted_app in S1 as (S1 & S2 & S3). apply sorted_cons in S2 as [S2 _].
        apply sorted_app. split; auto. split; auto. intros; apply S3; simpl; auto.
      - split; [apply Forall_app; split; [auto|constructor; auto]|]. split; [|apply Forall_app; auto].
        eapply increasing_map; [|exact S1]. rewrite !map_app. reflexivity. }
    destruct Hm as [(_ & -> & _)|(_ & l & a & c & r & -> & _ & -> & _)]; auto.
    destruct H2 as (D1 & S1 & F1). apply Forall_app in D1 as [D1 D2], F1 as [F1 F2].
    inversion_clear D2 as [|? ? [Da Da'] D4]. inversion_clear D4 as [|? ? [Dc Dc'] D5].
    inversion_clear F2 as [|? ? Fa F4]. inversion_clear F4 as [|? ? Fc F5].
    apply sorted_app in S1 as (S1 & S2 & S3). apply sorted_cons in S2 as [S2 Sa].
    apply sorted_cons in S2 as [S2 Sc]. inversion_clear Sa as [|? ? Sac Sar].
    assert (Hl : b_left (bin_add a c) = b_left a).
    { unfold bin_add. cbn. destruct (definitelyLessThan (b_left c) (b_left a) bin_eps) eqn:E; auto.
      apply (o_less6 _ _ O) in E; auto. rewrite (asym _ _ Da Dc Sac) in E. discriminate. }
    assert (Hr : b_right (bin_add a c) = b_right a \/
                 b_right (bin_add a c) = b_right c /\ ltb (b_right a) (b_right c) = true).
    { unfold bin_add. cbn. destruct (definitelyGreaterThan (b_right c) (b_right a) bin_eps) eqn:E; auto.
      right. split; auto. apply (o_greater6 _ _ O) in E; auto. }
    split; [|split].
    - apply Forall_app. split; [auto|]. constructor; auto. split; [now rewrite Hl|].
      destruct Hr as [->|[-> _]]; auto.
    - apply sorted_app. split; auto. split.
      + apply sorted_cons. split; auto. rewrite Forall_forall in Sar |- * . intros d Id. rewrite Hl. auto.
      + intros y z Iy [<-|Iz]; [rewrite Hl; apply S3; simpl; auto|apply S3; simpl; auto].
    - apply Forall_app. split; auto. constructor; auto. rewrite Hl.
      destruct Hr as [->|[-> Hr]]; auto.
      destruct (ltb (b_right c) (b_left a)) eqn:E; auto.
      pose proof (o_trans _ _ O _ _ _ Da' Dc' Da Hr E) as K. congruence.
  Qed.

  Lemma run_good N W os h : 1 <= W -> hist_calls (hist_new N W true) os = Ret h ->
    Forall D (hist_items os) -> good (h_bins h) /\ (h_total h = 0 -> h_bins h = []).
  Proof.
    intros HW. revert h. induction os as [|o os IH] using rev_ind; intros h E F.
    - injection E as <-. split; auto. repeat split; constructor.
    - rewrite hist_calls_snoc in E. apply bind_Ret in E as (t & Et & E).
      rewrite hist_items_app in F. apply Forall_app in F as [F Fx]. destruct (IH _ Et F) as [G T].
      destruct o as [x|]; simpl in E.
      + inversion_clear Fx as [|? ? Dx _]. destruct (run_basic _ _ _ _ Et) as ((w & L & _) & Tt & _).
        destruct (update_inv _ _ _ _ _ _ L E) as (i & bins & w' & f & Es & _ & Eb & U & _).
        rewrite Eb. pose proof (updating_total _ _ _ _ _ _ _ _ _ _ U).
        split; [eapply updating_good; eauto|lia].
      + injection E as <-. cbn. split; auto. repeat split; constructor.
  Qed.

  (** ** Report *)

  Lemma map_assign_snoc m k v : (forall k' v', In (k', v') m -> key_lt (A := A) k' k = true /\ key_lt k k' = false) ->
    map_assign m k v = m ++ [(k, v)].
  Proof.
    induction m as [|[k' v'] m IH]; intros H; simpl; auto.
    destruct (H k' v') as [H1 H2]; [left; auto|]. rewrite H2, H1. f_equal. apply IH. intros; apply (H k'0 v'0); right; auto.
  Qed.

  Lemma report_bins h : Dbins (h_bins h) -> lefts_increasing (h_bins h) ->
    hist_report h = map (fun b => ((b_left b, b_right b), b_count b)) (h_bins h).
  Proof.
    intros HD S. unfold hist_report.
    assert (G : forall l r m, h_bins h = l ++ r -> m = map (fun b => ((b_left b, b_right b), b_count b)) l ->
              fold_left (fun m b => map_assign m (b_left b, b_right b) (b_count b)) r m =
              m ++ map (fun b => ((b_left b, b_right b), b_count b)) r).
    { intros l r. revert l. induction r as [|b r IH]; intros l m E Em; simpl; [now rewrite app_nil_r|].
      rewrite map_assign_snoc.
      - rewrite (IH (l ++ [b])).
        + rewrite <- app_assoc. reflexivity.
        + now rewrite <- app_assoc.
        + rewrite map_app, Em. reflexivity.
      - intros k' v' I. rewrite Em in I. apply in_map_iff in I as (c & Ec & Ic). injection Ec as <- <-.
        rewrite E in S, HD. apply sorted_app in S as (_ & _ & S).
        assert (Hlt : ltb (b_left c) (b_left b) = true) by (apply S; simpl; auto).
        unfold Dbins in HD. rewrite Forall_forall in HD.
        assert (Dc : D (b_left c)) by (apply HD; apply in_or_app; auto).
        assert (Db : D (b_left b)) by (apply HD; apply in_or_app; simpl; auto).
        unfold key_lt. cbn [fst snd]. rewrite Hlt, (asym _ _ Dc Db Hlt). auto. }
    rewrite (G [] (h_bins h) []); auto.
  Qed.

  (** ** Separated data *)

  Definition exact_bins (xs vs : list A) bins : Prop :=
    StronglySorted (fun a b => ltb a b = true) vs /\ incl vs xs /\
    (forall x, In x xs -> exists v, In v vs /\ eqb x v = true) /\
    bins = map (fun v => Bin v v (occurrences v xs)) vs.

  Lemma occurrences_app (v : A) xs ys : occurrences v (xs ++ ys) = occurrences v xs + occurrences v ys.
  Proof. unfold occurrences. now rewrite filter_app, app_length. Qed.

  Lemma eqb_trich a b : D a -> D b -> eqb a b = true <-> ltb a b = false /\ ltb b a = false.
  Proof. intros. rewrite (o_eqb _ _ O) by auto. rewrite andb_true_iff, !negb_true_iff. tauto. Qed.

  Lemma separated_update N W h xs vs x w : live h N W w -> h_total h = length xs -> length xs < W ->
    Forall D (xs ++ [x]) -> separated (xs ++ [x]) -> few N (xs ++ [x]) -> exact_bins xs vs (h_bins h) ->
    exists h' vs' i v, hist_update h x = Ret h' /\ exact_bins (xs ++ [x]) vs' (h_bins h') /\
      hist_binSearch h x = Ret i /\ nth_error (h_bins h') i = Some (Bin v v (occurrences x xs + 1)) /\
      eqb x v = true /\ (exists w', live h' N W w') /\ h_total h' = length (xs ++ [x]).
  Proof.
    intros (HN & HW & Hd & Hw) T L FD Sep Few (Sv & Iv & Cv & Eb).
    apply Forall_app in FD as [FD Fx]. inversion_clear Fx as [|? ? Dx _].
    assert (Dv : Forall D vs) by (rewrite Forall_forall in FD |- *; auto).
    assert (HD : Dbins (h_bins h)).
    { rewrite Eb. unfold Dbins. rewrite Forall_map. eapply Forall_impl; [|exact Dv]. intros a Da. split; auto. }
    assert (Sb : lefts_increasing (h_bins h)).
    { rewrite Eb. clear -Sv. unfold lefts_increasing. induction Sv as [|y l H IH F]; simpl; constructor; auto.
      rewrite Forall_map. auto. }
    unfold hist_update.
    destruct (hist_add_eq h x w Hw) as (i & bins1 & f & Es & Ff & Ha & Eq). rewrite Eq. clear Eq.
    set (h0 := Hist _ _ _ _ _ _ _ _ _).
    destruct (decay_eq h0 (w ++ [i]) Hd eq_refl) as [-> _]; [|cbn; lia]. cbn [bind].
    change (h_numBins h0) with (h_numBins h). change (h_bins h0) with bins1.
    destruct (found_split _ _ _ HD Dx (increasing_ascending _ HD Sb) Ff) as (Lb & Rb & EL & LL & FL & FR).
    rewrite Eb in EL. destruct (map_eq_app _ _ _ _ EL) as (vl & vr & Ev & E1 & E2). subst vs Lb Rb.
    rewrite map_length in LL. rewrite Forall_map in FL, FR. cbn [b_left] in FL, FR.
    apply sorted_app in Sv as (Svl & Svr & Svx). apply Forall_app in Dv as [Dvl Dvr].
    (* values on the left are less, values on the right are equal or greater *)
    assert (Gl : forall v, In v vl -> ltb v x = true).
    { intros v I. rewrite Forall_forall in FL, Dvl. apply (o_less _ _ O); auto. }
    assert (Gr : forall v, In v vr -> ltb x v = true \/ eqb x v = true).
    { intros v I. rewrite Forall_forall in FR, Dvr. specialize (FR v I). specialize (Dvr v I).
      destruct (Sep x v) as [E|[E|E]]; auto; try congruence.
      - apply in_or_app; simpl; auto.
      - apply in_or_app. left. apply Iv. apply in_or_app; auto.
      - left. apply (o_less _ _ O); auto. }
    assert (Occ : forall v u, D v -> D u -> ltb v u = true \/ ltb u v = true -> eqb u v = false).
    { intros v u Hv Hu H. destruct (eqb u v) eqn:E; auto. apply eqb_trich in E as [E3 E4]; auto. destruct H; congruence. }
    assert (Same : forall v, In v (vl ++ vr) -> eqb x v = false -> occurrences v (xs ++ [x]) = occurrences v xs).
    { intros v _ H. rewrite occurrences_app. unfold occurrences at 2. simpl. rewrite H. simpl. lia. }
    assert (MS : forall us, incl us (vl ++ vr) -> (forall v, In v us -> eqb x v = false) ->
              map (fun v => Bin v v (occurrences v xs)) us = map (fun v => Bin v v (occurrences v (xs ++ [x]))) us).
    { intros us I H. apply map_ext_in. intros v Iu. rewrite Same; auto. }
    assert (Hno : (forall v, In v (vl ++ vr) -> eqb x v = false) -> occurrences x xs = 0).
    { intros H. unfold occurrences. rewrite (proj2 (length_zero_iff_nil _)); auto.
      destruct (filter (fun y => eqb y x) xs) as [|y l] eqn:E; auto. exfalso.
      assert (I : In y (filter (fun y => eqb y x) xs)) by (rewrite E; left; auto).
      apply filter_In in I as [I Ey]. destruct (Cv y I) as (v & Iv' & E').
      rewrite Forall_forall in FD. assert (Dy : D y) by auto.
      assert (Dv : D v) by (apply in_app_or in Iv' as [I'|I']; [rewrite Forall_forall in Dvl; auto|rewrite Forall_forall in Dvr; auto]).
      apply eqb_trich in Ey as [Y1 Y2]; auto. apply eqb_trich in E' as [Y3 Y4]; auto.
      assert (K : eqb x v = true); [|rewrite (H v Iv') in K; discriminate].
      apply eqb_trich; auto. split.
      - apply (o_ge_trans _ _ O v y x); auto.
      - apply (o_ge_trans _ _ O x y v); auto. }
    assert (Case : (exists v vr', vr = v :: vr' /\ eqb x v = true /\
                      bins1 = map (fun v => Bin v v (occurrences v (xs ++ [x]))) (vl ++ vr) /\
                      occurrences v (xs ++ [x]) = occurrences x xs + 1) \/
                   ((forall v, In v (vl ++ vr) -> eqb x v = false) /\ (forall v, In v vr -> ltb x v = true) /\
                    bins1 = map (fun v => Bin v v (occurrences v (xs ++ [x]))) (vl ++ x :: vr))).
    { assert (Ox : eqb x x = true) by (apply eqb_trich; auto; split; apply (o_irrefl _ _ O); auto).
      assert (Nl : forall v, In v vl -> eqb x v = false).
      { intros v I. rewrite Forall_forall in Dvl. apply Occ; auto. }
      destruct Ha as [C|l b r _ E3 E4 H|l b r _ E3 E4 H].
      - right. assert (vr = []) as ->.
        { destruct C as [C|C].
          - rewrite T in C. apply length_zero_iff_nil in C. subst xs. destruct vr as [|y vr]; auto.
            exfalso. destruct (Iv y). apply in_or_app; simpl; auto.
          - rewrite Eb, map_length, app_length, LL in C. destruct vr; auto. simpl in C. lia. }
        rewrite app_nil_r in * . split; auto. split; [intros v []|].
        rewrite Eb, map_app, (MS vl) by (auto; apply incl_refl). simpl. do 2 f_equal.
        rewrite occurrences_app, Hno by auto. unfold occurrences. simpl. now rewrite Ox.
      - rewrite Eb in E3. destruct (map_eq_app _ _ _ _ E3) as (ul & ur & E5 & E6 & E7). subst l.
        rewrite map_length in E4. assert (ul = vl /\ ur = vr) as [-> ->].
        { rewrite <- E4 in LL. clear -E5 LL. revert ul E5 LL. induction vl as [|y vl IH]; intros [|z ul] E Hl; simpl in *; try discriminate; auto.
          injection E as <- E. destruct (IH ul E) as [-> ->]; auto. }
        destruct vr as [|v vr]; [discriminate|]. simpl in E7. injection E7 as <- <-. cbn [b_left b_right b_count] in * .
        left. exists v, vr. split; auto. inversion_clear Dvr as [|? ? Dv Dvr'].
        rewrite (o_leb _ _ O) in H by auto. apply negb_true_iff in H.
        assert (Exv : eqb x v = true).
        { destruct (Gr v) as [K|K]; auto; [left; auto|congruence]. }
        split; auto. apply sorted_cons in Svr as [Svr Fvr].
        assert (Ov : occurrences v (xs ++ [x]) = occurrences v xs + 1).
        { rewrite occurrences_app. unfold occurrences at 2. simpl. now rewrite Exv. }
        assert (Ovx : occurrences v xs = occurrences x xs).
        { unfold occurrences. f_equal. apply filter_ext_in. intros y Iy. rewrite Forall_forall in FD.
          specialize (FD y Iy). apply eqb_trich in Exv as [Y1 Y2]; auto.
          apply eq_true_iff_eq. rewrite !eqb_trich by auto.
          split; intros [Z1 Z2]; split.
          - apply (o_ge_trans _ _ O x v y); auto.
          - apply (o_ge_trans _ _ O y v x); auto.
          - apply (o_ge_trans _ _ O v x y); auto.
          - apply (o_ge_trans _ _ O y x v); auto. }
        split; [|lia]. rewrite map_app. cbn [map]. rewrite (MS vl); auto; [|apply incl_appl, incl_refl].
        rewrite (MS vr), Ov; auto.
        + apply incl_appr. apply incl_tl, incl_refl.
        + intros u Iu. rewrite Forall_forall in Fvr, Dvr'. apply eqb_trich in Exv as [Y1 Y2]; auto.
          apply Occ; auto. right. apply (le_lt x v u); auto.
      - rewrite Eb in E3. destruct (map_eq_app _ _ _ _ E3) as (ul & ur & E5 & E6 & E7). subst l.
        rewrite map_length in E4. assert (ul = vl /\ ur = vr) as [-> ->].
        { rewrite <- E4 in LL. clear -E5 LL. revert ul E5 LL. induction vl as [|y vl IH]; intros [|z ul] E Hl; simpl in *; try discriminate; auto.
          injection E as <- E. destruct (IH ul E) as [-> ->]; auto. }
        destruct vr as [|v vr]; [discriminate|]. simpl in E7. injection E7 as <- <-. cbn [b_left b_right b_count] in * .
        right. inversion_clear Dvr as [|? ? Dv Dvr']. rewrite (o_leb _ _ O) in H by auto. apply negb_false_iff in H.
        apply sorted_cons in Svr as [Svr Fvr].
        assert (Hlt : forall u, In u (v :: vr) -> ltb x u = true).
        { intros u [<-|Iu]; auto. rewrite Forall_forall in Fvr, Dvr'. apply (o_trans _ _ O x v u); auto. }
        assert (Hn : forall u, In u (vl ++ v :: vr) -> eqb x u = false).
        { intros u Iu. apply in_app_or in Iu as [Iu|Iu]; auto. apply Occ; auto.
          destruct Iu as [<-|Iu]; auto. rewrite Forall_forall in Dvr'; auto. }
        split; auto. split; auto. rewrite map_app. cbn [map]. rewrite (MS vl); auto.
        2:{ apply incl_appl, incl_refl. }
        assert (Mr := MS (v :: vr) (incl_appr _ (incl_refl _)) (fun u Iu => Hn u (in_or_app _ _ _ (or_intror Iu)))).
        cbn [map] in Mr. rewrite Mr. do 3 f_equal.
        rewrite occurrences_app, Hno by auto. unfold occurrences. simpl. now rewrite Ox. }
    destruct Case as [(v & vr' & -> & Exv & E1 & Ov)|(Hn & Hlt & E1)].
    - (* an existing bin *)
      assert (Ln : length bins1 <= N).
      { rewrite E1, map_length. apply Few.
        - apply sorted_app. auto.
        - intros u Iu. apply in_or_app. left. apply Iv; auto. }
      rewrite HN. destruct (Nat.ltb_spec N (length bins1)); [lia|].
      exists h0, (vl ++ v :: vr'), i, v. split; auto. split; [|split; [exact Es|split; [|split; [exact Exv|split]]]].
      + split; [apply sorted_app; auto|]. split; [intros u Iu; apply in_or_app; left; auto|].
        split; [|exact E1]. intros y Iy. apply in_app_or in Iy as [Iy|[<-|[]]]; auto.
        exists v. split; auto. apply in_or_app; simpl; auto.
      + change (h_bins h0) with bins1. rewrite E1, map_app, nth_error_app2; rewrite map_length; [|lia].
        rewrite LL, Nat.sub_diag. simpl. now rewrite Ov.
      + exists (w ++ [i]). repeat split; auto.
      + cbn. rewrite app_length. simpl. lia.
    - (* a new bin *)
      assert (SS : StronglySorted (fun a b => ltb a b = true) (vl ++ x :: vr)).
      { apply sorted_app. split; auto. split.
        - apply sorted_cons. split; auto. apply Forall_forall. auto.
        - intros a b Ia [<-|Ib]; auto. }
      assert (II : incl (vl ++ x :: vr) (xs ++ [x])).
      { intros u Iu. apply in_or_app. apply in_app_or in Iu as [Iu|[<-|Iu]]; simpl; auto;
          left; apply Iv; apply in_or_app; auto. }
      assert (Ln : length bins1 <= N) by (rewrite E1, map_length; apply Few; auto).
      rewrite HN. destruct (Nat.ltb_spec N (length bins1)); [lia|].
      exists h0, (vl ++ x :: vr), i, x. split; auto. split; [|split; [exact Es|split; [|split; [|split]]]].
      + split; auto. split; auto. split; [|exact E1].
        intros y Iy. apply in_app_or in Iy as [Iy|[<-|[]]].
        * destruct (Cv y Iy) as (v & Iv' & Ev). exists v. split; auto. apply in_or_app.
          apply in_app_or in Iv' as []; simpl; auto.
        * exists x. split; [apply in_or_app; simpl; auto|]. apply eqb_trich; auto. split; apply (o_irrefl _ _ O); auto.
      + change (h_bins h0) with bins1. rewrite E1, map_app, nth_error_app2; rewrite map_length; [|lia].
        rewrite LL, Nat.sub_diag. simpl. do 2 f_equal. rewrite occurrences_app. f_equal.
        unfold occurrences. simpl. replace (eqb x x) with true; auto. symmetry.
        apply eqb_trich; auto. split; apply (o_irrefl _ _ O); auto.
      + apply eqb_trich; auto. split; apply (o_irrefl _ _ O); auto.
      + exists (w ++ [i]). repeat split; auto.
      + cbn. rewrite app_length. simpl. lia.
  Qed.

  Lemma separated_prefix (xs ys : list A) : separated (xs ++ ys) -> separated xs.
  Proof. intros H x y Ix Iy. apply H; apply in_or_app; auto. Qed.
  Lemma few_prefix N (xs ys : list A) : few N (xs ++ ys) -> few N xs.
  Proof. intros H vs S I. apply H; auto. intros v Iv. apply in_or_app; auto. Qed.

  Lemma separated_run N W xs : length xs <= W -> Forall D xs -> separated xs -> few N xs ->
    exists h vs w, update_all hist_update (hist_new N W true) xs = Ret h /\ exact_bins xs vs (h_bins h) /\
      live h N W w /\ h_total h = length xs.
  Proof.
    induction xs as [|x xs IH] using rev_ind; intros L F S Fw.
    - exists (hist_new N W true), [], (repeat 0 W). split; auto. split.
      + split; [constructor|]. split; [intros ? []|]. split; [intros ? []|reflexivity].
      + split; [apply new_live|reflexivity].
    - rewrite app_length in L. simpl in L.
      destruct IH as (h & vs & w & E & X & Lv & T); [lia| |eapply separated_prefix; eauto|eapply few_prefix; eauto|].
      { apply Forall_app in F as []; auto. }
      destruct (separated_update N W h xs vs x w Lv T) as (h' & vs' & i & v & Eu & X' & _ & _ & _ & (w' & Lv') & T');
        auto; [lia|].
      exists h', vs', w'. rewrite update_all_snoc, E. cbn [bind]. auto.
  Qed.

  Lemma occurrences_sum xs vs : Forall D xs -> StronglySorted (fun a b => ltb a b = true) vs -> Forall D vs ->
    (forall x, In x xs -> exists v, In v vs /\ eqb x v = true) ->
    list_sum (map (fun v => occurrences v xs) vs) = length xs.
  Proof.
    intros F S Dv C.
    revert F C. induction xs as [|x xs IH]; intros F C.
    - clear. induction vs; simpl; auto.
    - inversion_clear F as [|? ? Dx F']. simpl length. rewrite <- IH; auto; [|intros; apply C; right; auto]. clear IH.
      destruct (C x) as (v & Iv & Ev); [left; auto|]. apply in_split in Iv as (l & r & ->).
      assert (E : forall u, In u (l ++ r) -> eqb x u = false).
      { intros u Iu. apply sorted_app in S as (_ & S2 & S3). apply sorted_cons in S2 as [_ S2].
        apply Forall_app in Dv as [D1 D2]. inversion_clear D2 as [|? ? D3 D4].
        rewrite Forall_forall in D1, D4, S2. apply eqb_trich in Ev as [E1 E2]; auto.
        destruct (eqb x u) eqn:K; auto. exfalso. apply in_app_or in Iu as [Iu|Iu].
        - apply eqb_trich in K as [K1 K2]; auto. pose proof (S3 u v Iu (or_introl eq_refl)) as L.
          pose proof (o_ge_trans _ _ O v x u D3 Dx (D1 u Iu) E1 K2). congruence.
        - apply eqb_trich in K as [K1 K2]; auto. pose proof (S2 u Iu) as L.
          pose proof (o_ge_trans _ _ O u x v (D4 u Iu) Dx D3 K1 E2). congruence. }
      assert (M : forall us, (forall u, In u us -> eqb x u = false) ->
                map (fun v => occurrences v (x :: xs)) us = map (fun v => occurrences v xs) us).
      { intros us H. apply map_ext_in. intros u Iu. unfold occurrences. simpl. now rewrite H. }
      rewrite !map_app, !list_sum_app. cbn [map list_sum fold_right].
      rewrite (M l), (M r) by (intros; apply E; apply in_or_app; auto).
      unfold occurrences at 2. simpl. rewrite Ev. simpl. unfold list_sum, occurrences. lia.
  Qed.

  Lemma separated_report N W xs h : length xs <= W -> Forall D xs -> separated xs -> few N xs ->
    update_all hist_update (hist_new N W true) xs = Ret h ->
    exists vs, StronglySorted (fun a b => ltb a b = true) vs /\ incl vs xs /\
      (forall x, In x xs -> exists v, In v vs /\ eqb x v = true) /\
      hist_report h = map (fun v => ((v, v), occurrences v xs)) vs /\
      hist_binCounts h = Ret (map (fun v => occurrences v xs) vs) /\
      hist_size h = length vs.
  Proof.
    intros L F S Fw E. destruct (separated_run N W xs L F S Fw) as (h' & vs & w & E' & (Sv & Iv & Cv & Eb) & Lv & T).
    rewrite E in E'. injection E' as <-. exists vs. split; auto. split; auto. split; auto.
    assert (Dv : Forall D vs) by (rewrite Forall_forall in F |- *; auto). split; [|split].
    - rewrite report_bins; rewrite Eb, ?map_map; auto.
      + unfold Dbins. rewrite Forall_map. eapply Forall_impl; [|exact Dv]. intros a Da. split; auto.
      + clear -Sv. unfold lefts_increasing. induction Sv as [|y l H IH Fa]; simpl; constructor; auto.
        rewrite Forall_map. auto.
    - rewrite binCounts_eq. unfold counts_sum. rewrite T, Eb, map_map. cbn.
      rewrite occurrences_sum, Nat.eqb_refl; auto.
    - unfold hist_size. rewrite Eb. apply map_length.
  Qed.
End Order.
