(** What the histogram's window holds after it has slid, when new values only
    appear above the old ones (so that indices into the bins stay valid). *)

From Coq Require Import List Sorting.Sorted Arith Bool Lia ZArith Reals.
From Flocq Require Import IEEE754.BinarySingleNaN.
From Verif Require Import Outcome Arith Utils IBin Histogram Spec ListFacts HistSpec HistSlideSpec UtilsFacts HistFacts
  FloatSpec FloatFacts HistOrder HistQuant P2Witness HistWitness.
Import ListNotations.
Local Open Scope nat_scope.

Section Slide.
  Context {A : arith} {D : A -> Prop} (O : ordered A D).
  Implicit Types (h : hist A) (x : A) (bins : list (bin A)) (vs xs : list A).

  (** Index of the bin of a value. *)
  Definition idx vs x : nat := length (filter (fun v => ltb v x) vs).

  Lemma filter_none {X} (f : X -> bool) (l : list X) : (forall y, In y l -> f y = false) -> filter f l = [].
  Proof. induction l; intros H; simpl; auto. rewrite H by (left; auto). apply IHl. intros; apply H; right; auto. Qed.
  Lemma filter_all {X} (f : X -> bool) (l : list X) : (forall y, In y l -> f y = true) -> filter f l = l.
  Proof. induction l; intros H; simpl; auto. rewrite H by (left; auto). f_equal. apply IHl. intros; apply H; right; auto. Qed.

  Lemma eqb_refl x : D x -> eqb x x = true.
  Proof. intros. apply (eqb_trich O); auto. split; apply (o_irrefl _ _ O); auto. Qed.
  Lemma eqb_sym x y : D x -> D y -> eqb x y = true -> eqb y x = true.
  Proof. intros Dx Dy H. apply (eqb_trich O) in H; auto. apply (eqb_trich O); tauto. Qed.
  Lemma eqb_trans x y z : D x -> D y -> D z -> eqb x y = true -> eqb y z = true -> eqb x z = true.
  Proof.
    intros Dx Dy Dz H1 H2. apply (eqb_trich O) in H1 as [A1 A2], H2 as [B1 B2]; auto. apply (eqb_trich O); auto. split.
    - apply (o_ge_trans _ _ O z y x); auto.
    - apply (o_ge_trans _ _ O x y z); auto.
  Qed.

  (** A value equal to the k-th has index k. *)
  Lemma idx_at vs k v x : Forall D vs -> D x -> StronglySorted (fun a b => ltb a b = true) vs ->
    nth_error vs k = Some v -> eqb x v = true -> idx vs x = k.
  Proof.
    intros Dv Dx S E Ex. apply nth_error_split in E as (l & r & -> & Hl).
    apply Forall_app in Dv as [D1 D2]. inversion_clear D2 as [|? ? D3 D4]. rewrite Forall_forall in D1, D4.
    apply sorted_app in S as (S1 & S2 & S3). apply sorted_cons in S2 as [_ S2]. rewrite Forall_forall in S2.
    apply (eqb_trich O) in Ex as [E1 E2]; auto.
    unfold idx. rewrite filter_app. cbn [filter]. rewrite E2, filter_all, filter_none, app_nil_r; auto.
    - intros y Iy. apply (asym O); auto. apply (le_lt O x v y); auto.
    - intros y Iy. apply (lt_le O y v x); auto. apply S3; simpl; auto.
  Qed.

  Lemma idx_inj vs k v x : Forall D vs -> D x -> StronglySorted (fun a b => ltb a b = true) vs ->
    (exists u, In u vs /\ eqb x u = true) -> nth_error vs k = Some v -> eqb x v = Nat.eqb k (idx vs x).
  Proof.
    intros Dv Dx S (u & Iu & Eu) E. apply In_nth_error in Iu as (j & Ej).
    rewrite (idx_at vs j u x) by auto. destruct (Nat.eqb_spec k j) as [->|n].
    - congruence.
    - destruct (eqb x v) eqn:K; auto. exfalso. apply n.
      rewrite <- (idx_at vs j u x), <- (idx_at vs k v x); auto.
  Qed.

  Lemma idx_lt vs x : Forall D vs -> D x -> StronglySorted (fun a b => ltb a b = true) vs ->
    (exists u, In u vs /\ eqb x u = true) -> idx vs x < length vs.
  Proof.
    intros Dv Dx S (u & Iu & Eu). apply In_nth_error in Iu as (j & Ej). rewrite (idx_at vs j u x); auto.
    apply nth_error_Some. congruence.
  Qed.

  Lemma occ_snoc v xs x : occurrences v (xs ++ [x]) = occurrences v xs + (if eqb x v then 1 else 0).
  Proof. rewrite occurrences_app. unfold occurrences at 2. simpl. destruct (eqb x v); reflexivity. Qed.
  Lemma occ_cons v xs x : occurrences v (x :: xs) = (if eqb x v then 1 else 0) + occurrences v xs.
  Proof. unfold occurrences. simpl. destruct (eqb x v); reflexivity. Qed.

  (** The deque when it started with [Z] zeros and [M] more observations fit. *)
  Definition queue (Z M : nat) vs xs : list nat := skipn (length xs - M) (repeat 0 Z ++ map (idx vs) xs).

  (** [M] is the part of the window [W] that is not taken up by the total count at
      the start. *)
  Record sinv (N W Z M : nat) xs h vs : Prop := {
    si_live : live h N W (queue Z M vs xs);
    si_total : h_total h = W - M + Nat.min (length xs) M;
    si_sorted : StronglySorted (fun a b => ltb a b = true) vs;
    si_incl : incl vs xs;
    si_cover : forall x, In x xs -> exists v, In v vs /\ eqb x v = true;
    si_len : length (h_bins h) = length vs;
    si_bins : forall k v, nth_error vs k = Some v -> exists c, nth_error (h_bins h) k = Some (Bin v v c) /\
      c <= occurrences v (lastn (Z + M) xs) /\ ((k <> 0 \/ Z = 0) -> c = occurrences v (lastn (Z + M) xs))
  }.

  Lemma bins_lefts bins vs : length bins = length vs ->
    (forall k v, nth_error vs k = Some v -> exists c, nth_error bins k = Some (Bin v v c)) ->
    map (@b_left A) bins = vs /\ map (@b_right A) bins = vs.
  Proof.
    revert vs. induction bins as [|b bins IH]; intros [|v vs] L H; simpl in L; try lia; [split; reflexivity|].
    destruct (H 0 v eq_refl) as (c & E). injection E as ->.
    destruct (IH vs) as [E1 E2]; [lia|intros k; apply (H (S k))|]. simpl. rewrite E1, E2. auto.
  Qed.

  Lemma sorted_map bins : StronglySorted (fun a b => ltb a b = true) (map (@b_left A) bins) -> lefts_increasing bins.
  Proof.
    unfold lefts_increasing. induction bins as [|b bins IH]; intros S; [constructor|].
    apply sorted_cons in S as [S F]. constructor; auto. now apply Forall_map in F.
  Qed.

  Lemma bins_D bins vs : map (@b_left A) bins = vs -> map (@b_right A) bins = vs -> Forall D vs -> Dbins (D := D) bins.
  Proof.
    intros E1 E2 F. rewrite Forall_forall in F. apply Forall_forall. intros b Ib. split; apply F.
    - rewrite <- E1. now apply in_map.
    - rewrite <- E2. now apply in_map.
  Qed.

  Lemma skipn_len {X} (l r : list X) : skipn (length l) (l ++ r) = r.
  Proof. induction l; simpl; auto. Qed.
  Lemma skipn_len1 {X} (l r : list X) d : skipn (S (length l)) (l ++ d :: r) = r.
  Proof. induction l; simpl; auto. Qed.

  Lemma queue_snoc Z M vs xs x : length xs < M ->
    queue Z M vs (xs ++ [x]) = queue Z M vs xs ++ [idx vs x].
  Proof.
    intros L. unfold queue. rewrite app_length. simpl.
    replace (length xs + 1 - M) with 0 by lia. replace (length xs - M) with 0 by lia. simpl.
    now rewrite map_app, app_assoc.
  Qed.

  Lemma queue_slide Z M vs xs x : M <= length xs -> 1 <= M ->
    exists del, nth_error (repeat 0 Z ++ map (idx vs) xs) (length xs - M) = Some del /\
      queue Z M vs xs ++ [idx vs x] = del :: queue Z M vs (xs ++ [x]).
  Proof.
    intros L HW. unfold queue. rewrite app_length. simpl.
    set (E := repeat 0 Z ++ map (idx vs) xs).
    assert (LE : length E = Z + length xs) by (unfold E; now rewrite app_length, repeat_length, map_length).
    destruct (nth_error E (length xs - M)) as [d|] eqn:Ed.
    2:{ apply nth_error_None in Ed. lia. }
    exists d. split; auto. rewrite map_app, app_assoc. fold E. cbn [map].
    replace (length xs + 1 - M) with (S (length xs - M)) by lia.
    apply nth_error_split in Ed as (l & r & -> & <-).
    rewrite <- app_assoc, skipn_len. cbn [app]. rewrite skipn_len1. reflexivity.
  Qed.

  Lemma queue_ext Z M vs vs' xs : (forall x, In x xs -> idx vs' x = idx vs x) -> queue Z M vs' xs = queue Z M vs xs.
  Proof. intros H. unfold queue. do 2 f_equal. apply map_ext_in. auto. Qed.

  Lemma sinv_step N W Z M xs h vs x : 1 <= M <= W -> sinv N W Z M xs h vs ->
    Forall D (xs ++ [x]) -> separated (xs ++ [x]) -> few N (xs ++ [x]) -> rising_news (xs ++ [x]) ->
    exists h' vs', hist_update h x = Ret h' /\ sinv N W Z M (xs ++ [x]) h' vs' /\
      (forall y, In y xs -> idx vs' y = idx vs y) /\ hist_binSearch h x = Ret (idx vs' x).
  Proof.
    intros HW [(HN & HWs & Hd & Hw) T Sv Iv Cv Lb Hb] FD Sep Few Ris.
    apply Forall_app in FD as [FD Fx]. inversion_clear Fx as [|? ? Dx _]. rewrite Forall_forall in FD.
    assert (Dv : Forall D vs) by (apply Forall_forall; auto).
    destruct (bins_lefts (h_bins h) vs Lb) as [EL ER].
    { intros k v E. destruct (Hb k v E) as (c & E' & _). eauto. }
    assert (HD : Dbins (D := D) (h_bins h)) by (apply (bins_D _ vs); auto).
    assert (Sb : lefts_increasing (h_bins h)) by (apply sorted_map; now rewrite EL).
    unfold hist_update. destruct (hist_add_eq h x _ Hw) as (i & bins1 & f & Es & Ff & Ha & Eq). rewrite Eq. clear Eq.
    (* the position found *)
    assert (Ei : i = idx vs x).
    { rewrite (search_count O h x HD Dx (increasing_ascending O _ HD Sb)) in Es. injection Es as <-.
      unfold idx. rewrite <- EL.
      assert (G : forall bs, incl bs (h_bins h) -> length (filter (fun b => definitelyLessThan (b_left b) x default_eps) bs) =
                length (filter (fun v => ltb v x) (map (@b_left A) bs))).
      { induction bs as [|b bs IH]; intros Ib; auto. cbn [map filter].
        assert (In (b_left b) vs) by (rewrite <- EL; apply in_map; apply Ib; left; auto).
        rewrite Forall_forall in Dv.
        replace (definitelyLessThan (b_left b) x default_eps) with (ltb (b_left b) x).
        - destruct (ltb _ _); simpl; rewrite IH; auto; intros c Ic; apply Ib; right; auto.
        - destruct (definitelyLessThan (b_left b) x default_eps) eqn:K; [apply (o_less _ _ O); auto|].
          destruct (ltb (b_left b) x) eqn:K2; auto. exfalso.
          destruct (Sep (b_left b) x) as [C|[C|C]]; [apply in_or_app; auto|apply in_or_app; simpl; auto|..].
          + apply (eqb_trich O) in C as [C _]; auto. congruence.
          + congruence.
          + apply (o_less _ _ O) in C; auto. apply (asym O) in C; auto. congruence. }
      apply G, incl_refl. }
    (* after adding *)
    assert (Add : exists vs', StronglySorted (fun a b => ltb a b = true) vs' /\ incl vs' (xs ++ [x]) /\
              (forall y, In y (xs ++ [x]) -> exists v, In v vs' /\ eqb y v = true) /\
              (forall y, In y xs -> idx vs' y = idx vs y) /\ idx vs' x = i /\ length bins1 = length vs' /\
              (forall k v, nth_error vs' k = Some v -> exists c, nth_error bins1 k = Some (Bin v v (c + if eqb x v then 1 else 0)) /\
                 c <= occurrences v (lastn (Z + M) xs) /\ ((k <> 0 \/ Z = 0) -> c = occurrences v (lastn (Z + M) xs)))).
    { destruct (Ris xs x []) as [(y & Iy & Ey)|Big]; [reflexivity| |].
      - (* known *)
        destruct (Cv y Iy) as (v & Ivv & Ev). rewrite Forall_forall in Dv.
        assert (Exv : eqb x v = true) by (apply (eqb_trans x y v); auto).
        rewrite <- Forall_forall in Dv.
        apply In_nth_error in Ivv as (k & Ek). pose proof (idx_at vs k v x Dv Dx Sv Ek Exv) as Eidx.
        rewrite Eidx in Ei. subst i. destruct (Hb k v Ek) as (c & Ebk & _).
        exists vs. split; auto. split; [intros u Iu; apply in_or_app; auto|]. split.
        { intros z Iz. apply in_app_or in Iz as [Iz|[<-|[]]]; auto. exists v. split; auto. eapply nth_error_In; eauto. }
        split; auto. split; auto.
        assert (E1 : bins1 = set_nth (h_bins h) k (Bin v v (c + 1))).
        { destruct Ha as [C|l b r _ E3 E4 H|l b r _ E3 E4 H].
          - exfalso. destruct C as [C|C].
            + rewrite T in C. destruct xs; [destruct Iy|]. cbn [length] in C. lia.
            + assert (k < length (h_bins h)) by (apply nth_error_Some; congruence). lia.
          - rewrite E3, <- E4, set_nth_split. rewrite E3, nth_error_app2, <- E4, Nat.sub_diag in Ebk by lia. simpl in Ebk.
            injection Ebk as ->. reflexivity.
          - exfalso. rewrite E3, nth_error_app2, <- E4, Nat.sub_diag in Ebk by lia. simpl in Ebk.
            injection Ebk as ->. cbn [b_left] in H. rewrite Forall_forall in Dv. assert (D v) by (apply Dv; eapply nth_error_In; eauto).
            rewrite (o_leb _ _ O) in H by auto. apply (eqb_trich O) in Exv as [C1 C2]; auto. rewrite C1 in H. discriminate. }
        split; [rewrite E1, set_nth_length; auto|].
        intros j u Ej. destruct (Hb j u Ej) as (c' & Ebj & Hc). exists c'. split; [|exact Hc].
        rewrite E1, nth_error_set_nth. rewrite (idx_inj vs j u x); auto; [|exists v; split; auto; eapply nth_error_In; eauto].
        rewrite Eidx. destruct (Nat.eqb_spec j k) as [->|n].
        + rewrite Ek in Ej. injection Ej as ->. rewrite Ebk in Ebj. injection Ebj as ->.
          destruct (Nat.eqb_spec k k); [|congruence].
          destruct (Nat.ltb_spec k (length (h_bins h))) as [?|C]; [reflexivity|].
          apply nth_error_None in C. congruence.
        + destruct (Nat.eqb_spec k j); [congruence|]. rewrite Ebj, Nat.add_0_r. reflexivity.
      - (* a new largest value *)
        assert (Gv : forall v, In v vs -> ltb v x = true) by auto.
        assert (Eidx : idx vs x = length vs) by (unfold idx; now rewrite filter_all).
        rewrite Eidx in Ei. subst i.
        assert (E1 : bins1 = h_bins h ++ [Bin x x 1]).
        { destruct Ha as [C|l b r _ E3 E4 H|l b r _ E3 E4 H]; auto;
            rewrite <- Lb, E3, app_length in E4; simpl in E4; lia. }
        rewrite Forall_forall in Dv.
        exists (vs ++ [x]). split.
        { apply sorted_app. split; auto. split; [repeat constructor|]. intros a b Ia [<-|[]]; auto. }
        split; [intros u Iu; apply in_app_or in Iu as [Iu|Iu]; apply in_or_app; auto|]. split.
        { intros z Iz. apply in_app_or in Iz as [Iz|[<-|[]]].
          - destruct (Cv z Iz) as (v & ? & ?). exists v. split; auto. apply in_or_app; auto.
          - exists x. split; [apply in_or_app; simpl; auto|now apply eqb_refl]. }
        split.
        { intros y Iy. unfold idx. rewrite filter_app. cbn [filter]. rewrite (asym O y x) by auto. now rewrite app_nil_r. }
        split.
        { unfold idx in * . rewrite filter_app. cbn [filter]. rewrite (o_irrefl _ _ O) by auto. now rewrite app_nil_r. }
        split; [rewrite E1, !app_length, Lb; auto|].
        intros j u Ej. destruct (lt_dec j (length vs)) as [C|C].
        + rewrite nth_error_app1 in Ej by lia. destruct (Hb j u Ej) as (c' & Ebj & Hc). exists c'. split; [|exact Hc].
          rewrite E1, nth_error_app1 by lia. rewrite Ebj. repeat f_equal.
          assert (In u vs) by (eapply nth_error_In; eauto).
          replace (eqb x u) with false; [lia|]. symmetry. destruct (eqb x u) eqn:K; auto.
          apply (eqb_trich O) in K as [K1 K2]; auto. rewrite Gv in K2; auto. 
        + rewrite nth_error_app2 in Ej by lia. destruct (j - length vs) as [|m] eqn:Em; simpl in Ej; [|destruct m; discriminate].
          injection Ej as <-. exists 0. split.
          * rewrite E1, nth_error_app2 by lia. replace (j - length (h_bins h)) with 0 by lia. simpl. now rewrite eqb_refl.
          * assert (Zero : forall ys, incl ys xs -> occurrences x ys = 0).
            { intros ys Iy. unfold occurrences. rewrite filter_none; auto. intros y Iyy.
              destruct (eqb y x) eqn:K; auto. apply (eqb_trich O) in K as [K _]; auto. rewrite Big in K; auto. }
            rewrite Zero; [auto|]. unfold lastn. intros y Iy. rewrite <- (firstn_skipn (length xs - (Z + M)) xs).
            apply in_or_app. auto. }
    destruct Add as (vs' & Sv' & Iv' & Cv' & Kx & Ki & L1 & Hb1).
    assert (LN : length vs' <= N) by (apply Few; auto).
    assert (Dv' : Forall D vs').
    { apply Forall_forall. intros u Iu. apply Iv' in Iu. apply in_app_or in Iu as [Iu|[<-|[]]]; auto. }
    set (h0 := Hist _ _ _ _ _ _ _ _ _).
    destruct (decay_eq h0 (queue Z M vs xs ++ [i]) Hd eq_refl) as [D1 D2].
    unfold h0 in D1, D2. cbn [h_total h_windowSize h_bins h_numBins h_decay h_history h_news h_deletes] in D1, D2. fold h0 in D1, D2.
    destruct (le_lt_dec M (length xs)) as [C|C].
    - (* sliding *)
      assert (TW : h_total h = W) by lia.
      destruct (queue_slide Z M vs' xs x C (proj1 HW)) as (del & Ed & Eq). rewrite Ki, (queue_ext Z M vs vs' xs Kx) in Eq.
      rewrite Eq in D2. destruct D2 as [_ D2]; [lia|].
      assert (Hdel : del < length bins1).
      { rewrite L1. destruct (lt_dec (length xs - M) Z) as [C2|C2].
        - rewrite nth_error_app1 in Ed by (rewrite repeat_length; lia). apply nth_error_In, repeat_spec in Ed. subst del.
          destruct (Cv' x) as (v & ? & _); [apply in_or_app; simpl; auto|]. destruct vs'; [contradiction|simpl; lia].
        - rewrite nth_error_app2, repeat_length in Ed by (rewrite repeat_length; lia).
          apply nth_error_In, in_map_iff in Ed as (y & <- & Iy). apply idx_lt; auto. apply Cv'. apply in_or_app; auto. }
      destruct (D2 Hdel) as (bins2 & (l & b & r & Eb1 & Ll & Hdec) & E2). clear D1 D2. rewrite E2. cbn [bind h_numBins h_bins].
      assert (Eb2 : bins2 = set_nth bins1 del (dec b)).
      { destruct Hdec as [(B1 & _)|(_ & ->)]; [rewrite HN in B1; lia|]. rewrite Eb1, <- Ll, set_nth_split. reflexivity. }
      assert (L2 : length bins2 = length vs') by (rewrite Eb2, set_nth_length; auto).
      rewrite HN, L2. destruct (Nat.ltb_spec N (length vs')); [lia|].
      eexists _, vs'. split; [reflexivity|]. split; [|split; [exact Kx|now rewrite Ki]]. constructor; cbn [h_bins h_total]; auto.
      + repeat split; auto.
      + rewrite app_length. simpl. lia.
      + intros k v Ek. destruct (Hb1 k v Ek) as (c & Ebk & Hle & Heq).
        rewrite Eb2, nth_error_set_nth.
        (* what leaves the last Z + M *)
        assert (Leave : occurrences v (lastn (Z + M) xs) + (if eqb x v then 1 else 0) =
                  occurrences v (lastn (Z + M) (xs ++ [x])) +
                  (if Nat.ltb (length xs) (Z + M) then 0 else if Nat.eqb k del then 1 else 0) /\
                  (length xs < Z + M -> del = 0)).
        { destruct (Nat.ltb_spec (length xs) (Z + M)) as [C2|C2].
          - split.
            + rewrite lastn_snoc_short, lastn_all by lia. rewrite occ_snoc. lia.
            + intros _. rewrite nth_error_app1 in Ed by (rewrite repeat_length; lia). apply nth_error_In, repeat_spec in Ed. auto.
          - split; [|lia]. rewrite nth_error_app2, repeat_length in Ed by (rewrite repeat_length; lia).
            rewrite nth_error_map in Ed. destruct (nth_error xs (length xs - M - Z)) as [y|] eqn:Ey; [|discriminate].
            cbn in Ed. injection Ed as <-.
            assert (Iy : In y xs) by (eapply nth_error_In; eauto).
            rewrite <- (idx_inj vs' k v y); auto; [|apply Cv'; apply in_or_app; auto].
            rewrite lastn_snoc by lia. destruct (Nat.ltb_spec (length xs) (Z + M)); [lia|].
            rewrite occ_snoc. apply nth_error_split in Ey as (l0 & r0 & Ex & Hl0).
            replace (lastn (Z + M) xs) with (y :: r0).
            + cbn [tl]. rewrite occ_cons. lia.
            + unfold lastn. replace (length xs - (Z + M)) with (length l0) by lia. rewrite Ex, skipn_len. reflexivity. }
        destruct Leave as [Leave Ldel].
        destruct (Nat.eqb_spec del k) as [->|n].
        * destruct (Nat.ltb_spec k (length bins1)); [|lia].
          assert (b = Bin v v (c + (if eqb x v then 1 else 0))) as ->.
          { rewrite Eb1, nth_error_app2, Ll, Nat.sub_diag in Ebk by lia. simpl in Ebk. congruence. }
          unfold dec. cbn [b_left b_right b_count]. eexists. split; [reflexivity|].
          destruct (Nat.eqb_spec k k); [|congruence].
          destruct (Nat.ltb_spec (length xs) (Z + M)) as [C2|C2].
          -- rewrite (Ldel C2) in * . split; [lia|]. intros [Hk|Hk]; [congruence|lia].
          -- split; [lia|]. intros Hk. rewrite (Heq Hk). lia.
        * rewrite Ebk. eexists. split; [reflexivity|]. destruct (Nat.eqb_spec k del); [congruence|].
          destruct (Nat.ltb (length xs) (Z + M)); (split; [lia|]; intros Hk; rewrite (Heq Hk); lia).
    - (* still filling *)
      rewrite D1 by lia. cbn [bind]. change (h_numBins h0) with (h_numBins h). change (h_bins h0) with bins1.
      rewrite HN, L1. destruct (Nat.ltb_spec N (length vs')); [lia|].
      exists h0, vs'. split; [reflexivity|]. split; [|split; [exact Kx|now rewrite Ki]]. constructor; auto.
      + repeat split; auto. unfold h0. cbn [h_window]. rewrite queue_snoc, Ki, (queue_ext Z M vs vs' xs Kx) by lia. reflexivity.
      + unfold h0. cbn [h_total]. rewrite app_length. simpl. lia.
      + intros k v Ek. destruct (Hb1 k v Ek) as (c & Ebk & Hle & Heq). eexists. split; [exact Ebk|].
        rewrite lastn_all in Hle, Heq by lia. rewrite lastn_all by (rewrite app_length; simpl; lia). rewrite occ_snoc.
        split; [lia|]. intros Hk. rewrite (Heq Hk). reflexivity.
  Qed.

  Lemma rising_prefix xs ys : rising_news (xs ++ ys) -> rising_news xs.
  Proof. intros H l x r E. apply (H l x (r ++ ys)). rewrite E, <- app_assoc. reflexivity. Qed.

  Lemma sinv_from N W Z M h0 xs : 1 <= M <= W -> live h0 N W (repeat 0 Z) -> h_bins h0 = [] -> h_total h0 = W - M ->
    Forall D xs -> separated xs -> few N xs -> rising_news xs ->
    exists h vs, update_all hist_update h0 xs = Ret h /\ sinv N W Z M xs h vs.
  Proof.
    intros HW L0 B0 T0. induction xs as [|x xs IH] using rev_ind; intros F S Fw Ri.
    - exists h0, []. split; auto. constructor; auto.
      + unfold queue. simpl. rewrite app_nil_r. exact L0.
      + rewrite T0. simpl. lia.
      + constructor.
      + intros ? [].
      + intros ? [].
      + now rewrite B0.
      + intros [|k] v E; discriminate.
    - destruct IH as (h & vs & E & I).
      { apply Forall_app in F as []; auto. } { eapply separated_prefix; eauto. } { eapply few_prefix; eauto. } { eapply rising_prefix; eauto. }
      destruct (sinv_step N W Z M xs h vs x HW I F S Fw Ri) as (h' & vs' & Eu & I' & _).
      exists h', vs'. rewrite update_all_snoc, E. auto.
  Qed.

  Lemma sinv_run N W xs : 1 <= W -> Forall D xs -> separated xs -> few N xs -> rising_news xs ->
    exists h vs, update_all hist_update (hist_new N W true) xs = Ret h /\ sinv N W W W xs h vs.
  Proof. intros HW. apply sinv_from; [lia|apply new_live|reflexivity|cbn; lia]. Qed.

  Lemma sinv_report N W Z M xs h vs : Forall D xs -> sinv N W Z M xs h vs ->
    hist_report h = combine (map (fun v => (v, v)) vs) (map (@b_count A) (h_bins h)) /\
    length (map (@b_count A) (h_bins h)) = length vs.
  Proof.
    intros F [Lv T Sv Iv Cv Lb Hb].
    destruct (bins_lefts (h_bins h) vs Lb) as [EL ER].
    { intros k v E'. destruct (Hb k v E') as (c & E2 & _). eauto. }
    assert (Dv : Forall D vs) by (rewrite Forall_forall in F |- *; auto).
    split; [|now rewrite map_length].
    rewrite (report_bins O); [|apply (bins_D _ vs); auto|apply sorted_map; now rewrite EL].
    clear -EL ER. revert vs EL ER. induction (h_bins h) as [|b bs IH]; intros vs EL ER; destruct vs as [|v vs]; try discriminate; auto.
    cbn [map] in * . injection EL as E1 EL. injection ER as E2 ER. cbn [combine]. rewrite (IH vs); auto. congruence.
  Qed.

  Lemma slide_report N W xs : 1 <= W -> Forall D xs -> separated xs -> few N xs -> rising_news xs ->
    exists h, update_all hist_update (hist_new N W true) xs = Ret h /\ counts_last (2 * W) xs h.
  Proof.
    intros HW F S Fw Ri. destruct (sinv_run N W xs HW F S Fw Ri) as (h & vs & E & I).
    exists h. split; auto. exists vs, (map (@b_count A) (h_bins h)).
    destruct (sinv_report _ _ _ _ _ _ _ F I) as [R1 R2]. destruct I as [Lv T Sv Iv Cv Lb Hb].
    split; [auto|split; [auto|split; [auto|split; [auto|split; [auto|]]]]].
    intros k v c Ek Ec. rewrite nth_error_map in Ec. destruct (Hb k v Ek) as (c' & Eb & H1 & H2). rewrite Eb in Ec.
    cbn in Ec. injection Ec as <-. replace (2 * W) with (W + W) by lia. auto.
  Qed.

  (** Without zeros in the deque the counts are exact. *)
  Lemma sinv_counts N W M xs h vs : sinv N W 0 M xs h vs ->
    map (@b_count A) (h_bins h) = map (fun v => occurrences v (lastn M xs)) vs.
  Proof.
    intros [_ _ _ _ _ Lb Hb].
    assert (Hb' : forall k w, nth_error vs k = Some w ->
              exists c, nth_error (h_bins h) k = Some (Bin w w c) /\ c = occurrences w (lastn M xs)).
    { intros k w Ew. destruct (Hb k w Ew) as (c & Ec & _ & Q). exists c. split; auto. }
    clear -Lb Hb'. revert vs Lb Hb'. induction (h_bins h) as [|b bs IH]; intros [|w vs] Lb Hb; simpl in Lb; try lia; auto.
    cbn [map]. destruct (Hb 0 w eq_refl) as (c & Ec & ->). injection Ec as ->. cbn [b_count]. f_equal.
    apply IH; [lia|]. intros k u Ek. apply (Hb (S k) u Ek).
  Qed.

  Lemma first_least x0 xs : Forall D (x0 :: xs) -> rising_news (x0 :: xs) -> forall y, In y (x0 :: xs) -> ltb y x0 = false.
  Proof.
    induction xs as [|x xs IH] using rev_ind; intros F R y Iy; inversion_clear F as [|? ? D0 F'].
    - destruct Iy as [<-|[]]. apply (o_irrefl _ _ O); auto.
    - apply Forall_app in F' as [F1 F2]. inversion_clear F2 as [|? ? Dx _].
      assert (IH' := IH (Forall_cons _ D0 F1) (rising_prefix (x0 :: xs) [x] R)).
      assert (Iy' : In y (x0 :: xs) \/ y = x).
      { destruct Iy as [<-|Iy]; [left; left; auto|]. apply in_app_or in Iy as [Iy|[<-|[]]]; auto. left; right; auto. }
      destruct Iy' as [Iy'| ->]; auto.
      destruct (R (x0 :: xs) x []) as [(z & Iz & Ez)|B]; [reflexivity| |].
      + assert (Dz : D z) by (destruct Iz as [<-|Iz]; auto; rewrite Forall_forall in F1; auto).
        apply (eqb_trich O) in Ez as [E1 E2]; auto. apply (o_ge_trans _ _ O x0 z x); auto.
      + apply (asym O); auto. apply B. left. auto.
  Qed.

  Lemma occ_ext u v xs : D u -> D v -> Forall D xs -> eqb u v = true -> occurrences u xs = occurrences v xs.
  Proof.
    intros Du Dv F E. unfold occurrences. f_equal. apply filter_ext_in. intros y Iy. rewrite Forall_forall in F.
    apply eq_true_iff_eq. split; intros H.
    - apply (eqb_trans y u v); auto.
    - apply (eqb_trans y v u); auto. apply eqb_sym; auto.
  Qed.

  Lemma Forall_lastn {X} (P : X -> Prop) n (l : list X) : Forall P l -> Forall P (lastn n l).
  Proof.
    intros F. unfold lastn. rewrite Forall_forall in F |- * . intros y Iy. apply F.
    rewrite <- (firstn_skipn (length l - n) l). apply in_or_app. auto.
  Qed.

  (** Too few copies of the smallest value: the counts exceed the total. *)
  Lemma slide_throw N W x0 xs h : 1 <= W -> Forall D (x0 :: xs) -> separated (x0 :: xs) -> few N (x0 :: xs) ->
    rising_news (x0 :: xs) -> update_all hist_update (hist_new N W true) (x0 :: xs) = Ret h ->
    Nat.min (length (x0 :: xs)) W + occurrences x0 (lastn (2 * W) (x0 :: xs)) < Nat.min (length (x0 :: xs)) (2 * W) ->
    hist_binCounts h = Throw RuntimeError.
  Proof.
    intros HW F Se Fw Ri E L. destruct (sinv_run N W (x0 :: xs) HW F Se Fw Ri) as (h' & vs & E' & [Lv T Sv Iv Cv Lb Hb]).
    rewrite E in E'. injection E' as <-. replace (2 * W) with (W + W) in * by lia.
    assert (Dv : Forall D vs) by (rewrite Forall_forall in F |- *; auto).
    assert (FL : Forall D (lastn (W + W) (x0 :: xs))) by (now apply Forall_lastn).
    assert (Sum : list_sum (map (fun v => occurrences v (lastn (W + W) (x0 :: xs))) vs) = Nat.min (W + W) (length (x0 :: xs))).
    { rewrite <- lastn_length. apply (occurrences_sum O); auto. intros y Iy. apply Cv.
      unfold lastn in Iy. rewrite <- (firstn_skipn (length (x0 :: xs) - (W + W)) (x0 :: xs)). apply in_or_app. auto. }
    destruct (Cv x0) as (u & Iu & Eu); [left; auto|]. destruct vs as [|v vs]; [destruct Iu|].
    assert (D0 : D x0) by (inversion F; auto).
    assert (E0 : eqb x0 v = true).
    { destruct Iu as [<-|Iu]; auto. apply sorted_cons in Sv as [_ Sv]. rewrite Forall_forall in Sv, Dv.
      pose proof (Sv u Iu) as Lt. apply (eqb_trich O) in Eu as [E1 E2]; auto; [|apply Dv; right; auto].
      exfalso. assert (Lv0 : ltb v x0 = true) by (apply (lt_le O v u x0); auto; apply Dv; simpl; auto).
      rewrite (first_least x0 xs F Ri v) in Lv0; [discriminate|]. apply Iv. left. auto. }
    rewrite binCounts_eq. unfold counts_sum. destruct (h_bins h) as [|b bs]; [discriminate|].
    cbn [map] in Sum |- * .
    assert (G : map (@b_count A) bs = map (fun w => occurrences w (lastn (W + W) (x0 :: xs))) vs).
    { cbn [length] in Lb. injection Lb as Lb.
      assert (Hb' : forall k w, nth_error vs k = Some w ->
                exists c, nth_error bs k = Some (Bin w w c) /\ c = occurrences w (lastn (W + W) (x0 :: xs))).
      { intros k w Ew. destruct (Hb (S k) w Ew) as (c & Ec & _ & Q). exists c. split; auto. }
      clear -Lb Hb'. revert vs Lb Hb'. induction bs as [|b bs IH]; intros [|w vs] Lb Hb; simpl in Lb; try lia; auto.
      cbn [map]. destruct (Hb 0 w eq_refl) as (c & Ec & ->). injection Ec as ->. cbn [b_count]. f_equal.
      apply IH; [lia|]. intros k u Ek. apply (Hb (S k) u Ek). }
    change (list_sum (b_count b :: map (@b_count A) bs)) with (b_count b + list_sum (map (@b_count A) bs)).
    cbn [list_sum fold_right] in Sum. fold (list_sum (map (fun w => occurrences w (lastn (W + W) (x0 :: xs))) vs)) in Sum. rewrite G.
    rewrite <- (occ_ext x0 v) in Sum by (auto; inversion Dv; auto).
    destruct (Nat.eqb_spec (b_count b + list_sum (map (fun w => occurrences w (lastn (W + W) (x0 :: xs))) vs)) (h_total h)); [lia|reflexivity].
  Qed.

  Lemma reset_report N W os h xs : hist_calls (hist_new N W true) os = Ret h -> length (hist_items os) < W ->
    Forall D xs -> separated xs -> few N xs -> rising_news xs ->
    exists h', update_all hist_update (hist_reset h) xs = Ret h' /\
      counts_exactly (W - length (hist_items os)) xs h' /\
      h_total h' = Nat.min (length (hist_items os) + length xs) W /\
      counts_sum h' = Nat.min (length xs) (W - length (hist_items os)) /\
      map (@snd _ nat) (hist_report h') = map (@b_count A) (h_bins h').
  Proof.
    intros E L F Se Fw Ri. destruct (run_basic _ _ _ _ E) as ((w & Lv & _) & T & _ & _).
    destruct (sinv_from N W 0 (W - length (hist_items os)) (hist_reset h) xs) as (h' & vs & E' & I); auto; try lia.
    { eapply reset_live; eauto. } { cbn. lia. }
    exists h'. split; auto. destruct (sinv_report _ _ _ _ _ _ _ F I) as [R1 R2]. pose proof (sinv_counts _ _ _ _ _ _ I) as Ec.
    destruct I as [Lv' T' Sv Iv Cv Lb Hb]. split; [|split; [|split]].
    - exists vs, (map (@b_count A) (h_bins h')). repeat (split; auto).
    - lia.
    - unfold counts_sum. rewrite Ec. rewrite Nat.min_comm, <- lastn_length. apply (occurrences_sum O); auto.
      + now apply Forall_lastn.
      + rewrite Forall_forall in F |- *; auto.
      + intros y Iy. apply Cv. unfold lastn in Iy. rewrite <- (firstn_skipn (length xs - (W - length (hist_items os))) xs). apply in_or_app. auto.
    - rewrite R1. clear -R2. revert R2. generalize (map (@b_count A) (h_bins h')). intros cs. revert cs.
      induction vs as [|v vs IH]; intros [|c cs] L; simpl in L; try lia; auto. cbn [map combine]. rewrite IH by lia. reflexivity.
  Qed.
End Slide.

Lemma slide_RA N W (xs : list R) : 1 <= W -> separated (A := RA) xs -> few (A := RA) N xs -> rising_news (A := RA) xs ->
  exists h, update_all hist_update (hist_new (A := RA) N W true) xs = Ret h /\ counts_last (A := RA) (2 * W) xs h.
Proof. intros HW. apply (slide_report ordered_RA); auto. apply Forall_forall. intros; exact I. Qed.

Lemma slide_B64 N W (xs : list double) : 1 <= W -> Forall (fun x => finite64 x = true) xs ->
  separated (A := B64) xs -> few (A := B64) N xs -> rising_news (A := B64) xs ->
  exists h, update_all hist_update (hist_new (A := B64) N W true) xs = Ret h /\ counts_last (A := B64) (2 * W) xs h.
Proof. intros HW F. exact (slide_report ordered_B64 N W xs HW F). Qed.

Lemma slide_throw_B64 N W (x0 : double) xs h : 1 <= W -> Forall (fun x => finite64 x = true) (x0 :: xs) ->
  separated (A := B64) (x0 :: xs) -> few (A := B64) N (x0 :: xs) -> rising_news (A := B64) (x0 :: xs) ->
  update_all hist_update (hist_new (A := B64) N W true) (x0 :: xs) = Ret h ->
  Nat.min (length (x0 :: xs)) W + occurrences (A := B64) x0 (lastn (2 * W) (x0 :: xs)) < Nat.min (length (x0 :: xs)) (2 * W) ->
  hist_binCounts h = Throw RuntimeError.
Proof. intros HW F. exact (slide_throw ordered_B64 N W x0 xs h HW F). Qed.

Lemma reset_RA N W (os : list (hist_op RA)) h (xs : list R) : hist_calls (hist_new N W true) os = Ret h ->
  length (hist_items os) < W -> separated (A := RA) xs -> few (A := RA) N xs -> rising_news (A := RA) xs ->
  exists h', update_all hist_update (hist_reset h) xs = Ret h' /\
    counts_exactly (A := RA) (W - length (hist_items os)) xs h' /\
    hist_totalCount h' = Nat.min (length (hist_items os) + length xs) W.
Proof.
  intros E L S F R. destruct (reset_report ordered_RA N W os h xs E L) as (h' & E' & C & T & _); eauto.
  apply Forall_forall. intros; exact I.
Qed.

Lemma reset_B64 N W (os : list (hist_op B64)) h (xs : list double) : hist_calls (hist_new N W true) os = Ret h ->
  length (hist_items os) < W -> Forall (fun x => finite64 x = true) xs ->
  separated (A := B64) xs -> few (A := B64) N xs -> rising_news (A := B64) xs ->
  exists h', update_all hist_update (hist_reset h) xs = Ret h' /\
    counts_exactly (A := B64) (W - length (hist_items os)) xs h' /\
    hist_totalCount h' = Nat.min (length (hist_items os) + length xs) W.
Proof.
  intros E L F S Fw R. destruct (reset_report ordered_B64 N W os h xs E L F S Fw R) as (h' & E' & C & T & _); eauto.
Qed.

Lemma reset_counts_B64 N W (os : list (hist_op B64)) h (xs : list double) h' : hist_calls (hist_new N W true) os = Ret h ->
  length (hist_items os) < W -> Forall (fun x => finite64 x = true) xs ->
  separated (A := B64) xs -> few (A := B64) N xs -> rising_news (A := B64) xs ->
  update_all hist_update (hist_reset h) xs = Ret h' ->
  (hist_binCounts h' = Throw RuntimeError <-> hist_items os <> []) /\
  (hist_items os = [] -> hist_binCounts h' = Ret (map snd (hist_report h'))).
Proof.
  intros E L F S Fw R E1. destruct (reset_report ordered_B64 N W os h xs E L F S Fw R) as (h1 & E' & C & T & Sm & Rp).
  rewrite E1 in E'. injection E' as <-. rewrite binCounts_eq, Sm, T.
  destruct (hist_items os) as [|y ys] eqn:Ei.
  - cbn [length] in * . rewrite Nat.sub_0_r. cbn [Nat.add]. rewrite Nat.eqb_refl. split; [split; [discriminate|congruence]|].
    intros _. now rewrite Rp.
  - assert (P : length (y :: ys) >= 1) by (simpl; lia). split; [|discriminate]. split; [discriminate|]. intros _.
    match goal with |- (if ?c then _ else _) = _ => destruct c eqn:K; [|reflexivity] end. apply Nat.eqb_eq in K. exfalso.
    clear -K P L. revert K P L. generalize (length (y :: ys)). intros n. generalize (length xs). intros m K P L. lia.
Qed.

Lemma reset_first N W (xs : list double) : 1 <= W -> Forall (fun x => finite64 x = true) xs ->
  separated (A := B64) xs -> few (A := B64) N xs -> rising_news (A := B64) xs ->
  exists h, update_all hist_update (hist_reset (hist_new (A := B64) N W true)) xs = Ret h /\
    counts_exactly (A := B64) W xs h /\ hist_binCounts h = Ret (map snd (hist_report h)).
Proof.
  intros HW F S Fw R.
  destruct (reset_B64 N W [] (hist_new (A := B64) N W true) xs eq_refl) as (h & E & C & _); auto.
  exists h. cbn [hist_items length] in C. rewrite Nat.sub_0_r in C. split; [exact E|]. split; [exact C|].
  apply (reset_counts_B64 N W [] (hist_new (A := B64) N W true) xs h eq_refl); auto.
Qed.

(** Without any assumption on the data, while the window is not full. *)
Lemma reset_early {A : arith} N W (os : list (hist_op A)) h (xs : list A) h' : hist_calls (hist_new N W true) os = Ret h ->
  length (hist_items os) + length xs <= W -> update_all hist_update (hist_reset h) xs = Ret h' ->
  counts_sum h' = length xs /\ h_total h' = length (hist_items os) + length xs.
Proof.
  intros E. destruct (run_basic _ _ _ _ E) as ((w & Lv & _) & T & _ & _). pose proof (reset_live _ _ _ _ Lv) as L0.
  intros L E'.
  assert (G : (exists w', live h' N W w') /\ counts_sum h' = length xs /\ h_total h' = length (hist_items os) + length xs).
  { revert h' L E'. induction xs as [|x xs IH] using rev_ind; intros h' L E'.
    - injection E' as <-. split; [eauto|]. unfold counts_sum. cbn in * . lia.
    - rewrite app_length in * . cbn [length] in * . rewrite update_all_snoc in E'. apply bind_Ret in E' as (h1 & E1 & E').
      destruct (IH h1) as ((w1 & L1) & S1 & T1); auto; [lia|].
      destruct (update_inv _ _ _ _ _ _ L1 E') as (i & bins & w' & f & _ & L' & Eb & U & _).
      pose proof (updating_total _ _ _ _ _ _ _ _ _ _ U). pose proof (updating_sum _ _ _ _ _ _ _ _ _ _ U) as [Us _].
      split; [eauto|]. unfold counts_sum in * . rewrite Eb. rewrite Us by lia. split; lia. }
  tauto.
Qed.

Lemma reset_mass N W (os : list (hist_op RA)) h (xs : list R) h' : hist_calls (hist_new N W true) os = Ret h ->
  length (hist_items os) < W -> 1 <= length xs -> separated (A := RA) xs -> few (A := RA) N xs -> rising_news (A := RA) xs ->
  update_all hist_update (hist_reset h) xs = Ret h' ->
  Rsum (hist_pdf h' true false) =
    (INR (Nat.min (length xs) (W - length (hist_items os))) / INR (Nat.min (length (hist_items os) + length xs) W))%R.
Proof.
  intros E L P S Fw R E1. destruct (reset_report ordered_RA N W os h xs E L) as (h1 & E' & C & T & Sm & _); auto.
  { apply Forall_forall. intros; exact I. }
  rewrite E1 in E'. injection E' as <-. unfold hist_pdf, of_nat. cbn [of_Z RA div num].
  rewrite <- (map_map b_count (fun c => IZR (Z.of_nat c) / IZR (Z.of_nat (h_total h')))%R), Rsum_counts.
  fold (counts_sum h'). rewrite Sm, T, !INR_IZR_INZ. reflexivity.
Qed.

(** The number of indices kept, for every arithmetic. *)
Lemma queue_length {A : arith} N W (xs : list A) h : update_all hist_update (hist_new N W true) xs = Ret h ->
  exists w, h_window h = Some w /\ length w = W + Nat.min (length xs) W.
Proof.
  revert h. assert (G : forall h, update_all hist_update (hist_new N W true) xs = Ret h ->
    exists w, live h N W w /\ length w = W + h_total h /\ h_total h = Nat.min (length xs) W).
  { induction xs as [|x xs IH] using rev_ind; intros h E.
    - injection E as <-. exists (repeat 0 W). split; [apply new_live|]. rewrite repeat_length. cbn. lia.
    - rewrite update_all_snoc in E. apply bind_Ret in E as (h1 & E1 & E). destruct (IH h1 E1) as (w & L & Lw & T).
      destruct (update_inv _ _ _ _ _ _ L E) as (i & bins & w' & f & _ & L' & Eb & U & _).
      pose proof (updating_total _ _ _ _ _ _ _ _ _ _ U). pose proof (updating_window _ _ _ _ _ _ _ _ _ _ U).
      exists w'. split; [auto|]. rewrite app_length. simpl. lia. }
  intros h E. destruct (G h E) as (w & (_ & _ & _ & Hw) & Lw & T). exists w. split; auto. lia.
Qed.

Definition slide_stream : list double := map Bz [1; 2; 2; 2; 2; 2; 2; 2]%Z.

Lemma slide_case :
  Forall (fun x => finite64 x = true) slide_stream /\ separated (A := B64) slide_stream /\
  few (A := B64) 2 slide_stream /\ rising_news (A := B64) slide_stream /\
  ok (update_all hist_update (hist_new (A := B64) 2 3 true) slide_stream)
     (fun h => Nat.eqb (hist_totalCount h) 3 && Nat.eqb (list_sum (map (@snd _ nat) (hist_report h))) 6) = true.
Proof.
  assert (M : forall x : double, In x slide_stream -> x = Bz 1 \/ x = Bz 2).
  { intros x Ix. unfold slide_stream in Ix. cbn [map In] in Ix. intuition. }
  assert (Lt : Bltb (Bz 1) (Bz 2) = true) by (vm_compute; reflexivity).
  assert (E1 : Beqb (Bz 1) (Bz 1) = true) by (vm_compute; reflexivity).
  assert (E2 : Beqb (Bz 2) (Bz 2) = true) by (vm_compute; reflexivity).
  assert (DL : definitelyLessThan (A := B64) (Bz 1) (Bz 2) default_eps = true) by (vm_compute; reflexivity).
  assert (N1 : Bltb (Bz 1) (Bz 1) = false) by (vm_compute; reflexivity).
  assert (N2 : Bltb (Bz 2) (Bz 2) = false) by (vm_compute; reflexivity).
  assert (N3 : Bltb (Bz 2) (Bz 1) = false) by (vm_compute; reflexivity).
  split; [|split; [|split; [|split]]].
  - apply Forall_forall. intros x Ix. destruct (M x Ix); subst x; vm_compute; reflexivity.
  - intros x y Ix Iy. destruct (M x Ix) as [-> | ->], (M y Iy) as [-> | ->]; auto.
  - intros vs S0 I0. destruct vs as [|a [|b [|c vs]]]; simpl; try lia. exfalso.
    inversion_clear S0 as [|? ? S1 F1]. inversion_clear S1 as [|? ? S2 F2].
    inversion_clear F1 as [|? ? H1 F3]. inversion_clear F3 as [|? ? H2 F4]. inversion_clear F2 as [|? ? H3 F5].
    cbn [ltb B64] in H1, H2, H3.
    destruct (M a) as [-> | ->]; [apply I0; simpl; auto|..]; (destruct (M b) as [-> | ->]; [apply I0; simpl; auto|..]);
      (destruct (M c) as [-> | ->]; [apply I0; simpl; auto|..]); congruence.
  - intros l x r E. destruct l as [|y l].
    + right. intros ? [].
    + injection E as Ey E. destruct l as [|z l].
      * right. injection E as Ex _. intros u [<-|[]]. rewrite <- Ey, <- Ex. exact Lt.
      * left. injection E as Ez E. exists z. split; [right; left; auto|]. rewrite <- Ez.
        assert (x = Bz 2).
        { assert (Ix : In x (map Bz [2; 2; 2; 2; 2; 2]%Z)) by (change (In x [Bz 2; Bz 2; Bz 2; Bz 2; Bz 2; Bz 2]); rewrite E; apply in_or_app; simpl; auto).
          cbn [map In] in Ix. intuition. }
        subst x. exact E2.
  - vm_compute. reflexivity.
Qed.
