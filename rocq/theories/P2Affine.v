(** Changing the unit of measurement commutes with the P2 estimators, in exact
    arithmetic and from the fifth observation on. *)

From Coq Require Import List Reals ZArith Lra Lia Bool Arith.
From Flocq Require Import Core.Core.
From Verif Require Import Outcome Arith Mean Spec P2 P2Spec ListFacts P2Facts P2Window UtilsFacts AskSpec.
Import ListNotations.
Open Scope R_scope.


Lemma omap_bind {X Y Z} (g : Y -> Z) (o : outcome X) k : omap g (bind o k) = bind o (fun a => omap g (k a)).
Proof. destruct o; reflexivity. Qed.
Lemma bind_omap {X Y Z} (g : X -> Y) (o : outcome X) (k : Y -> outcome Z) :
  bind (omap g o) k = bind o (fun a => k (g a)).
Proof. destruct o; reflexivity. Qed.
Lemma bind_assoc {X Y Z} (o : outcome X) (k : X -> outcome Y) (l : Y -> outcome Z) :
  bind (bind o k) l = bind o (fun a => bind (k a) l).
Proof. destruct o; reflexivity. Qed.
Lemma bind_ext {X Y} (o : outcome X) (k k' : X -> outcome Y) : (forall a, o = Ret a -> k a = k' a) -> bind o k = bind o k'.
Proof. destruct o; intros H; cbn; auto. Qed.

Lemma update_len (s s' : p2 RA) x : length (p_heights s) = 5%nat -> p2_update s x = Ret s' -> length (p_heights s') = 5%nat.
Proof.
  intros HL. unfold p2_update. destruct (Nat.ltb _ _).
  - intros E. apply bind_Ret in E as (h & Eh & E). assert (L5 : length h = 5%nat).
    { unfold store in Eh. destruct (Nat.ltb _ _); try discriminate. injection Eh as <-. now rewrite set_nth_length. }
    destruct (Nat.eqb _ _).
    + apply bind_Ret in E as (h' & Eh' & E). injection E as <-. cbn [p_heights].
      unfold std_sort in Eh'. destruct (forallb _ _); try discriminate. injection Eh' as <-.
      rewrite (sort_list_length (A := RA)). exact L5.
    + injection E as <-. exact L5.
  - intros E. apply bind_Ret in E as ((h, k) & EK & E). apply bind_Ret in E as (n & _ & E).
    apply bind_Ret in E as (d0 & _ & E). set (desired := [d0; _; _; _; _]) in E.
    apply bind_Ret in E as ((h', n') & EA & E). injection E as <-. cbn [p_heights].
    assert (LK : length h = 5%nat).
    { revert EK. unfold findK. intros EK.
      repeat (apply bind_Ret in EK as (? & _ & EK)).
      repeat match type of EK with (if ?c then _ else _) = _ => destruct c end;
        try (injection EK as <- _; exact HL);
        unfold store in EK; rewrite HL in EK; cbn in EK; injection EK as <- _; rewrite set_nth_length; auto. }
    assert (LA : forall i p p', length (fst p) = 5%nat -> adjustHeights (A := RA) desired p i = Ret p' -> length (fst p') = 5%nat).
    { intros i [h1 n1] p' L1 E. cbn [fst] in L1. unfold adjustHeights in E.
      repeat (apply bind_Ret in E as (? & _ & E)). destruct (_ || _)%bool; [|injection E as <-; auto].
      do 3 (apply bind_Ret in E as (? & _ & E)). apply bind_Ret in E as (h2 & E2 & E).
      apply bind_Ret in E as (? & _ & E). apply bind_Ret in E as (? & _ & E). injection E as <-. cbn [fst].
      destruct (_ && _)%bool; [|apply bind_Ret in E2 as (v & _ & E2)]; unfold store in E2;
        destruct (Nat.ltb _ _); try discriminate; injection E2 as <-; rewrite set_nth_length; auto. }
    change (length (fst (h', n')) = 5%nat).
    destruct (leb _ _) in EA; apply bind_Ret in EA as (a1 & E1 & EA); apply bind_Ret in EA as (a2 & E2 & EA);
      (eapply LA; [eapply LA; [eapply LA; [|exact E1]; exact LK|exact E2]|exact EA]).
Qed.

Section Affine.
  Variables (a b : R) (Ha : 0 < a).
  Let f (x : R) : R := a * x + b.

  Lemma f_ltb x y : Rltb (f x) (f y) = Rltb x y.
  Proof.
    unfold Rltb, f. destruct (Rlt_dec (a * x + b) (a * y + b)) as [H|H], (Rlt_dec x y) as [K|K]; auto; exfalso; nra.
  Qed.

  Lemma at_map (l : list R) i : at_ (map f l) i = omap f (at_ l i).
  Proof. unfold at_. rewrite nth_error_map. destruct (nth_error l i); reflexivity. Qed.

  Lemma set_map (l : list R) : forall i x, set_nth (map f l) i (f x) = map f (set_nth l i x).
  Proof. induction l as [|y l IH]; intros [|i] x; cbn; auto. now rewrite IH. Qed.

  Lemma store_map (l : list R) i x : store (map f l) i (f x) = omap (map f) (store l i x).
  Proof. unfold store. rewrite map_length, set_map. destruct (Nat.ltb i (length l)); reflexivity. Qed.

  Lemma insert_map (l : list R) x : sort_insert (A := RA) (f x) (map f l) = map f (sort_insert (A := RA) x l).
  Proof.
    induction l as [|y l IH]; cbn; auto. rewrite f_ltb. destruct (Rltb x y); cbn; auto. now rewrite IH.
  Qed.

  Lemma sort_map (l : list R) : sort_list (A := RA) (map f l) = map f (sort_list (A := RA) l).
  Proof.
    assert (G : forall acc : list R, fold_left (fun acc x => sort_insert (A := RA) x acc) (map f l) (map f acc) =
      map f (fold_left (fun acc x => sort_insert (A := RA) x acc) l acc)).
    { induction l as [|x l IH]; intros acc; cbn [map fold_left]; auto. rewrite insert_map. apply IH. }
    exact (G []).
  Qed.

  Lemma std_sort_RA (l : list R) : std_sort (A := RA) l = Ret (sort_list (A := RA) l).
  Proof.
    unfold std_sort. replace (forallb not_nan l) with true; auto. symmetry. apply forallb_forall.
    intros x _. unfold not_nan. cbn. unfold Reqb. destruct (Req_EM_T x x); congruence.
  Qed.

  Lemma findK_map (h : list R) x :
    findK (A := RA) (map f h) (f x) = omap (fun '(h', k) => (map f h', k)) (findK (A := RA) h x).
  Proof.
    unfold findK.
    rewrite at_map, bind_omap, omap_bind. apply bind_ext. intros h0 _.
    rewrite at_map, bind_omap, omap_bind. apply bind_ext. intros h1 _.
    rewrite at_map, bind_omap, omap_bind. apply bind_ext. intros h2 _.
    rewrite at_map, bind_omap, omap_bind. apply bind_ext. intros h3 _.
    rewrite at_map, bind_omap, omap_bind. apply bind_ext. intros h4 _.
    cbn [RA ltb]. rewrite !f_ltb, !store_map.
    repeat match goal with |- context [if ?c then _ else _] => destruct c; [try reflexivity|]; try reflexivity end;
      rewrite bind_omap, omap_bind; apply bind_ext; reflexivity.
  Qed.

  Lemma parabolic_map (h : list R) n i d :
    parabolic (A := RA) (map f h) n i d = omap f (parabolic (A := RA) h n i d).
  Proof.
    unfold parabolic.
    rewrite at_map, bind_omap, omap_bind. apply bind_ext. intros hp _.
    rewrite at_map, bind_omap, omap_bind. apply bind_ext. intros hi _.
    rewrite at_map, bind_omap, omap_bind. apply bind_ext. intros hm _.
    rewrite omap_bind. apply bind_ext. intros n1 _.
    rewrite omap_bind. apply bind_ext. intros n2 _.
    rewrite omap_bind. apply bind_ext. intros n3 _.
    cbn. f_equal. unfold f, Rdiv. ring.
  Qed.

  Lemma linear_map (h : list R) n i d : linear (A := RA) (map f h) n i d = omap f (linear (A := RA) h n i d).
  Proof.
    unfold linear.
    rewrite at_map, bind_omap, omap_bind. apply bind_ext. intros hi _.
    rewrite at_map, bind_omap, omap_bind. apply bind_ext. intros hj _.
    rewrite omap_bind. apply bind_ext. intros n1 _.
    cbn. f_equal. unfold f, Rdiv. ring.
  Qed.

  Definition fmap (hn : list R * list Z) : list R * list Z := let '(h, n) := hn in (map f h, n).

  Lemma adjust_map desired (hn : list R * list Z) i :
    adjustHeights (A := RA) desired (fmap hn) i = omap fmap (adjustHeights (A := RA) desired hn i).
  Proof.
    destruct hn as [h n]. unfold fmap, adjustHeights.
    rewrite omap_bind. apply bind_ext. intros des _. rewrite omap_bind. apply bind_ext. intros ni _.
    rewrite omap_bind. apply bind_ext. intros gu _. rewrite omap_bind. apply bind_ext. intros gd _.
    destruct (_ || _)%bool; [|reflexivity].
    rewrite parabolic_map, bind_omap, omap_bind. apply bind_ext. intros q _.
    rewrite at_map, bind_omap, omap_bind. apply bind_ext. intros hm _.
    rewrite at_map, bind_omap, omap_bind. apply bind_ext. intros hp _.
    cbn [RA ltb]. rewrite !f_ltb. destruct (_ && _)%bool.
    - rewrite store_map, bind_omap, omap_bind. apply bind_ext. intros h' _.
      rewrite omap_bind. apply bind_ext. intros ni' _. rewrite omap_bind. apply bind_ext. reflexivity.
    - rewrite linear_map, bind_omap, !bind_assoc, omap_bind. apply bind_ext. intros v _.
      rewrite store_map, bind_omap, omap_bind. apply bind_ext. intros h' _.
      rewrite omap_bind. apply bind_ext. intros ni' _. rewrite omap_bind. apply bind_ext. reflexivity.
  Qed.

  (** The first [m] heights are measurements, the others still zero. *)
  Definition mapm (m : nat) (h : list R) : list R := map f (firstn m h) ++ skipn m h.
  Definition mapS (m : nat) (s : p2 RA) : p2 RA :=
    P2 (A := RA) (p_quantile s) (p_desired s) (p_pos s) (mapm m (p_heights s)) (p_history s).

  Lemma mapm_length m h : length (mapm m h) = length h.
  Proof. unfold mapm. rewrite app_length, map_length, <- app_length, firstn_skipn. auto. Qed.

  Lemma mapm_full m h : (length h <= m)%nat -> mapm m h = map f h.
  Proof. intros H. unfold mapm. rewrite firstn_all2, skipn_all2, app_nil_r by auto. auto. Qed.

  Lemma mapm_set (h : list R) : forall m i x, (i <= m)%nat ->
    set_nth (mapm m h) i (f x) = mapm (Nat.max m (S i)) (set_nth h i x).
  Proof.
    induction h as [|y h IH]; intros m i x H.
    - unfold mapm. rewrite firstn_nil, skipn_nil. destruct i; cbn [set_nth map app]; now rewrite firstn_nil, skipn_nil.
    - destruct m as [|m].
      + assert (i = 0)%nat as -> by lia. reflexivity.
      + destruct i as [|i].
        * cbn. replace (Nat.max m 0) with m by lia. reflexivity.
        * unfold mapm in *; cbn. f_equal. apply IH. lia.
  Qed.

  Lemma update_map m (s : p2 RA) x : length (p_heights s) = 5%nat -> (Nat.min 5 (p_history s) <= m <= 5)%nat ->
    p2_update (mapS m s) (f x) = omap (mapS (Nat.max m (Nat.min 5 (S (p_history s))))) (p2_update s x).
  Proof.
    intros HL Hm. unfold p2_update. cbn [p_quantile p_desired p_pos p_heights p_history mapS].
    destruct (Nat.ltb_spec (p_history s) 5) as [Hlt|Hge].
    - unfold store. change (num RA) with R. assert (HL' : @length R (p_heights s) = 5%nat) by exact HL.
      rewrite !mapm_length, !HL'. replace (Nat.ltb (p_history s) 5) with true by (symmetry; apply Nat.ltb_lt; lia).
      cbn [bind]. rewrite mapm_set by lia. destruct (Nat.eqb_spec (S (p_history s)) 5) as [E|E].
      + rewrite !std_sort_RA. cbn [bind omap]. unfold mapS. cbn [p_quantile p_desired p_pos p_heights p_history].
        do 2 f_equal. rewrite E. change (Nat.min 5 5) with 5%nat.
        assert (L5 : @length R (set_nth (p_heights s) (p_history s) x) = 5%nat) by (rewrite set_nth_length; auto).
        assert (K2 : (@length R (set_nth (p_heights s) (p_history s) x) <= Nat.max m 5)%nat) by (rewrite L5; lia).
        assert (K1 : (@length R (sort_list (A := RA) (set_nth (p_heights s) (p_history s) x)) <= Nat.max m 5)%nat).
        { pose proof (sort_list_length (A := RA) (set_nth (p_heights s) (p_history s) x)) as K.
          apply Nat.eq_le_incl in K. eapply Nat.le_trans; [exact K|exact K2]. }
        etransitivity; [apply (f_equal (sort_list (A := RA))), (mapm_full _ _ K2)|].
        etransitivity; [apply sort_map|]. symmetry. exact (mapm_full _ _ K1).
      + cbn [omap bind]. unfold mapS. cbn [p_quantile p_desired p_pos p_heights p_history].
        do 2 f_equal. replace (Nat.min 5 (S (p_history s))) with (S (p_history s)) by lia. auto.
    - assert (m = 5)%nat as -> by lia. replace (Nat.max 5 (Nat.min 5 (S (p_history s)))) with 5%nat by lia.
      rewrite mapm_full by (apply Nat.eq_le_incl; exact HL). rewrite findK_map, bind_omap, omap_bind.
      destruct (findK (p_heights s) x) as [[h k]| |] eqn:EK; cbn [bind]; auto.
      rewrite omap_bind. apply bind_ext. intros n _. rewrite omap_bind. apply bind_ext. intros d0 _.
      rewrite omap_bind. set (desired := [d0; _; _; _; _]).
      change (map f h, n) with (fmap (h, n)).
      assert (G : forall i j k, (let* a1 := adjustHeights (A := RA) desired (fmap (h, n)) i in
                  let* a2 := adjustHeights desired a1 j in adjustHeights desired a2 k) =
                omap fmap (let* a1 := adjustHeights (A := RA) desired (h, n) i in
                  let* a2 := adjustHeights desired a1 j in adjustHeights desired a2 k)).
      { intros i j k'. rewrite adjust_map, bind_omap, omap_bind. apply bind_ext. intros a1 _.
        rewrite adjust_map, bind_omap, omap_bind. apply bind_ext. intros a2 _. apply adjust_map. }
      rewrite !G. clear G.
      assert (LK : length h = 5%nat).
      { revert EK. unfold findK. intros EK.
        repeat (apply bind_Ret in EK as (? & _ & EK)).
        repeat match type of EK with (if ?c then _ else _) = _ => destruct c end;
          try (injection EK as <- _; exact HL);
          unfold store in EK; rewrite HL in EK; cbn in EK; injection EK as <- _; rewrite set_nth_length; auto. }
      assert (LA : forall i p p', length (fst p) = 5%nat -> adjustHeights (A := RA) desired p i = Ret p' -> length (fst p') = 5%nat).
      { intros i [h1 n1] p' L1 E. cbn [fst] in L1. unfold adjustHeights in E.
        repeat (apply bind_Ret in E as (? & _ & E)). destruct (_ || _)%bool; [|injection E as <-; auto].
        do 3 (apply bind_Ret in E as (? & _ & E)). apply bind_Ret in E as (h2 & E2 & E).
        apply bind_Ret in E as (? & _ & E). apply bind_Ret in E as (? & _ & E). injection E as <-. cbn [fst].
        destruct (_ && _)%bool; [|apply bind_Ret in E2 as (v & _ & E2)]; unfold store in E2;
          destruct (Nat.ltb _ _); try discriminate; injection E2 as <-; rewrite set_nth_length; auto. }
      assert (LL : forall i j k p, (let* a1 := adjustHeights (A := RA) desired (h, n) i in
                  let* a2 := adjustHeights desired a1 j in adjustHeights desired a2 k) = Ret p -> length (fst p) = 5%nat).
      { intros i j k' p E. apply bind_Ret in E as (a1 & E1 & E). apply bind_Ret in E as (a2 & E2 & E).
        eapply LA; [eapply LA; [eapply LA; [|exact E1]; exact LK|exact E2]|exact E]. }
      destruct (leb (lit 1 2) (p_quantile s)); rewrite bind_omap; apply bind_ext; intros [h' n'] E;
        apply LL in E; cbn [fst] in E; cbn [fmap omap bind]; unfold mapS;
        cbn [p_quantile p_desired p_pos p_heights p_history]; rewrite mapm_full by (apply Nat.eq_le_incl; exact E); reflexivity.
  Qed.

  Lemma run_map q (s0 : p2 RA) xs : p2_new (A := RA) q = Ret s0 ->
    update_all p2_update s0 (map f xs) = omap (mapS (Nat.min 5 (length xs))) (update_all p2_update s0 xs) /\
    (forall s, update_all p2_update s0 xs = Ret s -> length (p_heights s) = 5%nat /\ p_history s = length xs).
  Proof.
    intros E0.
    assert (F0 : length (p_heights s0) = 5%nat /\ p_history s0 = 0%nat /\ mapS 0 s0 = s0).
    { unfold p2_new in E0. destruct (_ || _)%bool in E0; try discriminate. injection E0 as <-. repeat split. }
    destruct F0 as (L0 & H0 & M0).
    induction xs as [|x xs [IH IHF]] using rev_ind.
    - split; [cbn; now rewrite M0|]. intros s E. injection E as <-. auto.
    - rewrite map_app. cbn [map]. rewrite !update_all_snoc, IH. split.
      + rewrite bind_omap, omap_bind. apply bind_ext. intros s Es. destruct (IHF s Es) as (L & H).
        rewrite update_map by (auto; lia). f_equal. f_equal. rewrite H, app_length. cbn [length]. lia.
      + intros s E. apply bind_Ret in E as (s1 & E1 & E). destruct (IHF s1 E1) as (L & H). split.
        * eapply update_len; eauto.
        * rewrite (p2_update_history _ _ _ E), H, app_length. cbn [length]. lia.
  Qed.

  Definition pmap (sv : p2 RA * R) : p2 RA * R := let '(s, v) := sv in (mapS 5 s, f v).

  Lemma evaluate_map (s : p2 RA) : length (p_heights s) = 5%nat ->
    p2_evaluate (mapS 5 s) = omap pmap (p2_evaluate s).
  Proof.
    intros HL. unfold p2_evaluate. cbn [p_quantile p_desired p_pos p_heights p_history mapS].
    assert (HF : mapm 5 (p_heights s) = map f (p_heights s)) by (apply mapm_full, Nat.eq_le_incl; exact HL).
    destruct (Nat.leb _ _).
    - rewrite !std_sort_RA. cbn [bind]. rewrite HF.
      destruct (round_int _) as [z|]; [|reflexivity]. destruct (_ && _)%bool; [|reflexivity].
      destruct (Z.ltb z 0); [reflexivity|].
      assert (K : at_ (sort_list (A := RA) (map f (p_heights s))) (Z.to_nat z) = omap f (at_ (sort_list (A := RA) (p_heights s)) (Z.to_nat z))).
      { transitivity (at_ (map f (sort_list (A := RA) (p_heights s))) (Z.to_nat z)); [f_equal; apply sort_map|apply at_map]. }
      etransitivity; [eapply (f_equal (fun o => bind o _) K)|].
      rewrite bind_omap, omap_bind. apply bind_ext. intros v _. cbn [omap bind pmap].
      do 3 f_equal. unfold mapS. cbn [p_quantile p_desired p_pos p_heights p_history]. f_equal.
      etransitivity; [apply sort_map|]. symmetry. apply mapm_full. apply Nat.eq_le_incl.
      etransitivity; [apply (sort_list_length (A := RA))|exact HL].
    - rewrite HF, at_map, bind_omap, omap_bind. apply bind_ext. intros v _. reflexivity.
  Qed.

  Lemma p2_affine q xs : (5 <= length xs)%nat ->
    ask (p2_new (A := RA) q) p2_update p2_evaluate (map f xs) = omap f (ask (p2_new (A := RA) q) p2_update p2_evaluate xs).
  Proof.
    intros H. unfold ask. rewrite omap_bind. apply bind_ext. intros s0 E0.
    destruct (run_map q s0 xs E0) as (E & F).
    etransitivity; [eapply (f_equal (fun o => bind o _) E)|]. rewrite bind_omap, omap_bind. apply bind_ext. intros s Es.
    destruct (F s Es) as (L & _). replace (Nat.min 5 (length xs)) with 5%nat by lia.
    rewrite evaluate_map by auto. rewrite bind_omap, omap_bind. apply bind_ext. intros [s' v] _. reflexivity.
  Qed.

  Definition mapW (s : wp2 RA) : wp2 RA :=
    if Nat.leb (w_history s) (w_wsize s)
    then WP2 (A := RA) (mapS (Nat.min 5 (w_history s)) (w_p2 s)) (w_previous s) (w_wsize s) (w_history s)
    else WP2 (A := RA) (mapS 5 (w_p2 s)) (f (w_previous s)) (w_wsize s) (w_history s).
  Definition winv (s : wp2 RA) : Prop :=
    length (p_heights (w_p2 s)) = 5%nat /\ ((w_history s <= w_wsize s)%nat -> p_history (w_p2 s) = w_history s).

  Lemma clear_map s : p2_clear (mapS 5 s) = mapS 5 (p2_clear s).
  Proof. reflexivity. Qed.

  Lemma wupdate_map s x : (4 <= w_wsize s)%nat -> winv s ->
    wp2_update (mapW s) (f x) = omap mapW (wp2_update s x) /\
    (forall s', wp2_update s x = Ret s' -> winv s' /\ w_wsize s' = w_wsize s /\ w_history s' = S (w_history s)).
  Proof.
    destruct s as [p prev W n]. unfold winv, mapW. cbn [w_p2 w_previous w_wsize w_history]. intros HW (L & H).
    split.
    - assert (EU : p2_update (mapS (if Nat.leb n W then Nat.min 5 n else 5) p) (f x) =
                   omap (mapS (if Nat.leb n W then Nat.min 5 (S n) else 5)) (p2_update p x)).
      { destruct (Nat.leb_spec n W) as [K|K]; rewrite update_map by (auto; try rewrite (H K); lia).
        - rewrite (H K). do 2 f_equal. lia.
        - do 2 f_equal. lia. }
      unfold wp2_update. cbn [w_p2 w_previous w_wsize w_history].
      destruct (Nat.leb_spec n W) as [K|K]; cbn [w_p2 w_previous w_wsize w_history].
      + rewrite EU, bind_omap, omap_bind. apply bind_ext. intros p1 E1. pose proof (update_len _ _ _ L E1) as L1.
        destruct (Nat.eq_dec n W) as [->|N].
        * replace (Nat.ltb 0 W) with true by (symmetry; apply Nat.ltb_lt; lia).
          replace (S W mod (W + 1))%nat with 0%nat by (replace (W + 1)%nat with (S W) by lia; now rewrite Nat.mod_same by lia).
          cbn [Nat.eqb andb]. replace (Nat.min 5 (S W)) with 5%nat by lia. rewrite evaluate_map by auto.
          rewrite bind_omap, omap_bind. apply bind_ext. intros [p2 v] _. cbn [pmap omap bind w_wsize w_history w_p2 w_previous].
          replace (Nat.leb (S W) W) with false by (symmetry; apply Nat.leb_gt; lia). reflexivity.
        * replace (S n mod (W + 1))%nat with (S n) by (symmetry; apply Nat.mod_small; lia). cbn [Nat.eqb].
          rewrite andb_false_r. cbn [omap bind w_wsize w_history w_p2 w_previous].
          replace (Nat.leb (S n) W) with true by (symmetry; apply Nat.leb_le; lia). reflexivity.
      + rewrite EU, bind_omap, omap_bind. apply bind_ext. intros p1 E1. pose proof (update_len _ _ _ L E1) as L1.
        destruct (_ && _)%bool.
        * rewrite evaluate_map by auto. rewrite bind_omap, omap_bind. apply bind_ext. intros [p2 v] _.
          cbn [pmap omap bind w_wsize w_history w_p2 w_previous].
          replace (Nat.leb (S n) W) with false by (symmetry; apply Nat.leb_gt; lia). reflexivity.
        * cbn [omap bind w_wsize w_history w_p2 w_previous].
          replace (Nat.leb (S n) W) with false by (symmetry; apply Nat.leb_gt; lia). reflexivity.
    - intros s' E. unfold wp2_update in E. cbn [w_p2 w_previous w_wsize w_history] in E.
      apply bind_Ret in E as (p1 & E1 & E). pose proof (update_len _ _ _ L E1) as L1.
      pose proof (p2_update_history _ _ _ E1) as H1.
      destruct (_ && _)%bool eqn:B.
      + apply bind_Ret in E as ([p2 v] & E2 & E). injection E as <-. cbn [w_p2 w_previous w_wsize w_history].
        apply eval_fields in E2. repeat split.
        * cbn [p2_clear p_heights]. destruct E2 as (_ & _ & _ & _ & E2). rewrite E2. exact L1.
        * intros K. apply andb_prop in B as (_ & B). apply Nat.eqb_eq in B. rewrite Nat.mod_small in B by lia. lia.
      + injection E as <-. cbn [w_p2 w_previous w_wsize w_history]. repeat split; auto. intros K. rewrite H1, H; lia.
  Qed.

  Lemma wrun_map q W (s0 : wp2 RA) xs : wp2_new (A := RA) q W = Ret s0 -> (4 <= W)%nat ->
    update_all wp2_update s0 (map f xs) = omap mapW (update_all wp2_update s0 xs) /\
    (forall s, update_all wp2_update s0 xs = Ret s -> winv s /\ w_wsize s = W /\ w_history s = length xs).
  Proof.
    intros E0 HW.
    assert (F0 : mapW s0 = s0 /\ winv s0 /\ w_wsize s0 = W /\ w_history s0 = 0%nat).
    { unfold wp2_new, p2_new in E0. destruct (_ || _)%bool in E0; try discriminate. cbn [bind] in E0. injection E0 as <-.
      unfold winv. repeat split. }
    destruct F0 as (M0 & I0 & W0 & H0).
    induction xs as [|x xs [IH IHF]] using rev_ind.
    - split; [cbn; now rewrite M0|]. intros s E. injection E as <-. auto.
    - rewrite map_app. cbn [map]. rewrite !update_all_snoc, IH. split.
      + rewrite bind_omap, omap_bind. apply bind_ext. intros s Es. destruct (IHF s Es) as (I & HWs & H).
        apply wupdate_map; auto. rewrite HWs. exact HW.
      + intros s E. apply bind_Ret in E as (s1 & E1 & E). destruct (IHF s1 E1) as (I & HWs & H).
        assert (HW' : (4 <= w_wsize s1)%nat) by (rewrite HWs; exact HW).
        destruct (proj2 (wupdate_map s1 x HW' I) s E) as (I' & W' & H'). rewrite W', H', app_length, H. cbn [length].
        split; [exact I'|split; [exact HWs|lia]].
  Qed.

  Definition wmap (sv : wp2 RA * R) : wp2 RA * R := let '(s, v) := sv in (mapW s, f v).

  Lemma wevaluate_map (s : wp2 RA) : (4 <= w_wsize s)%nat -> winv s -> (5 <= w_history s)%nat ->
    wp2_evaluate (mapW s) = omap wmap (wp2_evaluate s).
  Proof.
    destruct s as [p prev W n]. unfold winv, mapW. cbn [w_p2 w_previous w_wsize w_history]. intros HW (L & H) Hn.
    unfold wp2_evaluate. destruct (Nat.leb_spec n W) as [K|K]; cbn [w_p2 w_previous w_wsize w_history].
    - replace (Nat.min 5 n) with 5%nat by lia. destruct (Nat.ltb_spec n W) as [K'|K'].
      + rewrite evaluate_map by auto. rewrite bind_omap, omap_bind. apply bind_ext. intros [p2 v] _.
        cbn [pmap omap bind wmap mapW w_wsize w_history w_p2 w_previous]. unfold mapW. cbn [w_wsize w_history w_p2 w_previous].
        replace (Nat.leb n W) with true by (symmetry; apply Nat.leb_le; lia). replace (Nat.min 5 n) with 5%nat by lia. reflexivity.
      + assert (n = W) as -> by lia. destruct (Nat.eqb_spec W 0) as [Z|_]; [lia|].
        rewrite Nat.mod_same by lia. rewrite evaluate_map by auto. rewrite bind_omap, omap_bind. apply bind_ext. intros [p2 v] _.
        cbn [pmap omap bind wmap mapW w_wsize w_history w_p2 w_previous]. unfold mapW. cbn [w_wsize w_history w_p2 w_previous].
        rewrite Nat.leb_refl. replace (Nat.min 5 W) with 5%nat by lia. do 2 f_equal.
        unfold f, of_nat. cbn [RA add sub mul of_Z Z.of_nat]. match goal with |- ?x = ?y => change (@eq R x y) end. cbn. ring.
    - destruct (Nat.ltb_spec n W) as [K'|_]; [lia|]. destruct (Nat.eqb_spec W 0) as [Z|_]; [lia|].
      rewrite evaluate_map by auto. rewrite bind_omap, omap_bind. apply bind_ext. intros [p2 v] _.
      cbn [pmap omap bind wmap mapW w_wsize w_history w_p2 w_previous]. unfold mapW. cbn [w_wsize w_history w_p2 w_previous].
      replace (Nat.leb n W) with false by (symmetry; apply Nat.leb_gt; lia). do 2 f_equal.
      generalize (n mod W + 1)%nat. intros k. unfold f. unfold of_nat. cbn [RA add sub mul of_Z]. match goal with |- ?x = ?y => change (@eq R x y) end. ring.
  Qed.

  Lemma wp2_affine q W xs : (4 <= W)%nat -> (5 <= length xs)%nat ->
    ask (wp2_new (A := RA) q W) wp2_update wp2_evaluate (map f xs) = omap f (ask (wp2_new (A := RA) q W) wp2_update wp2_evaluate xs).
  Proof.
    intros HW H. unfold ask. rewrite omap_bind. apply bind_ext. intros s0 E0.
    destruct (wrun_map q W s0 xs E0 HW) as (E & F).
    etransitivity; [eapply (f_equal (fun o => bind o _) E)|]. rewrite bind_omap, omap_bind. apply bind_ext. intros s Es.
    destruct (F s Es) as (I & HWs & Hs).
    rewrite wevaluate_map by (auto; (rewrite HWs || rewrite Hs); auto).
    rewrite bind_omap, omap_bind. apply bind_ext. intros [s' v] _. reflexivity.
  Qed.

  Definition mapI (s : iqr RA) : iqr RA := IQR (A := RA) (mapW (i_low s)) (mapW (i_high s)) (i_history s).
  Definition wok W n (s : wp2 RA) : Prop := winv s /\ w_wsize s = W /\ w_history s = n.

  Lemma irun_map lo hi W (s0 : iqr RA) xs : iqr_new_range (A := RA) lo hi W = Ret s0 -> (4 <= W)%nat ->
    update_all iqr_update s0 (map f xs) = omap mapI (update_all iqr_update s0 xs) /\
    (forall s, update_all iqr_update s0 xs = Ret s -> wok W (length xs) (i_low s) /\ wok W (length xs) (i_high s)).
  Proof.
    intros E0 HW. unfold iqr_new_range in E0. apply bind_Ret in E0 as (l0 & El & E0). apply bind_Ret in E0 as (h0 & Eh & E0).
    injection E0 as <-.
    assert (F0 : mapI (IQR (A := RA) l0 h0 0) = IQR (A := RA) l0 h0 0 /\ wok W 0 l0 /\ wok W 0 h0).
    { unfold wp2_new, p2_new in El, Eh. destruct (_ || _)%bool in El; try discriminate. destruct (_ || _)%bool in Eh; try discriminate.
      cbn [bind] in El, Eh. injection El as <-. injection Eh as <-.
      unfold wok, winv. repeat split. }
    destruct F0 as (M0 & Ol & Oh).
    induction xs as [|x xs [IH IHF]] using rev_ind.
    - split; [cbn; now rewrite M0|]. intros s E. injection E as <-. auto.
    - rewrite map_app. cbn [map]. rewrite !update_all_snoc, IH. split.
      + rewrite bind_omap, omap_bind. apply bind_ext. intros s Es. destruct (IHF s Es) as ((I1 & W1 & H1) & (I2 & W2 & H2)).
        unfold iqr_update. cbn [mapI i_low i_high i_history].
        rewrite (proj1 (wupdate_map (i_low s) x ltac:(rewrite W1; exact HW) I1)), bind_omap, omap_bind.
        apply bind_ext. intros l' _.
        rewrite (proj1 (wupdate_map (i_high s) x ltac:(rewrite W2; exact HW) I2)), bind_omap, omap_bind.
        apply bind_ext. intros h' _. reflexivity.
      + intros s E. apply bind_Ret in E as (s1 & E1 & E). destruct (IHF s1 E1) as ((I1 & W1 & H1) & (I2 & W2 & H2)).
        unfold iqr_update in E. apply bind_Ret in E as (l' & E3 & E). apply bind_Ret in E as (h' & E4 & E). injection E as <-.
        destruct (proj2 (wupdate_map _ x ltac:(rewrite W1; exact HW) I1) l' E3) as (I3 & W3 & H3).
        destruct (proj2 (wupdate_map _ x ltac:(rewrite W2; exact HW) I2) h' E4) as (I4 & W4 & H4).
        cbn [i_low i_high]. unfold wok. rewrite app_length. cbn [length]. rewrite W3, H3, W4, H4, H1, H2.
        split; (split; [assumption|split; [assumption|lia]]).
  Qed.

  Lemma iqr_affine lo hi W xs : (4 <= W)%nat -> (5 <= length xs)%nat ->
    ask (iqr_new_range (A := RA) lo hi W) iqr_update iqr_evaluate (map f xs) =
    omap (fun v => a * v) (ask (iqr_new_range (A := RA) lo hi W) iqr_update iqr_evaluate xs).
  Proof.
    intros HW H. unfold ask. rewrite omap_bind. apply bind_ext. intros s0 E0.
    destruct (irun_map lo hi W s0 xs E0 HW) as (E & F).
    etransitivity; [eapply (f_equal (fun o => bind o _) E)|]. rewrite bind_omap, omap_bind. apply bind_ext. intros s Es.
    destruct (F s Es) as ((I1 & W1 & H1) & (I2 & W2 & H2)).
    unfold iqr_evaluate. cbn [mapI i_low i_high i_history].
    rewrite (wevaluate_map (i_high s) ltac:(rewrite W2; exact HW) I2 ltac:(rewrite H2; exact H)).
    rewrite !bind_omap, !bind_assoc, omap_bind. apply bind_ext. intros [h' vh] _. cbn [wmap].
    rewrite (wevaluate_map (i_low s) ltac:(rewrite W1; exact HW) I1 ltac:(rewrite H1; exact H)).
    rewrite !bind_omap, !bind_assoc, omap_bind. apply bind_ext. intros [l' vl] _. cbn [wmap omap bind].
    f_equal. unfold f. cbn [RA sub]. match goal with |- ?x = ?y => change (@eq R x y) end. ring.
  Qed.
End Affine.

(** Fewer than five observations are mixed with zeros that no change of unit moves. *)
Ltac rdec := repeat match goal with
  | |- context [Rltb ?x ?y] => first
      [ replace (Rltb x y) with true by (symmetry; apply Rltb_true; cbn; lra)
      | replace (Rltb x y) with false by (symmetry; apply Rltb_false; cbn; lra) ]; cbn [sort_insert fold_left RA ltb]
  end.

Lemma round_IZR z r : r = IZR z -> Rround_away r = z.
Proof. intros ->. unfold Rround_away. apply (Zrnd_IZR (Znearest (Z.leb 0))). Qed.

Lemma new_half : p2_new (A := RA) (1 / 2) = Ret (P2 (A := RA) (1 / 2) [0; 0; 0; 0; 0] [0; 1; 2; 3; 4]%Z [0; 0; 0; 0; 0] 0).
Proof.
  unfold p2_new. cbn [RA leb]. unfold zero. cbn [RA of_Z].
  replace (Rleb (1 / 2) 0) with false by (symmetry; apply Rleb_false; lra).
  replace (Rleb 1 (1 / 2)) with false by (symmetry; apply Rleb_false; lra). reflexivity.
Qed.

Lemma p2_one x : 0 < x -> ask (p2_new (A := RA) (1 / 2)) p2_update p2_evaluate [x] = Ret 0.
Proof.
  intros H. unfold ask. rewrite new_half. cbn [bind update_all]. unfold p2_update.
  cbn [p_history p_heights p_quantile p_pos p_desired Nat.ltb Nat.leb store set_nth length bind Nat.eqb].
  unfold p2_evaluate. cbn [p_history p_heights p_quantile p_pos p_desired Nat.leb]. rewrite std_sort_RA. cbn [bind].
  unfold sort_list. cbn [fold_left sort_insert RA ltb]. rdec.
  cbn [round_int RA]. rewrite (round_IZR 0).
  - cbn. reflexivity.
  - unfold of_nat. cbn. rewrite Rminus_eq_0, Rabs_R0. lra.
Qed.

Lemma p2_small_shift :
  ask (p2_new (A := RA) (1 / 2)) p2_update p2_evaluate [1] = Ret 0 /\
  ask (p2_new (A := RA) (1 / 2)) p2_update p2_evaluate (map (fun x => 1 * x + 1) [1]) = Ret 0.
Proof. split; apply p2_one; lra. Qed.

Lemma half_range : 0 < 1 / 2 < 1.
Proof. lra. Qed.
Lemma one_nonempty : [1] <> [].
Proof. discriminate. Qed.

Lemma p2_five :
  ask (p2_new (A := RA) (1 / 2)) p2_update p2_evaluate [5; 1; 4; 2; 3] = Ret 3.
Proof.
  unfold ask. rewrite new_half. cbn [bind update_all]. unfold p2_update.
  cbn [p_history p_heights p_quantile p_pos p_desired Nat.ltb Nat.leb store set_nth length bind Nat.eqb].
  rewrite std_sort_RA. cbn [bind].
  unfold p2_evaluate. cbn [p_history p_heights p_quantile p_pos p_desired Nat.leb]. rewrite std_sort_RA. cbn [bind].
  unfold sort_list. cbn [fold_left sort_insert RA ltb]. rdec.
  cbn [round_int RA]. rewrite (round_IZR 2).
  - cbn. reflexivity.
  - unfold of_nat. cbn. rewrite Rabs_right; lra.
Qed.
