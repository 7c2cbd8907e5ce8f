(** Proofs about StreamingP2Quantile with contracted or replaced formulas. *)

From Coq Require Import List Reals ZArith Lra Lia Bool Arith Sorting.Sorted Sorting.Permutation.
From Flocq Require Import Core.Core IEEE754.BinarySingleNaN.
From Verif Require Import Outcome Arith P2 Contract P2Spec Spec FloatSpec ListFacts FloatFacts UtilsFacts MeanFacts FameFacts P2Facts P2Float.
Import ListNotations.
Local Open Scope R_scope.

(** A formula that returns a value for all arguments adjustHeights gives it. *)
Definition tame (f : formula) : Prop :=
  forall h0 h1 h2 h3 h4 n0 n1 n2 n3 n4 i d, pos5 n0 n1 n2 n3 n4 -> (1 <= i <= 3)%nat ->
    exists v, f [h0; h1; h2; h3; h4] [n0; n1; n2; n3; n4] i d = Ret v.

Lemma tame_parabolic c : tame (parabolic_c c).
Proof.
  intros h0 h1 h2 h3 h4 n0 n1 n2 n3 n4 i d Hn Hi. unfold parabolic_c, idiff, at_.
  destruct i as [|[|[|[|]]]]; try lia; cbn [nth_error bind Nat.add Nat.sub];
    rewrite !to_int_ok by ints; cbn [bind]; eauto.
Qed.

Lemma tame_any (g : list double -> list Z -> nat -> double -> double) : tame (fun h n i d => Ret (g h n i d)).
Proof. intros h0 h1 h2 h3 h4 n0 n1 n2 n3 n4 i d _ _. eauto. Qed.

(** What one marker becomes: [q] is the value of the formula. *)
Definition moved (q hm hi hp : double) (nm ni np d : Z) : double :=
  if Bltb hm q && Bltb q hp then q else lin (A := B64) hm hi hp nm ni np d.

Lemma guarded_between (q hm hp : double) : finite64 hm = true -> finite64 hp = true ->
  Bltb hm q && Bltb q hp = true -> finite64 q = true /\ B2R hm <= B2R q <= B2R hp.
Proof.
  intros Fm Fp E. apply andb_true_iff in E as [E1 E2].
  assert (N : nan q = false) by (destruct (nan q) eqn:N; auto; rewrite nan_ltb_r in E1; auto; discriminate).
  apply X_ltb in E1; auto using fin_nan. apply X_ltb in E2; auto using fin_nan.
  rewrite (X_fin _ Fm) in E1. rewrite (X_fin _ Fp) in E2.
  assert (Fq : finite64 q = true).
  { apply fin_X; auto. pose proof (B2R_lt_big hm). pose proof (B2R_lt_big hp).
    apply Rabs_lt_inv in H, H0. apply Rabs_lt. lra. }
  rewrite (X_fin _ Fq) in E1, E2. split; auto. lra.
Qed.

Lemma moved_between (q hm hi hp : double) nm ni np d :
  finite64 hm = true -> finite64 hi = true -> finite64 hp = true ->
  B2R hm <= B2R hi <= B2R hp -> spread_ok (B2R hm) (B2R hp) ->
  (0 <= nm)%Z -> (nm < ni < np)%Z -> (np <= int_max)%Z -> (d = 1 /\ ni + 1 < np \/ d = -1 /\ nm + 1 < ni)%Z ->
  finite64 (moved q hm hi hp nm ni np d) = true /\ B2R hm <= B2R (moved q hm hi hp nm ni np d) <= B2R hp.
Proof.
  intros Fm Fi Fp H Hs H0 H1 H2 Hd. unfold moved. destruct (Bltb hm q && Bltb q hp) eqn:E; [now apply guarded_between|].
  destruct Hd as [[-> Hg]|[-> Hg]]; unfold lin; simpl Z.eqb; cbv iota; cbn [add mul sub div of_Z B64].
  - destruct (lin_up hi hp (np - ni) Fi Fp) as [Fv Hv]; try lra.
    + eapply spread_sub; [| |exact Hs]; lra.
    + unfold int_max in * . lia.
    + split; [exact Fv|]. lra.
  - destruct (lin_down hi hm (ni - nm) Fi Fm) as [Fv Hv]; try lra.
    + eapply spread_sub; [| |exact Hs]; lra.
    + unfold int_max in * . lia.
    + replace (- (ni - nm))%Z with (nm - ni)%Z in Fv, Hv by ring. split; [exact Fv|]. lra.
Qed.

(** ** One marker *)
Definition one (h0 h1 h2 h3 h4 : double) (n0 n1 n2 n3 n4 : Z) (i : nat) (r : outcome (list double * list Z)) : Prop :=
  exists g1 g2 g3 m1 m2 m3, r = Ret ([h0; g1; g2; g3; h4], [n0; m1; m2; m3; n4]) /\
    pos5 n0 m1 m2 m3 n4 /\ (chain h0 h1 h2 h3 h4 -> chain h0 g1 g2 g3 h4).

Lemma cond_B64 (dp : double) g1 g2 :
  (Bleb (Bz 1) dp && g1) || (Bleb dp (Bz (-1)) && g2) = true ->
  copysign (A := B64) dp = 1%Z /\ g1 = true \/ copysign (A := B64) dp = (-1)%Z /\ g2 = true.
Proof.
  intros H. apply orb_true_iff in H as [H|H]; apply andb_true_iff in H as [H ->].
  - left. split; auto. unfold copysign. change (ltb (a := B64) (of_Z 0) dp) with (Bltb (Bz 0) dp).
    now rewrite (pos_B64 _ H).
  - right. split; auto. apply neg_B64 in H as [H1 H2]. unfold copysign.
    change (ltb (a := B64) (of_Z 0) dp) with (Bltb (Bz 0) dp). rewrite H1.
    change (ltb (a := B64) dp (of_Z 0)) with (Bltb dp (Bz 0)). now rewrite H2.
Qed.

Ltac step_marker T Hn :=
  match goal with |- context [bind (?f [?h0; ?h1; ?h2; ?h3; ?h4] _ ?i (Bz ?d)) _] =>
    destruct (T h0 h1 h2 h3 h4 _ _ _ _ _ i (Bz d) Hn ltac:(lia)) as [q ->] end;
  cbn [bind];
  unfold linear, idiff, at_, store;
  cbn [bind nth_error length Nat.ltb Nat.leb set_nth Nat.add Nat.sub Z.of_nat Z.add Pos.of_succ_nat Pos.succ Pos.add Z.pos_sub Pos.pred_double Z.to_nat];
  change (Pos.to_nat 1) with 1%nat; change (Pos.to_nat 2) with 2%nat;
  change (Pos.to_nat 3) with 3%nat; change (Pos.to_nat 4) with 4%nat; cbn [nth_error bind];
  rewrite ?to_int_ok by ints; cbn [bind].

Ltac fin_marker C :=
  split; [unfold moved, lin; simpl Z.eqb; cbv iota; cbn [add mul sub div of_Z B64];
          match goal with |- context [Bltb ?a ?q && Bltb ?q ?b] => destruct (Bltb a q && Bltb q b) end;
          cbn [bind]; rewrite ?to_int_ok by ints; reflexivity|];
  split; [ints|];
  intros Ch; unchain Ch;
  match goal with |- context [moved ?q ?a ?b ?c ?x ?y ?z ?d] =>
    destruct (moved_between q a b c x y z d) as [Fv Hv];
      [assumption|assumption|assumption|lra|eapply spread_sub; [| |eassumption]; lra|ints|ints|ints|lia|] end;
  split; [repeat constructor; assumption|]; split; [lra|]; split; [lra|assumption].

Lemma adjust_by f desired des h0 h1 h2 h3 h4 n0 n1 n2 n3 n4 i :
  tame f -> pos5 n0 n1 n2 n3 n4 -> (1 <= i <= 3)%nat -> at_ desired i = Ret des ->
  one h0 h1 h2 h3 h4 n0 n1 n2 n3 n4 i
    (adjustHeights_by f desired ([h0; h1; h2; h3; h4], [n0; n1; n2; n3; n4]) i).
Proof.
  intros T Hn Hi Hd. unfold adjustHeights_by. rewrite Hd.
  destruct i as [|[|[|[|]]]]; try lia; clear Hi;
    unfold idiff, at_; cbn [bind nth_error Nat.add Nat.sub]; rewrite !to_int_ok by ints; cbn [bind];
    (match goal with |- one _ _ _ _ _ _ _ _ _ _ _ (if ?c then _ else _) => destruct c eqn:C end;
     [apply cond_B64 in C as [[-> C]|[-> C]]; apply Z.ltb_lt in C; step_marker T Hn
     |exists h1, h2, h3, n1, n2, n3; auto]).
  - exists (moved q h0 h1 h2 n0 n1 n2 1), h2, h3, (n1 + 1)%Z, n2, n3. fin_marker C.
  - exists (moved q h0 h1 h2 n0 n1 n2 (-1)), h2, h3, (n1 + -1)%Z, n2, n3. fin_marker C.
  - exists h1, (moved q h1 h2 h3 n1 n2 n3 1), h3, n1, (n2 + 1)%Z, n3. fin_marker C.
  - exists h1, (moved q h1 h2 h3 n1 n2 n3 (-1)), h3, n1, (n2 + -1)%Z, n3. fin_marker C.
  - exists h1, h2, (moved q h2 h3 h4 n2 n3 n4 1), n1, n2, (n3 + 1)%Z. fin_marker C.
  - exists h1, h2, (moved q h2 h3 h4 n2 n3 n4 (-1)), n1, n2, (n3 + -1)%Z. fin_marker C.
Qed.

(** ** The update after the fifth observation *)
Lemma update_by_big (f : nat -> formula) c (s : p2 B64) (x : double) h0 h1 h2 h3 h4 n0 n1 n2 n3 n4 :
  (forall i, tame (f i)) ->
  (5 <= p_history s)%nat -> shape s (h0, h1, h2, h3, h4) (n0, n1, n2, n3, n4) -> (n4 < int_max)%Z ->
  exists s' g1 g2 g3 m1 m2 m3,
    p2_update_by f c s x = Ret s' /\
    (let '(a, b, _) := fk (A := B64) h0 h1 h2 h3 h4 x in
     shape s' (a, g1, g2, g3, b) (n0, m1, m2, m3, n4 + 1)%Z /\ (chain a h1 h2 h3 b -> chain a g1 g2 g3 b)) /\
    p_history s' = S (p_history s) /\ p_quantile s' = p_quantile s.
Proof.
  intros T Hh (Eh & En & Hn & Hd) H4.
  unfold p2_update_by. destruct (Nat.ltb_spec (p_history s) 5); [lia|]. clear H.
  rewrite Eh, findK_eq. pose proof (fk_k (A := B64) h0 h1 h2 h3 h4 x) as Hk.
  destruct (fk (A := B64) h0 h1 h2 h3 h4 x) as [[a b] k]. cbn [bind snd] in * .
  rewrite En, bump_eq by auto. cbn [bind].
  destruct (p_desired s) as [|d0 ds]; [discriminate Hd|].
  change (at_ (d0 :: ds) 0) with (Ret d0). cbn [bind].
  match goal with |- context [adjustHeights_by _ ?d] => set (des := d) end.
  unfold bumped.
  set (m1 := if Nat.leb k 0 then (n1 + 1)%Z else n1).
  set (m2 := if Nat.leb k 1 then (n2 + 1)%Z else n2).
  set (m3 := if Nat.leb k 2 then (n3 + 1)%Z else n3).
  assert (Hm : pos5 n0 m1 m2 m3 (n4 + 1)).
  { unfold m1, m2, m3. destruct k as [|[|[|[|]]]]; cbn [Nat.leb]; ints. }
  clearbody m1 m2 m3.
  change (num B64) with double in * .
  destruct (Bleb (lit (A := B64) 1 2) (p_quantile s)).
  - destruct (adjust_by (f 1%nat) des _ a h1 h2 h3 b n0 m1 m2 m3 (n4 + 1)%Z 1 (T _) Hm ltac:(lia) eq_refl)
      as (a1 & a2 & a3 & l1 & l2 & l3 & -> & Hl & C1). cbn [bind].
    destruct (adjust_by (f 2%nat) des _ a a1 a2 a3 b n0 l1 l2 l3 (n4 + 1)%Z 2 (T _) Hl ltac:(lia) eq_refl)
      as (b1 & b2 & b3 & o1 & o2 & o3 & -> & Ho & C2). cbn [bind].
    destruct (adjust_by (f 3%nat) des _ a b1 b2 b3 b n0 o1 o2 o3 (n4 + 1)%Z 3 (T _) Ho ltac:(lia) eq_refl)
      as (g1 & g2 & g3 & p1 & p2' & p3 & -> & Hp & C3). cbn [bind].
    eexists _, g1, g2, g3, p1, p2', p3. split; [reflexivity|]. split; [|split; reflexivity].
    split; [repeat split; try reflexivity; apply Hp|]. auto.
  - destruct (adjust_by (f 3%nat) des _ a h1 h2 h3 b n0 m1 m2 m3 (n4 + 1)%Z 3 (T _) Hm ltac:(lia) eq_refl)
      as (a1 & a2 & a3 & l1 & l2 & l3 & -> & Hl & C1). cbn [bind].
    destruct (adjust_by (f 2%nat) des _ a a1 a2 a3 b n0 l1 l2 l3 (n4 + 1)%Z 2 (T _) Hl ltac:(lia) eq_refl)
      as (b1 & b2 & b3 & o1 & o2 & o3 & -> & Ho & C2). cbn [bind].
    destruct (adjust_by (f 1%nat) des _ a b1 b2 b3 b n0 o1 o2 o3 (n4 + 1)%Z 1 (T _) Ho ltac:(lia) eq_refl)
      as (g1 & g2 & g3 & p1 & p2' & p3 & -> & Hp & C3). cbn [bind].
    eexists _, g1, g2, g3, p1, p2', p3. split; [reflexivity|]. split; [|split; reflexivity].
    split; [repeat split; try reflexivity; apply Hp|]. auto.
Qed.

(** ** Whole streams: an observation comes with formulas and the choice of line 48 *)
Notation by_item := (((nat -> formula) * bool) * double)%type.
Definition by_step (s : p2 B64) (e : by_item) : outcome (p2 B64) :=
  p2_update_by (fst (fst e)) (snd (fst e)) s (snd e).

Lemma by_early f c (s : p2 B64) (x : double) : (p_history s < 4)%nat -> p2_update_by f c s x = p2_update (A := B64) s x.
Proof.
  intros H. unfold p2_update_by, p2_update. destruct (Nat.ltb_spec (p_history s) 5); [|lia].
  destruct (Nat.eqb_spec (S (p_history s)) 5); [lia|]. reflexivity.
Qed.

Lemma by_small (s0 : p2 B64) (es : list by_item) : p_history s0 = 0%nat -> length (p_heights s0) = 5%nat -> (length es <= 4)%nat ->
  update_all by_step s0 es =
  Ret (P2 (A := B64) (p_quantile s0) (p_desired s0) (p_pos s0) (map snd es ++ skipn (length es) (p_heights s0)) (length es)).
Proof.
  intros H0 H5 HL. pose proof (run_small (A := B64) s0 (map snd es) H0 H5) as E. rewrite map_length in E.
  transitivity (update_all (p2_update (A := B64)) s0 (map snd es)); [|exact (E HL)]. clear E. revert HL.
  induction es as [|e es IH] using rev_ind; intros HL; [reflexivity|].
  rewrite app_length in HL. simpl in HL. rewrite map_app. cbn [map]. rewrite update_all_snoc, IH by lia.
  pose proof (run_small (A := B64) s0 (map snd es) H0 H5) as E. rewrite map_length in E.
  assert (L' : (length es <= 4)%nat) by lia. specialize (E L').
  transitivity (bind (update_all (p2_update (A := B64)) s0 (map snd es)) (fun s => p2_update (A := B64) s (snd e))).
  2: { symmetry. apply (update_all_snoc (p2_update (A := B64))). }
  rewrite E. cbn [bind]. apply by_early. cbn [p_history]. change (num B64) with double in * . lia.
Qed.

Lemma by_five (s0 : p2 B64) (es : list by_item) : p_history s0 = 0%nat -> length (p_heights s0) = 5%nat -> length es = 5%nat ->
  Forall (fun x => nan x = false) (map snd es) ->
  exists d, length d = 5%nat /\ update_all by_step s0 es =
    Ret (P2 (A := B64) (p_quantile s0) d (p_pos s0) (sort_list (A := B64) (map snd es)) 5).
Proof.
  intros H0 H5 HL HN. destruct (rev es) as [|e es'] eqn:E.
  { apply (f_equal (@length _)) in E. rewrite rev_length in E. simpl in E. lia. }
  apply (f_equal (@rev _)) in E. rewrite rev_involutive in E. simpl in E. subst es.
  rewrite app_length in HL. simpl in HL. rewrite update_all_snoc, by_small by (auto; lia).
  cbn [bind]. unfold by_step, p2_update_by. cbn [p_history p_heights p_quantile p_desired p_pos].
  assert (L4 : length (rev es') = 4%nat) by lia. rewrite L4. cbn [Nat.ltb Nat.leb].
  change (num B64) with double in * . rewrite store_Ret by (rewrite app_length, map_length, skipn_length; lia). cbn [bind Nat.eqb].
  assert (E : set_nth (map snd (rev es') ++ skipn 4 (p_heights s0)) 4 (snd e) = map snd (rev es' ++ [e])).
  { rewrite map_app. cbn [map]. destruct (skipn 4 (p_heights s0)) as [|a [|b l]] eqn:E;
      apply (f_equal (@length _)) in E; rewrite skipn_length in E; simpl in E; try lia.
    pose proof (set_nth_app (A := B64) (map snd (rev es')) a [] (snd e)) as S. rewrite map_length, L4 in S. exact S. }
  change (num B64) with double in * . rewrite E. unfold std_sort.
  rewrite (proj2 (not_nan_B64 _) HN). cbn [bind]. eexists. split; [|reflexivity]. reflexivity.
Qed.

Lemma by_bracket (s0 : p2 B64) h n0 n1 n2 n3 n4 (es : list by_item) :
  Forall (fun e : by_item => forall i, tame (fst (fst e) i)) es ->
  shape s0 h (n0, n1, n2, n3, n4) -> p_history s0 = 0%nat -> (5 <= length es)%nat ->
  (n4 + (Z.of_nat (length es) - 5) <= int_max)%Z ->
  fins (map snd es) -> spread_list (map snd es) ->
  exists s h0 h1 h2 h3 h4 m1 m2 m3, update_all by_step s0 es = Ret s /\
    shape s (h0, h1, h2, h3, h4) (n0, m1, m2, m3, n4 + (Z.of_nat (length es) - 5))%Z /\
    chain h0 h1 h2 h3 h4 /\ extremes (map snd es) h0 h4 /\
    p_history s = length es /\ p_quantile s = p_quantile s0.
Proof.
  intros T Sh H0 HL. destruct (split5 es HL) as [Ex L5]. set (ys := skipn 5 es) in * .
  set (f := firstn 5 es) in * . clearbody ys f. subst es. revert T.
  induction ys as [|y ys IH] using rev_ind; intros T HM HF HS.
  - rewrite app_nil_r in * .
    destruct (by_five s0 f) as (dd & Ld & ->); auto.
    { destruct h as [[[[? ?] ?] ?] ?]. cbn in Sh. destruct Sh as (-> & _). reflexivity. }
    { now apply fins_nan. }
    destruct (list5 (sort_list (A := B64) (map snd f))) as (a & b & c & d & e & E); [rewrite sort_list_length, map_length; auto|].
    pose proof (asc_sort (map snd f) (fins_nan _ HF)) as As. pose proof (sort_list_In (A := B64) (map snd f)) as HI.
    change (num B64) with double in * .
    rewrite E in As, HI.
    assert (Fs : fins [a; b; c; d; e]).
    { apply Forall_forall. intros x Hx. apply HI in Hx. unfold fins in HF. rewrite Forall_forall in HF. auto. }
    assert (Ch : chain a b c d e).
    { apply asc_chain; auto. apply HS; apply HI; simpl; auto 10. }
    eexists _, a, b, c, d, e, n1, n2, n3. split; [reflexivity|].
    replace (n4 + (Z.of_nat (length f) - 5))%Z with n4 by lia.
    split; [|split; [exact Ch|split; [|split; [cbn; lia|reflexivity]]]].
    + destruct h as [[[[? ?] ?] ?] ?]. cbn in Sh |- * . change (num B64) with double. rewrite E. intuition auto.
    + repeat split; try (apply HI; simpl; auto 10); apply HI in H; unchain Ch;
        repeat (destruct H as [<-|H]; [lra|]); destruct H.
  - rewrite app_assoc in HM, HF, HS, T |- * . rewrite app_length in HM, HL |- * . simpl (length [y]) in * .
    rewrite map_app in HF, HS |- * . cbn [map] in HF, HS |- * .
    apply Forall_app in T as [T Ty]. inversion_clear Ty as [|? ? Ty' _].
    assert (HL' : (5 <= length (f ++ ys))%nat) by (rewrite app_length; lia).
    apply Forall_app in HF as [HF Fy]. inversion_clear Fy as [|? ? Fy' _].
    assert (HS' : spread_list (map snd (f ++ ys))) by (intros a b Ha Hb; apply HS; apply in_or_app; auto).
    destruct (IH HL') as (s & h0 & h1 & h2 & h3 & h4 & m1 & m2 & m3 & E & Shs & Ch & (I0 & I4 & Ext) & Hh & Hq);
      [auto|lia|auto|auto|].
    destruct (fk_B64 _ _ _ _ _ (snd y) Ch Fy') as (a & b & k & Efk & Ha & Hb).
    set (zs := map snd (f ++ ys)) in * .
    assert (Ia : In a (zs ++ [snd y])) by (apply in_or_app; destruct Ha as [[-> _]|[-> _]]; [right; left|left]; auto).
    assert (Ib : In b (zs ++ [snd y])) by (apply in_or_app; destruct Hb as [[-> _]|[-> _]]; [right; left|left]; auto).
    pose proof Ch as Ch'. unchain Ch'.
    assert (Cab : chain a h1 h2 h3 b).
    { split; [|split; [|split]].
      - repeat constructor; auto; [destruct Ha as [[-> _]|[-> _]]|destruct Hb as [[-> _]|[-> _]]]; auto.
      - destruct Ha as [[-> ?]|[-> ?]]; lra.
      - destruct Hb as [[-> ?]|[-> ?]]; lra.
      - apply HS; auto. }
    destruct (update_by_big (fst (fst y)) (snd (fst y)) s (snd y) h0 h1 h2 h3 h4 n0 m1 m2 m3 (n4 + (Z.of_nat (length (f ++ ys)) - 5))%Z)
      as (s' & g1 & g2 & g3 & l1 & l2 & l3 & E' & HS'' & Hh' & Hq'); auto; try lia.
    rewrite Efk in HS''. destruct HS'' as [Sh' Ch'']. specialize (Ch'' Cab).
    exists s', a, g1, g2, g3, b, l1, l2, l3.
    rewrite update_all_snoc, E. cbn [bind]. split; [exact E'|].
    replace (n4 + (Z.of_nat (length (f ++ ys) + 1) - 5))%Z with (n4 + (Z.of_nat (length (f ++ ys)) - 5) + 1)%Z by lia.
    split; [exact Sh'|]. split; [exact Ch''|].
    split; [|split; [lia|congruence]].
    split; [exact Ia|]. split; [exact Ib|].
    intros x Hx. apply in_app_or in Hx. destruct Hx as [Hx|[<-|[]]].
    + specialize (Ext _ Hx). destruct Ha as [[-> ?]|[-> ?]], Hb as [[-> ?]|[-> ?]]; lra.
    + destruct Ha as [[-> ?]|[-> ?]], Hb as [[-> ?]|[-> ?]]; lra.
Qed.

Lemma p2_bracket_by (q : double) s0 (es : list by_item) :
  Forall (fun e : by_item => forall i, tame (fst (fst e) i)) es ->
  p2_new (A := B64) q = Ret s0 -> nan q = false ->
  (5 <= length es)%nat -> (Z.of_nat (length es) <= 2 ^ 31)%Z ->
  Forall (fun x => finite64 x = true) (map snd es) ->
  (forall x y, In x (map snd es) -> In y (map snd es) -> rnd (B2R y - B2R x) < big) ->
  exists s v lo hi h1 h2 h3,
    update_all by_step s0 es = Ret s /\ p2_evaluate s = Ret (s, v) /\
    In lo (map snd es) /\ In hi (map snd es) /\ (forall x, In x (map snd es) -> B2R lo <= B2R x <= B2R hi) /\
    finite64 v = true /\ B2R lo <= B2R v <= B2R hi /\
    p_heights s = [lo; h1; h2; h3; hi] /\ ascending [lo; h1; h2; h3; hi] /\
    strictly_increasing (p_pos s) /\ nth 0 (p_pos s) (-1)%Z = 0%Z /\ nth 4 (p_pos s) (-1)%Z = (Z.of_nat (length es) - 1)%Z.
Proof.
  intros T E0 N H5 HM HF HS. pose proof (new_quant q s0 E0 N) as [Fq Hq].
  pose proof (new_shape (A := B64) q s0 E0) as [Es Sh0].
  destruct (by_bracket s0 _ _ _ _ _ _ es T Sh0) as (s & h0 & h1 & h2 & h3 & h4 & m1 & m2 & m3 & E & Sh & Ch & (I0 & I4 & Ext) & Hh & Hqs);
    auto; [subst s0; reflexivity|unfold int_max; lia64|].
  assert (Qs : p_quantile s = q) by (rewrite Hqs; subst s0; reflexivity).
  pose proof Ch as Ch'. unchain Ch'.
  assert (LE : forall a b : double, finite64 a = true -> finite64 b = true -> B2R a <= B2R b -> Bleb a b = true).
  { intros a b Fa Fb Hab. apply X_leb; auto using fin_nan. rewrite !X_fin by auto. auto. }
  assert (AS : ascending [h0; h1; h2; h3; h4]).
  { repeat constructor; apply LE; auto; lra. }
  assert (NN : Forall (fun x : double => nan x = false) [h0; h1; h2; h3; h4]) by (repeat constructor; auto using fin_nan).
  assert (EV : exists v, p2_evaluate s = Ret (s, v) /\ In v [h0; h1; h2; h3; h4]).
  { destruct (Nat.eq_dec (length es) 5) as [L5|L5].
    - destruct Sh as (Eh & En & _). rewrite eval_small; [|lia64|rewrite Eh; reflexivity|rewrite Qs; auto|rewrite Qs; auto].
      rewrite Eh, Qs, Hh, L5. rewrite (proj2 (not_nan_B64 _) NN). rewrite (sort_sorted _ NN AS).
      eexists. split; [f_equal; f_equal; destruct s; cbn in * ; congruence|].
      apply nth_In. simpl. destruct (rank_facts 5 q (le_n _) Fq Hq) as [_ R]. lia64.
    - rewrite (eval_big B64 s _ _ ltac:(lia64) Sh). exists h2. split; auto. simpl; auto. }
  destruct EV as (v & EV & Iv). exists s, v, h0, h4, h1, h2, h3.
  destruct Sh as (Eh & En & Hn & _). split; [exact E|]. split; [exact EV|].
  split; [exact I0|]. split; [exact I4|]. split; [exact Ext|].
  assert (V : finite64 v = true /\ B2R h0 <= B2R v <= B2R h4).
  { repeat (destruct Iv as [<-|Iv]; [split; auto; lra|]). destruct Iv. }
  split; [apply V|]. split; [apply V|]. split; [exact Eh|]. split; [exact AS|].
  rewrite En. split; [|split; [reflexivity|cbn [nth]; lia]].
  unfold strictly_increasing. repeat constructor; ints.
Qed.
