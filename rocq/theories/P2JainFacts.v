(** StreamingP2Quantile follows the published P2 algorithm (exact arithmetic). *)

From Coq Require Import List Reals ZArith Lra Lia Bool Arith Sorting.Sorted Sorting.Permutation.
From Flocq Require Import Core.Core.
From Verif Require Import Outcome Arith Spec P2 P2Spec ListFacts UtilsFacts P2Facts P2Float P2Jain.
Import ListNotations.
Open Scope R_scope.

Lemma Rltb_bool x y : Rltb x y = Rlt_bool x y.
Proof.
  destruct (Rlt_bool_spec x y); [now apply Rltb_true|now apply Rltb_false].
Qed.

Lemma Rleb_bool x y : Rleb x y = Rle_bool x y.
Proof.
  destruct (Rle_bool_spec x y); [now apply Rleb_true|now apply Rleb_false].
Qed.

(** ** One adjustment *)
Lemma par_parabola (hm hi hp : R) (nm ni np d : Z) : (nm < ni < np)%Z ->
  par (A := RA) hm hi hp nm ni np d = parabola3 (nm, hm) (ni, hi) (np, hp) (IZR (ni + d)).
Proof.
  intros H. unfold par, parabola3, m_at. cbn [num RA of_Z add sub mul div fst snd].
  rewrite !minus_IZR, plus_IZR.
  assert (IZR nm < IZR ni) by (apply IZR_lt; lia).
  assert (IZR ni < IZR np) by (apply IZR_lt; lia).
  field. lra.
Qed.

Lemma lin_line_up (hm hi hp : R) (nm ni np : Z) : (nm < ni < np)%Z ->
  lin (A := RA) hm hi hp nm ni np 1 = line2 (ni, hi) (np, hp) (IZR ni + 1).
Proof.
  intros H. unfold lin, line2, m_at. cbn [num RA of_Z add sub mul div fst snd Z.eqb Pos.eqb].
  rewrite !minus_IZR.
  assert (IZR ni < IZR np) by (apply IZR_lt; lia).
  field. lra.
Qed.

Lemma lin_line_down (hm hi hp : R) (nm ni np : Z) : (nm < ni < np)%Z ->
  lin (A := RA) hm hi hp nm ni np (-1) = line2 (nm, hm) (ni, hi) (IZR ni - 1).
Proof.
  intros H. unfold lin, line2, m_at. cbn [num RA of_Z add sub mul div fst snd Z.eqb].
  rewrite !minus_IZR.
  assert (IZR nm < IZR ni) by (apply IZR_lt; lia).
  field. lra.
Qed.

Lemma core_move (des hm hi hp : R) (nm ni np : Z) : (nm < ni < np)%Z ->
  let r := core (A := RA) des hm hi hp nm ni np in
  @pair Z R (snd r) (fst r) = jc_move des (nm, hm) (ni, hi) (np, hp).
Proof.
  intros H. cbv zeta. unfold core, dir, jc_move. cbn [fst snd m_at].
  change (leb (a := RA)) with Rleb. change (sub (a := RA)) with Rminus. change (of_Z (a := RA)) with IZR.
  assert (E1 : Rleb 1 (des - IZR ni) = Rle_bool (IZR ni + 1) des).
  { rewrite Rleb_bool. destruct (Rle_bool_spec 1 (des - IZR ni)), (Rle_bool_spec (IZR ni + 1) des); auto; lra. }
  assert (E2 : Rleb (des - IZR ni) (-1) = Rle_bool des (IZR ni - 1)).
  { rewrite Rleb_bool. destruct (Rle_bool_spec (des - IZR ni) (-1)), (Rle_bool_spec des (IZR ni - 1)); auto; lra. }
  assert (E3 : (1 <? np - ni)%Z = (ni + 1 <? np)%Z).
  { destruct (Z.ltb_spec 1 (np - ni)), (Z.ltb_spec (ni + 1) np); auto; lia. }
  assert (E4 : (nm - ni <? -1)%Z = (nm <? ni - 1)%Z).
  { destruct (Z.ltb_spec (nm - ni) (-1)), (Z.ltb_spec nm (ni - 1)); auto; lia. }
  rewrite E1, E2, E3, E4. unfold m_at. cbn [fst snd].
  destruct (_ && (ni + 1 <? np)%Z).
  - cbn [fst snd]. f_equal. unfold mv, jc_height. cbv zeta. rewrite par_parabola, lin_line_up by auto.
    cbn [snd]. change (ltb (a := RA)) with Rltb. rewrite !Rltb_bool, plus_IZR. reflexivity.
  - destruct (_ && (nm <? ni - 1)%Z); [|reflexivity].
    cbn [fst snd]. f_equal. unfold mv, jc_height. cbv zeta. rewrite par_parabola, lin_line_down by auto.
    cbn [snd]. change (ltb (a := RA)) with Rltb. rewrite !Rltb_bool, plus_IZR. reflexivity.
Qed.

(** An adjusted height stays between its neighbours. *)
Lemma frac_between (a b : R) (g : Z) : (1 <= g)%Z -> a <= b -> a <= a + (1 * (b - a)) / IZR g <= b.
Proof.
  intros Hg Hab. assert (1 <= IZR g) by (apply IZR_le; auto).
  assert (0 <= (b - a) / IZR g <= b - a); [|unfold Rdiv in * ; rewrite Rmult_1_l; lra].
  split; [apply Rmult_le_pos; [lra|apply Rlt_le, Rinv_0_lt_compat; lra]|].
  apply Rmult_le_reg_r with (IZR g); [lra|]. unfold Rdiv.
  rewrite Rmult_assoc, Rinv_l, Rmult_1_r by lra. nra.
Qed.

Lemma core_between_RA (des hm hi hp : R) (nm ni np : Z) : (nm < ni < np)%Z -> hm <= hi <= hp ->
  hm <= fst (core (A := RA) des hm hi hp nm ni np) <= hp.
Proof.
  intros H Hh. unfold core. destruct (dir_cases (A := RA) des nm ni np) as [->|[[-> Hd]|[-> Hd]]]; cbn [fst]; auto.
  - unfold mv. cbv zeta. destruct (_ && _) eqn:E.
    + apply andb_true_iff in E as [E1 E2]. cbn [ltb RA] in E1, E2. apply Rltb_true in E1, E2. lra.
    + unfold lin. cbn [Z.eqb Pos.eqb of_Z add sub mul div RA]. pose proof (frac_between hi hp (np - ni)). lra || (specialize (H0 ltac:(lia) ltac:(lra)); lra).
  - unfold mv. cbv zeta. destruct (_ && _) eqn:E.
    + apply andb_true_iff in E as [E1 E2]. cbn [ltb RA] in E1, E2. apply Rltb_true in E1, E2. lra.
    + unfold lin. cbn [Z.eqb of_Z add sub mul div RA].
      pose proof (frac_between (- hi) (- hm) (ni - nm) ltac:(lia) ltac:(lra)) as K.
      replace (hi + -1 * (hm - hi) / IZR (nm - ni)) with (- (- hi + 1 * (- hm - - hi) / IZR (ni - nm))).
      { lra. }
      rewrite !minus_IZR. assert (IZR nm < IZR ni) by (apply IZR_lt; lia). field. lra.
Qed.

(** ** One observation *)
Definition rep (s : p2 RA) (ms : markers) : Prop :=
  p_pos s = map (fun i => fst (ms i)) [0; 1; 2; 3; 4]%nat /\
  p_heights s = map (fun i => snd (ms i)) [0; 1; 2; 3; 4]%nat.

Definition chainR (h0 h1 h2 h3 h4 : R) : Prop := h0 <= h1 /\ h1 <= h2 /\ h2 <= h3 /\ h3 <= h4.

Lemma fk_observe h0 h1 h2 h3 h4 n0 n1 n2 n3 n4 (x : R) : chainR h0 h1 h2 h3 h4 ->
  let '(a, b, k) := fk (A := RA) h0 h1 h2 h3 h4 x in
  chainR a h1 h2 h3 b /\ a = Rmin h0 x /\ b = Rmax h4 x /\
  bumped k n0 n1 n2 n3 n4 =
    [n0; (if Rlt_bool x h1 then n1 + 1 else n1)%Z; (if Rlt_bool x h2 then n2 + 1 else n2)%Z;
     (if Rlt_bool x h3 then n3 + 1 else n3)%Z; (n4 + 1)%Z].
Proof.
  intros (H1 & H2 & H3 & H4). unfold fk, chainR. change (ltb (a := RA)) with Rltb. rewrite !Rltb_bool.
  unfold Rmin, Rmax. unfold bumped.
  destruct (Rlt_bool_spec x h0), (Rlt_bool_spec x h1), (Rlt_bool_spec x h2), (Rlt_bool_spec x h3), (Rlt_bool_spec x h4);
    try lra; destruct (Rle_dec h0 x), (Rle_dec h4 x); repeat split; cbn [Nat.leb]; auto; try lra.
Qed.

Lemma step_rep (s : p2 RA) ms x h0 h1 h2 h3 h4 n0 n1 n2 n3 n4 :
  rep s ms -> (5 <= p_history s)%nat ->
  shape s (h0, h1, h2, h3, h4) (n0, n1, n2, n3, n4) -> (n4 < int_max)%Z -> chainR h0 h1 h2 h3 h4 ->
  exists s' g0 g1 g2 g3 g4 m1 m2 m3, p2_update s x = Ret s' /\
    rep s' (jc_step (p_quantile s) (S (p_history s)) ms x) /\
    shape s' (g0, g1, g2, g3, g4) (n0, m1, m2, m3, (n4 + 1)%Z) /\ chainR g0 g1 g2 g3 g4 /\
    p_history s' = S (p_history s) /\ p_quantile s' = p_quantile s.
Proof.
  intros [RN RH] Hh (Eh & En & Hn & Hd) H4 Hc.
  rewrite Eh in RH. rewrite En in RN. cbn [map] in RN, RH.
  injection RN as N0 N1 N2 N3 N4. injection RH as K0 K1 K2 K3 K4.
  unfold p2_update. destruct (Nat.ltb_spec (p_history s) 5); [lia|]. clear H.
  rewrite Eh, findK_eq. pose proof (fk_k (A := RA) h0 h1 h2 h3 h4 x) as Hk.
  pose proof (fk_observe h0 h1 h2 h3 h4 n0 n1 n2 n3 n4 x Hc) as Ho.
  destruct (fk h0 h1 h2 h3 h4 x) as [[a b] k]. cbn [bind snd] in Hk |- * .
  destruct Ho as (Hc' & Ea & Eb & Ebump).
  rewrite En, bump_eq by auto. cbn [bind]. rewrite Ebump.
  destruct (p_desired s) as [|d0 ds]; [discriminate|].
  change (at_ (d0 :: ds) 0) with (Ret d0). cbn [bind].
  match goal with |- context [adjustHeights ?d] => set (des := d) end.
  set (m1 := (if Rlt_bool x h1 then n1 + 1 else n1)%Z) in * .
  set (m2 := (if Rlt_bool x h2 then n2 + 1 else n2)%Z) in * .
  set (m3 := (if Rlt_bool x h3 then n3 + 1 else n3)%Z) in * .
  assert (Hm : pos5 n0 m1 m2 m3 (n4 + 1)).
  { assert (B := Ebump). unfold bumped in B. injection B as B1 B2 B3. rewrite <- B1, <- B2, <- B3.
    destruct k as [|[|[|[|]]]]; cbn [Nat.leb]; ints. }
  (* the markers after the observation *)
  set (ob := jc_observe ms x).
  assert (O0 : ob 0%nat = @pair Z R n0 a).
  { unfold ob, jc_observe. destruct (ms 0%nat) as [u v]. cbn in N0, K0. subst. reflexivity. }
  assert (O1 : ob 1%nat = @pair Z R m1 h1).
  { unfold ob, jc_observe. destruct (ms 1%nat) as [u v]. cbn in N1, K1. subst. reflexivity. }
  assert (O2 : ob 2%nat = @pair Z R m2 h2).
  { unfold ob, jc_observe. destruct (ms 2%nat) as [u v]. cbn in N2, K2. subst. reflexivity. }
  assert (O3 : ob 3%nat = @pair Z R m3 h3).
  { unfold ob, jc_observe. destruct (ms 3%nat) as [u v]. cbn in N3, K3. subst. reflexivity. }
  assert (O4 : ob 4%nat = @pair Z R (n4 + 1)%Z b).
  { unfold ob, jc_observe. destruct (ms 4%nat) as [u v]. cbn in N4, K4. subst. reflexivity. }
  unfold jc_step. fold ob. clearbody ob m1 m2 m3. clear Ebump.
  (* the desired positions *)
  assert (D : forall i, (1 <= i <= 3)%nat ->
    at_ des i = Ret (jc_ideal (p_quantile s) (S (p_history s)) i)).
  { intros i Hi. unfold des, jc_ideal. replace (S (p_history s) - 1)%nat with (p_history s) by lia.
    destruct i as [|[|[|[|]]]]; try lia; cbn [at_ nth_error jc_fraction]; unfold at_; cbn [nth_error]; f_equal;
      cbn [add mul div of_Z RA]; change (of_nat (A := RA) (p_history s)) with (IZR (Z.of_nat (p_history s)));
      rewrite INR_IZR_INZ; try reflexivity; match goal with |- ?u = ?v => change (@eq R u v) end; field. }
  set (t1 := jc_ideal (p_quantile s) (S (p_history s)) 1) in * .
  set (t2 := jc_ideal (p_quantile s) (S (p_history s)) 2) in * .
  set (t3 := jc_ideal (p_quantile s) (S (p_history s)) 3) in * .
  pose proof (D 1%nat ltac:(lia)) as D1. pose proof (D 2%nat ltac:(lia)) as D2. pose proof (D 3%nat ltac:(lia)) as D3.
  fold t1 in D1. fold t2 in D2. fold t3 in D3. clear D.
  unfold jc_order. change (leb (a := RA) (lit 1 2) (p_quantile s)) with (Rleb (1 / 2) (p_quantile s)).
  rewrite Rleb_bool.
  destruct (Rle_bool (1 / 2) (p_quantile s)); cbn [fold_left].
  - rewrite (adjust1 (A := RA) pos_RA neg_RA des t1 _ _ _ _ _ _ _ _ _ _ Hm D1). cbv zeta. cbn [bind].
    pose proof (core_move t1 a h1 h2 n0 m1 m2 ltac:(ints)) as M1. cbv zeta in M1.
    pose proof (core_pos (A := RA) t1 a h1 h2 n0 m1 m2 ltac:(ints)) as P1.
    pose proof (core_between_RA t1 a h1 h2 n0 m1 m2 ltac:(ints) ltac:(unfold chainR in Hc'; lra)) as B1.
    set (r1 := core (A := RA) t1 a h1 h2 n0 m1 m2) in * . clearbody r1.
    assert (Hm1 : pos5 n0 (snd r1) m2 m3 (n4 + 1)) by ints.
    rewrite (adjust2 (A := RA) pos_RA neg_RA des t2 _ _ _ _ _ _ _ _ _ _ Hm1 D2). cbv zeta. cbn [bind].
    pose proof (core_move t2 (fst r1) h2 h3 (snd r1) m2 m3 ltac:(ints)) as M2. cbv zeta in M2.
    pose proof (core_pos (A := RA) t2 (fst r1) h2 h3 (snd r1) m2 m3 ltac:(ints)) as P2.
    pose proof (core_between_RA t2 (fst r1) h2 h3 (snd r1) m2 m3 ltac:(ints) ltac:(unfold chainR in Hc'; lra)) as B2.
    set (r2 := core (A := RA) t2 (fst r1) h2 h3 (snd r1) m2 m3) in * . clearbody r2.
    assert (Hm2 : pos5 n0 (snd r1) (snd r2) m3 (n4 + 1)) by ints.
    rewrite (adjust3 (A := RA) pos_RA neg_RA des t3 _ _ _ _ _ _ _ _ _ _ Hm2 D3). cbv zeta. cbn [bind].
    pose proof (core_move t3 (fst r2) h3 b (snd r2) m3 (n4 + 1) ltac:(ints)) as M3. cbv zeta in M3.
    pose proof (core_pos (A := RA) t3 (fst r2) h3 b (snd r2) m3 (n4 + 1) ltac:(ints)) as P3.
    pose proof (core_between_RA t3 (fst r2) h3 b (snd r2) m3 (n4 + 1) ltac:(ints) ltac:(unfold chainR in Hc'; lra)) as B3.
    set (r3 := core (A := RA) t3 (fst r2) h3 b (snd r2) m3 (n4 + 1)) in * . clearbody r3.
    eexists _, a, (fst r1), (fst r2), (fst r3), b, (snd r1), (snd r2), (snd r3).
    split; [reflexivity|]. split; [|split; [|split; [|split; reflexivity]]].
    + unfold rep, jc_adjust, set_marker. cbn [p_pos p_heights map Nat.eqb Nat.sub Nat.add].
      fold t1 t2 t3. rewrite O0, O1, O2, O3, O4. cbn [fst snd].
      rewrite <- M1. rewrite <- M2. rewrite <- M3. cbn [fst snd]. auto.
    + cbn. repeat split; auto; try ints; first [apply P1|apply P2|apply P3].
    + unfold chainR in * . lra.
  - rewrite (adjust3 (A := RA) pos_RA neg_RA des t3 _ _ _ _ _ _ _ _ _ _ Hm D3). cbv zeta. cbn [bind].
    pose proof (core_move t3 h2 h3 b m2 m3 (n4 + 1) ltac:(ints)) as M3. cbv zeta in M3.
    pose proof (core_pos (A := RA) t3 h2 h3 b m2 m3 (n4 + 1) ltac:(ints)) as P3.
    pose proof (core_between_RA t3 h2 h3 b m2 m3 (n4 + 1) ltac:(ints) ltac:(unfold chainR in Hc'; lra)) as B3.
    set (r3 := core (A := RA) t3 h2 h3 b m2 m3 (n4 + 1)) in * . clearbody r3.
    assert (Hm3 : pos5 n0 m1 m2 (snd r3) (n4 + 1)) by ints.
    rewrite (adjust2 (A := RA) pos_RA neg_RA des t2 _ _ _ _ _ _ _ _ _ _ Hm3 D2). cbv zeta. cbn [bind].
    pose proof (core_move t2 h1 h2 (fst r3) m1 m2 (snd r3) ltac:(ints)) as M2. cbv zeta in M2.
    pose proof (core_pos (A := RA) t2 h1 h2 (fst r3) m1 m2 (snd r3) ltac:(ints)) as P2.
    pose proof (core_between_RA t2 h1 h2 (fst r3) m1 m2 (snd r3) ltac:(ints) ltac:(unfold chainR in Hc'; lra)) as B2.
    set (r2 := core (A := RA) t2 h1 h2 (fst r3) m1 m2 (snd r3)) in * . clearbody r2.
    assert (Hm2 : pos5 n0 m1 (snd r2) (snd r3) (n4 + 1)) by ints.
    rewrite (adjust1 (A := RA) pos_RA neg_RA des t1 _ _ _ _ _ _ _ _ _ _ Hm2 D1). cbv zeta. cbn [bind].
    pose proof (core_move t1 a h1 (fst r2) n0 m1 (snd r2) ltac:(ints)) as M1. cbv zeta in M1.
    pose proof (core_pos (A := RA) t1 a h1 (fst r2) n0 m1 (snd r2) ltac:(ints)) as P1.
    pose proof (core_between_RA t1 a h1 (fst r2) n0 m1 (snd r2) ltac:(ints) ltac:(unfold chainR in Hc'; lra)) as B1.
    set (r1 := core (A := RA) t1 a h1 (fst r2) n0 m1 (snd r2)) in * . clearbody r1.
    eexists _, a, (fst r1), (fst r2), (fst r3), b, (snd r1), (snd r2), (snd r3).
    split; [reflexivity|]. split; [|split; [|split; [|split; reflexivity]]].
    + unfold rep, jc_adjust, set_marker. cbn [p_pos p_heights map Nat.eqb Nat.sub Nat.add].
      fold t1 t2 t3. rewrite O0, O1, O2, O3, O4. cbn [fst snd].
      rewrite <- M3. rewrite <- M2. rewrite <- M1. cbn [fst snd]. auto.
    + cbn. repeat split; auto; try ints; first [apply P1|apply P2|apply P3].
    + unfold chainR in * . lra.
Qed.

(** ** Sorting the first five *)
Lemma sortedR_insert (x : R) l : StronglySorted Rle l -> StronglySorted Rle (sort_insert (A := RA) x l).
Proof.
  induction 1 as [|y l Hl IH Hy]; simpl; [repeat constructor|].
  destruct (Rltb x y) eqn:E.
  - apply Rltb_true in E. constructor; [constructor; auto|]. constructor; [lra|].
    eapply Forall_impl; [|exact Hy]. cbn. intros z Hz. lra.
  - apply Rltb_false in E. constructor; auto.
    rewrite Forall_forall in Hy |- * . intros z Hz.
    apply (Permutation_in _ (sort_insert_perm (A := RA) x l)) in Hz. destruct Hz as [<-|Hz]; auto.
Qed.

Lemma sortedR_sort (l : list R) : StronglySorted Rle (sort_list (A := RA) l).
Proof.
  unfold sort_list. assert (G : forall acc, StronglySorted Rle acc ->
    StronglySorted Rle (fold_left (fun acc x => sort_insert (A := RA) x acc) l acc)).
  { induction l as [|x l IH]; intros acc Ha; simpl; auto. apply IH. now apply sortedR_insert. }
  apply G. constructor.
Qed.

Lemma sorted_unique (l l' : list R) : StronglySorted Rle l -> StronglySorted Rle l' -> Permutation l l' -> l = l'.
Proof.
  intros H. revert l'. induction H as [|x l Hl IH Hx]; intros l' H' P.
  - apply Permutation_nil in P. auto.
  - destruct H' as [|y l' Hl' Hy].
    + symmetry in P. apply Permutation_nil in P. discriminate.
    + assert (E : x = y).
      { rewrite Forall_forall in Hx, Hy.
        assert (In x (y :: l')) as [|I1] by (apply (Permutation_in _ P); now left); auto.
        assert (In y (x :: l)) as [|I2] by (apply (Permutation_in _ (Permutation_sym P)); now left); auto.
        apply Rle_antisym; auto. }
      subst y. f_equal. apply IH; auto. now apply Permutation_cons_inv in P.
Qed.

Lemma not_nan_RA (l : list R) : forallb (not_nan (A := RA)) l = true.
Proof.
  apply forallb_forall. intros x _. unfold not_nan. cbn. unfold Reqb. destruct (Req_EM_T x x); auto.
Qed.

(** ** Any number of observations *)
Lemma run_rep xs (s : p2 RA) ms h0 h1 h2 h3 h4 n0 n1 n2 n3 n4 :
  rep s ms -> (5 <= p_history s)%nat ->
  shape s (h0, h1, h2, h3, h4) (n0, n1, n2, n3, n4) -> chainR h0 h1 h2 h3 h4 ->
  (n4 + Z.of_nat (length xs) <= int_max)%Z ->
  exists s' h n, update_all p2_update s xs = Ret s' /\
    rep s' (jc_run (p_quantile s) (p_history s) ms xs) /\ shape s' h n /\
    p_history s' = (p_history s + length xs)%nat /\ p_quantile s' = p_quantile s.
Proof.
  revert s ms h0 h1 h2 h3 h4 n0 n1 n2 n3 n4. induction xs as [|x xs IH]; intros s ms h0 h1 h2 h3 h4 n0 n1 n2 n3 n4 Hr Hh Sh Hc HL.
  - exists s, (h0, h1, h2, h3, h4), (n0, n1, n2, n3, n4). simpl. rewrite Nat.add_0_r. auto.
  - cbn [length] in HL.
    destruct (step_rep s ms x h0 h1 h2 h3 h4 n0 n1 n2 n3 n4 Hr Hh Sh ltac:(lia) Hc)
      as (s1 & g0 & g1 & g2 & g3 & g4 & m1 & m2 & m3 & E & R1 & Sh1 & Hc1 & Hh1 & Hq1).
    destruct (IH s1 _ _ _ _ _ _ _ _ _ _ _ R1 ltac:(lia) Sh1 Hc1 ltac:(lia)) as (s' & h & n & E' & R' & Sh' & Hh' & Hq').
    exists s', h, n. cbn [update_all jc_run]. rewrite E. cbn [bind].
    rewrite Hq1, Hh1 in R'. split; [exact E'|]. split; [exact R'|]. split; [exact Sh'|]. cbn [length]. split; [lia|congruence].
Qed.

Lemma p2_published (q : R) s0 (xs five : list R) :
  p2_new (A := RA) q = Ret s0 -> (5 <= length xs)%nat -> (Z.of_nat (length xs) <= 2 ^ 31)%Z ->
  Permutation five (firstn 5 xs) -> StronglySorted Rle five ->
  exists s, update_all p2_update s0 xs = Ret s /\
    (let ms := jc_run q 5 (jc_start five) (skipn 5 xs) in
     p_pos s = map (fun i => fst (ms i)) [0; 1; 2; 3; 4]%nat /\
     p_heights s = map (fun i => snd (ms i)) [0; 1; 2; 3; 4]%nat /\
     ((5 < length xs)%nat -> p2_evaluate s = Ret (s, snd (ms 2%nat)))).
Proof.
  intros E0 HL HM HP HS. apply new_shape in E0 as [E0 S0].
  destruct (split5 xs HL) as [Ex L5].
  replace (update_all p2_update s0 xs) with (update_all p2_update s0 (firstn 5 xs ++ skipn 5 xs)) by now rewrite <- Ex.
  rewrite update_all_app, run_five by (subst s0; auto).
  rewrite not_nan_RA. cbn [bind].
  assert (Ef : sort_list (A := RA) (firstn 5 xs) = five).
  { apply sorted_unique; auto; [apply sortedR_sort|].
    eapply Permutation_trans; [apply sort_list_perm|]. now symmetry. }
  rewrite Ef.
  assert (L5' : length five = 5%nat) by (rewrite (Permutation_length HP); auto).
  destruct (list5 five L5') as (a & b & c & d & e & Efive).
  assert (LS : length xs = (5 + length (skipn 5 xs))%nat) by (rewrite skipn_length; lia).
  set (s5 := P2 (p_quantile s0) (desired5 (p_quantile s0)) (p_pos s0) five 5).
  destruct (run_rep (skipn 5 xs) s5 (jc_start five) a b c d e 0 1 2 3 4) as (s & h & n & E & Rr & Sh & Hh & Hq).
  - unfold rep, s5, jc_start. rewrite Efive, E0. split; reflexivity.
  - cbn. lia.
  - unfold s5. rewrite Efive, E0. cbn. repeat split; ints.
  - rewrite Efive in HS. inversion_clear HS as [|? ? S1 F1]. inversion_clear S1 as [|? ? S2 F2].
    inversion_clear S2 as [|? ? S3 F3]. inversion_clear S3 as [|? ? S4 F4].
    inversion_clear F1. inversion_clear F2. inversion_clear F3. inversion_clear F4. unfold chainR. auto.
  - enough (4 + Z.of_nat (@length R (skipn 5 xs)) <= int_max)%Z by assumption. ints.
  - assert (Eq : p_quantile s5 = q) by (unfold s5; rewrite E0; reflexivity).
    rewrite Eq in Rr. change (p_history s5) with 5%nat in Rr. destruct Rr as [R1 R2].
    exists s. split; [exact E|]. cbv zeta. split; [exact R1|]. split; [exact R2|]. intros H5.
    assert (Hl : (5 < p_history s)%nat).
    { rewrite Hh. change (5 < 5 + @length R (skipn 5 xs))%nat. lia. }
    unfold p2_evaluate. destruct (Nat.leb_spec (p_history s) 5); [lia|].
    rewrite R2. reflexivity.
Qed.

Lemma p2_published_case :
  (exists s0, p2_new (A := RA) (1 / 2) = Ret s0) /\
  Permutation [1; 2; 3; 4; 5] (firstn 5 [3; 1; 5; 2; 4; 9; 7]) /\ StronglySorted Rle [1; 2; 3; 4; 5].
Proof.
  split; [|split].
  - unfold p2_new, zero. cbn [leb of_Z RA].
    replace (Rleb (1 / 2) 0) with false by (symmetry; apply Rleb_false; lra).
    replace (Rleb 1 (1 / 2)) with false by (symmetry; apply Rleb_false; lra). cbn. eauto.
  - cbn [firstn].
    apply Permutation_cons_app with (l1 := [3]) (l2 := [5; 2; 4]).
    apply Permutation_cons_app with (l1 := [3; 5]) (l2 := [4]).
    apply perm_skip. apply perm_swap.
  - repeat constructor; lra.
Qed.
