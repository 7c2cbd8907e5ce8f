(** One outlier and the P2 estimate, in exact arithmetic. *)

From Coq Require Import List Reals ZArith Lra Lia Bool Arith.
From Flocq Require Import Core.Core IEEE754.BinarySingleNaN.
From Verif Require Import Outcome Arith Spec AskSpec P2 P2Spec ListFacts UtilsFacts P2Facts P2Float P2Jain P2JainFacts P2Affine P2Witness.
Import ListNotations.
Open Scope R_scope.

(** The estimate stays on the same side of a bound on the data. *)
Definition above (c h0 h1 h2 h3 h4 : R) : Prop := chainR h0 h1 h2 h3 h4 /\ c <= h0 /\ c < h2.
Definition below (c h0 h1 h2 h3 h4 : R) : Prop := chainR h0 h1 h2 h3 h4 /\ h4 <= c /\ h2 < c.

Lemma core_inside (des hm hi hp : R) (nm ni np : Z) : (nm < ni < np)%Z -> hm <= hi <= hp ->
  (forall c, c <= hm -> c < hi -> c < fst (core (A := RA) des hm hi hp nm ni np)) /\
  (forall c, hp <= c -> hi < c -> fst (core (A := RA) des hm hi hp nm ni np) < c).
Proof.
  intros H Hh.
  assert (G : let v := fst (core (A := RA) des hm hi hp nm ni np) in v = hi \/ hm < v < hp \/ (hi <= v <= (hi + hp) / 2) \/ ((hm + hi) / 2 <= v <= hi)).
  { cbv zeta. unfold core. destruct (dir_cases (A := RA) des nm ni np) as [->|[[-> Hd]|[-> Hd]]]; cbn [fst]; auto; right.
    - unfold mv. cbv zeta. destruct (_ && _) eqn:E.
      + left. apply andb_true_iff in E as [E1 E2]. cbn [ltb RA] in E1, E2. apply Rltb_true in E1, E2. auto.
      + right; left. unfold lin. cbn [Z.eqb Pos.eqb of_Z add sub mul div RA].
        assert (2 <= IZR (np - ni)) by (apply IZR_le; lia).
        assert (0 <= 1 * (hp - hi) / IZR (np - ni) <= (hp - hi) / 2); [|lra].
        rewrite Rmult_1_l. split; [apply Rmult_le_pos; [lra|apply Rlt_le, Rinv_0_lt_compat; lra]|].
        apply Rmult_le_compat_l; [lra|]. apply Rinv_le; lra.
    - unfold mv. cbv zeta. destruct (_ && _) eqn:E.
      + left. apply andb_true_iff in E as [E1 E2]. cbn [ltb RA] in E1, E2. apply Rltb_true in E1, E2. auto.
      + right; right. unfold lin. cbn [Z.eqb of_Z add sub mul div RA].
        assert (2 <= IZR (ni - nm)) by (apply IZR_le; lia).
        replace (-1 * (hm - hi) / IZR (nm - ni)) with (- ((hi - hm) / IZR (ni - nm)))
          by (rewrite !minus_IZR in * ; field; lra).
        assert (0 <= (hi - hm) / IZR (ni - nm) <= (hi - hm) / 2); [|lra].
        split; [apply Rmult_le_pos; [lra|apply Rlt_le, Rinv_0_lt_compat; lra]|].
        apply Rmult_le_compat_l; [lra|]. apply Rinv_le; lra. }
  cbv zeta in G. set (v := fst _) in * . clearbody v. change (num RA) with R in v.
  split; intros c H1 H2; destruct G as [->|[G|[G|G]]]; lra.
Qed.


Definition kept (Inv : R -> R -> R -> R -> R -> Prop) : Prop :=
  forall des h0 h1 h2 h3 h4 nm ni np, (nm < ni < np)%Z -> (np <= int_max)%Z -> (0 <= nm)%Z -> Inv h0 h1 h2 h3 h4 ->
    Inv h0 (fst (core (A := RA) des h0 h1 h2 nm ni np)) h2 h3 h4 /\
    Inv h0 h1 (fst (core (A := RA) des h1 h2 h3 nm ni np)) h3 h4 /\
    Inv h0 h1 h2 (fst (core (A := RA) des h2 h3 h4 nm ni np)) h4.

Definition taken (Inv : R -> R -> R -> R -> R -> Prop) (okx : R -> Prop) : Prop :=
  forall h0 h1 h2 h3 h4 x, okx x -> Inv h0 h1 h2 h3 h4 -> Inv (Rmin h0 x) h1 h2 h3 (Rmax h4 x).

Lemma inv_run (Inv : R -> R -> R -> R -> R -> Prop) (okx : R -> Prop) :
  kept Inv -> taken Inv okx -> (forall h0 h1 h2 h3 h4, Inv h0 h1 h2 h3 h4 -> chainR h0 h1 h2 h3 h4) ->
  forall ys (s0 : p2 RA) h0 h1 h2 h3 h4 n0 n1 n2 n3 n4,
  shape s0 (h0, h1, h2, h3, h4) (n0, n1, n2, n3, n4) -> Inv h0 h1 h2 h3 h4 -> (5 <= p_history s0)%nat ->
  (n4 + Z.of_nat (length ys) <= int_max)%Z -> Forall okx ys ->
  exists s g0 g1 g2 g3 g4 m1 m2 m3, update_all p2_update s0 ys = Ret s /\
    shape s (g0, g1, g2, g3, g4) (n0, m1, m2, m3, n4 + Z.of_nat (length ys))%Z /\ Inv g0 g1 g2 g3 g4 /\ p_history s = (p_history s0 + length ys)%nat.
Proof.
  intros HK HT HC. induction ys as [|y ys IH]; intros s0 h0 h1 h2 h3 h4 n0 n1 n2 n3 n4 Sh HI Hh HL HF.
  - exists s0, h0, h1, h2, h3, h4, n1, n2, n3. simpl length. rewrite Z.add_0_r, Nat.add_0_r. auto.
  - apply Forall_cons_iff in HF as [Hy HF]. simpl length in HL |- * .
    pose proof (fk_observe h0 h1 h2 h3 h4 n0 n1 n2 n3 n4 y (HC _ _ _ _ _ HI)) as O.
    destruct (update_big (A := RA) pos_RA neg_RA Inv s0 y h0 h1 h2 h3 h4 n0 n1 n2 n3 n4)
      as (s' & g1 & g2 & g3 & m1 & m2 & m3 & E' & HS & Hy' & Hq'); auto; try lia.
    { destruct (fk (A := RA) h0 h1 h2 h3 h4 y) as [[a b] k]. destruct O as (_ & -> & -> & _). apply HT; auto. }
    destruct (fk (A := RA) h0 h1 h2 h3 h4 y) as [[a b] k]. destruct HS as [HS HI'].
    destruct (IH s' a g1 g2 g3 b n0 m1 m2 m3 (n4 + 1)%Z HS HI') as (s & k0 & k1 & k2 & k3 & k4 & l1 & l2 & l3 & E & S & I & H5); auto; try lia.
    exists s, k0, k1, k2, k3, k4, l1, l2, l3. cbn [update_all]. rewrite E'. cbn [bind].
    replace (n4 + Z.of_nat (Datatypes.S (length ys)))%Z with (n4 + 1 + Z.of_nat (length ys))%Z by lia. repeat split; auto; try apply S; lia.
Qed.

Definition bounded (lo hi h0 h1 h2 h3 h4 : R) : Prop := chainR h0 h1 h2 h3 h4 /\ lo <= h0 /\ h4 <= hi.

Lemma bounded_kept lo hi : kept (bounded lo hi).
Proof.
  unfold kept, bounded, chainR. intros des h0 h1 h2 h3 h4 nm ni np Hn _ _ H.
  pose proof (core_between_RA des h0 h1 h2 nm ni np Hn ltac:(lra)).
  pose proof (core_between_RA des h1 h2 h3 nm ni np Hn ltac:(lra)).
  pose proof (core_between_RA des h2 h3 h4 nm ni np Hn ltac:(lra)).
  change (num RA) with R in * . lra.
Qed.

Lemma above_kept c : kept (above c).
Proof.
  unfold kept, above, chainR. intros des h0 h1 h2 h3 h4 nm ni np Hn _ _ H.
  pose proof (core_between_RA des h0 h1 h2 nm ni np Hn ltac:(lra)).
  pose proof (core_between_RA des h1 h2 h3 nm ni np Hn ltac:(lra)).
  pose proof (core_between_RA des h2 h3 h4 nm ni np Hn ltac:(lra)).
  destruct (core_inside des h1 h2 h3 nm ni np Hn ltac:(lra)) as [K _]. specialize (K c ltac:(lra) ltac:(lra)).
  change (num RA) with R in * . lra.
Qed.

Lemma below_kept c : kept (below c).
Proof.
  unfold kept, below, chainR. intros des h0 h1 h2 h3 h4 nm ni np Hn _ _ H.
  pose proof (core_between_RA des h0 h1 h2 nm ni np Hn ltac:(lra)).
  pose proof (core_between_RA des h1 h2 h3 nm ni np Hn ltac:(lra)).
  pose proof (core_between_RA des h2 h3 h4 nm ni np Hn ltac:(lra)).
  destruct (core_inside des h1 h2 h3 nm ni np Hn ltac:(lra)) as [_ K]. specialize (K c ltac:(lra) ltac:(lra)).
  change (num RA) with R in * . lra.
Qed.

Lemma above_taken c : taken (above c) (Rle c).
Proof.
  unfold taken, above, chainR. intros h0 h1 h2 h3 h4 x Hx H.
  unfold Rmin, Rmax. destruct (Rle_dec h0 x), (Rle_dec h4 x); lra.
Qed.
Lemma below_taken c : taken (below c) (fun x => x <= c).
Proof.
  unfold taken, below, chainR. intros h0 h1 h2 h3 h4 x Hx H.
  unfold Rmin, Rmax. destruct (Rle_dec h0 x), (Rle_dec h4 x); lra.
Qed.
Lemma bounded_taken lo hi : taken (bounded lo hi) (fun x => lo <= x <= hi).
Proof.
  unfold taken, bounded, chainR. intros h0 h1 h2 h3 h4 x Hx H.
  unfold Rmin, Rmax. destruct (Rle_dec h0 x), (Rle_dec h4 x); lra.
Qed.

(** All the data of a list lie between two numbers. *)
Lemma list_bounds (xs : list R) : exists lo hi, Forall (fun x => lo <= x <= hi) xs.
Proof.
  induction xs as [|x xs (lo & hi & H)]; [exists 0, 0; constructor|].
  exists (Rmin lo x), (Rmax hi x). constructor.
  - split; [apply Rmin_r|apply Rmax_r].
  - revert H. apply Forall_impl. intros a Ha. pose proof (Rmin_l lo x). pose proof (Rmax_l hi x). lra.
Qed.

(** The state after five or more observations between [lo] and [hi]. *)
Lemma start_run (q : R) s0 (xs : list R) lo hi : p2_new (A := RA) q = Ret s0 -> (5 <= length xs)%nat -> (Z.of_nat (length xs) <= 2 ^ 31)%Z ->
  Forall (fun x => lo <= x <= hi) xs ->
  exists s g0 g1 g2 g3 g4 m1 m2 m3, update_all p2_update s0 xs = Ret s /\
    shape s (g0, g1, g2, g3, g4) (0, m1, m2, m3, Z.of_nat (length xs) - 1)%Z /\ bounded lo hi g0 g1 g2 g3 g4 /\ p_history s = length xs.
Proof.
  intros E0 HL HM HF. apply new_shape in E0 as [E0 S0].
  destruct (split5 xs HL) as [Ex L5].
  assert (HF' : Forall (fun x => lo <= x <= hi) (firstn 5 xs ++ skipn 5 xs)) by now rewrite <- Ex.
  apply Forall_app in HF' as [F1 F2].
  replace (update_all p2_update s0 xs) with (update_all p2_update s0 (firstn 5 xs ++ skipn 5 xs)) by now rewrite <- Ex.
  rewrite update_all_app, run_five by (subst s0; auto).
  assert (HN : forallb (not_nan (A := RA)) (firstn 5 xs) = true).
  { apply forallb_forall. intros x _. unfold not_nan. cbn [eqb RA]. unfold Reqb. destruct (Req_EM_T x x); auto. }
  rewrite HN. cbn [bind].
  destruct (five_shape s0 (firstn 5 xs) (0, 1, 2, 3, 4)%Z L5) as [h Sh]; [eauto|].
  destruct h as [[[[h0 h1] h2] h3] h4]. pose proof Sh as Sh'. unfold shape in Sh. destruct Sh as (Eh & _). cbn [p_heights] in Eh.
  assert (HB : bounded lo hi h0 h1 h2 h3 h4).
  { pose proof (sort_list_perm (A := RA) (firstn 5 xs)) as HP. rewrite Eh in HP.
    assert (F : Forall (fun x => lo <= x <= hi) [h0; h1; h2; h3; h4]).
    { eapply Permutation.Permutation_Forall; [apply Permutation.Permutation_sym, HP|]. exact F1. }
    rewrite !Forall_cons_iff in F.
    pose proof (sortedR_sort (firstn 5 xs)) as HS. change (num RA) with R in * . rewrite Eh in HS.
    repeat (apply Sorted.StronglySorted_inv in HS as [HS ?HH]; rewrite ?Forall_cons_iff in * ).
    unfold bounded, chainR. change (num RA) with R in * . lra. }
  destruct (inv_run (bounded lo hi) _ (bounded_kept lo hi) (bounded_taken lo hi) (fun _ _ _ _ _ H => proj1 H) (skipn 5 xs) _ _ _ _ _ _ _ _ _ _ _ Sh' HB)
    as (s & g0 & g1 & g2 & g3 & g4 & m1 & m2 & m3 & E & S & B & H5); auto.
  { rewrite skipn_length. unfold int_max. lia. }
  exists s, g0, g1, g2, g3, g4, m1, m2, m3. rewrite skipn_length in S.
  replace (4 + Z.of_nat (length xs - 5))%Z with (Z.of_nat (length xs) - 1)%Z in S by lia.
  rewrite skipn_length in H5. cbn [p_history] in H5. replace (5 + (length xs - 5))%nat with (length xs) in H5 by lia. auto.
Qed.

Lemma evaluate_shape (s : p2 RA) h0 h1 h2 h3 h4 n : shape s (h0, h1, h2, h3, h4) n -> (6 <= p_history s)%nat ->
  (let* (_, v) := p2_evaluate s in Ret v) = Ret h2.
Proof.
  destruct n as [[[[n0 n1] n2] n3] n4]. intros (Eh & _) H5. unfold p2_evaluate.
  destruct (Nat.leb_spec (p_history s) 5); [lia|]. rewrite Eh. reflexivity.
Qed.


Lemma ask_at (q : R) s0 s (xs : list R) h0 h1 h2 h3 h4 n : p2_new (A := RA) q = Ret s0 -> update_all p2_update s0 xs = Ret s ->
  shape s (h0, h1, h2, h3, h4) n -> (6 <= p_history s)%nat ->
  ask (p2_new (A := RA) q) p2_update p2_evaluate xs = Ret h2.
Proof.
  intros E0 E S H. unfold ask. rewrite E0. cbn [bind].
  etransitivity; [eapply (f_equal (fun o => bind o _) E)|]. cbn [bind]. exact (evaluate_shape _ _ _ _ _ _ _ S H).
Qed.

(** Once the estimate is strictly inside a bound of the data, it never comes back to it. *)
Lemma never_back (q c v : R) (xs ys : list R) : (6 <= length xs)%nat -> (Z.of_nat (length (xs ++ ys)) <= 2 ^ 31)%Z ->
  Forall (Rle c) (xs ++ ys) ->
  ask (p2_new (A := RA) q) p2_update p2_evaluate xs = Ret v -> c < v ->
  exists v', ask (p2_new (A := RA) q) p2_update p2_evaluate (xs ++ ys) = Ret v' /\ c < v'.
Proof.
  intros HL HM HF HA Hv.
  destruct (p2_new (A := RA) q) as [s0| |] eqn:E0; try discriminate HA. rewrite <- E0 in HA |- * .
  apply Forall_app in HF as [F1 F2]. rewrite app_length in HM.
  destruct (list_bounds xs) as (lo & hi & HB).
  assert (HB' : Forall (fun x => c <= x <= hi) xs).
  { rewrite Forall_forall in * . intros x Hx. specialize (F1 x Hx). specialize (HB x Hx). lra. }
  destruct (start_run q s0 xs c hi E0 ltac:(lia) ltac:(lia) HB') as (s & g0 & g1 & g2 & g3 & g4 & m1 & m2 & m3 & E & S & B & H5).
  rewrite (ask_at q s0 s xs _ _ _ _ _ _ E0 E S ltac:(lia)) in HA. injection HA as ->.
  destruct (inv_run (above c) _ (above_kept c) (above_taken c) (fun _ _ _ _ _ H => proj1 H) ys _ _ _ _ _ _ _ _ _ _ _ S)
    as (s' & k0 & k1 & k2 & k3 & k4 & l1 & l2 & l3 & E' & S' & B' & H5'); auto.
  { destruct B as (B1 & B2 & B3). split; [exact B1|split; auto]. }
  { lia. }
  { unfold int_max. lia. }
  exists k2. split; [|apply B'].
  refine (ask_at q s0 s' (xs ++ ys) _ _ _ _ _ _ E0 _ S' ltac:(lia)). rewrite update_all_app.
  etransitivity; [eapply (f_equal (fun o => bind o _) E)|]. exact E'.
Qed.

Lemma never_back_below (q c v : R) (xs ys : list R) : (6 <= length xs)%nat -> (Z.of_nat (length (xs ++ ys)) <= 2 ^ 31)%Z ->
  Forall (fun x => x <= c) (xs ++ ys) ->
  ask (p2_new (A := RA) q) p2_update p2_evaluate xs = Ret v -> v < c ->
  exists v', ask (p2_new (A := RA) q) p2_update p2_evaluate (xs ++ ys) = Ret v' /\ v' < c.
Proof.
  intros HL HM HF HA Hv.
  destruct (p2_new (A := RA) q) as [s0| |] eqn:E0; try discriminate HA. rewrite <- E0 in HA |- * .
  apply Forall_app in HF as [F1 F2]. rewrite app_length in HM.
  destruct (list_bounds xs) as (lo & hi & HB).
  assert (HB' : Forall (fun x => lo <= x <= c) xs).
  { rewrite Forall_forall in * . intros x Hx. specialize (F1 x Hx). specialize (HB x Hx). cbv beta in * . lra. }
  destruct (start_run q s0 xs lo c E0 ltac:(lia) ltac:(lia) HB') as (s & g0 & g1 & g2 & g3 & g4 & m1 & m2 & m3 & E & S & B & H5).
  rewrite (ask_at q s0 s xs _ _ _ _ _ _ E0 E S ltac:(lia)) in HA. injection HA as ->.
  destruct (inv_run (below c) _ (below_kept c) (below_taken c) (fun _ _ _ _ _ H => proj1 H) ys _ _ _ _ _ _ _ _ _ _ _ S)
    as (s' & k0 & k1 & k2 & k3 & k4 & l1 & l2 & l3 & E' & S' & B' & H5'); auto.
  { destruct B as (B1 & B2 & B3). split; [exact B1|split; auto]. }
  { lia. }
  { unfold int_max. lia. }
  exists k2. split; [|apply B'].
  refine (ask_at q s0 s' (xs ++ ys) _ _ _ _ _ _ E0 _ S' ltac:(lia)). rewrite update_all_app.
  etransitivity; [eapply (f_equal (fun o => bind o _) E)|]. exact E'.
Qed.

(** The published algorithm on the eight observations 0 0 0 0 1 0 0 0. *)
Definition five (ms : markers) (a0 a1 a2 a3 a4 : marker) : Prop :=
  ms 0%nat = a0 /\ ms 1%nat = a1 /\ ms 2%nat = a2 /\ ms 3%nat = a3 /\ ms 4%nat = a4.

Lemma half_step ms N x a0 a1 a2 a3 a4 m1 m2 m3 :
  five (jc_observe ms x) a0 a1 a2 a3 a4 ->
  jc_move (INR (N - 1) * (1 / 2 / 2)) a0 a1 a2 = m1 ->
  jc_move (INR (N - 1) * (1 / 2)) m1 a2 a3 = m2 ->
  jc_move (INR (N - 1) * ((1 + 1 / 2) / 2)) m2 a3 a4 = m3 ->
  five (jc_step (1 / 2) N ms x) a0 m1 m2 m3 a4.
Proof.
  intros (E0 & E1 & E2 & E3 & E4) H1 H2 H3. unfold jc_step, jc_order. rewrite Rle_bool_true by lra.
  cbn [fold_left]. unfold jc_adjust, set_marker, jc_ideal, jc_fraction, five. cbn [Nat.sub Nat.add Nat.eqb].
  rewrite E0, E1, E2, E3, E4, H1, H2, H3. auto.
Qed.

Lemma five_observe ms x n0 h0 n1 h1 n2 h2 n3 h3 n4 h4 :
  five ms (n0, h0) (n1, h1) (n2, h2) (n3, h3) (n4, h4) ->
  five (jc_observe ms x) (n0, Rmin h0 x) ((if Rlt_bool x h1 then n1 + 1 else n1)%Z, h1)
    ((if Rlt_bool x h2 then n2 + 1 else n2)%Z, h2) ((if Rlt_bool x h3 then n3 + 1 else n3)%Z, h3) ((n4 + 1)%Z, Rmax h4 x).
Proof. intros (E0 & E1 & E2 & E3 & E4). unfold five, jc_observe. rewrite E0, E1, E2, E3, E4. auto. Qed.

Lemma move_stay t a b c : m_at b - 1 < t < m_at b + 1 -> jc_move t a b c = b.
Proof. intros H. unfold jc_move. rewrite !Rle_bool_false by lra. reflexivity. Qed.
Lemma move_blocked t a b c : m_at b - 1 < t -> (fst c <= fst b + 1)%Z -> jc_move t a b c = b.
Proof.
  intros H Hc. unfold jc_move. rewrite (Rle_bool_false t) by lra. destruct (Z.ltb_spec (fst b + 1) (fst c)); [lia|].
  rewrite andb_false_r. reflexivity.
Qed.
Lemma move_up t a b c v : m_at b + 1 <= t -> (fst b + 1 < fst c)%Z -> parabola3 a b c (m_at b + 1) = v ->
  snd a < v < snd c -> jc_move t a b c = ((fst b + 1)%Z, v).
Proof.
  intros H Hc Hp Hv. unfold jc_move. rewrite Rle_bool_true by lra. destruct (Z.ltb_spec (fst b + 1) (fst c)); [|lia].
  cbn [andb]. unfold jc_height. rewrite Hp. rewrite !Rlt_bool_true by lra. reflexivity.
Qed.

Lemma eight_zeros : exists m1 m2 m3 h3,
  five (jc_run (1 / 2) 5 (jc_start [0; 0; 0; 0; 1]) [0; 0; 0]) m1 m2 (3%Z, 1 / 36) m3 h3.
Proof.
  cbn [jc_run].
  assert (F0 : five (jc_start [0; 0; 0; 0; 1]) (0%Z, 0) (1%Z, 0) (2%Z, 0) (3%Z, 0) (4%Z, 1)).
  { unfold five, jc_start. cbn. auto. }
  assert (M0 : Rmin 0 0 = 0) by (unfold Rmin; destruct (Rle_dec 0 0); lra).
  assert (M1 : Rmax 1 0 = 1) by (unfold Rmax; destruct (Rle_dec 1 0); lra).
  assert (T0 : Rlt_bool 0 0 = false) by (apply Rlt_bool_false; lra).
  assert (T6 : Rlt_bool 0 (1 / 6) = true) by (apply Rlt_bool_true; lra).
  pose proof (five_observe _ 0 _ _ _ _ _ _ _ _ _ _ F0) as O1. rewrite M0, M1, T0 in O1.
  pose proof (half_step _ 6 0 _ _ _ _ _ (1%Z, 0) (2%Z, 0) (3%Z, 0) O1) as F1.
  specialize (F1 ltac:(apply move_stay; unfold m_at; cbn; lra) ltac:(apply move_stay; unfold m_at; cbn; lra) ltac:(apply move_stay; unfold m_at; cbn; lra)).
  set (ms1 := jc_step (1 / 2) 6 _ 0) in * . clearbody ms1. clear F0 O1.
  pose proof (five_observe _ 0 _ _ _ _ _ _ _ _ _ _ F1) as O2. rewrite M0, M1, T0 in O2.
  pose proof (half_step _ 7 0 _ _ _ _ _ (1%Z, 0) (2%Z, 0) (4%Z, 1 / 6) O2) as F2.
  specialize (F2 ltac:(apply move_stay; unfold m_at; cbn; lra) ltac:(apply move_blocked; [unfold m_at; cbn; lra|cbn; lia])
    ltac:(apply move_up; [unfold m_at; cbn; lra|cbn; lia|unfold parabola3, m_at; cbn [fst snd Z.add Pos.add Pos.succ]; field|cbn; lra])).
  set (ms2 := jc_step (1 / 2) 7 _ 0) in * . clearbody ms2. clear F1 O2.
  pose proof (five_observe _ 0 _ _ _ _ _ _ _ _ _ _ F2) as O3. rewrite M0, M1, T0, T6 in O3.
  pose proof (half_step _ 8 0 _ _ _ _ _ (1%Z, 0) (3%Z, 1 / 36) (5%Z, 1 / 6) O3) as F3.
  specialize (F3 ltac:(apply move_stay; unfold m_at; cbn; lra)
    ltac:(apply move_up; [unfold m_at; cbn; lra|cbn; lia|unfold parabola3, m_at; cbn [fst snd Z.add Pos.add Pos.succ]; field|cbn; lra])
    ltac:(apply move_stay; unfold m_at; cbn; lra)).
  eauto.
Qed.

Definition one_among (c M : R) (b : nat) : list R := [c; c; c; c; M] ++ repeat c b.

Lemma eight_ask : ask (p2_new (A := RA) (1 / 2)) p2_update p2_evaluate (one_among 0 1 3) = Ret (1 / 36).
Proof.
  destruct eight_zeros as (m1 & m2 & m3 & h3 & F).
  destruct (p2_new (A := RA) (1 / 2)) as [s0| |] eqn:E0.
  2,3: exfalso; pose proof new_half as N; cbv delta [one_among] in * ; congruence.
  destruct (p2_published (1 / 2) s0 (one_among 0 1 3) [0; 0; 0; 0; 1] E0) as (s & E & _ & _ & Ev).
  { cbn. lia. } { cbn. lia. } { apply Permutation.Permutation_refl. }
  { repeat constructor; lra. }
  unfold ask. cbn [bind]. etransitivity; [eapply (f_equal (fun o => bind o _) E)|]. cbn [bind].
  etransitivity; [eapply (f_equal (fun o => bind o _) (Ev ltac:(cbn; lia)))|]. cbn [bind].
  destruct F as (_ & _ & F & _). change (skipn 5 (one_among 0 1 3)) with [0; 0; 0]. rewrite F. reflexivity.
Qed.

Lemma outlier_unit b : (3 <= b)%nat -> (Z.of_nat b <= 2 ^ 31 - 5)%Z ->
  exists r, 0 < r /\ ask (p2_new (A := RA) (1 / 2)) p2_update p2_evaluate (one_among 0 1 b) = Ret r.
Proof.
  intros Hb HM. replace (one_among 0 1 b) with (one_among 0 1 3 ++ repeat 0 (b - 3)).
  2:{ unfold one_among. rewrite <- app_assoc, <- repeat_app. do 2 f_equal. lia. }
  destruct (never_back (1 / 2) 0 (1 / 36) (one_among 0 1 3) (repeat 0 (b - 3))) as (r & E & H); [cbn; lia| | |exact eight_ask|lra|eauto].
  - rewrite app_length, repeat_length. unfold one_among. cbn [length app repeat]. lia.
  - apply Forall_app. split; [repeat constructor; lra|]. apply Forall_forall. intros x Hx. apply repeat_spec in Hx. lra.
Qed.

Lemma map_rep {X Y} (f : X -> Y) x n : map f (repeat x n) = repeat (f x) n.
Proof. induction n; cbn; congruence. Qed.

Lemma outlier_moves b : (3 <= b)%nat -> (Z.of_nat b <= 2 ^ 31 - 5)%Z ->
  exists r, 0 < r /\ forall c M, c < M ->
    ask (p2_new (A := RA) (1 / 2)) p2_update p2_evaluate ([c; c; c; c; M] ++ repeat c b) = Ret (c + r * (M - c)).
Proof.
  intros Hb HM. destruct (outlier_unit b Hb HM) as (r & Hr & E). exists r. split; auto. intros c M Hc.
  pose proof (p2_affine (M - c) c ltac:(lra) (1 / 2) (one_among 0 1 b)) as P. rewrite E in P.
  assert (L : (5 <= length (one_among 0 1 b))%nat) by (unfold one_among; cbn; lia). specialize (P L).
  unfold one_among in P. rewrite map_app, map_rep in P. cbn [map omap] in P.
  replace ((M - c) * 0 + c) with c in P by ring. replace ((M - c) * 1 + c) with M in P by ring.
  unfold omap in P. cbn [bind] in P. replace ((M - c) * r + c) with (c + r * (M - c)) in P by ring. exact P.
Qed.

Lemma outlier_far b c K : (3 <= b)%nat -> (Z.of_nat b <= 2 ^ 31 - 5)%Z ->
  exists M v, ask (p2_new (A := RA) (1 / 2)) p2_update p2_evaluate ([c; c; c; c; M] ++ repeat c b) = Ret v /\ K < v.
Proof.
  intros Hb HM. destruct (outlier_moves b Hb HM) as (r & Hr & H).
  exists (c + (Rabs (K - c) + 1) / r), (c + r * (c + (Rabs (K - c) + 1) / r - c)).
  pose proof (Rle_abs (K - c)). pose proof (Rabs_pos (K - c)).
  assert (0 < (Rabs (K - c) + 1) / r) by (apply Rdiv_lt_0_compat; lra).
  split; [apply H; lra|]. replace (r * (c + (Rabs (K - c) + 1) / r - c)) with (Rabs (K - c) + 1) by (field; lra). lra.
Qed.

Lemma outlier_double : exists s s' v, p2_stream Bhalf ([0; 0; 0; 0; 1000000] ++ repeat 0 100)%Z = Ret s /\
  p2_evaluate s = Ret (s', v) /\ ltb (a := B64) (Bz 300) v = true.
Proof.
  assert (H : ok (p2_stream Bhalf ([0; 0; 0; 0; 1000000] ++ repeat 0 100)%Z) (fun s => ok (p2_evaluate s) (fun '(_, v) => ltb (a := B64) (Bz 300) v)) = true)
    by (vm_compute; reflexivity).
  apply ok_true in H as (s & E & H). apply ok_true in H as ([s' v] & Ev & Hv). exists s, s', v. auto.
Qed.

(** Data satisfying the hypotheses of [never_back]. *)
Lemma never_back_data : exists xs v, (6 <= length xs)%nat /\ Forall (Rle 0) xs /\
  ask (p2_new (A := RA) (1 / 2)) p2_update p2_evaluate xs = Ret v /\ 0 < v.
Proof.
  exists (one_among 0 1 3), (1 / 36). split; [cbn; lia|]. split; [repeat constructor; lra|]. split; [exact eight_ask|lra].
Qed.
Lemma never_back_below_data : exists xs v, (6 <= length xs)%nat /\ Forall (fun x => x <= 0) xs /\
  ask (p2_new (A := RA) (1 / 2)) p2_update p2_evaluate xs = Ret v /\ v < 0.
Proof.
  (* six times -1, with q = 1/2 *)
  exists (repeat (-1) 6), (-1). split; [cbn; lia|]. split; [repeat constructor; lra|]. split; [|lra].
  destruct (p2_new (A := RA) (1 / 2)) as [s0| |] eqn:E0; [|pose proof new_half; congruence..]. rewrite <- E0.
  destruct (start_run (1 / 2) s0 (repeat (-1) 6) (-1) (-1) E0) as (s & g0 & g1 & g2 & g3 & g4 & m1 & m2 & m3 & E & S & B & H5);
    [cbn; lia|cbn; lia|repeat constructor; lra|].
  rewrite (ask_at _ _ _ _ _ _ _ _ _ _ E0 E S) by (rewrite H5; cbn; lia). f_equal. destruct B as ((? & ? & ? & ?) & ? & ?). lra.
Qed.
