(** The P2 markers stay close to their ideal positions, and on growing
    arithmetic progressions they are exact order statistics. Proved about the
    published algorithm (P2Jain.v) and carried over by [p2_published]. *)

From Coq Require Import List Reals ZArith Bool Lia Lra Permutation Sorting.Sorted.
From Flocq Require Import Core.Core.
From Verif Require Import Outcome Arith Spec P2 P2Spec ListFacts UtilsFacts P2Facts P2Float P2Jain P2JainFacts P2TrackSpec.
Import ListNotations.
Open Scope R_scope.

(** ** Positions *)

Definition pmove (ideal : R) (na nb nc : Z) : Z :=
  if (Rle_bool (IZR nb + 1) ideal && Z.ltb (nb + 1) nc)%bool then (nb + 1)%Z
  else if (Rle_bool ideal (IZR nb - 1) && Z.ltb na (nb - 1))%bool then (nb - 1)%Z
  else nb.

Lemma move_pos ideal a b c : fst (jc_move ideal a b c) = pmove ideal (fst a) (fst b) (fst c).
Proof. unfold jc_move, pmove, m_at. destruct (_ && _)%bool; auto. destruct (_ && _)%bool; auto. Qed.

Lemma pmove_between ideal na nb nc : (na < nb < nc)%Z -> (na < pmove ideal na nb nc < nc)%Z.
Proof.
  intros H. unfold pmove. destruct (Rle_bool (IZR nb + 1) ideal); destruct (Z.ltb_spec (nb + 1) nc); cbn [andb]; try lia;
    destruct (Rle_bool ideal (IZR nb - 1)); destruct (Z.ltb_spec na (nb - 1)); cbn [andb]; lia.
Qed.

Lemma pmove_up ideal idealc na nb nc U : (na < nb < nc)%Z -> ideal <= idealc -> 1 <= U ->
  ideal - IZR nb <= U + 1 -> idealc - IZR nc <= U - 1 -> ideal - IZR (pmove ideal na nb nc) <= U.
Proof.
  intros H L HU D Dc. unfold pmove. destruct (Rle_bool_spec (IZR nb + 1) ideal) as [A|A]; cbn [andb].
  - destruct (Z.ltb_spec (nb + 1) nc).
    + rewrite plus_IZR. lra.
    + assert (nc = nb + 1)%Z by lia. subst nc. rewrite plus_IZR in Dc.
      destruct (Rle_bool_spec ideal (IZR nb - 1)); [lra|]. cbn [andb]. lra.
  - destruct (Rle_bool_spec ideal (IZR nb - 1)) as [B|B]; cbn [andb]; [|lra].
    destruct (Z.ltb_spec na (nb - 1)); [rewrite minus_IZR|]; lra.
Qed.

Lemma pmove_dn ideal ideala na nb nc U : (na < nb < nc)%Z -> ideala <= ideal -> 1 <= U ->
  IZR nb - ideal <= U + 1 -> IZR na - ideala <= U - 1 -> IZR (pmove ideal na nb nc) - ideal <= U.
Proof.
  intros H L HU D Dc. unfold pmove. destruct (Rle_bool_spec (IZR nb + 1) ideal) as [A|A]; cbn [andb].
  - destruct (Z.ltb_spec (nb + 1) nc).
    + rewrite plus_IZR. lra.
    + destruct (Rle_bool_spec ideal (IZR nb - 1)); [lra|]. cbn [andb]. lra.
  - destruct (Rle_bool_spec ideal (IZR nb - 1)) as [B|B]; cbn [andb]; [|lra].
    destruct (Z.ltb_spec na (nb - 1)).
    + rewrite minus_IZR. lra.
    + assert (na = nb - 1)%Z by lia. subst na. rewrite minus_IZR in Dc. lra.
Qed.

(** ** One observation *)

Lemma set_same ms i m : set_marker ms i m i = m.
Proof. unfold set_marker. now rewrite Nat.eqb_refl. Qed.
Lemma set_other ms i j m : j <> i -> set_marker ms i m j = ms j.
Proof. intros H. unfold set_marker. destruct (Nat.eqb_spec j i); congruence. Qed.

Lemma move_between ideal a b c : (fst a < fst b < fst c)%Z -> snd a <= snd b <= snd c ->
  snd a <= snd (jc_move ideal a b c) <= snd c.
Proof.
  destruct a as [na ha], b as [nb hb], c as [nc hc]. cbn [fst snd]. intros Hn Hh.
  pose proof (core_move ideal ha hb hc na nb nc Hn) as E. cbv zeta in E. rewrite <- E. cbn [snd].
  now apply core_between_RA.
Qed.

(** Five markers in order. *)
Definition ordered (ms : markers) : Prop :=
  (fst (ms 0%nat) < fst (ms 1%nat) < fst (ms 2%nat))%Z /\ (fst (ms 2%nat) < fst (ms 3%nat) < fst (ms 4%nat))%Z /\
  snd (ms 0%nat) <= snd (ms 1%nat) <= snd (ms 2%nat) /\ snd (ms 2%nat) <= snd (ms 3%nat) <= snd (ms 4%nat).

Lemma adjust_spec q N ms i : ordered ms -> (1 <= i <= 3)%nat ->
  let ms' := jc_adjust q N ms i in
  ordered ms' /\ (forall j, j <> i -> ms' j = ms j) /\
  fst (ms' i) = pmove (jc_ideal q N i) (fst (ms (i - 1)%nat)) (fst (ms i)) (fst (ms (i + 1)%nat)).
Proof.
  intros (O1 & O2 & O3 & O4) Hi. cbv zeta. unfold jc_adjust.
  assert (Hn : (fst (ms (i - 1)%nat) < fst (ms i) < fst (ms (i + 1)%nat))%Z) by (destruct i as [|[|[|[|]]]]; cbn; lia).
  assert (Hh : snd (ms (i - 1)%nat) <= snd (ms i) <= snd (ms (i + 1)%nat)) by (destruct i as [|[|[|[|]]]]; cbn; (lia || lra)).
  pose proof (pmove_between (jc_ideal q N i) _ _ _ Hn) as Pn. rewrite <- move_pos in Pn.
  pose proof (move_between (jc_ideal q N i) _ _ _ Hn Hh) as Ph.
  rewrite set_same, move_pos. set (r := jc_move _ _ _ _) in * . split; [|split; [intros j Hj; now apply set_other|reflexivity]].
  clearbody r. unfold ordered, set_marker.
  destruct i as [|[|[|[|]]]]; try lia; cbn [Nat.eqb Nat.sub Nat.add] in * ; repeat split; (lia || lra).
Qed.

(** The markers of the middle move by at most one, towards their ideals, unless
    they are blocked by a neighbour. *)
Definition near (q : R) (N : nat) (ms : markers) : Prop :=
  let d i := jc_ideal q N i - m_at (ms i) in
  -1 <= d 1%nat <= 5 /\ -3 <= d 2%nat <= 3 /\ -5 <= d 3%nat <= 1.

Definition tracking (q : R) (N : nat) (ms : markers) : Prop :=
  ordered ms /\ fst (ms 0%nat) = 0%Z /\ fst (ms 4%nat) = (Z.of_nat N - 1)%Z /\ near q N ms.

Lemma observe_spec q N ms x : tracking q N ms ->
  let ms' := jc_observe ms x in
  ordered ms' /\ fst (ms' 0%nat) = 0%Z /\ fst (ms' 4%nat) = (Z.of_nat (S N) - 1)%Z /\
  (forall i, (1 <= i <= 3)%nat -> fst (ms i) <= fst (ms' i) <= fst (ms i) + 1)%Z.
Proof.
  intros ((O1 & O2 & O3 & O4) & E0 & E4 & _). cbv zeta. unfold jc_observe, ordered.
  destruct (ms 0%nat) as [n0 h0], (ms 1%nat) as [n1 h1] eqn:M1, (ms 2%nat) as [n2 h2] eqn:M2, (ms 3%nat) as [n3 h3] eqn:M3, (ms 4%nat) as [n4 h4].
  cbn [fst snd] in * .
  pose proof (Rmin_l h0 x). pose proof (Rmax_l h4 x).
  split; [|split; [lia|split; [lia|]]].
  - split; [|split; [|split; lra]]; destruct (Rlt_bool_spec x h1), (Rlt_bool_spec x h2), (Rlt_bool_spec x h3); try lra; lia.
  - intros i Hi. destruct i as [|[|[|[|]]]]; try lia; rewrite ?M1, ?M2, ?M3; cbn [fst]; destruct (Rlt_bool x _); lia.
Qed.

Lemma ideal_step q N i : 0 < q < 1 -> (1 <= N)%nat -> (1 <= i <= 3)%nat -> jc_ideal q N i < jc_ideal q (S N) i < jc_ideal q N i + 1.
Proof.
  intros Hq HN Hi. unfold jc_ideal. replace (S N - 1)%nat with (S (N - 1)) by lia. rewrite S_INR.
  assert (0 < jc_fraction q i < 1) by (destruct i as [|[|[|[|]]]]; try lia; cbn [jc_fraction]; lra). nra.
Qed.

Lemma ideal_order q N : 0 < q < 1 ->
  0 <= jc_ideal q N 1 <= jc_ideal q N 2 /\ jc_ideal q N 2 <= jc_ideal q N 3 <= INR (N - 1).
Proof. intros Hq. unfold jc_ideal. cbn [jc_fraction]. pose proof (pos_INR (N - 1)). nra. Qed.

Lemma adjust_all q N ms : 0 < q < 1 -> (1 <= N)%nat -> ordered ms -> fst (ms 0%nat) = 0%Z -> fst (ms 4%nat) = (Z.of_nat N - 1)%Z ->
  (let d i := jc_ideal q N i - m_at (ms i) in -2 <= d 1%nat <= 6 /\ -4 <= d 2%nat <= 4 /\ -6 <= d 3%nat <= 2) ->
  tracking q N (fold_left (jc_adjust q N) (jc_order q) ms).
Proof.
  intros Hq HN O E0 E4 D. cbv zeta in D. unfold m_at in D. pose proof (ideal_order q N Hq) as ((I0 & I1) & I2 & I3).
  assert (I4 : jc_ideal q N 3 <= IZR (Z.of_nat N - 1)) by (rewrite minus_IZR, <- INR_IZR_INZ; rewrite minus_INR in I3 by lia; exact I3).
  unfold jc_order. destruct (Rle_bool (1 / 2) q); cbn [fold_left].
  - destruct (adjust_spec q N ms 1 O) as (O1 & F1 & P1); [lia|]. set (a := jc_adjust q N ms 1) in * . clearbody a.
    destruct (adjust_spec q N a 2 O1) as (O2 & F2 & P2); [lia|]. set (b := jc_adjust q N a 2) in * . clearbody b.
    destruct (adjust_spec q N b 3 O2) as (O3 & F3 & P3); [lia|]. set (c := jc_adjust q N b 3) in * . clearbody c.
    cbn [Nat.sub Nat.add] in P1, P2, P3. unfold tracking, near, m_at.
    assert (C0 : c 0%nat = ms 0%nat) by (rewrite F3, F2, F1 by lia; auto).
    assert (C4 : c 4%nat = ms 4%nat) by (rewrite F3, F2, F1 by lia; auto).
    assert (C1 : c 1%nat = a 1%nat) by (rewrite F3, F2 by lia; auto).
    assert (C2 : c 2%nat = b 2%nat) by (rewrite F3 by lia; auto).
    rewrite C0, C4, C1, C2. split; [exact O3|]. split; [exact E0|]. split; [exact E4|].
    rewrite P1. rewrite (F1 2%nat), (F1 3%nat) in P2 by lia. rewrite (F2 3%nat), (F1 3%nat), (F2 4%nat), (F1 4%nat) in P3 by lia.
    destruct O as (A1 & A2 & _). destruct O1 as (B1 & B2 & _). rewrite (F1 0%nat), (F1 2%nat), (F1 3%nat), (F1 4%nat) in * by lia.
    destruct O2 as (G1 & G2 & _). rewrite (F2 0%nat), (F2 1%nat), (F2 3%nat), (F2 4%nat), ?(F1 0%nat), ?(F1 3%nat), ?(F1 4%nat) in * by lia.
    pose proof (pmove_up (jc_ideal q N 1) (jc_ideal q N 2) (fst (ms 0%nat)) (fst (ms 1%nat)) (fst (ms 2%nat)) 5 ltac:(lia) ltac:(lra) ltac:(lra) ltac:(lra) ltac:(lra)) as U1.
    pose proof (pmove_dn (jc_ideal q N 1) 0 (fst (ms 0%nat)) (fst (ms 1%nat)) (fst (ms 2%nat)) 1 ltac:(lia) ltac:(lra) ltac:(lra) ltac:(lra) ltac:(rewrite E0; lra)) as L1.
    rewrite <- P1 in U1, L1 |- * .
    pose proof (pmove_up (jc_ideal q N 2) (jc_ideal q N 3) (fst (a 1%nat)) (fst (ms 2%nat)) (fst (ms 3%nat)) 3 ltac:(lia) ltac:(lra) ltac:(lra) ltac:(lra) ltac:(lra)) as U2.
    pose proof (pmove_dn (jc_ideal q N 2) (jc_ideal q N 1) (fst (a 1%nat)) (fst (ms 2%nat)) (fst (ms 3%nat)) 3 ltac:(lia) ltac:(lra) ltac:(lra) ltac:(lra) ltac:(lra)) as L2.
    rewrite <- P2 in U2, L2.
    pose proof (pmove_up (jc_ideal q N 3) (IZR (Z.of_nat N - 1)) (fst (b 2%nat)) (fst (ms 3%nat)) (fst (ms 4%nat)) 1 ltac:(lia) ltac:(lra) ltac:(lra) ltac:(lra) ltac:(rewrite E4; lra)) as U3.
    pose proof (pmove_dn (jc_ideal q N 3) (jc_ideal q N 2) (fst (b 2%nat)) (fst (ms 3%nat)) (fst (ms 4%nat)) 5 ltac:(lia) ltac:(lra) ltac:(lra) ltac:(lra) ltac:(lra)) as L3.
    rewrite <- P3 in U3, L3. lra.
  - destruct (adjust_spec q N ms 3 O) as (O1 & F1 & P1); [lia|]. set (a := jc_adjust q N ms 3) in * . clearbody a.
    destruct (adjust_spec q N a 2 O1) as (O2 & F2 & P2); [lia|]. set (b := jc_adjust q N a 2) in * . clearbody b.
    destruct (adjust_spec q N b 1 O2) as (O3 & F3 & P3); [lia|]. set (c := jc_adjust q N b 1) in * . clearbody c.
    cbn [Nat.sub Nat.add] in P1, P2, P3. unfold tracking, near, m_at.
    assert (C0 : c 0%nat = ms 0%nat) by (rewrite F3, F2, F1 by lia; auto).
    assert (C4 : c 4%nat = ms 4%nat) by (rewrite F3, F2, F1 by lia; auto).
    assert (C3 : c 3%nat = a 3%nat) by (rewrite F3, F2 by lia; auto).
    assert (C2 : c 2%nat = b 2%nat) by (rewrite F3 by lia; auto).
    rewrite C0, C4, C3, C2. split; [exact O3|]. split; [exact E0|]. split; [exact E4|].
    rewrite (F1 2%nat), (F1 1%nat) in P2 by lia. rewrite (F2 1%nat), (F1 1%nat), (F2 0%nat), (F1 0%nat) in P3 by lia.
    destruct O as (A1 & A2 & _). destruct O1 as (B1 & B2 & _). rewrite (F1 0%nat), (F1 2%nat), (F1 1%nat), (F1 4%nat) in * by lia.
    destruct O2 as (G1 & G2 & _). rewrite (F2 0%nat), (F2 1%nat), (F2 3%nat), (F2 4%nat), ?(F1 0%nat), ?(F1 1%nat), ?(F1 4%nat) in * by lia.
    pose proof (pmove_up (jc_ideal q N 3) (IZR (Z.of_nat N - 1)) (fst (ms 2%nat)) (fst (ms 3%nat)) (fst (ms 4%nat)) 1 ltac:(lia) ltac:(lra) ltac:(lra) ltac:(lra) ltac:(rewrite E4; lra)) as U1.
    pose proof (pmove_dn (jc_ideal q N 3) (jc_ideal q N 2) (fst (ms 2%nat)) (fst (ms 3%nat)) (fst (ms 4%nat)) 5 ltac:(lia) ltac:(lra) ltac:(lra) ltac:(lra) ltac:(lra)) as L1.
    rewrite <- P1 in U1, L1.
    pose proof (pmove_up (jc_ideal q N 2) (jc_ideal q N 3) (fst (ms 1%nat)) (fst (ms 2%nat)) (fst (a 3%nat)) 3 ltac:(lia) ltac:(lra) ltac:(lra) ltac:(lra) ltac:(lra)) as U2.
    pose proof (pmove_dn (jc_ideal q N 2) (jc_ideal q N 1) (fst (ms 1%nat)) (fst (ms 2%nat)) (fst (a 3%nat)) 3 ltac:(lia) ltac:(lra) ltac:(lra) ltac:(lra) ltac:(lra)) as L2.
    rewrite <- P2 in U2, L2.
    pose proof (pmove_up (jc_ideal q N 1) (jc_ideal q N 2) (fst (ms 0%nat)) (fst (ms 1%nat)) (fst (b 2%nat)) 5 ltac:(lia) ltac:(lra) ltac:(lra) ltac:(lra) ltac:(lra)) as U3.
    pose proof (pmove_dn (jc_ideal q N 1) 0 (fst (ms 0%nat)) (fst (ms 1%nat)) (fst (b 2%nat)) 1 ltac:(lia) ltac:(lra) ltac:(lra) ltac:(lra) ltac:(rewrite E0; lra)) as L3.
    rewrite <- P3 in U3, L3. lra.
Qed.

Lemma step_tracking q N ms x : 0 < q < 1 -> (5 <= N)%nat -> tracking q N ms -> tracking q (S N) (jc_step q (S N) ms x).
Proof.
  intros Hq HN T. pose proof (observe_spec q N ms x T) as S. cbv zeta in S. destruct S as (O & E0 & E4 & B).
  unfold jc_step. apply adjust_all; auto; [lia|].
  destruct T as (_ & _ & _ & D). unfold near in D. cbv zeta in D |- * . unfold m_at in D |- * .
  pose proof (ideal_step q N 1 Hq ltac:(lia) ltac:(lia)). pose proof (ideal_step q N 2 Hq ltac:(lia) ltac:(lia)).
  pose proof (ideal_step q N 3 Hq ltac:(lia) ltac:(lia)).
  assert (B' : forall i, (1 <= i <= 3)%nat -> IZR (fst (ms i)) <= IZR (fst (jc_observe ms x i)) <= IZR (fst (ms i)) + 1).
  { intros i Hi. specialize (B i Hi). rewrite <- plus_IZR. split; apply IZR_le; lia. }
  pose proof (B' 1%nat ltac:(lia)). pose proof (B' 2%nat ltac:(lia)). pose proof (B' 3%nat ltac:(lia)). lra.
Qed.

Lemma run_tracking q N ms xs : 0 < q < 1 -> (5 <= N)%nat -> tracking q N ms -> tracking q (N + length xs) (jc_run q N ms xs).
Proof.
  intros Hq. revert N ms. induction xs as [|x xs IH]; intros N ms HN T; cbn [jc_run length].
  - now rewrite Nat.add_0_r.
  - replace (N + S (length xs))%nat with (S N + length xs)%nat by lia. apply IH; [lia|]. now apply step_tracking.
Qed.

Lemma start_tracking q five : 0 < q < 1 -> length five = 5%nat -> StronglySorted Rle five -> tracking q 5 (jc_start five).
Proof.
  intros Hq L S. destruct (list5 five L) as (a & b & c & d & e & ->).
  apply StronglySorted_inv in S as [S Ha]. apply StronglySorted_inv in S as [S Hb].
  apply StronglySorted_inv in S as [S Hc]. apply StronglySorted_inv in S as [S Hd].
  rewrite Forall_forall in Ha, Hb, Hc, Hd. pose proof (Ha b ltac:(cbn; auto)). pose proof (Hb c ltac:(cbn; auto)).
  pose proof (Hc d ltac:(cbn; auto)). pose proof (Hd e ltac:(cbn; auto)).
  unfold tracking, ordered, near, jc_start, m_at, jc_ideal. cbn [fst snd nth jc_fraction].
  change (INR (5 - 1)) with (INR 4). replace (INR 4) with 4 by (cbn; lra).
  change (Z.of_nat 1) with 1%Z. change (Z.of_nat 2) with 2%Z. change (Z.of_nat 3) with 3%Z. change (Z.of_nat 4) with 4%Z. change (Z.of_nat 0) with 0%Z.
  repeat split; (lia || lra).
Qed.

Lemma new_quantile q s0 : p2_new (A := RA) q = Ret s0 -> 0 < q < 1.
Proof.
  unfold p2_new, zero. cbn [leb of_Z RA]. destruct (Rleb q 0) eqn:A; [discriminate|]. destruct (Rleb 1 q) eqn:B; [discriminate|].
  intros _. apply Rleb_false in A, B. lra.
Qed.

Lemma sorted_five (xs : list R) : (5 <= length xs)%nat ->
  exists five, Permutation five (firstn 5 xs) /\ StronglySorted Rle five /\ length five = 5%nat.
Proof.
  intros H. exists (sort_list (A := RA) (firstn 5 xs)). split; [apply sort_list_perm|]. split; [apply sortedR_sort|].
  rewrite (Permutation_length (sort_list_perm (A := RA) _)), firstn_length. lia.
Qed.

Lemma markers_track (q : R) s0 (xs : list R) : p2_new (A := RA) q = Ret s0 -> (5 <= length xs)%nat -> (Z.of_nat (length xs) <= 2 ^ 31)%Z ->
  exists s n1 n2 n3, update_all p2_update s0 xs = Ret s /\
    p_pos s = [0; n1; n2; n3; Z.of_nat (length xs) - 1]%Z /\
    let ideal f := f * (INR (length xs) - 1) in
    -5 <= IZR n1 - ideal (q / 2) <= 1 /\ -3 <= IZR n2 - ideal q <= 3 /\ -1 <= IZR n3 - ideal ((1 + q) / 2) <= 5.
Proof.
  intros E0 HL HM. pose proof (new_quantile q s0 E0) as Hq. destruct (sorted_five xs HL) as (five & P & S & L5).
  destruct (p2_published q s0 xs five E0 HL HM P S) as (s & E & Ep & _).
  pose proof (run_tracking q 5 _ (skipn 5 xs) Hq ltac:(lia) (start_tracking q five Hq L5 S)) as T.
  replace (5 + length (skipn 5 xs))%nat with (length xs) in T by (rewrite skipn_length; lia).
  set (ms := jc_run q 5 (jc_start five) (skipn 5 xs)) in * . clearbody ms.
  exists s, (fst (ms 1%nat)), (fst (ms 2%nat)), (fst (ms 3%nat)). split; [exact E|].
  destruct T as (_ & T0 & T4 & D). split; [rewrite Ep; cbn [map]; rewrite <- T0, <- T4; reflexivity|].
  unfold near, jc_ideal, m_at in D. cbv zeta in D |- * . cbn [jc_fraction] in D. rewrite minus_INR in D by lia. change (INR 1) with 1 in D. lra.
Qed.

(** ** Ramps *)

Definition collinear (b lo : R) (ms : markers) : Prop := forall i, (i <= 4)%nat -> snd (ms i) = lo + b * m_at (ms i).

Lemma move_collinear b lo ideal x y z : (fst x < fst y < fst z)%Z ->
  snd x = lo + b * m_at x -> snd y = lo + b * m_at y -> snd z = lo + b * m_at z ->
  snd (jc_move ideal x y z) = lo + b * m_at (jc_move ideal x y z).
Proof.
  intros H Hx Hy Hz. assert (m_at x < m_at y) by (apply IZR_lt; lia). assert (m_at y < m_at z) by (apply IZR_lt; lia).
  assert (P : forall t, parabola3 x y z t = lo + b * t).
  { intros t. unfold parabola3. rewrite Hx, Hy, Hz. field. lra. }
  assert (L1 : forall t, line2 y z t = lo + b * t) by (intros t; unfold line2; rewrite Hy, Hz; field; lra).
  assert (L2 : forall t, line2 x y t = lo + b * t) by (intros t; unfold line2; rewrite Hx, Hy; field; lra).
  unfold jc_move. destruct (_ && _)%bool; [|destruct (_ && _)%bool; [|exact Hy]];
    unfold jc_height; rewrite P, ?L1, ?L2; destruct (_ && _)%bool; unfold m_at; cbn [fst snd]; rewrite ?plus_IZR, ?minus_IZR; reflexivity.
Qed.

Lemma adjust_collinear b lo q N ms i : ordered ms -> (1 <= i <= 3)%nat -> collinear b lo ms -> collinear b lo (jc_adjust q N ms i).
Proof.
  intros (O1 & O2 & _) Hi C j Hj. unfold jc_adjust. destruct (Nat.eq_dec j i) as [->|J].
  - rewrite set_same. apply move_collinear; try (apply C; lia). destruct i as [|[|[|[|]]]]; cbn; lia.
  - rewrite set_other by auto. now apply C.
Qed.

Lemma adjusts_collinear b lo q N l ms : ordered ms -> Forall (fun i => 1 <= i <= 3)%nat l -> collinear b lo ms ->
  collinear b lo (fold_left (jc_adjust q N) l ms).
Proof.
  intros O F. revert ms O. induction F as [|i l Hi F IH]; intros ms O C; [exact C|]. cbn [fold_left].
  apply IH; [now apply (adjust_spec q N ms i O)|now apply adjust_collinear].
Qed.

Lemma order_range q : Forall (fun i => 1 <= i <= 3)%nat (jc_order q).
Proof. unfold jc_order. destruct (Rle_bool _ _); repeat constructor. Qed.

Lemma five_cases (P : nat -> Prop) : P 0%nat -> P 1%nat -> P 2%nat -> P 3%nat -> P 4%nat -> forall i, (i <= 4)%nat -> P i.
Proof. intros. destruct i as [|[|[|[|[|]]]]]; auto; lia. Qed.

Lemma observe_up b lo q N ms : 0 < b -> tracking q N ms -> collinear b lo ms -> collinear b lo (jc_observe ms (lo + b * INR N)).
Proof.
  intros Hb (O & E0 & E4 & _) C.
  assert (M : forall i, (i <= 4)%nat -> m_at (ms i) <= INR N - 1).
  { intros i Hi. unfold m_at. rewrite INR_IZR_INZ, <- minus_IZR, <- E4. apply IZR_le. destruct O as (O1 & O2 & _). revert i Hi. apply five_cases; lia. }
  assert (G : forall i, (i <= 4)%nat -> Rlt_bool (lo + b * INR N) (snd (ms i)) = false).
  { intros i Hi. apply Rlt_bool_false. rewrite (C i Hi). specialize (M i Hi). nra. }
  assert (M4 : m_at (ms 4%nat) = INR N - 1) by (unfold m_at; rewrite E4, minus_IZR, <- INR_IZR_INZ; reflexivity).
  pose proof (G 0%nat ltac:(lia)) as G0. pose proof (C 0%nat ltac:(lia)) as C0.
  unfold collinear. apply five_cases; unfold jc_observe.
  - destruct (ms 0%nat) as [n h] eqn:E. cbn [fst snd] in * . unfold m_at in * . cbn [fst] in * . subst n.
    rewrite Rmin_left; [exact C0|]. destruct (Rlt_bool_spec (lo + b * INR N) h); [discriminate|auto].
  - pose proof (G 1%nat ltac:(lia)) as G1. pose proof (C 1%nat ltac:(lia)) as C1. destruct (ms 1%nat). cbn [snd] in G1. rewrite G1. exact C1.
  - pose proof (G 2%nat ltac:(lia)) as G1. pose proof (C 2%nat ltac:(lia)) as C1. destruct (ms 2%nat). cbn [snd] in G1. rewrite G1. exact C1.
  - pose proof (G 3%nat ltac:(lia)) as G1. pose proof (C 3%nat ltac:(lia)) as C1. destruct (ms 3%nat). cbn [snd] in G1. rewrite G1. exact C1.
  - pose proof (C 4%nat ltac:(lia)) as C4. destruct (ms 4%nat) as [n h]. unfold m_at in * . cbn [fst snd] in * .
    rewrite plus_IZR, M4. rewrite Rmax_right; [f_equal; f_equal; lra|]. rewrite C4, M4. nra.
Qed.

Lemma observe_down b lo q N ms : 0 < b -> tracking q N ms -> collinear b lo ms -> collinear b (lo - b) (jc_observe ms (lo - b)).
Proof.
  intros Hb (O & E0 & E4 & _) C.
  assert (M : forall i, (i <= 4)%nat -> 0 <= m_at (ms i)).
  { intros i Hi. unfold m_at. rewrite <- E0. apply IZR_le. destruct O as (O1 & O2 & _). revert i Hi. apply five_cases; lia. }
  assert (G : forall i, (i <= 4)%nat -> lo - b < snd (ms i)).
  { intros i Hi. rewrite (C i Hi). specialize (M i Hi). nra. }
  assert (K : forall i n h, (i <= 4)%nat -> ms i = (n, h) -> Rlt_bool (lo - b) h = true /\ h = lo - b + b * IZR (n + 1) /\ lo - b < h).
  { intros i n h Hi E. pose proof (G i Hi) as Gi. pose proof (C i Hi) as Ci. rewrite E in Gi, Ci. unfold m_at in Ci. cbn [fst snd] in * .
    rewrite plus_IZR. split; [now apply Rlt_bool_true|]. split; [lra|auto]. }
  unfold collinear. apply five_cases; unfold jc_observe, m_at.
  - destruct (ms 0%nat) as [n h] eqn:E. destruct (K 0%nat n h ltac:(lia) E) as (_ & _ & L). cbn [fst snd] in * . subst n.
    rewrite Rmin_right by lra. lra.
  - destruct (ms 1%nat) as [n h] eqn:E. destruct (K 1%nat n h ltac:(lia) E) as (-> & -> & _). cbn [fst snd]. reflexivity.
  - destruct (ms 2%nat) as [n h] eqn:E. destruct (K 2%nat n h ltac:(lia) E) as (-> & -> & _). cbn [fst snd]. reflexivity.
  - destruct (ms 3%nat) as [n h] eqn:E. destruct (K 3%nat n h ltac:(lia) E) as (-> & -> & _). cbn [fst snd]. reflexivity.
  - destruct (ms 4%nat) as [n h] eqn:E. destruct (K 4%nat n h ltac:(lia) E) as (_ & -> & L). cbn [fst snd]. apply Rmax_left. lra.
Qed.

Lemma run_snoc q N ms xs x : jc_run q N ms (xs ++ [x]) = jc_step q (S (N + length xs)) (jc_run q N ms xs) x.
Proof.
  revert N ms. induction xs as [|y xs IH]; intros N ms; cbn [app jc_run length]; [now rewrite Nat.add_0_r|].
  rewrite IH. f_equal. lia.
Qed.

Lemma step_collinear b lo q N ms x : 0 < q < 1 -> tracking q N ms -> collinear b lo (jc_observe ms x) -> collinear b lo (jc_step q (S N) ms x).
Proof.
  intros Hq T C. unfold jc_step. apply adjusts_collinear; [|apply order_range|exact C].
  now apply (observe_spec q N ms x T).
Qed.

Definition five_of (b lo : R) : list R := [lo; lo + b; lo + 2 * b; lo + 3 * b; lo + 4 * b].

Lemma five_sorted b lo : 0 < b -> StronglySorted Rle (five_of b lo).
Proof. intros. unfold five_of. repeat constructor; lra. Qed.

Lemma ramp_run b q : 0 < b -> 0 < q < 1 -> forall lo xs, ramp b lo xs ->
  exists lo0, (5 <= length xs)%nat /\ Permutation (five_of b lo0) (firstn 5 xs) /\
    let ms := jc_run q 5 (jc_start (five_of b lo0)) (skipn 5 xs) in
    tracking q (length xs) ms /\ collinear b lo ms.
Proof.
  intros Hb Hq lo xs R0. cbv zeta. induction R0 as [lo xs P|lo xs R0 IH|lo xs R0 IH].
  - exists lo. pose proof (Permutation_length P) as L. cbn [length] in L. rewrite L. split; [lia|].
    rewrite firstn_all2, skipn_all2 by lia. split; [now symmetry|]. cbn [jc_run].
    split; [apply start_tracking; [auto|reflexivity|now apply five_sorted]|].
    unfold collinear. apply five_cases; unfold jc_start, five_of, m_at; cbn [nth fst snd Z.of_nat Pos.of_succ_nat Pos.succ]; lra.
  - destruct IH as (lo0 & L & P & T & C). exists lo0. rewrite app_length. cbn [length]. split; [lia|].
    rewrite firstn_app, skipn_app. replace (5 - length xs)%nat with 0%nat by lia. rewrite firstn_O, skipn_O, app_nil_r. split; [exact P|].
    rewrite run_snoc. replace (5 + length (skipn 5 xs))%nat with (length xs) by (rewrite skipn_length; lia).
    replace (length xs + 1)%nat with (S (length xs)) by lia. split; [now apply step_tracking|].
    apply step_collinear; auto. eapply observe_up; eauto.
  - destruct IH as (lo0 & L & P & T & C). exists lo0. rewrite app_length. cbn [length]. split; [lia|].
    rewrite firstn_app, skipn_app. replace (5 - length xs)%nat with 0%nat by lia. rewrite firstn_O, skipn_O, app_nil_r. split; [exact P|].
    rewrite run_snoc. replace (5 + length (skipn 5 xs))%nat with (length xs) by (rewrite skipn_length; lia).
    replace (length xs + 1)%nat with (S (length xs)) by lia. split; [now apply step_tracking|].
    apply step_collinear; auto. eapply observe_down; eauto.
Qed.

(** A ramp is an arithmetic progression in some order. *)
Definition prog (b lo : R) (n : nat) : list R := map (fun i => lo + b * INR i) (seq 0 n).

Lemma prog_perm b lo xs : ramp b lo xs -> Permutation xs (prog b lo (length xs)).
Proof.
  induction 1 as [lo xs P|lo xs R0 IH|lo xs R0 IH].
  - rewrite (Permutation_length P). etransitivity; [exact P|]. unfold prog. cbn [length seq map].
    replace (lo + b * INR 0) with lo by (cbn; lra). replace (lo + b * INR 1) with (lo + b) by (cbn; lra).
    replace (lo + b * INR 2) with (lo + 2 * b) by (cbn; lra). replace (lo + b * INR 3) with (lo + 3 * b) by (cbn; lra).
    replace (lo + b * INR 4) with (lo + 4 * b) by (cbn; lra). reflexivity.
  - rewrite app_length, Nat.add_comm. cbn [length Nat.add]. unfold prog in * . rewrite seq_S, map_app. cbn [map Nat.add]. now apply Permutation_app_tail.
  - rewrite app_length, Nat.add_comm. cbn [length Nat.add]. unfold prog in * . cbn [seq map]. rewrite <- seq_shift, map_map.
    etransitivity; [symmetry; apply Permutation_cons_append|]. replace (lo - b + b * INR 0) with (lo - b) by (cbn; lra).
    apply perm_skip. erewrite map_ext; [exact IH|]. intros i. cbn beta. rewrite S_INR. lra.
Qed.

Lemma prog_sorted b lo n : 0 < b -> StronglySorted Rle (prog b lo n).
Proof.
  intros Hb. unfold prog. generalize 0%nat. induction n as [|n IH]; intros k; cbn [seq map]; constructor; auto.
  apply Forall_forall. intros y Hy. apply in_map_iff in Hy as (i & <- & Hi). apply in_seq in Hi.
  assert (INR k <= INR i) by (apply le_INR; lia). nra.
Qed.

Lemma ramp_estimate (q : R) s0 (b lo : R) (xs : list R) : p2_new (A := RA) q = Ret s0 -> 0 < b -> ramp b lo xs ->
  (5 < length xs)%nat -> (Z.of_nat (length xs) <= 2 ^ 31)%Z ->
  exists s k, update_all p2_update s0 xs = Ret s /\ p2_evaluate s = Ret (s, lo + b * INR k) /\
    (k < length xs)%nat /\ Rabs (INR k - q * (INR (length xs) - 1)) <= 3 /\
    (forall ys, Permutation ys xs -> StronglySorted Rle ys -> nth k ys 0 = lo + b * INR k).
Proof.
  intros E0 Hb R0 HL HM. pose proof (new_quantile q s0 E0) as Hq.
  destruct (ramp_run b q Hb Hq lo xs R0) as (lo0 & L & P & T & C). cbv zeta in T, C.
  destruct (p2_published q s0 xs _ E0 L HM P (five_sorted b lo0 Hb)) as (s & E & _ & _ & V).
  set (ms := jc_run q 5 _ _) in * . clearbody ms. specialize (V HL).
  destruct T as ((O1 & O2 & _) & T0 & T4 & _ & D & _). cbv zeta in D. unfold jc_ideal, m_at in D. cbn [jc_fraction] in D.
  rewrite minus_INR in D by lia. change (INR 1) with 1 in D.
  exists s, (Z.to_nat (fst (ms 2%nat))). split; [exact E|].
  assert (Ek : INR (Z.to_nat (fst (ms 2%nat))) = IZR (fst (ms 2%nat))) by (rewrite INR_IZR_INZ, Z2Nat.id by lia; reflexivity).
  assert (Hk : (Z.to_nat (fst (ms 2%nat)) < length xs)%nat) by lia.
  split; [rewrite V, (C 2%nat) by lia; unfold m_at; now rewrite Ek|]. split; [exact Hk|].
  split; [rewrite Ek; apply Rabs_le; lra|].
  intros ys Py Sy. replace ys with (prog b lo (length xs)).
  - unfold prog. rewrite nth_indep with (d' := lo + b * INR 0) by (now rewrite map_length, seq_length).
    rewrite (map_nth (fun i => lo + b * INR i) _ 0%nat), seq_nth by exact Hk. reflexivity.
  - apply sorted_unique; auto; [now apply prog_sorted|]. etransitivity; [|symmetry; exact Py]. symmetry. now apply prog_perm.
Qed.

(** The bound 3 cannot be improved: on 1, ..., 6 marker 2 is blocked by marker 3. *)
Lemma track_tight (e : R) : 0 < e ->
  exists (q : R) s0 s n2, p2_new (A := RA) q = Ret s0 /\ update_all p2_update s0 [1; 2; 3; 4; 5; 6] = Ret s /\
    nth_error (p_pos s) 2 = Some n2 /\ q * (INR (length [1; 2; 3; 4; 5; 6]) - 1) - IZR n2 > 3 - e.
Proof.
  intros He. set (q := Rmax (1 / 2) (1 - e / 10)).
  assert (Hq : 1 / 2 <= q < 1 /\ 1 - e / 10 <= q).
  { unfold q. split; [split; [apply Rmax_l|apply Rmax_lub_lt; lra]|apply Rmax_r]. }
  clearbody q. exists q.
  assert (E0 : exists s0, p2_new (A := RA) q = Ret s0).
  { unfold p2_new, zero. cbn [leb of_Z RA]. replace (Rleb q 0) with false by (symmetry; apply Rleb_false; lra).
    replace (Rleb 1 q) with false by (symmetry; apply Rleb_false; lra). cbn. eauto. }
  destruct E0 as (s0 & E0).
  destruct (p2_published q s0 [1; 2; 3; 4; 5; 6] [1; 2; 3; 4; 5] E0) as (s & E & Ep & _);
    [cbn; lia|cbn; lia|reflexivity|repeat constructor; lra|].
  exists s0, s, 2%Z. split; [exact E0|]. split; [exact E|]. rewrite Ep. cbn [map nth_error skipn length]. split.
  - f_equal. cbn [jc_run]. unfold jc_step, jc_order. rewrite Rle_bool_true by lra. cbn [fold_left].
    assert (T : tracking q 5 (jc_start [1; 2; 3; 4; 5])) by (apply start_tracking; [lra|reflexivity|repeat constructor; lra]).
    pose proof (observe_spec q 5 _ 6 T) as O. cbv zeta in O. destruct O as (O & _).
    set (ms := jc_observe _ 6) in * .
    assert (M2 : fst (ms 2%nat) = 2%Z) by (unfold ms, jc_observe, jc_start; cbn [nth fst]; rewrite Rlt_bool_false by lra; reflexivity).
    assert (M3 : fst (ms 3%nat) = 3%Z) by (unfold ms, jc_observe, jc_start; cbn [nth fst]; rewrite Rlt_bool_false by lra; reflexivity).
    destruct (adjust_spec q 6 ms 1 O) as (O1 & F1 & _); [lia|]. set (a := jc_adjust q 6 ms 1) in * . clearbody a.
    destruct (adjust_spec q 6 a 2 O1) as (O2 & F2 & P2); [lia|]. set (b := jc_adjust q 6 a 2) in * . clearbody b.
    destruct (adjust_spec q 6 b 3 O2) as (_ & F3 & _); [lia|]. rewrite F3 by lia. rewrite P2. cbn [Nat.sub Nat.add].
    rewrite (F1 2%nat), (F1 3%nat), M2, M3 by lia. unfold pmove, jc_ideal. cbn [jc_fraction].
    change (2 + 1 <? 3)%Z with false. rewrite andb_false_r.
    change (INR (6 - 1)) with (INR 5). replace (INR 5) with 5 by (cbn; lra). rewrite Rle_bool_false by lra. reflexivity.
  - replace (INR 6) with 6 by (cbn; lra). lra.
Qed.
