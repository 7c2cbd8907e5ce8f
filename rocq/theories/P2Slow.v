(** The estimate of P2 for a low quantile adapts to a change of the data at a
    rate that is logarithmic with a factor of order q^2. *)

From Coq Require Import List Reals ZArith Bool Lia Lra Permutation Sorting.Sorted.
From Flocq Require Import Core.Core.
From Verif Require Import Outcome Arith Spec P2 P2Spec ListFacts UtilsFacts P2Facts P2Float P2Jain P2JainFacts P2TrackSpec P2Track P2SlowSpec.
Import ListNotations.
Open Scope R_scope.

(** ** One move *)

Definition ca (na nb nc : R) : R := (nb - na + 1) / ((nc - na) * (nc - nb)).
Definition cb (na nb nc : R) : R := (nc - nb - 1) / ((nc - na) * (nb - na)).

Lemma parabola_up (a b c : marker) : (fst a < fst b < fst c)%Z ->
  parabola3 a b c (m_at b + 1) =
  snd b + ca (m_at a) (m_at b) (m_at c) * (snd c - snd b) + cb (m_at a) (m_at b) (m_at c) * (snd b - snd a).
Proof.
  intros [H1 H2]. unfold parabola3, ca, cb, m_at. apply IZR_lt in H1, H2. field. lra.
Qed.

Lemma move_cases ideal (a b c : marker) : (fst a < fst b < fst c)%Z -> snd a <= snd b <= snd c ->
  (ideal <= m_at b - 1 -> (fst b - 1 <= fst a)%Z) ->
  let A := ca (m_at a) (m_at b) (m_at c) in let B := cb (m_at a) (m_at b) (m_at c) in
  let r := jc_move ideal a b c in
  r = b \/
  (fst r = (fst b + 1)%Z /\ (fst b + 1 < fst c)%Z /\ m_at b + 1 <= ideal /\ snd b <= snd r <= snd c /\
   snd r <= snd b + A * (snd c - snd b) + B * (snd b - snd a) /\
   (snd b + B * (snd b - snd a) <= snd r \/ snd c - snd b <= A * (snd c - snd b) + B * (snd b - snd a))).
Proof.
  intros Hn Hh Hd. cbv zeta. pose proof (parabola_up a b c Hn) as P. unfold jc_move.
  destruct (Rle_bool_spec (m_at b + 1) ideal) as [Hi|Hi]; cbn [andb].
  - destruct (Z.ltb_spec (fst b + 1) (fst c)) as [Hc|Hc].
    + right. cbn [fst snd]. split; auto. split; auto. split; auto.
      assert (H1 : m_at a < m_at b) by (apply IZR_lt; lia).
      assert (H2 : m_at b + 1 < m_at c) by (unfold m_at; rewrite <- plus_IZR; apply IZR_lt; lia).
      assert (PA : 0 < ca (m_at a) (m_at b) (m_at c)) by (unfold ca; apply Rdiv_lt_0_compat; [lra|apply Rmult_lt_0_compat; lra]).
      assert (PB : 0 < cb (m_at a) (m_at b) (m_at c)) by (unfold cb; apply Rdiv_lt_0_compat; [lra|apply Rmult_lt_0_compat; lra]).
      set (A := ca _ _ _) in * . set (B := cb _ _ _) in * . clearbody A B.
      unfold jc_height. rewrite P.
      assert (0 <= A * (snd c - snd b)) by (apply Rmult_le_pos; lra).
      assert (0 <= B * (snd b - snd a)) by (apply Rmult_le_pos; lra).
      assert (L : line2 b c (m_at b + 1) = snd b + (snd c - snd b) / (m_at c - m_at b)) by (unfold line2; field; lra).
      assert (L1 : 0 <= (snd c - snd b) / (m_at c - m_at b) <= snd c - snd b).
      { split; [apply Rmult_le_pos; [lra|apply Rlt_le, Rinv_0_lt_compat; lra]|].
        apply Rmult_le_reg_r with (m_at c - m_at b); [lra|]. unfold Rdiv. rewrite Rmult_assoc, Rinv_l, Rmult_1_r by lra. nra. }
      destruct (Rlt_bool_spec (snd a) (snd b + A * (snd c - snd b) + B * (snd b - snd a))) as [V1|V1]; cbn [andb].
      * destruct (Rlt_bool_spec (snd b + A * (snd c - snd b) + B * (snd b - snd a)) (snd c)) as [V2|V2]; cbn [andb].
        -- split; [lra|]. split; [lra|]. left. lra.
        -- rewrite L. split; [lra|]. split; [lra|]. right. lra.
      * rewrite L. assert (snd b = snd a) by lra. assert (Z0 : A * (snd c - snd b) = 0) by lra.
        apply Rmult_integral in Z0 as [Z0|Z0]; [lra|]. rewrite Z0. unfold Rdiv. rewrite Rmult_0_l.
        split; [lra|]. split; [lra|]. left. lra.
    + destruct (Rle_bool_spec ideal (m_at b - 1)); [lra|]. cbn [andb]. auto.
  - destruct (Rle_bool_spec ideal (m_at b - 1)) as [Hj|Hj]; cbn [andb]; auto.
    destruct (Z.ltb_spec (fst a) (fst b - 1)); auto. specialize (Hd Hj). lia.
Qed.

(** ** One observation above the inner markers *)

Lemma step_low q N ms x : 0 < q < 1 / 2 -> (forall i, (1 <= i <= 3)%nat -> snd (ms i) <= x) ->
  let m0 := (fst (ms 0%nat), Rmin (snd (ms 0%nat)) x) in
  let m4 := ((fst (ms 4%nat) + 1)%Z, Rmax (snd (ms 4%nat)) x) in
  let r3 := jc_move (jc_ideal q N 3) (ms 2%nat) (ms 3%nat) m4 in
  let r2 := jc_move (jc_ideal q N 2) (ms 1%nat) (ms 2%nat) r3 in
  let r1 := jc_move (jc_ideal q N 1) m0 (ms 1%nat) r2 in
  let ms' := jc_step q N ms x in
  ms' 0%nat = m0 /\ ms' 1%nat = r1 /\ ms' 2%nat = r2 /\ ms' 3%nat = r3 /\ ms' 4%nat = m4.
Proof.
  intros Hq Hx. cbv zeta. unfold jc_step, jc_order. destruct (Rle_bool_spec (1 / 2) q) as [C|_]; [lra|]. cbn [fold_left].
  set (o := jc_observe ms x).
  assert (O0 : o 0%nat = (fst (ms 0%nat), Rmin (snd (ms 0%nat)) x)) by (unfold o, jc_observe; destruct (ms 0%nat); reflexivity).
  assert (O4 : o 4%nat = ((fst (ms 4%nat) + 1)%Z, Rmax (snd (ms 4%nat)) x)) by (unfold o, jc_observe; destruct (ms 4%nat); reflexivity).
  assert (Oi : forall i, (1 <= i <= 3)%nat -> o i = ms i).
  { intros i Hi. specialize (Hx i Hi). unfold o, jc_observe. destruct (ms i) as [n h]. cbn [snd] in Hx.
    destruct i as [|[|[|[|]]]]; try lia; destruct (Rlt_bool_spec x h); try lra; reflexivity. }
  rewrite <- O0, <- O4, <- (Oi 1%nat), <- (Oi 2%nat), <- (Oi 3%nat) by lia. clearbody o.
  unfold jc_adjust, set_marker. cbn [Nat.eqb Nat.sub Nat.add]. auto.
Qed.

(** Positions never exceed the ideal ones, apart from the start. *)
Definition capped (q : R) (N : nat) (ms : markers) : Prop :=
  forall i, (1 <= i <= 3)%nat -> m_at (ms i) <= Rmax (INR i) (jc_ideal q N i).

Lemma no_down q N na i n : 0 < q < 1 -> (6 <= N)%nat -> (1 <= i <= 3)%nat ->
  n <= Rmax (INR i) (jc_ideal q N i) -> IZR na <= n - 1 -> (Z.of_nat i - 1 <= na)%Z ->
  forall z, n = IZR z -> jc_ideal q N i <= n - 1 -> (z - 1 <= na)%Z.
Proof.
  intros Hq HN Hi Hn Ha La z Ez Hd. assert (Hm : 5 <= INR (N - 1)) by (replace 5 with (INR 5) by (cbn; lra); apply le_INR; lia).
  destruct (Rmax_case_strong (INR i) (jc_ideal q N i) (fun m => m = INR i \/ m = jc_ideal q N i)) as [E|E]; auto; rewrite E in Hn; [|lra].
  rewrite Ez in Hn. rewrite INR_IZR_INZ in Hn. apply le_IZR in Hn. lia.
Qed.

Lemma cap_move q N a (b c : marker) i : 0 < q < 1 -> (5 <= N)%nat -> (1 <= i <= 3)%nat ->
  m_at b <= Rmax (INR i) (jc_ideal q N i) ->
  m_at (jc_move (jc_ideal q (S N) i) a b c) <= Rmax (INR i) (jc_ideal q (S N) i).
Proof.
  intros Hq HN Hi Hb. pose proof (ideal_step q N i Hq ltac:(lia) Hi) as [Hs _].
  pose proof (Rmax_l (INR i) (jc_ideal q (S N) i)). pose proof (Rmax_r (INR i) (jc_ideal q (S N) i)).
  assert (Rmax (INR i) (jc_ideal q N i) <= Rmax (INR i) (jc_ideal q (S N) i)) by (apply Rle_max_compat_l; lra).
  unfold jc_move. destruct (Rle_bool_spec (m_at b + 1) (jc_ideal q (S N) i)) as [L|L]; cbn [andb].
  - destruct (Z.ltb _ _); [|destruct (_ && _)%bool]; unfold m_at in * ; cbn [fst]; rewrite ?plus_IZR, ?minus_IZR; lra.
  - destruct (_ && _)%bool; unfold m_at in * ; cbn [fst]; rewrite ?minus_IZR; lra.
Qed.

Lemma capped_step q N ms x : 0 < q < 1 / 2 -> (5 <= N)%nat -> (forall i, (1 <= i <= 3)%nat -> snd (ms i) <= x) ->
  capped q N ms -> capped q (S N) (jc_step q (S N) ms x).
Proof.
  intros Hq HN Hx Hc. destruct (step_low q (S N) ms x Hq Hx) as (_ & E1 & E2 & E3 & _).
  intros i Hi. pose proof (Hc i Hi) as C.
  destruct i as [|[|[|[|]]]]; try lia; rewrite ?E1, ?E2, ?E3; apply cap_move; auto; try lra; lia.
Qed.

(** What the moves of one observation are. *)
Definition up (ideal : R) (a b c b' : marker) : Prop :=
  b' = b \/
  (fst b' = (fst b + 1)%Z /\ (fst b + 1 < fst c)%Z /\ m_at b + 1 <= ideal /\ snd b <= snd b' <= snd c /\
   snd b' <= snd b + ca (m_at a) (m_at b) (m_at c) * (snd c - snd b) + cb (m_at a) (m_at b) (m_at c) * (snd b - snd a) /\
   (snd b + cb (m_at a) (m_at b) (m_at c) * (snd b - snd a) <= snd b' \/
    snd c - snd b <= ca (m_at a) (m_at b) (m_at c) * (snd c - snd b) + cb (m_at a) (m_at b) (m_at c) * (snd b - snd a))).

Lemma step_moves q N ms x : 0 < q < 1 / 2 -> (5 <= N)%nat -> tracking q N ms -> capped q N ms ->
  (forall i, (1 <= i <= 3)%nat -> snd (ms i) <= x) ->
  let ms' := jc_step q (S N) ms x in
  ms' 0%nat = (fst (ms 0%nat), Rmin (snd (ms 0%nat)) x) /\ ms' 4%nat = ((fst (ms 4%nat) + 1)%Z, Rmax (snd (ms 4%nat)) x) /\
  up (jc_ideal q (S N) 3) (ms 2%nat) (ms 3%nat) (ms' 4%nat) (ms' 3%nat) /\
  up (jc_ideal q (S N) 2) (ms 1%nat) (ms 2%nat) (ms' 3%nat) (ms' 2%nat) /\
  up (jc_ideal q (S N) 1) (ms' 0%nat) (ms 1%nat) (ms' 2%nat) (ms' 1%nat).
Proof.
  intros Hq HN T C Hx. cbv zeta. destruct (step_low q (S N) ms x Hq Hx) as (E0 & E1 & E2 & E3 & E4).
  assert (Hq' : 0 < q < 1) by lra.
  destruct T as ((O1 & O2 & O3 & O4) & P0 & P4 & _).
  assert (ND : forall i (a b : marker), (1 <= i <= 3)%nat -> m_at b <= Rmax (INR i) (jc_ideal q N i) -> (Z.of_nat i - 1 <= fst a)%Z -> (fst a < fst b)%Z ->
             jc_ideal q (S N) i <= m_at b - 1 -> (fst b - 1 <= fst a)%Z).
  { intros i a b Hi Hb La Lb Hd. eapply (no_down q (S N) (fst a) i (m_at b)); eauto; [lia| | ].
    - eapply Rle_trans; [exact Hb|]. apply Rle_max_compat_l. pose proof (ideal_step q N i Hq' ltac:(lia) Hi). lra.
    - unfold m_at. rewrite <- minus_IZR. apply IZR_le. lia. }
  rewrite <- E4 in E3, E2, E1. rewrite <- E3 in E2, E1. rewrite <- E2, <- E0 in E1.
  set (ms' := jc_step q (S N) ms x) in * . clearbody ms'.
  split; [exact E0|]. split; [exact E4|].
  assert (H3 : (fst (ms 2%nat) < fst (ms 3%nat) < fst (ms' 4%nat))%Z) by (rewrite E4; cbn [fst]; lia).
  assert (G3 : snd (ms 2%nat) <= snd (ms 3%nat) <= snd (ms' 4%nat)) by (rewrite E4; cbn [snd]; pose proof (Rmax_l (snd (ms 4%nat)) x); lra).
  pose proof (move_cases (jc_ideal q (S N) 3) _ _ _ H3 G3
    (ND 3%nat (ms 2%nat) (ms 3%nat) ltac:(lia) (C 3%nat ltac:(lia)) ltac:(lia) ltac:(lia))) as M3.
  cbv zeta in M3. rewrite <- E3 in M3. split; [exact M3|].
  assert (H2 : (fst (ms 1%nat) < fst (ms 2%nat) < fst (ms' 3%nat))%Z) by (destruct M3 as [-> | (-> & _)]; lia).
  assert (G2 : snd (ms 1%nat) <= snd (ms 2%nat) <= snd (ms' 3%nat)) by (destruct M3 as [-> | (_ & _ & _ & ? & _)]; lra).
  pose proof (move_cases (jc_ideal q (S N) 2) _ _ _ H2 G2
    (ND 2%nat (ms 1%nat) (ms 2%nat) ltac:(lia) (C 2%nat ltac:(lia)) ltac:(lia) ltac:(lia))) as M2.
  cbv zeta in M2. rewrite <- E2 in M2. split; [exact M2|].
  assert (H1 : (fst (ms' 0%nat) < fst (ms 1%nat) < fst (ms' 2%nat))%Z) by (rewrite E0; cbn [fst]; destruct M2 as [-> | (-> & _)]; lia).
  assert (G1 : snd (ms' 0%nat) <= snd (ms 1%nat) <= snd (ms' 2%nat)).
  { rewrite E0. cbn [snd]. pose proof (Rmin_l (snd (ms 0%nat)) x). destruct M2 as [-> | (_ & _ & _ & ? & _)]; lra. }
  pose proof (move_cases (jc_ideal q (S N) 1) _ _ _ H1 G1
    (ND 1%nat (ms' 0%nat) (ms 1%nat) ltac:(lia) (C 1%nat ltac:(lia)) ltac:(rewrite E0; cbn [fst]; lia) ltac:(lia))) as M1.
  cbv zeta in M1. rewrite <- E1 in M1. exact M1.
Qed.

(** ** The zeros *)

Definition flat (ms : markers) : Prop :=
  snd (ms 0%nat) = -1 /\ snd (ms 1%nat) = 0 /\ snd (ms 2%nat) = 0 /\ snd (ms 3%nat) = 0 /\ snd (ms 4%nat) = 0.

Lemma up_between ideal a b c b' : up ideal a b c b' -> snd b <= snd c -> snd b <= snd b' <= snd c.
Proof. intros [-> | (_ & _ & _ & H & _)] L; lra. Qed.

Lemma flat_step q N ms : 0 < q < 1 / 2 -> (5 <= N)%nat -> tracking q N ms -> capped q N ms -> flat ms ->
  flat (jc_step q (S N) ms 0).
Proof.
  intros Hq HN T C (F0 & F1 & F2 & F3 & F4).
  destruct (step_moves q N ms 0 Hq HN T C) as (E0 & E4 & U3 & U2 & U1).
  { intros i Hi. destruct i as [|[|[|[|]]]]; try lia; lra. }
  set (ms' := jc_step q (S N) ms 0) in * . clearbody ms'. unfold flat.
  assert (A0 : snd (ms' 0%nat) = -1) by (rewrite E0; cbn [snd]; rewrite F0; apply Rmin_left; lra).
  assert (A4 : snd (ms' 4%nat) = 0) by (rewrite E4; cbn [snd]; rewrite F4; apply Rmax_left; lra).
  apply up_between in U3; [|lra]. apply up_between in U2; [|lra]. apply up_between in U1; lra.
Qed.

Lemma run_zeros q n : 0 < q < 1 / 2 -> forall N ms, (5 <= N)%nat -> tracking q N ms -> capped q N ms -> flat ms ->
  let ms' := jc_run q N ms (repeat 0 n) in tracking q (N + n) ms' /\ capped q (N + n) ms' /\ flat ms'.
Proof.
  intros Hq. induction n as [|n IH]; intros N ms HN T C F; cbn [repeat jc_run].
  - rewrite Nat.add_0_r. auto.
  - replace (N + S n)%nat with (S N + n)%nat by lia. apply IH; [lia| | |].
    + apply step_tracking; auto. lra.
    + apply capped_step; auto. intros i Hi. destruct F as (F0 & F1 & F2 & F3 & F4). destruct i as [|[|[|[|]]]]; try lia; lra.
    + now apply flat_step.
Qed.

(** ** The ones: the arithmetic *)

Lemma coef_a q M n1 n2 n3 : 0 < q <= 1 / 4 -> 1000 <= q * M ->
  q * M - 4 <= n2 -> n2 + 1 <= q * M -> q * M / 2 - 6 <= n1 <= q * M / 2 -> (1 + q) / 2 * M - 1 <= n3 ->
  ca n1 n2 n3 * (n2 + 1) <= 3 * (q * q).
Proof.
  intros Hq HT L2 H2 H1 H3. unfold ca. set (T := q * M) in * .
  assert (M0 : 0 < M) by (destruct (Rle_or_lt M 0); [unfold T in HT; nra|auto]).
  assert (HM : 4 * T <= M) by (unfold T; nra).
  assert (D1 : 499 / 1000 * M <= n3 - n1) by (replace ((1 + q) / 2 * M) with (M / 2 + T / 2) in H3 by (unfold T; field); lra).
  assert (D2 : 3 / 8 * M <= n3 - n2) by (replace ((1 + q) / 2 * M) with (M / 2 + T / 2) in H3 by (unfold T; field); lra).
  assert (P : 0 < (n3 - n1) * (n3 - n2)) by (apply Rmult_lt_0_compat; lra).
  apply Rmult_le_reg_r with ((n3 - n1) * (n3 - n2)); auto.
  replace ((n2 - n1 + 1) / ((n3 - n1) * (n3 - n2)) * (n2 + 1) * ((n3 - n1) * (n3 - n2))) with ((n2 - n1 + 1) * (n2 + 1)) by (field; lra).
  apply Rle_trans with (506 / 1000 * T * T).
  - apply Rmult_le_compat; lra.
  - apply Rle_trans with (3 * (q * q) * ((499 / 1000 * M) * (3 / 8 * M))).
    + replace (3 * (q * q) * (499 / 1000 * M * (3 / 8 * M))) with (3 * (499 / 1000) * (3 / 8) * (T * T)) by (unfold T; field).
      assert (0 <= T * T) by nra. lra.
    + apply Rmult_le_compat_l; [nra|]. apply Rmult_le_compat; lra.
Qed.

Lemma coef_b n1 n2 n3 : n1 < n2 -> n2 + 1 < n3 -> 0 <= cb n1 n2 n3 <= 1 / (n2 - n1).
Proof.
  intros H1 H2. unfold cb. split.
  - apply Rmult_le_pos; [lra|]. apply Rlt_le, Rinv_0_lt_compat, Rmult_lt_0_compat; lra.
  - assert (0 < (n3 - n1) * (n2 - n1)) by (apply Rmult_lt_0_compat; lra).
    apply Rmult_le_reg_r with ((n3 - n1) * (n2 - n1)); auto.
    replace ((n3 - n2 - 1) / ((n3 - n1) * (n2 - n1)) * ((n3 - n1) * (n2 - n1))) with (n3 - n2 - 1) by (field; lra).
    replace (1 / (n2 - n1) * ((n3 - n1) * (n2 - n1))) with (n3 - n1) by (field; lra). lra.
Qed.

Lemma ln_step n : 0 < n -> 1 / (n + 1) <= ln (n + 1) - ln n.
Proof.
  intros H. assert (P : 0 < n / (n + 1)) by (apply Rdiv_lt_0_compat; lra).
  pose proof (exp_ineq1_le (ln (n / (n + 1)))) as E. rewrite exp_ln in E by auto.
  assert (ln n = ln (n / (n + 1)) + ln (n + 1)) by (rewrite <- ln_mult by lra; f_equal; field; lra).
  replace (n / (n + 1)) with (1 - 1 / (n + 1)) in E by (field; lra).
  replace (1 - 1 / (n + 1)) with (n / (n + 1)) in E at 1 by (field; lra). lra.
Qed.

(** Moving the middle marker. *)
Lemma gap_up q M n1 n2 n3 h1 h2 h3 v : 0 < q <= 1 / 4 -> 1000 <= q * M ->
  q * M - 4 <= n2 -> n2 + 1 <= q * M -> q * M / 2 - 6 <= n1 <= q * M / 2 -> (1 + q) / 2 * M - 1 <= n3 ->
  h1 <= h2 <= h3 -> h3 - h2 <= 1 ->
  (h2 - h1) * n2 <= 4 + (n2 - 2 * n1) / 4 ->
  h2 <= v <= h2 + ca n1 n2 n3 * (h3 - h2) + cb n1 n2 n3 * (h2 - h1) ->
  (v - h1) * (n2 + 1) <= 4 + (n2 + 1 - 2 * n1) / 4 /\
  v - h2 <= 3 * (q * q) * (1 / (n2 + 1)) + 15 * (1 / n2 - 1 / (n2 + 1)).
Proof.
  intros Hq HT L2 H2 H1 H3 Hh Hd G Hv. pose proof (coef_a q M n1 n2 n3 Hq HT L2 H2 H1 H3) as CA.
  set (T := q * M) in * .
  assert (M0 : 0 < M) by (destruct (Rle_or_lt M 0); [unfold T in HT; nra|auto]).
  assert (HM : 4 * T <= M) by (unfold T; nra).
  assert (D : n2 + 1 < n3) by (replace ((1 + q) / 2 * M) with (M / 2 + T / 2) in H3 by (unfold T; field); lra).
  destruct (coef_b n1 n2 n3 ltac:(lra) D) as [B0 B1].
  assert (PA : 0 <= ca n1 n2 n3) by (unfold ca; apply Rmult_le_pos; [lra|]; apply Rlt_le, Rinv_0_lt_compat, Rmult_lt_0_compat; lra).
  set (A := ca n1 n2 n3) in * . set (B := cb n1 n2 n3) in * . clearbody A B. set (g := h2 - h1) in * .
  assert (Dn : T / 2 - 4 <= n2 - n1) by lra.
  assert (G7 : g * n2 <= 7) by lra.
  assert (J : v - h2 <= A + B * g) by nra.
  assert (B2 : B * (n2 - n1) <= 1).
  { apply Rmult_le_compat_r with (r := n2 - n1) in B1; [|lra]. replace (1 / (n2 - n1) * (n2 - n1)) with 1 in B1 by (field; lra). exact B1. }
  assert (Bn : B * (n2 + 1) <= 15 / 7).
  { assert (7 * (n2 + 1) <= 15 * (n2 - n1)) by lra. nra. }
  assert (Gs : 0 <= g) by (unfold g; lra).
  assert (Bg : B * g * (n2 * (n2 + 1)) <= 15).
  { replace (B * g * (n2 * (n2 + 1))) with ((B * (n2 + 1)) * (g * n2)) by ring.
    apply Rle_trans with (15 / 7 * 7); [|lra]. apply Rmult_le_compat; auto; [apply Rmult_le_pos; lra|apply Rmult_le_pos; lra]. }
  assert (Q : q * q <= 1 / 16) by nra.
  split.
  - assert (E : (v - h1) * (n2 + 1) <= g * n2 + g + (A * (n2 + 1) + B * g * (n2 + 1))).
    { replace ((v - h1) * (n2 + 1)) with (g * n2 + g + (v - h2) * (n2 + 1)) by (unfold g; ring).
      replace (A * (n2 + 1) + B * g * (n2 + 1)) with ((A + B * g) * (n2 + 1)) by ring. apply Rplus_le_compat_l. apply Rmult_le_compat_r; lra. }
    assert (g <= 1 / 100) by nra.
    assert (B * g * (n2 + 1) <= 1 / 40) by nra. lra.
  - apply Rle_trans with (A + B * g); auto. apply Rplus_le_compat.
    + apply Rmult_le_reg_r with (n2 + 1); [lra|]. replace (3 * (q * q) * (1 / (n2 + 1)) * (n2 + 1)) with (3 * (q * q)) by (field; lra). exact CA.
    + apply Rmult_le_reg_r with (n2 * (n2 + 1)); [apply Rmult_lt_0_compat; lra|].
      replace (15 * (1 / n2 - 1 / (n2 + 1)) * (n2 * (n2 + 1))) with 15 by (field; lra). exact Bg.
Qed.

(** Moving the lower marker. *)
Lemma gap_down T n1 n2 h1 h2 v : 1000 <= T -> T - 3 <= n2 <= T -> T / 2 - 6 <= n1 <= T / 2 ->
  0 <= h1 <= h2 -> h2 <= 1 -> h1 <= v ->
  (h2 - h1) * n2 <= 4 + (n2 - 2 * n1) / 4 ->
  (h1 + cb 0 n1 n2 * (h1 - -1) <= v \/ h2 - h1 <= ca 0 n1 n2 * (h2 - h1) + cb 0 n1 n2 * (h1 - -1)) ->
  (h2 - v) * n2 <= 4 + (n2 - 2 * (n1 + 1)) / 4.
Proof.
  intros HT H2 H1 Hh Hb Hv G [C|C].
  - assert (E : (h2 - v) * n2 <= (h2 - h1) * n2 - cb 0 n1 n2 * n2).
    { assert (0 <= cb 0 n1 n2) by (unfold cb; apply Rmult_le_pos; [lra|apply Rlt_le, Rinv_0_lt_compat, Rmult_lt_0_compat; lra]).
      set (B := cb 0 n1 n2) in * . clearbody B. assert (B <= B * (h1 - -1)) by nra.
      replace ((h2 - h1) * n2 - B * n2) with ((h2 - h1 - B) * n2) by ring. apply Rmult_le_compat_r; lra. }
    assert (F : 1 / 2 <= cb 0 n1 n2 * n2).
    { unfold cb. replace ((n2 - n1 - 1) / ((n2 - 0) * (n1 - 0)) * n2) with ((n2 - n1 - 1) / n1) by (field; lra).
      apply Rmult_le_reg_r with n1; [lra|]. unfold Rdiv. rewrite (Rmult_assoc _ (/ n1)), Rinv_l by lra. lra. }
    lra.
  - assert (A : ca 0 n1 n2 <= 1 / 100).
    { unfold ca. apply Rmult_le_reg_r with ((n2 - 0) * (n2 - n1)); [apply Rmult_lt_0_compat; lra|].
      replace ((n1 - 0 + 1) / ((n2 - 0) * (n2 - n1)) * ((n2 - 0) * (n2 - n1))) with (n1 + 1) by (field; lra). nra. }
    assert (F : cb 0 n1 n2 * n2 <= 11 / 10).
    { unfold cb. replace ((n2 - n1 - 1) / ((n2 - 0) * (n1 - 0)) * n2) with ((n2 - n1 - 1) / n1) by (field; lra).
      apply Rmult_le_reg_r with n1; [lra|]. unfold Rdiv. rewrite (Rmult_assoc _ (/ n1)), Rinv_l by lra. lra. }
    assert (E : (h2 - h1) * n2 * (99 / 100) <= cb 0 n1 n2 * n2 * 2).
    { assert (0 <= cb 0 n1 n2) by (unfold cb; apply Rmult_le_pos; [lra|apply Rlt_le, Rinv_0_lt_compat, Rmult_lt_0_compat; lra]).
      assert ((h2 - h1) * (99 / 100) <= cb 0 n1 n2 * 2) by nra. nra. }
    assert ((h2 - v) * n2 <= (h2 - h1) * n2) by nra. lra.
Qed.

(** ** The ones *)

Record slow (q t0 : R) (N : nat) (ms : markers) : Prop := {
  sl_track : tracking q N ms;
  sl_cap : capped q N ms;
  sl_low : snd (ms 0%nat) = -1;
  sl_pos : 0 <= snd (ms 1%nat);
  sl_top : snd (ms 4%nat) <= 1;
  sl_gap : (snd (ms 2%nat) - snd (ms 1%nat)) * m_at (ms 2%nat) <= 4 + (m_at (ms 2%nat) - 2 * m_at (ms 1%nat)) / 4;
  sl_est : snd (ms 2%nat) <= 3 * (q * q) * (ln (m_at (ms 2%nat)) - ln t0) + 15 * (1 / t0 - 1 / m_at (ms 2%nat))
}.

Lemma positions q N ms : (1 <= N)%nat -> 0 < q <= 1 / 4 -> 1000 <= q * INR (N - 1) -> tracking q N ms -> capped q N ms ->
  let T := q * INR (N - 1) in
  T / 2 - 5 <= m_at (ms 1%nat) <= T / 2 /\ T - 3 <= m_at (ms 2%nat) <= T /\ (1 + q) / 2 * INR (N - 1) - 1 <= m_at (ms 3%nat).
Proof.
  intros HN Hq HT (_ & _ & _ & D) C. cbv zeta. unfold near in D. cbv zeta in D. unfold jc_ideal in D. cbn [jc_fraction] in D.
  pose proof (C 1%nat ltac:(lia)) as C1. pose proof (C 2%nat ltac:(lia)) as C2. unfold jc_ideal in C1, C2. cbn [jc_fraction] in C1, C2.
  rewrite Rmax_right in C1 by (cbn [INR]; lra). rewrite Rmax_right in C2 by (cbn [INR]; lra). repeat split; lra.
Qed.

Lemma slow_step q t0 N ms : (5 <= N)%nat -> 0 < q <= 1 / 4 -> 1000 <= q * INR (N - 1) -> slow q t0 N ms ->
  slow q t0 (S N) (jc_step q (S N) ms 1).
Proof.
  intros HN Hq HT [T C L P U G E]. assert (Hq' : 0 < q < 1 / 2) by lra.
  assert (Hx : forall i, (1 <= i <= 3)%nat -> snd (ms i) <= 1).
  { destruct T as ((_ & _ & O3 & O4) & _). intros i Hi. destruct i as [|[|[|[|]]]]; try lia; lra. }
  pose proof (step_tracking q N ms 1 ltac:(lra) HN T) as T'. pose proof (capped_step q N ms 1 Hq' HN Hx C) as C'.
  destruct (step_moves q N ms 1 Hq' HN T C Hx) as (E0 & E4 & U3 & U2 & U1).
  set (ms' := jc_step q (S N) ms 1) in * . clearbody ms'.
  destruct (positions q N ms ltac:(lia) Hq HT T C) as (P1 & P2 & _).
  assert (HM : INR N = INR (N - 1) + 1) by (rewrite <- S_INR; f_equal; lia).
  assert (HT' : 1000 <= q * INR (S N - 1)) by (replace (S N - 1)%nat with N by lia; rewrite HM; lra).
  destruct (positions q (S N) ms' ltac:(lia) Hq HT' T' C') as (P1' & P2' & P3').
  unfold jc_ideal in U2, U1. replace (S N - 1)%nat with N in * by lia. cbn [jc_fraction] in U2, U1.
  rewrite HM in P1', P2', P3', HT', U2, U1. set (M := INR (N - 1)) in * . clearbody M.
  assert (A0 : snd (ms' 0%nat) = -1) by (rewrite E0; cbn [snd]; rewrite L; apply Rmin_left; lra).
  assert (N0 : m_at (ms' 0%nat) = 0) by (rewrite E0; unfold m_at; cbn [fst]; destruct T as (_ & -> & _); reflexivity).
  assert (A4 : snd (ms' 4%nat) <= 1) by (rewrite E4; cbn [snd]; apply Rmax_lub; lra).
  destruct T' as (O' & T0' & T4' & D'). pose proof O' as (_ & _ & O3' & O4'). destruct T as ((_ & _ & O3 & O4) & _).
  (* the middle marker *)
  assert (Mid : (snd (ms' 2%nat) - snd (ms 1%nat)) * m_at (ms' 2%nat) <= 4 + (m_at (ms' 2%nat) - 2 * m_at (ms 1%nat)) / 4 /\
                snd (ms' 2%nat) <= 3 * (q * q) * (ln (m_at (ms' 2%nat)) - ln t0) + 15 * (1 / t0 - 1 / m_at (ms' 2%nat)) /\
                snd (ms 1%nat) <= snd (ms' 2%nat)).
  { destruct U2 as [-> | (F & Fl & Fi & Fh & Fv & _)]; [repeat split; auto; lra|].
    assert (Fm : m_at (ms' 2%nat) = m_at (ms 2%nat) + 1) by (unfold m_at; rewrite F, plus_IZR; reflexivity).
    destruct (gap_up q (M + 1) (m_at (ms 1%nat)) (m_at (ms 2%nat)) (m_at (ms' 3%nat)) (snd (ms 1%nat)) (snd (ms 2%nat)) (snd (ms' 3%nat)) (snd (ms' 2%nat)))
      as [G1 G2]; auto; try lra.
    rewrite Fm. split; [exact G1|]. split; [|lra].
    pose proof (ln_step (m_at (ms 2%nat)) ltac:(lra)) as Ls.
    assert (3 * (q * q) * (1 / (m_at (ms 2%nat) + 1)) <= 3 * (q * q) * (ln (m_at (ms 2%nat) + 1) - ln (m_at (ms 2%nat)))) by (apply Rmult_le_compat_l; nra).
    lra. }
  destruct Mid as (Gm & Em & Om).
  constructor; auto.
  - split; [exact O'|]. auto.
  - destruct U1 as [-> | (_ & _ & _ & Fh & _)]; lra.
  - destruct U1 as [-> | (F & Fl & Fi & Fh & _ & Fd)]; [exact Gm|].
    assert (Fm : m_at (ms' 1%nat) = m_at (ms 1%nat) + 1) by (unfold m_at; rewrite F, plus_IZR; reflexivity).
    rewrite Fm. rewrite N0, A0 in Fd.
    apply (gap_down (q * (M + 1)) (m_at (ms 1%nat)) (m_at (ms' 2%nat)) (snd (ms 1%nat))); auto; lra.
Qed.

Lemma run_ones q t0 n : 0 < q <= 1 / 4 -> forall N ms, (5 <= N)%nat -> 1000 <= q * INR (N - 1) -> slow q t0 N ms ->
  slow q t0 (N + n) (jc_run q N ms (repeat 1 n)).
Proof.
  intros Hq. induction n as [|n IH]; intros N ms HN HT S; cbn [repeat jc_run].
  - now rewrite Nat.add_0_r.
  - replace (N + Datatypes.S n)%nat with (Datatypes.S N + n)%nat by lia. apply IH; [lia| |now apply slow_step].
    replace (Datatypes.S N - 1)%nat with (Datatypes.S (N - 1)) by lia. rewrite S_INR. lra.
Qed.

Lemma slow_start q N ms : (5 <= N)%nat -> 0 < q <= 1 / 4 -> 1000 <= q * INR (N - 1) -> tracking q N ms -> capped q N ms -> flat ms ->
  slow q (m_at (ms 2%nat)) N ms.
Proof.
  intros HN Hq HT T C (F0 & F1 & F2 & F3 & F4). destruct (positions q N ms ltac:(lia) Hq HT T C) as (P1 & P2 & _).
  constructor; auto; rewrite ?F1, ?F2, ?F3, ?F4; try lra.
Qed.

Lemma run_app q xs : forall N ms ys, jc_run q N ms (xs ++ ys) = jc_run q (N + length xs) (jc_run q N ms xs) ys.
Proof.
  induction xs as [|x xs IH]; intros N ms ys; cbn [app jc_run length]; [now rewrite Nat.add_0_r|].
  rewrite IH. f_equal. lia.
Qed.

Lemma slow_adaptation (q : R) (m n : nat) s0 : 0 < q <= 1 / 4 -> 1000 <= q * INR m -> (Z.of_nat (m + n) < 2 ^ 31)%Z ->
  p2_new (A := RA) q = Ret s0 ->
  exists s v, update_all p2_update s0 (shift_stream m n) = Ret s /\ p2_evaluate s = Ret (s, v) /\
    0 <= v <= 3 * (q * q) * ln (INR (m + n) / INR m) + 17 / (q * INR m).
Proof.
  intros Hq HT HM E0. assert (Hm : 4000 <= INR m) by (assert (0 <= INR m) by apply pos_INR; nra).
  assert (m4 : (4000 <= m)%nat) by (apply INR_le; replace (INR 4000) with 4000 by (rewrite INR_IZR_INZ; reflexivity); exact Hm).
  assert (Lx : length (shift_stream m n) = S (m + n)) by (unfold shift_stream; cbn [length]; rewrite app_length, !repeat_length; reflexivity).
  set (five := [-1; 0; 0; 0; 0]).
  assert (Em : repeat 0 m = [0; 0; 0; 0] ++ repeat 0 (m - 4)) by (change [0; 0; 0; 0] with (repeat 0 4); rewrite <- repeat_app; f_equal; lia).
  assert (F5 : firstn 5 (shift_stream m n) = five) by (unfold shift_stream; rewrite Em; reflexivity).
  assert (K5 : skipn 5 (shift_stream m n) = repeat 0 (m - 4) ++ repeat 1 n) by (unfold shift_stream; rewrite Em; reflexivity).
  assert (S5 : StronglySorted Rle five) by (repeat constructor; lra).
  destruct (p2_published q s0 (shift_stream m n) five E0) as (s & Er & _ & _ & V); auto; [lia|lia|rewrite F5; apply Permutation_refl|].
  rewrite K5 in V. specialize (V ltac:(lia)).
  pose proof (start_tracking q five ltac:(lra) eq_refl S5) as T5.
  assert (C5 : capped q 5 (jc_start five)).
  { intros i Hi. eapply Rle_trans; [|apply Rmax_l]. unfold jc_start, m_at. cbn [fst]. rewrite <- INR_IZR_INZ. lra. }
  assert (Fl : flat (jc_start five)) by (unfold flat, jc_start, five; cbn [snd nth]; auto).
  pose proof (run_zeros q (m - 4) ltac:(lra) 5 _ (le_n 5) T5 C5 Fl) as (Tz & Cz & Fz). cbv zeta in Tz, Cz, Fz.
  rewrite run_app, repeat_length in V.
  set (mz := jc_run q 5 (jc_start five) (repeat 0 (m - 4))) in * . clearbody mz. clear T5 C5 Fl.
  replace (5 + (m - 4))%nat with (S m) in * by lia.
  assert (HT1 : 1000 <= q * INR (S m - 1)) by (replace (S m - 1)%nat with m by lia; exact HT).
  pose proof (slow_start q (S m) mz ltac:(lia) Hq HT1 Tz Cz Fz) as Sz.
  destruct (positions q (S m) mz ltac:(lia) Hq HT1 Tz Cz) as (_ & Pz & _).
  pose proof (run_ones q _ n Hq (S m) mz ltac:(lia) HT1 Sz) as So.
  set (mo := jc_run q (S m) mz (repeat 1 n)) in * . clearbody mo.
  exists s, (snd (mo 2%nat)). split; [exact Er|]. split; [exact V|].
  destruct So as [To Co _ Po _ _ Eo].
  assert (HT2 : 1000 <= q * INR (S m + n - 1)).
  { replace (S m + n - 1)%nat with (m + n)%nat by lia. rewrite plus_INR. pose proof (pos_INR n). nra. }
  destruct (positions q (S m + n) mo ltac:(lia) Hq HT2 To Co) as (_ & Po2 & _).
  destruct To as ((_ & _ & O3 & O4) & _). split; [lra|].
  replace (S m - 1)%nat with m in Pz by lia. replace (S m + n - 1)%nat with (m + n)%nat in Po2, HT2 by lia.
  set (t0 := m_at (mz 2%nat)) in * . set (t := m_at (mo 2%nat)) in * . clearbody t0 t.
  set (T := q * INR m) in * .
  assert (La : ln t <= ln (q * INR (m + n))) by (destruct (Rle_lt_or_eq_dec t (q * INR (m + n)) ltac:(lra)) as [Hl| ->]; [apply Rlt_le, ln_increasing; lra|lra]).
  assert (Lb : ln (T - 3) <= ln t0) by (destruct (Rle_lt_or_eq_dec (T - 3) t0 ltac:(lra)) as [Hl|Hl]; [apply Rlt_le, ln_increasing; lra|rewrite Hl; lra]).
  assert (Lc : ln T - ln (T - 3) <= 3 / (T - 3)).
  { assert (Px : 0 < T / (T - 3)) by (apply Rdiv_lt_0_compat; lra).
    pose proof (exp_ineq1_le (ln (T / (T - 3)))) as E. rewrite exp_ln in E by auto.
    assert (ln T = ln (T / (T - 3)) + ln (T - 3)) by (rewrite <- ln_mult by lra; f_equal; field; lra).
    assert (T / (T - 3) = 1 + 3 / (T - 3)) by (field; lra). lra. }
  assert (Ld : ln (q * INR (m + n)) = ln (INR (m + n) / INR m) + ln T).
  { assert (0 < INR (m + n)) by (rewrite plus_INR; pose proof (pos_INR n); lra).
    rewrite <- ln_mult; [f_equal; unfold T; field; lra|apply Rdiv_lt_0_compat; lra|lra]. }
  assert (Q : 0 <= q * q <= 1 / 16) by nra.
  assert (I1 : 1 / t0 <= 1 / (T - 3)) by (unfold Rdiv; rewrite !Rmult_1_l; apply Rinv_le_contravar; lra).
  assert (I2 : 0 < 1 / t) by (apply Rdiv_lt_0_compat; lra).
  assert (I3 : 3 * (q * q) * (3 / (T - 3)) + 15 * (1 / (T - 3)) <= 17 / T).
  { assert (P3 : 0 < 1 / (T - 3)) by (apply Rdiv_lt_0_compat; lra). replace (3 / (T - 3)) with (3 * (1 / (T - 3))) by (field; lra).
    apply Rle_trans with (16 * (1 / (T - 3))); [nra|].
    apply Rmult_le_reg_r with (T * (T - 3)); [apply Rmult_lt_0_compat; lra|].
    replace (16 * (1 / (T - 3)) * (T * (T - 3))) with (16 * T) by (field; lra).
    replace (17 / T * (T * (T - 3))) with (17 * (T - 3)) by (field; lra). lra. }
  assert (Lx' : 3 * (q * q) * (ln t - ln t0) <= 3 * (q * q) * (ln (INR (m + n) / INR m) + 3 / (T - 3))) by (apply Rmult_le_compat_l; lra).
  lra.
Qed.

(** ** The true quantile *)

Lemma filter_repeat {X} (f : X -> bool) x n : filter f (repeat x n) = if f x then repeat x n else [].
Proof. induction n as [|n IH]; cbn; [now destruct (f x)|]. rewrite IH. destruct (f x); reflexivity. Qed.

Lemma shift_quantile m n k : (m + 1 <= k <= m + n)%nat -> order_statistic (shift_stream m n) k 1.
Proof.
  intros H. unfold order_statistic, shift_stream. cbn [filter]. rewrite !filter_app, !filter_repeat.
  destruct (Rlt_dec (-1) 1); [|lra]. destruct (Rle_dec (-1) 1); [|lra]. destruct (Rlt_dec 0 1); [|lra]. destruct (Rle_dec 0 1); [|lra].
  destruct (Rlt_dec 1 1); [lra|]. destruct (Rle_dec 1 1); [|lra]. cbn [length]. rewrite !app_length, !repeat_length. cbn [length]. lia.
Qed.

Lemma low_quantile_lags (q : R) (m n : nat) s0 : 0 < q <= 1 / 4 -> 1000 <= q * INR m -> (Z.of_nat (m + n) < 2 ^ 31)%Z ->
  p2_new (A := RA) q = Ret s0 ->
  exists s v, update_all p2_update s0 (shift_stream m n) = Ret s /\ p2_evaluate s = Ret (s, v) /\
    0 <= v <= 3 * (q * q) * ln (INR (m + n) / INR m) + 17 / (q * INR m) /\
    (INR m + 1 <= q * INR (m + n) -> forall k, Rabs (INR k - q * INR (m + n)) < 1 -> order_statistic (shift_stream m n) k 1).
Proof.
  intros Hq HT HM E0. destruct (slow_adaptation q m n s0 Hq HT HM E0) as (s & v & E & V & B). exists s, v.
  split; [exact E|]. split; [exact V|]. split; [exact B|]. intros H k Hk. apply Rabs_def2 in Hk. apply shift_quantile.
  assert (0 <= INR m) by apply pos_INR. split.
  - assert (INR m < INR k) by lra. apply INR_lt in H1. lia.
  - assert (INR k < INR (m + n)) by nra. apply INR_lt in H1. lia.
Qed.

Lemma ln_10001 : ln 10001 <= 10.
Proof.
  rewrite <- (ln_exp 10). apply Rlt_le, ln_increasing; [lra|].
  assert (E : exp 10 = exp (1 / 10) ^ 100).
  { assert (G : forall k, exp (INR k * (1 / 10)) = exp (1 / 10) ^ k).
    { induction k as [|k IH]; [cbn; now rewrite Rmult_0_l, exp_0|].
      rewrite S_INR. replace ((INR k + 1) * (1 / 10)) with (1 / 10 + INR k * (1 / 10)) by ring.
      rewrite exp_plus. cbn [pow]. now rewrite IH. }
    rewrite <- G. f_equal. rewrite INR_IZR_INZ. change (Z.of_nat 100) with 100%Z. lra. }
  rewrite E. apply Rlt_le_trans with ((11 / 10) ^ 100).
  - replace ((11 / 10) ^ 100) with (IZR (11 ^ 100) / IZR (10 ^ 100)).
    + apply Rmult_lt_reg_r with (IZR (10 ^ 100)); [apply IZR_lt; reflexivity|].
      unfold Rdiv. rewrite Rmult_assoc, Rinv_l, Rmult_1_r by (apply not_eq_sym, Rlt_not_eq, IZR_lt; reflexivity).
      rewrite <- mult_IZR. apply IZR_lt. reflexivity.
    + change (11 ^ 100)%Z with (11 ^ Z.of_nat 100)%Z. change (10 ^ 100)%Z with (10 ^ Z.of_nat 100)%Z. rewrite <- !pow_IZR.
      unfold Rdiv. now rewrite Rpow_mult_distr, pow_inv.
  - apply pow_incr. pose proof (exp_ineq1_le (1 / 10)). lra.
Qed.

Lemma new_tenth : exists s0, p2_new (A := RA) (1 / 10) = Ret s0.
Proof.
  eexists. unfold p2_new. cbn [RA leb]. unfold zero. cbn [RA of_Z].
  replace (Rleb (1 / 10) 0) with false by (symmetry; apply Rleb_false; lra).
  replace (Rleb 1 (1 / 10)) with false by (symmetry; apply Rleb_false; lra). reflexivity.
Qed.
