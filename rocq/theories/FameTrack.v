(** Where WindowedFAME settles when the stream stays in an interval. *)

From Coq Require Import ClassicalDedekindReals List Reals ZArith Lra Lia Bool Arith.
From Verif Require Import Outcome Arith Fame FameSpec FameFacts.
Import ListNotations.
Open Scope R_scope.

Lemma arch (e a : R) : 0 < e -> exists n, a < INR n * e.
Proof.
  intros He. destruct (archimed (a / e)) as [H _]. exists (Z.to_nat (up (a / e))).
  apply Rle_lt_trans with (a / e * e); [right; field; lra|]. apply Rmult_lt_compat_r; auto.
  apply Rlt_le_trans with (1 := H). rewrite INR_IZR_INZ. apply IZR_le. lia.
Qed.

Section Track.
  (** The estimate [M], the step [s] and the stream [x] of a run of FAME after its
      first observation. *)
  Context (M s x : nat -> R) (q L : R).
  Context (Hq : 1 <= q < 2).
  Context (Hs0 : 0 < s 0%nat).
  Context (HM : forall t, M (S t) = M t + sgn (x t - M t) * s t).
  Context (Hs : forall t, s (S t) = (if Rlt_dec (Rabs (x t - M (S t))) (s t) then s t / 2 else s t) * q).

  Lemma s_pos t : 0 < s t.
  Proof. induction t as [|t IH]; auto. rewrite Hs. destruct (Rlt_dec _ _); nra. Qed.

  (** Close: the step shrinks. Far: it does not. *)
  Definition close t : Prop := Rabs (x t - M t) < 2 * s t.

  Lemma close_dec t : {close t} + {~ close t}.
  Proof. apply Rlt_dec. Qed.

  Lemma step_close t : close t -> Rabs (x t - M (S t)) < s t /\ s (S t) = s t / 2 * q.
  Proof.
    intros C. assert (K : Rabs (x t - M (S t)) < s t).
    { rewrite HM. unfold close in C. revert C. pose proof (s_pos t). unfold sgn, Rabs.
      destruct (Rlt_dec (x t - M t) 0), (Rlt_dec 0 (x t - M t)); repeat destruct (Rcase_abs _); lra. }
    split; [exact K|]. rewrite Hs. destruct (Rlt_dec _ _); [reflexivity|contradiction].
  Qed.

  Lemma step_far t : ~ close t -> s (S t) = s t * q /\
    ((M t <= M (S t) <= x t /\ M (S t) = M t + s t) \/ (x t <= M (S t) <= M t /\ M (S t) = M t - s t)).
  Proof.
    intros C. assert (K : s t <= Rabs (x t - M (S t)) /\
      ((M t <= M (S t) <= x t /\ M (S t) = M t + s t) \/ (x t <= M (S t) <= M t /\ M (S t) = M t - s t))).
    { rewrite HM. unfold close in C. revert C. pose proof (s_pos t). unfold sgn, Rabs.
      destruct (Rlt_dec (x t - M t) 0), (Rlt_dec 0 (x t - M t)); repeat destruct (Rcase_abs _); lra. }
    destruct K as [K1 K2]. split; [|exact K2]. rewrite Hs. destruct (Rlt_dec _ _); [lra|reflexivity].
  Qed.

  (** Distances from the limit, when the stream is within [d] of it. *)
  Lemma close_limit t d : Rabs (x t - L) <= d -> close t -> Rabs (M (S t) - L) <= s t + d.
  Proof.
    intros Hd C. destruct (step_close t C) as [K _]. revert Hd K. unfold Rabs. repeat destruct (Rcase_abs _); lra.
  Qed.
  Lemma far_limit t d B : Rabs (x t - L) <= d -> ~ close t -> Rabs (M t - L) <= B -> d <= B -> Rabs (M (S t) - L) <= B.
  Proof.
    intros Hd C HB Hle. destruct (step_far t C) as [_ K]. revert Hd HB K. unfold Rabs. repeat destruct (Rcase_abs _); lra.
  Qed.

  Lemma search T n : (exists t, (T <= t < T + n)%nat /\ close t) \/ (forall t, (T <= t < T + n)%nat -> ~ close t).
  Proof.
    induction n as [|n [(t & Ht & C)|F]].
    - right. intros t Ht. lia.
    - left. exists t. split; auto. lia.
    - destruct (close_dec (T + n)) as [C|C].
      + left. exists (T + n)%nat. split; auto. lia.
      + right. intros t Ht. destruct (Nat.eq_dec t (T + n)) as [->|]; auto. apply F. lia.
  Qed.

  (** Without growth of the step. *)
  Lemma q1_step t : q = 1 -> s (S t) <= s t.
  Proof. intros E. rewrite Hs, E. pose proof (s_pos t). destruct (Rlt_dec _ _); lra. Qed.
  Lemma q1_mono t n : q = 1 -> s (t + n)%nat <= s t.
  Proof. intros E. induction n as [|n IH]; [rewrite Nat.add_0_r; lra|]. rewrite Nat.add_succ_r. pose proof (q1_step (t + n) E). lra. Qed.

  Lemma pow2_big (r : R) : exists n, r < 2 ^ n.
  Proof.
    destruct (arch 1 r) as (n & Hn); [lra|]. exists n. rewrite Rmult_1_r in Hn.
    apply Rlt_trans with (INR n); auto. clear. induction n as [|n IH]; [simpl; lra|].
    rewrite S_INR. cbn [pow]. assert (1 <= 2 ^ n) by (apply pow_R1_Rle; lra). lra.
  Qed.

  (** How far the estimate is outside an interval. *)
  Section Interval.
    Context (lo hi : R) (T : nat).
    Context (Hq1 : q = 1).
    Context (HI : forall t, (T <= t)%nat -> lo <= x t <= hi).

    Definition out t : R := Rmax 0 (Rmax (lo - M t) (M t - hi)).

    Lemma out_close t : (T <= t)%nat -> close t -> out (S t) <= s t.
    Proof.
      intros Ht C. destruct (step_close t C) as [K _]. pose proof (HI t Ht). pose proof (s_pos t). unfold out.
      apply Rmax_lub; [lra|]. revert K. unfold Rabs. destruct (Rcase_abs _); intros; apply Rmax_lub; lra.
    Qed.
    Lemma out_far t : (T <= t)%nat -> ~ close t -> out (S t) <= Rmax 0 (out t - s t).
    Proof.
      intros Ht C. destruct (step_far t C) as [_ K]. pose proof (HI t Ht). pose proof (s_pos t). unfold out.
      unfold Rmax. repeat destruct (Rle_dec _ _); destruct K as [K|K]; lra.
    Qed.
    Lemma out_pos t : 0 <= out t.
    Proof. unfold out. apply Rmax_l. Qed.

    (** Once below [e] with a step below [e], for ever. *)
    Lemma out_stays e t : (T <= t)%nat -> s t <= e -> out t <= e -> forall n, out (t + n)%nat <= e.
    Proof.
      intros Ht Se Oe n. induction n as [|n IH]; [now rewrite Nat.add_0_r|]. rewrite Nat.add_succ_r.
      destruct (close_dec (t + n)) as [C|C].
      - pose proof (out_close (t + n) ltac:(lia) C). pose proof (q1_mono t n Hq1). lra.
      - pose proof (out_far (t + n) ltac:(lia) C). pose proof (s_pos (t + n)). pose proof (out_pos t).
        revert H. unfold Rmax. destruct (Rle_dec _ _); lra.
    Qed.

    (** Either it is close again, or it enters the interval and stays. *)
    Lemma far_enters t n : (T <= t)%nat -> (forall u, (t <= u < t + n)%nat -> ~ close u) ->
      s (t + n)%nat = s t /\ out (t + n)%nat <= Rmax 0 (out t - INR n * s t).
    Proof.
      intros Ht. induction n as [|n IH]; intros F.
      - rewrite Nat.add_0_r. split; auto. simpl. pose proof (out_pos t). unfold Rmax. destruct (Rle_dec _ _); lra.
      - destruct IH as [I1 I2]; [intros u Hu; apply F; lia|]. rewrite Nat.add_succ_r.
        assert (C : ~ close (t + n)) by (apply F; lia). destruct (step_far _ C) as [K _].
        split; [rewrite K, I1, Hq1; lra|]. pose proof (out_far (t + n) ltac:(lia) C) as H. rewrite I1 in H.
        pose proof (s_pos t). rewrite S_INR. revert H I2. unfold Rmax. repeat destruct (Rle_dec _ _); lra.
    Qed.

    Definition within e : Prop := exists t, forall m, (t <= m)%nat -> out m <= e.

    Lemma next_close e t : 0 < e -> (T <= t)%nat -> within e \/ exists u, (t <= u)%nat /\ close u.
    Proof.
      intros He Ht.
      destruct (sig_forall_dec (fun n => ~ close (t + n))) as [(n & Hn)|F].
      { intros n. destruct (close_dec (t + n)); auto. }
      - right. exists (t + n)%nat. split; [lia|]. destruct (close_dec (t + n)); tauto.
      - left. destruct (arch (s t) (out t)) as (m & Hm); [apply s_pos|].
        exists (t + m)%nat. intros k Hk. destruct (far_enters t (k - t) Ht) as [_ O1].
        { intros u Hu. replace u with (t + (u - t))%nat by lia. apply F. }
        replace (t + (k - t))%nat with k in O1 by lia.
        assert (INR m <= INR (k - t)) by (apply le_INR; lia). pose proof (s_pos t).
        revert O1. unfold Rmax. destruct (Rle_dec _ _); nra.
    Qed.

    Lemma shrinks e n : 0 < e -> within e \/ (exists t, (T <= t)%nat /\ close t /\ s t <= s T / 2 ^ n).
    Proof.
      intros He. induction n as [|n [I|(t & Ht & C & I)]]; auto.
      - destruct (next_close e T He (Nat.le_refl T)) as [W|(t & Ht & C)]; auto.
        right. exists t. split; auto. split; auto. replace t with (T + (t - T))%nat by lia. simpl.
        pose proof (q1_mono T (t - T) Hq1). lra.
      - destruct (next_close e (S t) He ltac:(lia)) as [W|(t' & Ht' & C')]; auto.
        right. exists t'. split; [lia|]. split; auto.
        replace t' with (S t + (t' - S t))%nat by lia. pose proof (q1_mono (S t) (t' - S t) Hq1).
        destruct (step_close t C) as [_ K]. rewrite K, Hq1 in H. cbn [pow].
        assert (0 < 2 ^ n) by (apply pow_lt; lra).
        replace (s T / (2 * 2 ^ n)) with (s T / 2 ^ n / 2) by (field; lra). lra.
    Qed.

    Lemma settles_q1 e : 0 < e -> within e.
    Proof.
      intros He. destruct (pow2_big (s T / e)) as (n & Hn).
      destruct (shrinks e n He) as [W|(t & Ht & C & Hst)]; auto.
      assert (B : s t <= e).
      { apply Rle_trans with (1 := Hst). assert (0 < 2 ^ n) by (apply pow_lt; lra).
        apply Rmult_le_reg_r with (2 ^ n); auto. unfold Rdiv at 1. rewrite Rmult_assoc, Rinv_l, Rmult_1_r by lra.
        apply Rmult_lt_compat_r with (r := e) in Hn; auto. unfold Rdiv in Hn. rewrite Rmult_assoc, Rinv_l in Hn by lra. lra. }
      exists (S t). intros m Hm. replace m with (S t + (m - S t))%nat by lia.
      apply out_stays; [lia| |].
      - pose proof (q1_step t Hq1). lra.
      - pose proof (out_close t Ht C). lra.
    Qed.
  End Interval.

  (** With a growing step. *)
  Section Growing.
    Context (d : R) (T : nat).
    Context (Hq1 : 1 < q).
    Context (Hd : 0 < d).
    Context (HT : forall t, (T <= t)%nat -> Rabs (x t - L) <= d).
    Let B : R := 2 * d / (q - 1).

    Lemma B_eq : B * (q - 1) = 2 * d.
    Proof. unfold B. field. lra. Qed.
    Lemma B_big : 2 * d < B.
    Proof. pose proof B_eq. assert (0 < B) by (unfold B; apply Rdiv_lt_0_compat; lra).
      assert (B * (q - 1) < B * 1) by (apply Rmult_lt_compat_l; lra). lra. Qed.

    (** A close observation met with a large step is followed by another one. *)
    Lemma still_close t : (T <= t)%nat -> close t -> B < s t -> close (S t).
    Proof.
      intros Ht C HB. destruct (step_close t C) as [K1 K2]. unfold close. rewrite K2.
      pose proof (HT t Ht). pose proof (HT (S t) ltac:(lia)). pose proof B_eq.
      assert (s t + 2 * d < 2 * (s t / 2 * q)) by nra.
      apply Rle_lt_trans with (s t + 2 * d); auto. revert K1 H H0. unfold Rabs. repeat destruct (Rcase_abs _); lra.
    Qed.

    (** So the step comes down to [B] at a close observation. *)
    Lemma halvings n t : (T <= t)%nat -> close t ->
      (exists t', (t <= t')%nat /\ close t' /\ s t' <= B) \/ (close (t + n) /\ s (t + n)%nat <= s t * (q / 2) ^ n /\ B < s (t + n)%nat).
    Proof.
      intros Ht C. induction n as [|n [I|(C' & I & HB)]]; auto.
      - rewrite Nat.add_0_r. destruct (Rle_lt_dec (s t) B); [left; exists t; auto|]. right. split; [auto|split; [simpl; lra|auto]].
      - rewrite Nat.add_succ_r. pose proof (still_close (t + n) ltac:(lia) C' HB) as C2.
        destruct (Rle_lt_dec (s (S (t + n))) B); [left; exists (S (t + n)); split; [lia|auto]|].
        right. split; auto. split; auto. destruct (step_close _ C') as [_ ->]. cbn [pow]. nra.
    Qed.

    (** A step that grows is met again by a close observation. *)
    Lemma far_grows t n : (T <= t)%nat -> (forall u, (t <= u < t + n)%nat -> ~ close u) ->
      s (t + n)%nat = s t * q ^ n /\ Rabs (M (t + n)%nat - L) <= Rmax d (Rabs (M t - L)).
    Proof.
      intros Ht. induction n as [|n IH]; intros F.
      - rewrite Nat.add_0_r. split; [simpl; lra|apply Rmax_r].
      - destruct IH as [I1 I2]; [intros u Hu; apply F; lia|]. rewrite Nat.add_succ_r.
        assert (C : ~ close (t + n)) by (apply F; lia). destruct (step_far _ C) as [K _].
        split; [rewrite K, I1; simpl; ring|]. apply (far_limit _ d); auto; [apply HT; lia|apply Rmax_l].
    Qed.
    Lemma close_again t : (T <= t)%nat -> exists u, (t <= u)%nat /\ close u.
    Proof.
      intros Ht. set (E := Rmax d (Rabs (M t - L))).
      destruct (Pow_x_infinity q) with (b := (E + d) / s t) as (n & Hn); [rewrite Rabs_right; lra|].
      destruct (search t (S n)) as [(u & Hu & C)|F]; [exists u; split; auto; lia|].
      destruct (far_grows t n Ht) as [G1 G2]; [intros u Hu; apply F; lia|]. fold E in G2.
      exfalso. apply (F (t + n)%nat); [lia|]. unfold close. rewrite G1.
      pose proof (HT (t + n)%nat ltac:(lia)) as Hx1. specialize (Hn n ltac:(lia)).
      pose proof (s_pos t) as Sp. assert (0 < q ^ n) by (apply pow_lt; lra).
      rewrite Rabs_right in Hn by lra. apply Rge_le in Hn.
      apply Rmult_le_compat_r with (r := s t) in Hn; [|lra]. unfold Rdiv in Hn. rewrite Rmult_assoc, Rinv_l, Rmult_1_r in Hn by lra.
      apply Rle_lt_trans with (E + d).
      - revert Hx1 G2. unfold Rabs. repeat destruct (Rcase_abs _); lra.
      - assert (0 < q ^ n * s t) by (apply Rmult_lt_0_compat; auto). lra.
    Qed.

    Lemma comes_down : exists t, (T <= t)%nat /\ close t /\ s t <= B.
    Proof.
      destruct (close_again T (Nat.le_refl T)) as (t & Ht & C). pose proof B_big.
      destruct (pow_lt_1_zero (q / 2)) with (y := B / s t) as (n & Hn).
      { rewrite Rabs_right; lra. } { apply Rdiv_lt_0_compat; [lra|apply s_pos]. }
      specialize (Hn n ltac:(lia)). rewrite Rabs_right in Hn by (apply Rle_ge, pow_le; lra).
      destruct (halvings n t Ht C) as [(t' & Ht' & C' & Hb)|(C' & I & HB)]; [exists t'; split; [lia|auto]|].
      exfalso. pose proof (s_pos t). apply Rmult_lt_compat_r with (r := s t) in Hn; auto.
      unfold Rdiv in Hn at 2. rewrite Rmult_assoc, Rinv_l, Rmult_1_r in Hn by lra. lra.
    Qed.

    Definition inv t : Prop :=
      s t <= B + 2 * d /\ Rabs (M t - L) <= B + 3 * d /\ (close t \/ (s t <= B /\ Rabs (M t - L) <= B + d)).

    Lemma inv_step t : (T <= t)%nat -> inv t -> inv (S t).
    Proof.
      intros Ht (I1 & I2 & I3). pose proof (HT t Ht) as Hx1. pose proof (HT (S t) ltac:(lia)) as Hx2. pose proof B_big.
      pose proof (s_pos t).
      destruct (close_dec t) as [C|C].
      - pose proof (close_limit t d Hx1 C) as Hl. destruct (step_close t C) as [_ K].
        assert (s (S t) <= s t) by (rewrite K; nra).
        destruct (Rle_lt_dec (s t) B) as [Hb|Hb].
        + split; [lra|]. split; [lra|]. right. lra.
        + split; [lra|]. split; [lra|]. left. apply still_close; auto.
      - destruct I3 as [I3|[I3 I4]]; [contradiction|].
        pose proof (far_limit t d (B + d) Hx1 C I4 ltac:(lra)) as Hl. destruct (step_far t C) as [K _].
        assert (s (S t) <= B + 2 * d).
        { rewrite K. assert (2 * s t <= B + 2 * d); [|nra]. unfold close in C. revert C Hx1 I4. unfold Rabs. repeat destruct (Rcase_abs _); lra. }
        split; [auto|]. split; [lra|]. destruct (Rle_lt_dec (s (S t)) B); [right; split; auto|].
        left. unfold close. apply Rle_lt_trans with (B + 2 * d); [|lra].
        revert Hl Hx2. unfold Rabs. repeat destruct (Rcase_abs _); lra.
    Qed.

    Lemma settles : exists t, forall m, (t <= m)%nat -> Rabs (M m - L) <= B + 3 * d.
    Proof.
      destruct comes_down as (t & Ht & C & Hb). pose proof B_big.
      assert (I0 : inv (S t)).
      { pose proof (close_limit t d (HT t Ht) C). destruct (step_close t C) as [_ K]. pose proof (s_pos t).
        assert (s (S t) <= s t) by (rewrite K; nra). split; [lra|]. split; [lra|]. right. lra. }
      exists (S t). intros m Hm. replace m with (S t + (m - S t))%nat by lia.
      enough (G : forall k, inv (S t + k)) by (destruct (G (m - S t)%nat) as (_ & G' & _); exact G').
      induction k as [|k IH]; [rewrite Nat.add_0_r; auto|]. rewrite Nat.add_succ_r. apply inv_step; auto. lia.
    Qed.
  End Growing.

  (** Both together. *)
  Lemma tail d : Un_cv x L -> 0 < d -> exists T, forall t, (T <= t)%nat -> Rabs (x t - L) <= d.
  Proof. intros Hx Hd. destruct (Hx d Hd) as (T & HT). exists T. intros t Ht. left. apply HT. lia. Qed.

  Lemma track : Un_cv x L -> Un_cv M L.
  Proof.
    intros Hx. destruct (Req_dec q 1) as [E|E].
    - intros e He. destruct (tail (e / 3) Hx) as (T & HT); [lra|].
      destruct (settles_q1 (L - e / 3) (L + e / 3) T E) with (e := e / 3) as (t & Ht); [|lra|].
      + intros t Ht. specialize (HT t Ht). revert HT. unfold Rabs. destruct (Rcase_abs _); lra.
      + exists t. intros m Hm. specialize (Ht m Hm). unfold out in Ht. unfold R_dist.
        pose proof (Rmax_l (L - e / 3 - M m) (M m - (L + e / 3))). pose proof (Rmax_r (L - e / 3 - M m) (M m - (L + e / 3))).
        pose proof (Rmax_r 0 (Rmax (L - e / 3 - M m) (M m - (L + e / 3)))). unfold Rabs. destruct (Rcase_abs _); lra.
    - intros e He. set (c := 2 / (q - 1) + 3).
      assert (Hc : 3 < c) by (unfold c; assert (0 < 2 / (q - 1)) by (apply Rdiv_lt_0_compat; lra); lra).
      destruct (tail (e / (2 * c)) Hx) as (T & HT); [apply Rdiv_lt_0_compat; lra|].
      destruct (settles (e / (2 * c)) T) as (t & Ht); auto; [lra|apply Rdiv_lt_0_compat; lra|].
      exists t. intros m Hm. unfold R_dist. apply Rle_lt_trans with (1 := Ht m Hm).
      replace (2 * (e / (2 * c)) / (q - 1) + 3 * (e / (2 * c))) with (c * (e / (2 * c))) by (unfold c; field; unfold c in Hc; lra).
      replace (c * (e / (2 * c))) with (e / 2) by (field; lra). lra.
  Qed.
End Track.

(** The first [n] observations of a stream. *)
Lemma prefix_S (x : nat -> R) n : map x (seq 0 (S n)) = map x (seq 0 n) ++ [x n].
Proof. rewrite seq_S, map_app. reflexivity. Qed.

Lemma cv_shift (u : nat -> R) l : Un_cv (fun n => u (S n)) l -> Un_cv u l.
Proof.
  intros H e He. destruct (H e He) as (N & HN). exists (S N). intros n Hn.
  destruct n as [|n]; [lia|]. apply HN. lia.
Qed.
Lemma cv_tail (u : nat -> R) l : Un_cv u l -> Un_cv (fun n => u (S n)) l.
Proof. intros H e He. destruct (H e He) as (N & HN). exists N. intros n Hn. apply HN. lia. Qed.

Section Run.
  Context (step eps : R) (s : fame RA) (x : nat -> R).
  Context (E : fame_new (A := RA) step eps = Ret s) (Hs : 0 < step).
  Let est n : R := fame_evaluate (fame_run s (map x (seq 0 (S n)))).
  Let stp n : R := f_step (fame_run s (map x (seq 0 (S n)))).

  Lemma run_moves n : est (S n) = est n + sgn (x (S n) - est n) * stp n /\ 0 < stp n /\
    stp (S n) = (if Rlt_dec (Rabs (x (S n) - est (S n))) (stp n) then stp n / 2 else stp n) * (1 + eps).
  Proof.
    unfold est, stp. rewrite (prefix_S x (S n)).
    destruct (fame_move step eps s (map x (seq 0 (S n))) (x (S n)) E Hs) as (H1 & H2 & H3 & _); [simpl; discriminate|]. auto.
  Qed.
  Lemma run_eps : 1 <= 1 + eps < 2.
  Proof. pose proof (fame_new_ge_RA _ _ _ E). lra. Qed.

  Lemma fame_tracks L : Un_cv x L -> Un_cv (fun n => fame_evaluate (fame_run s (map x (seq 0 n)))) L.
  Proof.
    intros Hx. apply cv_shift. apply (track est stp (fun n => x (S n)) (1 + eps) L run_eps).
    - apply (run_moves 0).
    - intros t. apply (run_moves t).
    - intros t. apply (run_moves t).
    - now apply cv_tail.
  Qed.

  Lemma fame_settles lo hi T e : eps = 0 -> (forall t, (T <= t)%nat -> lo <= x t <= hi) -> 0 < e ->
    exists N, forall n, (N <= n)%nat -> lo - e <= fame_evaluate (fame_run s (map x (seq 0 n))) <= hi + e.
  Proof.
    intros E0 HI He.
    destruct (settles_q1 est stp (fun n => x (S n)) (1 + eps) run_eps) with (lo := lo) (hi := hi) (T := T) (e := e) as (N & HN).
    - apply (run_moves 0).
    - intros t. apply (run_moves t).
    - intros t. apply (run_moves t).
    - lra.
    - intros t Ht. apply HI. lia.
    - exact He.
    - exists (S N). intros n Hn. destruct n as [|n]; [lia|]. specialize (HN n ltac:(lia)). unfold out in HN. fold (est n).
      pose proof (Rmax_l (lo - est n) (est n - hi)). pose proof (Rmax_r (lo - est n) (est n - hi)).
      pose proof (Rmax_r 0 (Rmax (lo - est n) (est n - hi))). lra.
  Qed.

  Lemma fame_settles_growing L d T : 0 < eps -> 0 < d -> (forall t, (T <= t)%nat -> Rabs (x t - L) <= d) ->
    exists N, forall n, (N <= n)%nat -> Rabs (fame_evaluate (fame_run s (map x (seq 0 n))) - L) <= (2 / eps + 3) * d.
  Proof.
    intros E0 Hd HI.
    destruct (settles est stp (fun n => x (S n)) (1 + eps) L run_eps) with (d := d) (T := T) as (N & HN).
    - apply (run_moves 0).
    - intros t. apply (run_moves t).
    - intros t. apply (run_moves t).
    - lra.
    - exact Hd.
    - intros t Ht. apply HI. lia.
    - exists (S N). intros n Hn. destruct n as [|n]; [lia|]. specialize (HN n ltac:(lia)). fold (est n).
      replace ((2 / eps + 3) * d) with (2 * d / (1 + eps - 1) + 3 * d) by (field; lra). exact HN.
  Qed.
End Run.

Lemma deviations_prefix (f : fame RA) (x : nat -> R) n :
  deviations f (map x (seq 0 n)) =
  map (fun i => Rabs (x i - fame_evaluate (fame_run f (map x (seq 0 (S i)))))) (seq 0 n).
Proof.
  unfold deviations. rewrite map_length, seq_length. apply map_ext_in. intros i Hi. apply in_seq in Hi.
  unfold deviation. rewrite firstn_map.
  replace (firstn (S i) (seq 0 n)) with (seq 0 (S i)).
  - rewrite (nth_indep _ _ (x 0%nat)) by (rewrite map_length, seq_length; lia). rewrite map_nth, seq_nth by lia. reflexivity.
  - replace n with (S i + (n - S i))%nat by lia. rewrite seq_app, firstn_app, seq_length, Nat.sub_diag, firstn_O, app_nil_r.
    symmetry. rewrite <- (seq_length (S i) 0) at 1. apply firstn_all.
Qed.

Lemma mad_vanishes s (x : nat -> R) (L : R) : mad_new (A := RA) = Ret s -> Un_cv x L ->
  Un_cv (fun n => mad_evaluate (mad_run s (map x (seq 0 n)))) 0.
Proof.
  intros E Hx.
  assert (Hf : exists f, fame_new (A := RA) (lit 1 10) (of_Z 0) = Ret f).
  { unfold mad_new in E. destruct (fame_new (A := RA) (lit 1 10) (of_Z 0)) as [f| |] eqn:K; try discriminate. now exists f. }
  destruct Hf as (f & Hf).
  assert (P : 0 < (lit 1 10 : RA)) by (cbn; lra).
  pose proof (fame_tracks _ _ f x Hf P L Hx) as H1.
  set (y := fun i => Rabs (x i - fame_evaluate (fame_run f (map x (seq 0 (S i)))))).
  assert (Hy : Un_cv y 0).
  { intros e He. destruct (Hx (e / 2)) as (N1 & HN1); [lra|]. destruct (H1 (e / 2)) as (N2 & HN2); [lra|].
    exists (Nat.max N1 N2). intros n Hn. specialize (HN1 n ltac:(lia)). specialize (HN2 (S n) ltac:(lia)).
    unfold R_dist, y in * . revert HN1 HN2. generalize (fame_evaluate (fame_run f (map x (seq 0 (S n))))). intros m.
    cbn in m |- * . unfold Rabs. repeat destruct (Rcase_abs _); lra. }
  pose proof (fame_tracks _ _ f y Hf P 0 Hy) as H2.
  intros e He. destruct (H2 e He) as (N & HN). exists N. intros n Hn. specialize (HN n Hn).
  destruct (mad_two_fames f s (map x (seq 0 n)) Hf E) as [-> _]. rewrite deviations_prefix. exact HN.
Qed.

Lemma mad_settles s (x : nat -> R) lo hi T e : mad_new (A := RA) = Ret s ->
  (forall t, (T <= t)%nat -> lo <= x t <= hi) -> 0 < e ->
  exists N, forall n, (N <= n)%nat -> mad_evaluate (mad_run s (map x (seq 0 n))) <= hi - lo + e.
Proof.
  intros E HI He.
  assert (Hf : exists f, fame_new (A := RA) (lit 1 10) (of_Z 0) = Ret f).
  { unfold mad_new in E. destruct (fame_new (A := RA) (lit 1 10) (of_Z 0)) as [f| |] eqn:K; try discriminate. now exists f. }
  destruct Hf as (f & Hf).
  assert (P : 0 < (lit 1 10 : RA)) by (cbn; lra).
  set (y := fun i => Rabs (x i - fame_evaluate (fame_run f (map x (seq 0 (S i)))))).
  destruct (fame_settles _ _ f x Hf P lo hi T (e / 2)) as (N1 & H1); auto; [lra|].
  destruct (fame_settles _ _ f y Hf P 0 (hi - lo + e / 2) (Nat.max T N1) (e / 2)) as (N & HN); auto; [|lra|].
  { intros t Ht. unfold y. specialize (HI t ltac:(lia)). specialize (H1 (S t) ltac:(lia)). revert H1.
    generalize (fame_evaluate (fame_run f (map x (seq 0 (S t))))). intros m H1. cbn in m, H1 |- * .
    unfold Rabs. destruct (Rcase_abs _); lra. }
  exists N. intros n Hn. specialize (HN n Hn).
  destruct (mad_two_fames f s (map x (seq 0 n)) Hf E) as [-> _]. rewrite deviations_prefix. fold y.
  destruct HN as [_ HN]. cbn in * . lra.
Qed.

(** Non-trivial streams: 1/(n+1) converges and is not constant. *)
Lemma track_case : exists s, fame_new (A := RA) (1 / 10) (1 / 2) = Ret s /\ Un_cv (fun n => 7 + / (INR n + 1)) 7.
Proof.
  exists (Fame (A := RA) 0 (1 / 10) (1 / 2) 0). split.
  - unfold fame_new. cbn. unfold Rltb, Rleb. destruct (Rlt_dec (1 / 2) 0), (Rle_dec 1 (1 / 2)); try lra. reflexivity.
  - intros e He. destruct (arch e 1 He) as (N & HN). exists N. intros n Hn. unfold R_dist.
    replace (7 + / (INR n + 1) - 7) with (/ (INR n + 1)) by ring. pose proof (pos_INR n).
    rewrite Rabs_right by (left; apply Rinv_0_lt_compat; lra).
    apply Rmult_lt_reg_l with (INR n + 1); [lra|]. rewrite Rinv_r by lra.
    apply le_INR in Hn. nra.
Qed.

Lemma settle_case : (exists s, fame_new (A := RA) (1 / 10) 0 = Ret s) /\ (exists s, mad_new (A := RA) = Ret s).
Proof.
  assert (G : forall r : R, fame_new (A := RA) r 0 = Ret (Fame (A := RA) 0 r 0 0)).
  { intros r. unfold fame_new. cbn. unfold Rltb, Rleb. destruct (Rlt_dec 0 0), (Rle_dec 1 0); try lra. reflexivity. }
  split; [eexists; apply G|]. unfold mad_new. cbn [of_Z RA]. rewrite G. cbn [bind]. eexists. reflexivity.
Qed.
