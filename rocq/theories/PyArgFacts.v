(** Proofs: constructor arguments arrive unchanged; Python dicts and std::map keys. *)

From Coq Require Import List ZArith NArith Bool Reals Lra Lia Arith.
From Flocq Require Import Core.Core IEEE754.BinarySingleNaN.
From Verif Require Import Outcome Arith FloatSpec FloatFacts Mean P2 Fame Entropy Histogram
  RingBuffer LinkedList PyFloat Cython PyHist PyArgSpec.
Import ListNotations.
Local Open Scope nat_scope.

Lemma size_int fs n : (0 <= n < 2 ^ 64)%Z -> as_size fs (PyInt n) = inl (Z.to_nat n) /\ as_uint64 fs (PyInt n) = inl (Z.to_N n).
Proof.
  intros Hn. unfold as_size, as_uint64. destruct (Z.leb_spec 0 n), (Z.ltb_spec n (2 ^ 64)); try lia. cbn [andb]. now rewrite Z_N_nat.
Qed.

Lemma cpp_ret {X} (o : outcome X) s : cpp o = Ret (inl s) -> o = Ret s.
Proof. destruct o; cbn; intros H; inversion H; reflexivity. Qed.

Lemma wp2_new_fields {A : arith} (q : A) w s : wp2_new q w = Ret s -> p_quantile (w_p2 s) = q /\ w_wsize s = w /\ w_history s = 0.
Proof.
  unfold wp2_new, p2_new. destruct (_ || _); cbn; intros H; inversion H; auto.
Qed.

Lemma iqr_new_fields {A : arith} (l h : A) w s : iqr_new_range l h w = Ret s ->
  p_quantile (w_p2 (i_low s)) = l /\ p_quantile (w_p2 (i_high s)) = h /\ w_wsize (i_low s) = w /\ w_wsize (i_high s) = w.
Proof.
  unfold iqr_new_range. destruct (wp2_new l w) as [a|e|u] eqn:Ea; cbn [bind]; try discriminate.
  destruct (wp2_new h w) as [b|e|u] eqn:Eb; cbn [bind]; try discriminate. intros H. inversion H; subst. cbn.
  apply wp2_new_fields in Ea, Eb. tauto.
Qed.

Lemma arguments_arrive (fs : double -> result N) (n : Z) : (0 <= n < 2 ^ 64)%Z ->
  (exists s, py_mean fs (PyInt n) = Ret (inl s) /\ mn_wsize s = Z.to_nat n) /\
  (exists s, py_variance fs (PyInt n) = Ret (inl s) /\ mn_wsize (va_mean s) = Z.to_nat n /\ mn_wsize (va_sq s) = Z.to_nat n) /\
  (forall q s, py_wp2 fs q (PyInt n) = Ret (inl s) -> as_double q = inl (p_quantile (w_p2 s)) /\ w_wsize s = Z.to_nat n) /\
  (forall lo hi s, lo <> PyNone -> hi <> PyNone -> py_iqr fs lo hi (PyInt n) = Ret (inl s) ->
     as_double lo = inl (p_quantile (w_p2 (i_low s))) /\ as_double hi = inl (p_quantile (w_p2 (i_high s))) /\
     w_wsize (i_low s) = Z.to_nat n /\ w_wsize (i_high s) = Z.to_nat n) /\
  (forall s, py_iqr fs PyNone PyNone (PyInt n) = Ret (inl s) ->
     p_quantile (w_p2 (i_low s)) = lit (A := B64) 1 4 /\ p_quantile (w_p2 (i_high s)) = lit (A := B64) 3 4 /\
     w_wsize (i_low s) = Z.to_nat n /\ w_wsize (i_high s) = Z.to_nat n) /\
  (forall b s, (0 < b < 2 ^ 64)%Z -> py_entropy fs (PyInt n) (PyInt b) = Ret (inl s) ->
     e_wsize s = Z.to_nat n /\ h_numBins (e_hist s) = Z.to_nat b /\ h_windowSize (e_hist s) = Z.to_nat n) /\
  (forall b, (0 <= b < 2 ^ 64)%Z -> exists s, py_hist fs (PyInt b) (PyInt n) = Ret (inl s) /\ h_numBins s = Z.to_nat b /\ h_windowSize s = Z.to_nat n) /\
  (exists s, py_ring fs (PyInt n) = Ret (inl s) /\ rb_window s = Z.to_N n) /\
  (exists s, py_list fs (PyInt n) = Ret (inl s) /\ ll_window s = Z.to_nat n).
Proof.
  intros Hn. destruct (size_int fs n Hn) as [En Un]. repeat match goal with |- _ /\ _ => split end.
  - unfold py_mean. rewrite En. cbn [try_]. eexists. split; reflexivity.
  - unfold py_variance. rewrite En. cbn [try_]. eexists. split; [reflexivity|]. split; reflexivity.
  - intros q s. unfold py_wp2. rewrite En. destruct (as_double q) as [x|e]; cbn [try_]; [|discriminate].
    intros H. apply cpp_ret, wp2_new_fields in H. destruct H as (-> & -> & _). auto.
  - intros lo hi s Hlo Hhi. unfold py_iqr. rewrite En.
    assert (G : try_ (as_double lo) (fun l => try_ (as_double hi) (fun h => try_ (inl (Z.to_nat n)) (fun w => cpp (iqr_new_range (A := B64) l h w)))) = Ret (inl s) ->
      as_double lo = inl (p_quantile (w_p2 (i_low s))) /\ as_double hi = inl (p_quantile (w_p2 (i_high s))) /\
      w_wsize (i_low s) = Z.to_nat n /\ w_wsize (i_high s) = Z.to_nat n).
    { destruct (as_double lo) as [l|e]; cbn [try_]; [|discriminate]. destruct (as_double hi) as [h|e]; cbn [try_]; [|discriminate].
      intros H. apply cpp_ret, iqr_new_fields in H. destruct H as (-> & -> & -> & ->). auto. }
    intros H. apply G. destruct lo, hi; try congruence; exact H.
  - intros s. unfold py_iqr. rewrite En. cbn [try_]. intros H. apply cpp_ret, iqr_new_fields in H. exact H.
  - intros b s Hb. assert (Hb0 : (0 <= b < 2 ^ 64)%Z) by lia. destruct (size_int fs b Hb0) as [Eb _].
    unfold py_entropy. rewrite En, Eb. cbn [try_]. intros H. apply cpp_ret in H. unfold entropy_new, entropy_bins in H.
    destruct (Z.to_nat b) as [|k] eqn:K; [lia|]. cbn in H. inversion H; subst. cbn. auto.
  - intros b Hb. destruct (size_int fs b Hb) as [Eb _]. unfold py_hist. rewrite En, Eb. cbn [try_]. eexists. split; [reflexivity|]. split; reflexivity.
  - unfold py_ring. rewrite Un. cbn [try_]. eexists. split; reflexivity.
  - unfold py_list. rewrite En. cbn [try_]. eexists. split; reflexivity.
Qed.

Lemma fame_arguments v w s : py_fame v w = Ret (inl s) -> as_double v = inl (f_step s) /\ as_double w = inl (f_epsilon s).
Proof.
  unfold py_fame. destruct (as_double v) as [st|e]; cbn [try_]; [|discriminate]. destruct (as_double w) as [ep|e]; cbn [try_]; [|discriminate].
  intros H. apply cpp_ret in H. unfold fame_new in H. destruct (_ || _); inversion H; subst. auto.
Qed.

(** ** dict *)

Lemma same_key_eq k1 k2 : number_key k1 -> number_key k2 -> (same_key k1 k2 = true <-> equal_keys k1 k2).
Proof.
  intros [A1 A2] [B1 B2]. unfold same_key, equal_keys. rewrite andb_true_iff.
  rewrite (X_eqb (fst k1) (fst k2)), (X_eqb (snd k1) (snd k2)) by auto. reflexivity.
Qed.

Lemma dict_set_spec d : forall k v, Forall (fun e => number_key (fst e)) d -> number_key k ->
  ForallOrdPairs (fun a b => ~ equal_keys (fst a) (fst b)) d ->
  (exists k', In (k', v) (dict_set d k v) /\ equal_keys k' k) /\
  (forall k' v', In (k', v') (dict_set d k v) -> equal_keys k' k -> v' = v) /\
  (forall k' v', ~ equal_keys k' k -> In (k', v') (dict_set d k v) <-> In (k', v') d) /\
  ForallOrdPairs (fun a b => ~ equal_keys (fst a) (fst b)) (dict_set d k v).
Proof.
  induction d as [|[k1 v1] d IH]; intros k v HN Hk HP.
  - cbn. split; [exists k; split; [auto|split; reflexivity]|]. split; [intros k' v' [E|[]]; congruence|].
    split; [|constructor; constructor]. intros k' v' Hne. split; [|tauto]. intros [E|[]]. exfalso. apply Hne. inversion E. split; reflexivity.
  - inversion HN as [|? ? N1 HN']; subst. inversion HP as [|? ? P1 HP']; subst. cbn [fst] in * . cbn [dict_set].
    pose proof (same_key_eq k1 k N1 Hk) as SK. destruct (same_key k1 k).
    + assert (E1 : equal_keys k1 k) by now apply SK. split; [exists k1; split; [left; reflexivity|exact E1]|].
      assert (Out : forall k' v', In (k', v') d -> ~ equal_keys k' k).
      { intros k' v' Hin Hk'. rewrite Forall_forall in P1. apply (P1 _ Hin). cbn [fst]. destruct E1, Hk'. split; congruence. }
      split; [|split].
      * intros k' v' [E|Hin] Hk'; [congruence|]. exfalso. exact (Out _ _ Hin Hk').
      * intros k' v' Hne. cbn [In]. split; intros [E|Hin]; auto; exfalso; apply Hne; inversion E; subst; exact E1.
      * constructor; auto.
    + assert (E1 : ~ equal_keys k1 k) by (intros E; apply SK in E; discriminate E).
      destruct (IH k v HN' Hk HP') as ((k0 & I0 & E0) & I1 & I2 & I3). split; [exists k0; split; [right; exact I0|exact E0]|].
      split; [|split].
      * intros k' v' [E|Hin] Hk'; [|exact (I1 _ _ Hin Hk')]. exfalso. inversion E; subst. contradiction.
      * intros k' v' Hne. cbn [In]. rewrite (I2 k' v' Hne). reflexivity.
      * constructor; auto. rewrite Forall_forall in P1 |- * . intros [k' v'] Hin. cbn [fst].
        intros Hek. assert (Hne : ~ equal_keys k' k) by (intros [Ha Hb]; apply E1; destruct Hek; split; congruence).
        apply (I2 k' v' Hne) in Hin. exact (P1 _ Hin Hek).
Qed.

(** ** std::map keys *)
Lemma key_lt_spec (k1 k2 : double * double) : number_key k1 -> number_key k2 ->
  (key_lt (A := B64) k1 k2 = true <-> (X (fst k1) < X (fst k2) \/ (X (fst k1) = X (fst k2) /\ X (snd k1) < X (snd k2)))%R).
Proof.
  intros [A1 A2] [B1 B2]. unfold key_lt. rewrite orb_true_iff, andb_true_iff, negb_true_iff.
  change (@ltb B64) with (@Bltb 53 1024). change (num B64) with double.
  pose proof (X_ltb (fst k1) (fst k2) A1 B1) as H1. pose proof (X_ltb (snd k1) (snd k2) A2 B2) as H2.
  pose proof (X_ltb (fst k2) (fst k1) B1 A1) as H3. rewrite H1, H2. destruct (Bltb (fst k2) (fst k1)).
  - assert ((X (fst k2) < X (fst k1))%R) by now apply H3. split; [intros [L|[L _]]; [now left|discriminate L]|intros [L|[L _]]; [now left|lra]].
  - assert (~ (X (fst k2) < X (fst k1))%R) by (intros L; apply H3 in L; discriminate L).
    split; [intros [L|[_ L]]; [now left|]|intros [L|[_ L]]; [now left|right; auto]].
    destruct (Rtotal_order (X (fst k1)) (X (fst k2))) as [L1|[L1|L1]]; [now left|right; auto|contradiction].
Qed.
