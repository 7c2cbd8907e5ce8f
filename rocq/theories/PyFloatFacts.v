(** Proofs about the Python containers. *)

From Coq Require Import List ZArith Reals Lra Lia Bool.
From Flocq Require Import Core.Core IEEE754.BinarySingleNaN.
From Verif Require Import Outcome Calls Arith RingBuffer LinkedList Spec FloatSpec FloatFacts
  ListFacts MeanFacts RingBufferFacts LinkedListFacts PyFloat PyFloatSpec.
Import ListNotations.
Local Open Scope nat_scope.

Lemma parts_B2R p e s m ex H : F2R (Float radix2 (cond_Zopp s (Zpos m)) ex) = @B2R p e (B754_finite s m ex H).
Proof. reflexivity. Qed.

Lemma sign_bound (s : bool) m e :
  Rcompare (F2R (Float radix2 (cond_Zopp s (Zpos m)) e)) 0 = if s then Lt else Gt.
Proof.
  destruct s; simpl cond_Zopp.
  - apply Rcompare_Lt. apply F2R_lt_0. reflexivity.
  - apply Rcompare_Gt. apply F2R_gt_0. reflexivity.
Qed.

Lemma sign_bound' (s : bool) m e :
  Rlt_bool (F2R (Float radix2 (cond_Zopp s (Zpos m)) e)) 0 = s.
Proof. unfold Rlt_bool. rewrite sign_bound. now destruct s. Qed.

Lemma to_single_spec (x : double) : finite64 x = true ->
  if Rlt_bool (Rabs (round32 (B2R x))) (bpow radix2 128)
  then is_finite (to_single x) = true /\ B2R (to_single x) = round32 (B2R x) /\ Bsign (to_single x) = Bsign x
  else to_single x = B754_infinity (Bsign x).
Proof.
  destruct x as [s|s| |s m e H]; try discriminate; intros _.
  - cbn [B2R]. unfold round32. rewrite round_0 by apply valid_rnd_N. rewrite Rabs_R0.
    rewrite Rlt_bool_true by apply bpow_gt_0. auto.
  - unfold to_single. rewrite <- parts_B2R.
    pose proof (binary_normalize_correct 24 128 prec_gt_0_24 prec_lt_emax_24 mode_NE (cond_Zopp s (Zpos m)) e s) as C. cbv zeta in C.
    change (SpecFloat.fexp 24 128) with fexp32 in C. change (round_mode mode_NE) with ZnearestE in C.
    rewrite sign_bound, sign_bound' in C. fold (round32 (F2R (Float radix2 (cond_Zopp s (Zpos m)) e))) in C.
    destruct (Rlt_bool _ _).
    + destruct C as (C1 & C2 & C3). rewrite C1, C2, C3. cbn [Bsign]. destruct s; auto.
    + cbn [Bsign]. destruct (binary_normalize 24 128 prec_gt_0_24 prec_lt_emax_24 mode_NE (cond_Zopp s (Zpos m)) e s); try discriminate C.
      cbn in C. now injection C as ->.
Qed.


Lemma single_format (y : single) : generic_format radix2 fexp64 (B2R y).
Proof.
  apply (generic_inclusion_mag radix2 fexp32 fexp64).
  - intros _. unfold fexp32, fexp64, FLT_exp, SpecFloat.fexp, SpecFloat.emin. lia.
  - apply (@generic_format_B2R 24 128).
Qed.

Lemma single_bound (y : single) : (Rabs (B2R y) < big)%R.
Proof.
  eapply Rlt_trans; [apply abs_B2R_lt_emax|]. apply bpow_lt. reflexivity.
Qed.

Lemma to_double_spec (y : single) : is_finite y = true ->
  finite64 (to_double y) = true /\ B2R (to_double y) = B2R y /\ Bsign (to_double y) = Bsign y.
Proof.
  destruct y as [s|s| |s m e H]; try discriminate; intros _; [auto|].
  pose proof (binary_normalize_correct 53 1024 prec_gt_0_53 prec_lt_emax_53 mode_NE (cond_Zopp s (Zpos m)) e s) as C. cbv zeta in C.
  rewrite sign_bound, sign_bound' in C. change (SpecFloat.fexp 53 1024) with fexp64 in C.
  change (round_mode mode_NE) with ZnearestE in C. rewrite (parts_B2R 24 128 s m e H) in C.
  fold (rnd (@B2R 24 128 (B754_finite s m e H))) in C. rewrite rnd_fix in C by apply single_format.
  rewrite Rlt_bool_true in C by apply single_bound. destruct C as (C1 & C2 & C3).
  unfold to_double, finite64. split; auto. split; auto. rewrite C3. now destruct s.
Qed.

Lemma round_trip (x : double) : through_single x (to_double (to_single x)).
Proof.
  unfold through_single. destruct (finite64 x) eqn:F.
  - right. split; auto. pose proof (to_single_spec x F) as S.
    destruct (Rlt_bool_spec (Rabs (round32 (B2R x))) (bpow radix2 128)) as [L|L].
    + destruct S as (S1 & S2 & S3). destruct (to_double_spec _ S1) as (D1 & D2 & D3).
      split; [congruence|]. left. split; auto. split; auto. congruence.
    + rewrite S. split; [reflexivity|]. right. split; auto.
  - left. split; auto. destruct x; try discriminate; reflexivity.
Qed.

Lemma same_double (x y : double) : finite64 x = true -> finite64 y = true -> B2R x = B2R y -> Bsign x = Bsign y -> x = y.
Proof. intros. now apply B2R_Bsign_inj. Qed.

Lemma round_trip_exact (x : double) :
  to_double (to_single x) = x <->
  (finite64 x = true -> generic_format radix2 fexp32 (B2R x) /\ (Rabs (B2R x) < bpow radix2 128)%R).
Proof.
  pose proof (round_trip x) as [[F E]|(F & S & [(L & Fy & E)|(L & E)])].
  - rewrite F. split; [discriminate|auto].
  - split.
    + intros H _. rewrite H in E.
      assert (G : generic_format radix2 fexp32 (B2R x)).
      { rewrite E. apply generic_format_round; [apply FLT_exp_valid; reflexivity|apply valid_rnd_N]. }
      split; [exact G|]. unfold round32 in L. rewrite round_generic in L; auto. apply valid_rnd_N.
    + intros H. destruct (H F) as [G _]. apply same_double; auto. rewrite E. unfold round32.
      apply round_generic; auto. apply valid_rnd_N.
  - split.
    + intros H. rewrite H in E. rewrite E in F. discriminate.
    + intros H. destruct (H F) as [G B]. unfold round32 in L. rewrite round_generic in L; auto; [lra|apply valid_rnd_N].
Qed.

(** Converting back and forth a second time changes nothing. *)
Lemma single_back (y : single) : to_single (to_double y) = y.
Proof.
  destruct (is_finite y) eqn:F.
  - destruct (to_double_spec y F) as (D1 & D2 & D3).
    pose proof (to_single_spec (to_double y) D1) as S. rewrite D2 in S.
    assert (R : round32 (B2R y) = B2R y).
    { apply round_generic; [apply valid_rnd_N|apply (@generic_format_B2R 24 128)]. }
    rewrite R in S. rewrite Rlt_bool_true in S by apply abs_B2R_lt_emax. destruct S as (S1 & S2 & S3).
    apply B2R_Bsign_inj; auto. congruence.
  - destruct y; try discriminate; reflexivity.
Qed.

(** ** Containers *)
Lemma lastn_map {X Y} (f : X -> Y) n l : lastn n (map f l) = map f (lastn n l).
Proof. unfold lastn. now rewrite map_length, skipn_map. Qed.

Lemma q_call_py W q c :
  q_call W (B754_zero false : double) (map to_double q) (call_with (fun x => to_double (to_single x)) c) =
  (map to_double (fst (q_call W float_zero q (py_arg c))), py_result (snd (q_call W float_zero q (py_arg c)))).
Proof.
  destruct c; simpl; rewrite ?map_length; auto.
  - change [to_double (to_single x)] with (map to_double [to_single x]). now rewrite <- map_app, lastn_map.
  - destruct q; auto.
Qed.

Lemma q0_call_py W q c :
  q0_call W (B754_zero false : double) (map to_double q) (call_with (fun x => to_double (to_single x)) c) =
  (map to_double (fst (q0_call W float_zero q (py_arg c))), py_result (snd (q0_call W float_zero q (py_arg c)))).
Proof.
  destruct c; try exact (q_call_py W q _); simpl; rewrite ?map_length; auto.
  change [to_double (to_single x)] with (map to_double [to_single x]). rewrite <- map_app, lastn_map.
  destruct W; reflexivity.
Qed.

Lemma q_run_py W cs q :
  snd (q_run W (B754_zero false : double) (map to_double q) (map (call_with (fun x => to_double (to_single x))) cs)) =
  map py_result (snd (q_run W float_zero q (map py_arg cs))).
Proof.
  revert q. induction cs as [|c cs IH]; intros q; auto. cbn [map q_run].
  rewrite q_call_py. destruct (q_call W float_zero q (py_arg c)) as [q1 o]. cbn [fst snd].
  specialize (IH q1). destruct (q_run W _ (map to_double q1) _) as [q2 os].
  destruct (q_run W float_zero q1 _) as [q3 os']. cbn [snd] in * . now rewrite IH.
Qed.

Lemma q0_run_py W cs q :
  snd (q0_run W (B754_zero false : double) (map to_double q) (map (call_with (fun x => to_double (to_single x))) cs)) =
  map py_result (snd (q0_run W float_zero q (map py_arg cs))).
Proof.
  revert q. induction cs as [|c cs IH]; intros q; auto. cbn [map q0_run].
  rewrite q0_call_py. destruct (q0_call W float_zero q (py_arg c)) as [q1 o]. cbn [fst snd].
  specialize (IH q1). destruct (q0_run W _ (map to_double q1) _) as [q2 os].
  destruct (q0_run W float_zero q1 _) as [q3 os']. cbn [snd] in * . now rewrite IH.
Qed.

Lemma py_ring_run cs : forall s s' os, rb_run float_zero s (map py_arg cs) = Ret (s', os) ->
  py_run py_ring_call s cs = Ret (s', map py_result os).
Proof.
  induction cs as [|c cs IH]; intros s s' os E; cbn [map rb_run] in E.
  - now injection E as <- <-.
  - apply bind_Ret in E as ([s1 o] & E1 & E). apply bind_Ret in E as ([s2 os'] & E2 & E). injection E as <- <-.
    cbn [py_run]. unfold py_ring_call at 1. rewrite E1. cbn [bind]. rewrite (IH _ _ _ E2). reflexivity.
Qed.

Lemma py_list_run cs : forall s s' os, ll_run float_zero s (map py_arg cs) = Ret (s', os) ->
  py_run py_list_call s cs = Ret (s', map py_result os).
Proof.
  induction cs as [|c cs IH]; intros s s' os E; cbn [map ll_run] in E.
  - now injection E as <- <-.
  - apply bind_Ret in E as ([s1 o] & E1 & E). apply bind_Ret in E as ([s2 os'] & E2 & E). injection E as <- <-.
    cbn [py_run]. unfold py_list_call at 1. rewrite E1. cbn [bind]. rewrite (IH _ _ _ E2). reflexivity.
Qed.

(** Emptiness of the queue does not depend on the values. *)
Lemma resets_py W (cs : list (rcall double)) : forall (q : list double) (q' : list single), length q = length q' ->
  resets_ok W (B754_zero false) q cs -> resets_ok W float_zero q' (map py_arg cs).
Proof.
  induction cs as [|c cs IH]; intros q q' L; cbn [resets_ok map]; auto. intros [H1 H2]. split.
  - destruct c; simpl in H1 |- * ; auto. intros ->. destruct q; [now apply H1|discriminate].
  - eapply IH; [|exact H2]. destruct c; simpl; auto.
    + assert (L' : length (q ++ [x]) = length (q' ++ [to_single x])).
      { rewrite !app_length. exact (f_equal (fun n => n + 1)%nat L). }
      unfold lastn. destruct W; cbn [fst]; [exact L'|]. rewrite !skipn_length.
      exact (f_equal (fun n => n - (n - S W))%nat L').
    + destruct q, q'; simpl in *; lia.
Qed.

Definition back (x : double) : double := to_double (to_single x).

Lemma py_ring W cs : 1 <= W -> (N.of_nat W < 2 ^ 64)%N ->
  exists s, py_run py_ring_call (rb_new (N.of_nat W)) cs =
    Ret (s, snd (q_run W (B754_zero false : double) [] (map (call_with back) cs))).
Proof.
  intros H1 H2. destruct (rb_history_facts float_zero W (map py_arg cs) H1 H2) as (s & E & _).
  exists s. rewrite (py_ring_run _ _ _ _ E). now rewrite <- (q_run_py W cs []).
Qed.

Lemma py_list W cs : resets_ok W (B754_zero false) [] cs ->
  exists s, py_run py_list_call (ll_new W) cs =
    Ret (s, snd (q0_run W (B754_zero false : double) [] (map (call_with back) cs))).
Proof.
  intros H. destruct (ll_fifo float_zero W (map py_arg cs)) as (s & E & _).
  - now apply (resets_py W cs [] []).
  - exists s. rewrite (py_list_run _ _ _ _ E). now rewrite <- (q0_run_py W cs []).
Qed.

Lemma py_ring_spec : exists f : double -> double, (forall x, through_single x (f x)) /\
  forall W cs, 1 <= W -> (N.of_nat W < 2 ^ 64)%N ->
    exists s, py_run py_ring_call (rb_new (N.of_nat W)) cs =
      Ret (s, snd (q_run W (B754_zero false : double) [] (map (call_with f) cs))).
Proof. exists back. split; [apply round_trip|]. exact py_ring. Qed.

Lemma py_list_spec : exists f : double -> double, (forall x, through_single x (f x)) /\
  forall W cs, resets_ok W (B754_zero false) [] cs ->
    exists s, py_run py_list_call (ll_new W) cs =
      Ret (s, snd (q0_run W (B754_zero false : double) [] (map (call_with f) cs))).
Proof. exists back. split; [apply round_trip|]. exact py_list. Qed.

(** One item in, one item out. *)
Lemma py_single_item x :
  exists y, through_single x y /\
    (forall W, 1 <= W -> (N.of_nat W < 2 ^ 64)%N ->
       exists s, py_run py_ring_call (rb_new (N.of_nat W)) [CUpdate x; CPop] = Ret (s, [OUnit; OVal y])) /\
    (forall W, exists s, py_run py_list_call (ll_new W) [CUpdate x; CPop] = Ret (s, [OUnit; OVal y])) /\
    (y = x <-> (finite64 x = true ->
                generic_format radix2 fexp32 (B2R x) /\ (Rabs (B2R x) < bpow radix2 128)%R)).
Proof.
  exists (back x). split; [apply round_trip|]. split; [|split; [|apply round_trip_exact]].
  - intros W H1 H2. destruct (py_ring W [CUpdate x; CPop] H1 H2) as (s & E). exists s. rewrite E.
    destruct W; [lia|]. cbn [map call_with q_run q_call app]. unfold lastn. cbn [length].
    replace (1 - S W)%nat with 0%nat by lia. reflexivity.
  - intros W. destruct (py_list W [CUpdate x; CPop]) as (s & E); [simpl; auto|]. exists s. rewrite E.
    destruct W; [reflexivity|]. cbn [map call_with q0_run q0_call app]. unfold lastn. cbn [length].
    replace (1 - S W)%nat with 0%nat by lia. reflexivity.
Qed.

Lemma tenth_changes : exists y,
  (forall W, 1 <= W -> (N.of_nat W < 2 ^ 64)%N ->
     exists s, py_run py_ring_call (rb_new (N.of_nat W)) [CUpdate (lit (A := B64) 1 10); CPop] = Ret (s, [OUnit; OVal y])) /\
  @eqb B64 y (lit 1 10) = false.
Proof.
  exists (back (lit (A := B64) 1 10)). split.
  - intros W H1 H2. destruct (py_ring W [CUpdate (lit (A := B64) 1 10); CPop] H1 H2) as (s & E). exists s.
    etransitivity; [exact E|].
    destruct W; [lia|]. cbn [map call_with q_run q_call app]. unfold lastn. cbn [length].
    replace (1 - S W)%nat with 0%nat by lia. reflexivity.
  - vm_compute. reflexivity.
Qed.
