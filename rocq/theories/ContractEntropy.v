(** Rounding errors of StreamingEntropy with contraction. *)

From Coq Require Import List Reals ZArith Lra Lia Bool Arith Sorting.Sorted.
From Flocq Require Import Core.Core IEEE754.BinarySingleNaN.
From Verif Require Import Outcome Arith Utils IBin Histogram Mean Entropy Contract Spec ListFacts FloatSpec FloatFacts UtilsFacts
  MeanFacts MeanError HistSpec EntropySpec HistFacts UtilsMono HistOrder HistStreams EntropyFacts EntropyDrift EntropyRound ContractFacts.
Import ListNotations.
Local Open Scope R_scope.

(** What increment computes from the counts. *)
Definition ent_value_c (log2 : double -> double) (b : bool) (n c : nat) (ent : double) : outcome double :=
  let* x1 := xlogx (A := B64) log2 (Bquot (of_nat (A := B64) c) (of_nat (A := B64) n)) in
  let* x2 := xlogx (A := B64) log2 (Bquot (max_ (A := B64) (Bz 0) (Bsub (of_nat (A := B64) c) (Bz 1))) (of_nat (A := B64) n)) in
  let rhs := Badd (Bsub (Bz 0) x1) x2 in
  if Beqb (Bz 1) (of_nat (A := B64) n) then Ret rhs
  else
    let p := Bquot (Bsub (of_nat (A := B64) n) (Bz 1)) (of_nat (A := B64) n) in
    Ret (if b then Bfused p (Bsub ent (log2 p)) rhs else Badd (Bmul p (Bsub ent (log2 p))) rhs).

Lemma approx_fused x y z a b c E F G : approx x a E -> approx y b F -> approx z c G -> 0 <= a <= 1 -> 0 <= B2R x <= 1 ->
  Rabs b <= 48 -> F <= 16 -> Rabs (a * b + c) <= 48 -> a * F + E * 64 + G <= 16 ->
  approx (Bfused x y z) (a * b + c) (k + (a * F + E * 64 + G)).
Proof.
  intros [Fx Dx] [Fy Dy] [Fz Dz] Ha Hx Hb HF Hs HE.
  assert (Y : Rabs (B2R y) <= 64) by (pose proof (near y b F 48 (conj Fy Dy) Hb); lra).
  assert (D : Rabs (B2R x * B2R y + B2R z - (a * b + c)) <= a * F + E * 64 + G).
  { replace (B2R x * B2R y + B2R z - (a * b + c)) with ((a * (B2R y - b) + (B2R x - a) * B2R y) + (B2R z - c)) by ring.
    eapply Rle_trans; [apply Rabs_triang|]. apply Rplus_le_compat; auto.
    eapply Rle_trans; [apply Rabs_triang|]. rewrite !Rabs_mult, (Rabs_pos_eq a) by lra. apply Rplus_le_compat.
    + apply Rmult_le_compat_l; lra.
    + apply Rmult_le_compat; auto using Rabs_pos. }
  apply approx_trans with (B2R x * B2R y + B2R z); [|exact D].
  apply op_k; [now apply X_fused|].
  replace (B2R x * B2R y + B2R z) with ((B2R x * B2R y + B2R z - (a * b + c)) + (a * b + c)) by ring.
  eapply Rle_trans; [apply Rabs_triang|]. lra.
Qed.

Section Log.
  Context (log2 : double -> double) (eta : R).
  Context (Pe : 0 <= eta <= 1).
  Context (Acc : forall x : double, finite64 x = true -> bpow radix2 (-40) <= B2R x <= 1 ->
             approx (log2 x) (log2R (B2R x)) eta).

  Lemma value_err_c b n c (ent : double) H err : (S c <= n)%nat -> (Z.of_nat n <= 2 ^ 40)%Z ->
    approx ent H err -> 0 <= H <= 40 -> err <= 4 ->
    exists r, ent_value_c log2 b n (S c) ent = Ret r /\
      approx r (let rhs := - (INR (S c) / INR n * log2R (INR (S c) / INR n)) + INR c / INR n * log2R (INR c / INR n) in
                if Nat.eqb n 1 then rhs else (INR n - 1) / INR n * (H - log2R ((INR n - 1) / INR n)) + rhs)
        (if Nat.eqb n 1 then rate eta else (INR n - 1) / INR n * err + rate eta).
  Proof.
    intros Hc Bn Hent HH Herr. rewrite (rate_k eta).
    assert (Kp : 0 < k <= / 1024) by (rewrite k_u; pose proof u_pos; lra).
    destruct (of_nat_exact n) as [Fn En]; [lia|]. destruct (of_nat_exact (S c)) as [Fc Ec]; [lia|].
    destruct (Bz_exact 0) as [E0 F0]; [lia|]. destruct (Bz_exact 1) as [E1 F1]; [lia|].
    unfold ent_value_c. set (dn := of_nat n) in * . set (dc := of_nat (S c)) in * .
    change (div (a := B64)) with Bquot. change (sub (a := B64)) with Bsub. change (add (a := B64)) with Badd.
    change (mul (a := B64)) with Bmul. change (of_Z (a := B64)) with Bz.
    destruct (max_count dc c) as [Fm Em]; auto; [lia|]. set (dm := max_ _ _) in * .
    destruct (xlogx_err log2 eta Pe Acc dc dn (S c) n) as (x1 & -> & A1); auto; [lia|].
    destruct (xlogx_err log2 eta Pe Acc dm dn c n) as (x2 & -> & A2); auto; [lia|lia|]. cbn [bind].
    assert (Pn : 1 <= INR n) by (change 1 with (INR 1); apply le_INR; lia).
    assert (G : forall j, (j <= n)%nat -> Rabs (INR j / INR n * log2R (INR j / INR n)) <= 2).
    { intros [|j] Hj; [cbn [INR]; replace (0 / INR n * log2R (0 / INR n)) with 0 by (unfold Rdiv; ring); rewrite Rabs_R0; lra|].
      apply xlog_small. split; [apply Rdiv_lt_0_compat; [apply lt_0_INR; lia|lra]|].
      apply Rmult_le_reg_r with (INR n); [lra|]. unfold Rdiv. rewrite Rmult_assoc, Rinv_l by lra.
      rewrite Rmult_1_r, Rmult_1_l. now apply le_INR. }
    pose proof (G (S c) ltac:(lia)) as G1. pose proof (G c ltac:(lia)) as G2. clear G.
    set (g1 := INR (S c) / INR n * log2R (INR (S c) / INR n)) in * .
    set (g2 := INR c / INR n * log2R (INR c / INR n)) in * .
    assert (A0 : approx (Bz 0) 0 0) by (split; auto; rewrite E0; change (IZR 0) with 0; rewrite Rminus_0_r, Rabs_R0; lra).
    apply Rabs_le_inv in G1. apply Rabs_le_inv in G2.
    assert (A3 : approx (Badd (Bsub (Bz 0) x1) x2) (- g1 + g2) (2 * eta + 6 * k)).
    { replace (- g1 + g2) with ((0 - g1) + g2) by ring.
      eapply approx_weaken; [apply approx_add; [apply approx_sub; [exact A0|exact A1|apply Rabs_le; lra|lra]|exact A2|apply Rabs_le; lra|lra]|lra]. }
    set (rhs := Badd _ _) in * . change (eqb (a := B64)) with (@Beqb 53 1024).
    assert (T : Beqb (Bz 1) dn = Nat.eqb n 1).
    { apply eq_true_iff_eq. rewrite X_eqb by auto using fin_nan. rewrite !X_fin, E1, En by auto. rewrite Nat.eqb_eq.
      split; [|intros ->; reflexivity]. intros K. apply INR_eq. now rewrite <- K. }
    rewrite T. destruct (Nat.eqb_spec n 1) as [->|N1]; eexists; (split; [reflexivity|]).
    - cbn zeta. eapply approx_weaken; [exact A3|lra].
    - cbn zeta. destruct n as [|m]; [lia|]. rewrite S_INR in * . replace (INR m + 1 - 1) with (INR m) by ring.
      assert (Fm1 : finite64 (Bsub dn (Bz 1)) = true /\ B2R (Bsub dn (Bz 1)) = INR m).
      { destruct (of_nat_exact m) as [Fk Ek]; [lia|].
        destruct (X_sub dn (Bz 1) Fn F1) as [Es Ns]. rewrite E1, En in Es.
        replace (INR m + 1 - 1) with (INR m) in Es by ring. rewrite <- Ek, R64_B2R in Es.
        assert (F : finite64 (Bsub dn (Bz 1)) = true) by (apply fin_X; auto; rewrite Es; apply B2R_lt_big).
        rewrite (X_fin _ F), Ek in Es. auto. }
      destruct Fm1 as [Fm1 Em1].
      destruct (quot_err (Bsub dn (Bz 1)) dn m (S m) Fm1 Fn Em1) as (Fp & Rp & d & Ed & Hd); [now rewrite S_INR|lia|auto|].
      rewrite S_INR in Ed. set (p := Bquot _ _) in * . set (q := INR m / (INR m + 1)) in * .
      assert (Pm : 1 <= INR m) by (change 1 with (INR 1); apply le_INR; lia).
      assert (Pq : / 2 <= q <= 1).
      { unfold q. split.
        - apply Rmult_le_reg_r with (INR m + 1); [lra|]. unfold Rdiv. rewrite Rmult_assoc, Rinv_l by lra. lra.
        - apply Rmult_le_reg_r with (INR m + 1); [lra|]. unfold Rdiv. rewrite Rmult_assoc, Rinv_l by lra. lra. }
      assert (Al : approx (log2 p) (log2R q) (eta + k)) by (apply (log_err log2 eta Acc) with d; auto; lra).
      assert (Lq : -4 <= log2R q <= 0).
      { split; [|apply log2R_neg; lra]. pose proof (xlog_small q ltac:(lra)) as S1. apply Rabs_le_inv in S1.
        pose proof (log2R_neg q ltac:(lra)). nra. }
      assert (Ap : approx p q (2 * u)).
      { split; auto. rewrite Ed. replace (q * (1 + d) - q) with (q * d) by ring. rewrite Rabs_mult, (Rabs_pos_eq q) by lra.
        pose proof (Rabs_pos d). nra. }
      assert (Err0 : 0 <= err) by (destruct Hent as [_ D]; eapply Rle_trans; [apply Rabs_pos|exact D]).
      assert (Ad : approx (Bsub ent (log2 p)) (H - log2R q) (err + eta + 2 * k)).
      { eapply approx_weaken; [apply approx_sub; [exact Hent|exact Al|apply Rabs_le; lra|lra]|lra]. }
      destruct b.
      + assert (Hx : 0 <= B2R p <= 1) by (pose proof (bpow_gt_0 radix2 (-40)); lra).
        eapply approx_weaken; [apply approx_fused with (E := 2 * u) (F := err + eta + 2 * k) (G := 2 * eta + 6 * k); [exact Ap|exact Ad|exact A3|lra|exact Hx|..]|].
        * apply Rabs_le. lra.
        * lra.
        * apply Rabs_le. nra.
        * rewrite k_u in * . pose proof u_pos. nra.
        * rewrite k_u in * . pose proof u_pos. nra.
      + assert (Am : approx (Bmul p (Bsub ent (log2 p))) (q * (H - log2R q)) (q * err + eta + 4 * k)).
        { eapply approx_weaken; [apply approx_mul; [exact Ap|exact Ad|lra| |apply Rabs_le; lra|lra]|].
          - pose proof (bpow_gt_0 radix2 (-40)). lra.
          - rewrite k_u in * . pose proof u_pos. nra. }
        eapply approx_weaken; [apply approx_add; [exact Am|exact A3| |]|].
        * apply Rabs_le. nra.
        * nra.
        * nra.
  Qed.
End Log.

Section Steps.
  Context (log2 : double -> double).

  Lemma increment_at_c c (h : hist B64) ent i b : nth_error (h_bins h) i = Some b ->
    entropy_increment_c log2 c h ent i = ent_value_c log2 c (h_total h) (b_count b) ent.
  Proof.
    intros H. unfold entropy_increment_c, hist_getBin, at_.
    assert (i < length (h_bins h))%nat by (apply nth_error_Some; congruence).
    destruct (Nat.ltb_spec (length (h_bins h)) i); [lia|]. rewrite H. cbn [bind]. reflexivity.
  Qed.

  Lemma update_inside_c (e : entropy B64) (cx : bool * bool * double) w i : e_window e = Some w -> (length w < e_wsize e)%nat ->
    hist_binSearch (e_hist e) (snd cx) = Ret i ->
    entropy_update_c log2 e cx =
    let* h' := hist_update (e_hist e) (snd cx) in
    let* ent2 := entropy_increment_c log2 (snd (fst cx)) h' (e_value e) i in
    Ret (Entropy (A := B64) (Some (w ++ [i])) (e_wsize e) (S (e_history e)) h' ent2).
  Proof.
    intros Hw L Hi. unfold entropy_update_c. cbv zeta. rewrite Hi, Hw. cbn [bind].
    destruct (Nat.ltb_spec (e_wsize e) (length (w ++ [i]))) as [H|H]; [rewrite app_length in H; simpl in H; lia|].
    reflexivity.
  Qed.

  Lemma exact_step_c (cx : bool * bool * double) N W (xs : list double) e x : snd cx = x -> exact_state (A := B64) N W xs e -> (length xs < W)%nat ->
    Forall finD (xs ++ [x]) -> separated (A := B64) (xs ++ [x]) -> few (A := B64) N (xs ++ [x]) ->
    exists e0, exact_state (A := B64) N W (xs ++ [x]) e0 /\
      entropy_update_c log2 e cx =
      let* ent := ent_value_c log2 (snd (fst cx)) (S (length xs)) (S (occurrences (A := B64) x xs)) (e_value e) in
      Ret (Entropy (A := B64) (e_window e0) (e_wsize e0) (e_history e0) (e_hist e0) ent).
  Proof.
    intros Ex (vs & hw & w & X & L & T & Ws & Hw & Lw & Hh) Lx FD Sep Few.
    destruct (separated_update ordered_B64 N W (e_hist e) xs vs x hw L T Lx FD Sep Few X)
      as (h' & vs' & i & v & Eu & X' & Es & En & _ & (w' & L') & T').
    exists (Entropy (A := B64) (Some (w ++ [i])) W (S (e_history e)) h' (e_value e)). split.
    - exists vs', w', (w ++ [i]). cbn. repeat (split; [first [assumption|reflexivity|now rewrite !app_length, Lw]|]).
      rewrite app_length, Hh. simpl. lia.
    - rewrite (update_inside_c e cx w i); [|assumption|rewrite Lw, Ws; exact Lx|rewrite Ex; exact Es]. rewrite Ex, Eu. cbn [bind].
      rewrite (increment_at_c _ h' (e_value e) i _ En). cbn [b_count].
      rewrite T', app_length, Nat.add_1_r. cbn [length Nat.add]. rewrite Nat.add_1_r. cbn. rewrite Ws. reflexivity.
  Qed.
End Steps.

Section Run.
  Context (log2 : double -> double) (eta : R).
  Context (Pe : 0 <= eta <= 1).
  Context (Acc : forall x : double, finite64 x = true -> bpow radix2 (-40) <= B2R x <= 1 ->
             approx (log2 x) (log2R (B2R x)) eta).

  Lemma entropy_run_c N W (xs : list double) : forall cxs : list (bool * bool * double), map snd cxs = xs -> (1 <= W)%nat -> (length xs <= W)%nat -> Forall finD xs ->
    separated (A := B64) xs -> few (A := B64) N xs ->
    (Z.of_nat (length xs) <= 2 ^ 40)%Z -> INR (length xs) * eta <= 1 ->
    exists e, update_all (entropy_update_c log2)
                (Entropy (new_window W) W 0 (hist_new (A := B64) N W true) (Bz 0)) cxs = Ret e /\
      exact_state N W xs e /\
      approx (e_value e) (shannon (map B2R xs) (distinct (map B2R xs))) (INR (S (length xs)) / 2 * rate eta).
  Proof.
    induction xs as [|x xs IH] using rev_ind; intros cxs Ec HW L F S Fw Bn He.
    - destruct cxs; [|discriminate Ec]. eexists. split; [reflexivity|]. split; [now apply exact_new|]. cbn [e_value map]. unfold shannon. cbn [distinct nodup map Rsum].
      destruct (Bz_exact 0) as [E0 F0]; [lia|]. split; auto. rewrite E0. change (IZR 0) with 0. rewrite Ropp_0, Rminus_0_r, Rabs_R0.
      unfold rate. pose proof (bpow_gt_0 radix2 (-42)). cbn [length INR]. lra.
    - destruct cxs as [|cx cs _] using rev_ind; [now destruct xs|]. rewrite map_app in Ec. cbn [map] in Ec.
      apply app_inj_tail in Ec as [Ec Ex].
      rewrite app_length in L, Bn, He |- * . simpl length in L, Bn, He |- * .
      rewrite Nat.add_1_r in He |- * . apply Forall_app in F as [F Fx]. inversion_clear Fx as [|? ? Dx _].
      assert (Pn : 0 <= INR (length xs)) by apply pos_INR. rewrite S_INR in He.
      destruct (IH cs) as (e & E & X & V); auto; [lia|eapply separated_prefix; eauto|eapply few_prefix; eauto|lia|nra|].
      rewrite update_all_snoc, E. cbn [bind]. assert (Lx : (length xs < W)%nat) by lia.
      assert (F' : Forall finD (xs ++ [x])) by (apply Forall_app; auto).
      destruct (exact_step_c log2 cx N W xs e x Ex X Lx F' S Fw) as (e0 & X' & Eu).
      assert (C : (occurrences (A := B64) x xs <= length xs)%nat).
      { clear. induction xs as [|y xs IH]; [apply Nat.le_refl|]. unfold occurrences in * . cbn [filter].
        destruct (eqb y x); cbn [length] in * ; lia. }
      assert (Hs : 0 <= shannon (map B2R xs) (distinct (map B2R xs)) <= 40)
        by (apply shannon_small; rewrite map_length; change (binary_float 53 1024) with double; lia).
      set (n := length xs) in * .
      assert (Rt : rate eta <= 3 * eta + bpow radix2 (-42)) by (unfold rate; lra).
      assert (Rp : 0 <= rate eta) by (unfold rate; pose proof (bpow_gt_0 radix2 (-42)); lra).
      assert (Ln : INR n <= bpow radix2 40).
      { rewrite INR_IZR_INZ. change (bpow radix2 40) with (IZR (2 ^ 40)). apply IZR_le. lia. }
      assert (Er : INR (Datatypes.S n) / 2 * rate eta <= 4).
      { rewrite S_INR. assert (INR n * bpow radix2 (-42) <= 1).
        { apply Rle_trans with (bpow radix2 40 * bpow radix2 (-42)); [apply Rmult_le_compat_r; auto; apply bpow_ge_0|].
          rewrite <- bpow_plus. change 1 with (bpow radix2 0). apply bpow_le. lia. }
        assert (bpow radix2 (-42) <= 1) by (change 1 with (bpow radix2 0); apply bpow_le; lia). unfold rate in * . nra. }
      destruct (value_err_c log2 eta Pe Acc (snd (fst cx)) (Datatypes.S n) (occurrences (A := B64) x xs) (e_value e)
                  (shannon (map B2R xs) (distinct (map B2R xs))) (INR (Datatypes.S n) / 2 * rate eta)) as (r & Er1 & Ar); auto; try lia.
      change (length (A := num B64) xs) with n in Eu. rewrite Eu. rewrite Er1. cbn [bind].
      eexists. split; [reflexivity|]. split; [exact X'|]. cbn [e_value].
      rewrite occurrences_B64 in Ar by auto. rewrite map_app. cbn [map]. destruct xs as [|y xs].
      + subst n. cbn [length Nat.eqb] in Ar |- * . cbn [map app]. cbn [map] in Ar. unfold cnt in Ar. cbn [count_occ] in Ar.
        unfold shannon, distinct, share. cbn [nodup in_dec map Rsum count_occ]. destruct (Req_EM_T (B2R x) (B2R x)); [|congruence].
        cbn [INR length] in Ar |- * . eapply approx_weaken; [|].
        * eapply approx_trans; [exact Ar|]. instantiate (1 := 0). right.
          destruct (in_dec Req_EM_T (B2R x) []) as [[]|_]. cbn [map Rsum].
          destruct (Req_EM_T (B2R x) (B2R x)); [|congruence]. cbn [INR].
          match goal with |- Rabs ?t = 0 => replace t with 0 by (unfold Rdiv; rewrite Rinv_1, !Rmult_1_r, log2R_1; ring) end. apply Rabs_R0.
        * lra.
      + assert (L1 : (1 <= length (map B2R (y :: xs)))%nat) by (rewrite map_length; simpl; lia).
        rewrite (shannon_snoc _ _ L1). rewrite map_length. fold n.
        replace (Nat.eqb (Datatypes.S n) 1) with false in Ar by (unfold n; reflexivity).
        eapply approx_weaken; [exact Ar|]. rewrite !S_INR. assert (0 < INR n) by (apply lt_0_INR; unfold n; simpl; lia).
        right. field. lra.
  Qed.
End Run.

Lemma entropy_error_c (log2 : double -> double) (eta : R) W N B (cxs : list (bool * bool * double)) :
  let xs := map snd cxs in
  0 <= eta ->
  (forall x : double, finite64 x = true -> bpow radix2 (-40) <= B2R x <= 1 ->
     finite64 (log2 x) = true /\ Rabs (B2R (log2 x) - log2R (B2R x)) <= eta) ->
  (1 <= N /\ B = N \/ N = 0 /\ 1 <= W /\ B = Nat.log2_up W + 1)%nat ->
  (length xs <= W)%nat -> (Z.of_nat (length xs) <= 2 ^ 40)%Z -> INR (length xs) * eta <= 1 ->
  Forall (fun x => finite64 x = true) xs -> separated (A := B64) xs -> few (A := B64) B xs ->
  exists e0 e, entropy_new (A := B64) W N = Ret e0 /\ update_all (entropy_update_c log2) e0 cxs = Ret e /\
    finite64 (entropy_evaluate e) = true /\
    forall vs, NoDup vs -> (forall v, In v vs <-> In v (map B2R xs)) ->
      Rabs (B2R (entropy_evaluate e) - shannon (map B2R xs) vs)
        <= INR (length xs + 1) / 2 * (3 * eta + bpow radix2 (-42)).
Proof.
  intros xs P0 Acc HB L Bn He F S Fw.
  assert (E0 : entropy_new (A := B64) W N = Ret (Entropy (new_window W) W 0 (hist_new B W true) (of_Z (a := B64) 0))).
  { destruct HB as [[HN ->]|(-> & HW & ->)]; [now apply new_bins|now apply new_default]. }
  eexists. assert (G : exists e, update_all (entropy_update_c log2) (Entropy (new_window W) W 0 (hist_new (A := B64) B W true) (Bz 0)) cxs = Ret e /\
    approx (e_value e) (shannon (map B2R xs) (distinct (map B2R xs))) (INR (Datatypes.S (length xs)) / 2 * rate eta)).
  { destruct cxs as [|x l]; subst xs.
    - eexists. split; [reflexivity|]. cbn [e_value map]. unfold shannon. cbn [distinct nodup map Rsum].
      destruct (Bz_exact 0) as [E1 F0]; [lia|]. split; auto. rewrite E1. change (IZR 0) with 0. rewrite Ropp_0, Rminus_0_r, Rabs_R0.
      unfold rate. pose proof (bpow_gt_0 radix2 (-42)). cbn [length INR]. lra.
    - assert (E1 : 0 <= eta <= 1).
      { assert (1 <= INR (length (map snd (x :: l)))) by (change 1 with (INR 1); apply le_INR; simpl; lia). split; nra. }
      destruct (entropy_run_c log2 eta E1 Acc B W (map snd (x :: l)) (x :: l)) as (e & E & _ & V); auto; [simpl in L; lia|]. eauto. }
  destruct G as (e & E & Fe & V). exists e. split; [exact E0|]. split; [exact E|]. split; [exact Fe|]. intros vs Nv Iv.
  rewrite (shannon_unique _ vs Nv Iv). rewrite Nat.add_1_r. exact V.
Qed.

(** ** Constant data *)

Definition log2_ok (y : double) : double :=
  if Beqb y (Bquot (Bz 1) (Bz 2)) then Bz (-1)
  else if Beqb y (Bquot (Bz 2) (Bz 3)) then Bquot (Bz (-5849625)) (Bz 10000000)
  else Bz 0.

Definition constant_test : bool :=
  match update_all (entropy_update_c log2_ok) (Entropy (new_window 3) 3 0 (hist_new (A := B64) 2 3 true) (Bz 0))
          (repeat (false, true, Bz 5) 3) with
  | Ret e => finite64 (e_value e) && negb (Beqb (e_value e) (Bz 0))
  | _ => false
  end.

Lemma constant_test_true : constant_test = true.
Proof. vm_compute. reflexivity. Qed.

Lemma log2_ok_fin y : finite64 (log2_ok y) = true.
Proof. unfold log2_ok. destruct (Beqb _ _); [vm_compute; reflexivity|]. destruct (Beqb _ _); vm_compute; reflexivity. Qed.

Lemma below_one (z y : double) : finite64 z = true -> Bltb z (Bz 1) = true -> finite64 y = true -> B2R y = 1 -> Beqb y z = false.
Proof.
  intros Fz Lt Fy Ey. destruct (Bz_exact 1) as [Eo Fo]; [lia|]. rewrite Bltb_correct in Lt by auto. rewrite Beqb_correct by auto.
  revert Lt. case Rlt_bool_spec; intros Lt H; [|discriminate H]. rewrite Eo in Lt. apply Req_bool_false. lra.
Qed.

Lemma entropy_constant_c : exists (log2 : double -> double) (x : double) e0 e,
  (forall y : double, finite64 y = true -> 0 < B2R y <= 1 -> finite64 (log2 y) = true) /\
  (forall y : double, finite64 y = true -> B2R y = 1 -> B2R (log2 y) = 0) /\ finite64 x = true /\
  entropy_new (A := B64) 3 2 = Ret e0 /\ update_all (entropy_update_c log2) e0 (repeat (false, true, x) 3) = Ret e /\
  finite64 (entropy_evaluate e) = true /\ B2R (entropy_evaluate e : double) <> 0.
Proof.
  exists log2_ok, (Bz 5). pose proof constant_test_true as T. unfold constant_test in T.
  eexists. destruct (update_all _ _ _) as [e| |] eqn:E in T; try discriminate T.
  apply andb_prop in T as [T1 T2]. exists e. split; [|split; [|split; [|split; [|split; [|split]]]]].
  - intros y _ _. apply log2_ok_fin.
  - intros y F E1. unfold log2_ok.
    rewrite (below_one (Bquot (Bz 1) (Bz 2)) y), (below_one (Bquot (Bz 2) (Bz 3)) y); auto.
  - vm_compute; reflexivity.
  - apply new_bins. lia.
  - exact E.
  - exact T1.
  - intros Q. apply Bool.negb_true_iff in T2. destruct (Bz_exact 0) as [Ez Fz]; [lia|].
    change (finite64 (e_value e) = true) in T1. change (B2R (e_value e : double) = 0) in Q.
    rewrite Beqb_correct in T2 by auto. rewrite Q, Ez in T2. revert T2. case Req_bool_spec; intros; [discriminate|lra].
Qed.
