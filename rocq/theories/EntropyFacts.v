(** Proofs about the entropy. *)

From Coq Require Import List Sorting.Sorted Arith Bool Lia ZArith Reals Lra.
From Flocq Require Import Core.Core IEEE754.BinarySingleNaN.
From Verif Require Import Outcome Arith Utils IBin Histogram Mean Entropy Spec ListFacts HistSpec UtilsFacts
  HistFacts FloatSpec FloatFacts UtilsMono HistOrder HistStreams HistQuant HistWitness EntropySpec.
Import ListNotations.
Local Open Scope nat_scope.

(** ** Sums over distinct values *)

Lemma sum_change (l : list R) (x : R) (g h : R -> R) : NoDup l -> In x l -> (forall v, v <> x -> g v = h v) ->
  Rsum (map g l) = (Rsum (map h l) + g x - h x)%R.
Proof.
  intros N I E. induction N as [|y l Ny N IH]; [destruct I|]. cbn.
  destruct I as [->|I].
  - rewrite (map_ext_in g h l); [lra|]. intros v Iv. apply E. intros ->. auto.
  - rewrite (E y) by (intros ->; auto). rewrite IH by auto. lra.
Qed.

Lemma Rsum_app l r : Rsum (l ++ r) = (Rsum l + Rsum r)%R.
Proof. induction l; cbn; lra. Qed.

Lemma sum_superset (g : R -> R) (l : list R) : NoDup l -> forall l', NoDup l' -> incl l l' ->
  (forall v, In v l' -> ~ In v l -> g v = 0%R) -> Rsum (map g l) = Rsum (map g l').
Proof.
  induction 1 as [|y l Ny N IH]; intros l' N' I Z.
  - cbn. symmetry. clear I N'. induction l' as [|v l' IH]; cbn; auto.
    rewrite (Z v), IH; [lra|intros; apply Z; simpl; auto|simpl; auto|auto].
  - destruct (in_split y l') as (a & b & ->); [apply I; simpl; auto|].
    pose proof (NoDup_remove_1 _ _ _ N') as N1. pose proof (NoDup_remove_2 _ _ _ N') as N2.
    rewrite map_app, Rsum_app. cbn [map Rsum]. rewrite (IH (a ++ b)); auto.
    + rewrite map_app, Rsum_app. lra.
    + intros v Iv. assert (v <> y) by (intros ->; auto).
      assert (K : In v (a ++ y :: b)) by (apply I; simpl; auto).
      apply in_app_or in K as [K|[K|K]]; [apply in_or_app; auto|congruence|apply in_or_app; auto].
    + intros v Iv Nv. apply Z; [apply in_or_app; apply in_app_or in Iv as []; simpl; auto|].
      intros [<-|K]; auto.
Qed.

Definition cnt (xs : list R) (v : R) : nat := count_occ Req_EM_T xs v.

Lemma cnt_snoc xs x v : cnt (xs ++ [x]) v = cnt xs v + (if Req_EM_T x v then 1 else 0).
Proof. unfold cnt. rewrite count_occ_app. simpl. destruct (Req_EM_T x v); auto. Qed.

Lemma cnt_zero xs v : ~ In v xs -> cnt xs v = 0.
Proof. intros H. unfold cnt. now apply count_occ_not_In. Qed.

Definition distinct (xs : list R) : list R := nodup Req_EM_T xs.

Lemma sum_cnt_snoc (f : nat -> R) xs x : f 0 = 0%R ->
  Rsum (map (fun v => f (cnt (xs ++ [x]) v)) (distinct (xs ++ [x]))) =
  (Rsum (map (fun v => f (cnt xs v)) (distinct xs)) + f (S (cnt xs x)) - f (cnt xs x))%R.
Proof.
  intros F0. rewrite (sum_superset _ (distinct xs) (NoDup_nodup _ _) (distinct (xs ++ [x])) (NoDup_nodup _ _)).
  - rewrite (sum_change (distinct (xs ++ [x])) x _ (fun v => f (cnt xs v))).
    + rewrite cnt_snoc. destruct (Req_EM_T x x); [|congruence]. now rewrite Nat.add_1_r.
    + apply NoDup_nodup.
    + apply nodup_In. apply in_or_app. simpl. auto.
    + intros v Hv. rewrite cnt_snoc. destruct (Req_EM_T x v); [congruence|]. now rewrite Nat.add_0_r.
  - intros v Iv. apply nodup_In. apply nodup_In in Iv. apply in_or_app. auto.
  - intros v _ Nv. rewrite cnt_zero, F0; auto. intros I. apply Nv. now apply nodup_In.
Qed.

Lemma sum_cnt xs : Rsum (map (fun v => INR (cnt xs v)) (distinct xs)) = INR (length xs).
Proof.
  induction xs as [|x xs IH] using rev_ind; [reflexivity|].
  rewrite (sum_cnt_snoc INR) by reflexivity. rewrite IH, app_length, plus_INR, S_INR. cbn. lra.
Qed.

(** ** The Shannon entropy of a stream *)

Definition clog (c : nat) : R := (INR c * log2R (INR c))%R.

Lemma log2R_div a b : (0 < a)%R -> (0 < b)%R -> log2R (a / b) = (log2R a - log2R b)%R.
Proof.
  intros Ha Hb. unfold log2R, Rdiv at 2. rewrite ln_mult, ln_Rinv; auto; [|now apply Rinv_0_lt_compat].
  unfold Rdiv. ring.
Qed.

Lemma ln2_pos : (0 < ln 2)%R.
Proof. rewrite <- ln_1. apply ln_increasing; lra. Qed.

Lemma log2R_1 : log2R 1 = 0%R.
Proof. unfold log2R. rewrite ln_1. unfold Rdiv. ring. Qed.

Lemma share_term (c n : nat) : 1 <= n ->
  (INR c / INR n * log2R (INR c / INR n))%R = ((clog c - INR c * log2R (INR n)) / INR n)%R.
Proof.
  intros Hn. assert (0 < INR n)%R by (apply lt_0_INR; lia). unfold clog.
  destruct c as [|c].
  - cbn [INR]. unfold Rdiv. ring.
  - assert (0 < INR (S c))%R by (apply lt_0_INR; lia). rewrite log2R_div by auto. field. lra.
Qed.

Lemma Rsum_linear {X} (f g : X -> R) (a b : R) l :
  Rsum (map (fun v => (a * f v + b * g v)%R) l) = (a * Rsum (map f l) + b * Rsum (map g l))%R.
Proof. induction l; cbn; lra. Qed.

Lemma shannon_clog xs : 1 <= length xs ->
  shannon xs (distinct xs) =
  (log2R (INR (length xs)) - Rsum (map (fun v => clog (cnt xs v)) (distinct xs)) / INR (length xs))%R.
Proof.
  intros L. assert (0 < INR (length xs))%R by (apply lt_0_INR; lia). unfold shannon, share.
  set (n := INR (length xs)) in * .
  rewrite (map_ext _ (fun v => (/ n * clog (cnt xs v) + (- log2R n / n) * INR (cnt xs v))%R)).
  - rewrite (Rsum_linear (fun v => clog (cnt xs v)) (fun v => INR (cnt xs v))), sum_cnt. fold n. field. lra.
  - intros v. unfold n. rewrite (share_term (count_occ Req_EM_T xs v) (length xs) L). fold (cnt xs v). field. fold n. lra.
Qed.

Lemma shannon_unique xs vs : NoDup vs -> (forall v, In v vs <-> In v xs) -> shannon xs vs = shannon xs (distinct xs).
Proof.
  intros N I. unfold shannon. f_equal. apply sum_superset; auto.
  - apply NoDup_nodup.
  - intros v Iv. apply nodup_In. now apply I.
  - intros v Iv Nv. destruct Nv. apply I. now apply nodup_In in Iv.
Qed.

(** The recurrence. *)
Lemma shannon_snoc xs x : 1 <= length xs ->
  let n := INR (S (length xs)) in let c := cnt xs x in
  shannon (xs ++ [x]) (distinct (xs ++ [x])) =
  ((n - 1) / n * (shannon xs (distinct xs) - log2R ((n - 1) / n)) +
   (- (INR (S c) / n * log2R (INR (S c) / n)) + INR c / n * log2R (INR c / n)))%R.
Proof.
  intros L n c.
  assert (Hm : (0 < INR (length xs))%R) by (apply lt_0_INR; lia).
  assert (En : n = (INR (length xs) + 1)%R) by (unfold n; now rewrite S_INR).
  rewrite (shannon_clog xs L). rewrite shannon_clog by (rewrite app_length; simpl; lia).
  rewrite sum_cnt_snoc by (unfold clog; cbn; ring).
  replace (length (xs ++ [x])) with (S (length xs)) by (rewrite app_length; simpl; lia). fold n. fold c.
  assert (T : forall k, (INR k / n * log2R (INR k / n) = (clog k - INR k * log2R n) / n)%R)
    by (intros; unfold n; apply share_term; lia). rewrite !T.
  rewrite log2R_div by lra. replace (n - 1)%R with (INR (length xs)) by lra.
  rewrite S_INR. set (m := INR (length xs)) in * . generalize (log2R n) (log2R m) (clog (S c)) (clog c). intros.
  rewrite En. field. lra.
Qed.

(** ** The model *)

Section Steps.
  Context {A : arith} (log2 : A -> A).
  Implicit Types (h : hist A) (x : A) (e : entropy A).

  (** What increment computes from the counts. *)
  Definition ent_value (n c : nat) (ent : A) : outcome A :=
    let* x1 := xlogx log2 (of_nat c /. of_nat n) in
    let* x2 := xlogx log2 (max_ (of_Z 0) (of_nat c -. of_Z 1) /. of_nat n) in
    let rhs := (of_Z 0 -. x1) +. x2 in
    if of_Z 1 =?. (of_nat n : A) then Ret rhs
    else Ret (((of_nat n -. of_Z 1) /. of_nat n) *. (ent -. log2 ((of_nat n -. of_Z 1) /. of_nat n)) +. rhs).

  Lemma increment_at h ent i b : nth_error (h_bins h) i = Some b ->
    entropy_increment log2 h ent i = ent_value (h_total h) (b_count b) ent.
  Proof.
    intros H. unfold entropy_increment, hist_getBin, at_.
    assert (i < length (h_bins h)) by (apply nth_error_Some; congruence).
    destruct (Nat.ltb_spec (length (h_bins h)) i); [lia|]. rewrite H. cbn [bind]. reflexivity.
  Qed.

  (** The last position is let through by getBin but does not exist. *)
  Lemma increment_past h ent : entropy_increment log2 h ent (length (h_bins h)) = Undef OutOfBounds.
  Proof.
    unfold entropy_increment, hist_getBin, at_. rewrite Nat.ltb_irrefl.
    replace (nth_error (h_bins h) (length (h_bins h))) with (@None (bin A)); auto.
    symmetry. now apply nth_error_None.
  Qed.

  Lemma update_inside e x w i : e_window e = Some w -> length w < e_wsize e -> hist_binSearch (e_hist e) x = Ret i ->
    entropy_update log2 e x =
    let* h' := hist_update (e_hist e) x in
    let* ent2 := entropy_increment log2 h' (e_value e) i in
    Ret (Entropy (Some (w ++ [i])) (e_wsize e) (S (e_history e)) h' ent2).
  Proof.
    intros Hw L Hi. unfold entropy_update. rewrite Hi, Hw. cbn [bind].
    destruct (Nat.ltb_spec (e_wsize e) (length (w ++ [i]))) as [H|H]; [rewrite app_length in H; simpl in H; lia|].
    reflexivity.
  Qed.

  Lemma update_null e x : e_window e = None -> entropy_update log2 e x = Undef NullDeref.
  Proof.
    intros H. unfold entropy_update, hist_binSearch.
    destruct (search_found (e_hist e) (Bin x x 1)) as (i & -> & _). cbn [bind]. now rewrite H.
  Qed.

  Context {D : A -> Prop} (O : ordered A D).

  (** The state after a separated stream inside the window. *)
  Definition exact_state (N W : nat) (xs : list A) e : Prop :=
    exists vs hw w, exact_bins xs vs (h_bins (e_hist e)) /\ live (e_hist e) N W hw /\
      h_total (e_hist e) = length xs /\ e_wsize e = W /\ e_window e = Some w /\ length w = length xs /\
      e_history e = length xs.

  Lemma exact_step N W xs e x : exact_state N W xs e -> length xs < W -> Forall D (xs ++ [x]) ->
    separated (xs ++ [x]) -> few N (xs ++ [x]) ->
    exists e0, exact_state N W (xs ++ [x]) e0 /\
      entropy_update log2 e x =
      let* ent := ent_value (S (length xs)) (S (occurrences x xs)) (e_value e) in
      Ret (Entropy (e_window e0) (e_wsize e0) (e_history e0) (e_hist e0) ent).
  Proof.
    intros (vs & hw & w & X & L & T & Ws & Hw & Lw & Hh) Lx FD Sep Few.
    destruct (separated_update O N W (e_hist e) xs vs x hw L T Lx FD Sep Few X)
      as (h' & vs' & i & v & Eu & X' & Es & En & _ & (w' & L') & T').
    exists (Entropy (Some (w ++ [i])) W (S (e_history e)) h' (e_value e)). split.
    - exists vs', w', (w ++ [i]). cbn. repeat (split; [first [assumption|reflexivity|now rewrite !app_length, Lw]|]).
      rewrite app_length, Hh. simpl. lia.
    - rewrite (update_inside e x w i) by (auto; lia). rewrite Eu. cbn [bind].
      rewrite (increment_at h' (e_value e) i _ En). cbn [b_count].
      rewrite T', app_length, Nat.add_1_r. cbn [length Nat.add]. rewrite Nat.add_1_r. cbn. rewrite Ws. reflexivity.
  Qed.
End Steps.

(** ** Exact arithmetic *)

Lemma of_nat_RA n : of_nat (A := RA) n = INR n.
Proof. unfold of_nat. cbn. now rewrite INR_IZR_INZ. Qed.

Lemma xlogx_RA y : (0 <= y)%R -> xlogx (A := RA) log2R y = Ret (y * log2R y)%R.
Proof.
  intros H. unfold xlogx. cbn. destruct (Rltb y 0) eqn:E; [apply Rltb_true in E; lra|].
  destruct (Reqb 0 y) eqn:E'; auto. apply Reqb_true in E'. subst. f_equal. ring.
Qed.

Lemma ent_value_RA n c ent : 1 <= n -> ent_value (A := RA) log2R n (S c) ent = Ret
  (let rhs := - (INR (S c) / INR n * log2R (INR (S c) / INR n)) + INR c / INR n * log2R (INR c / INR n) in
   if Nat.eqb n 1 then rhs
   else (INR n - 1) / INR n * (ent - log2R ((INR n - 1) / INR n)) + rhs)%R.
Proof.
  intros Hn. assert (0 < INR n)%R by (apply lt_0_INR; lia). unfold ent_value. rewrite !of_nat_RA. cbn [div sub of_Z RA num].
  assert (M : max_ (A := RA) 0%R (INR (S c) - 1)%R = INR c).
  { unfold max_. rewrite S_INR. replace (INR c + 1 - 1)%R with (INR c) by ring. cbn.
    destruct (Rltb 0 (INR c)) eqn:E; auto. apply Rltb_false in E. pose proof (pos_INR c). lra. }
  rewrite M. rewrite !xlogx_RA by (apply Rmult_le_pos; [apply pos_INR|left; now apply Rinv_0_lt_compat]).
  cbn [bind]. cbn [sub add mul eqb RA of_Z].
  assert (E1 : Reqb 1 (INR n) = Nat.eqb n 1).
  { destruct (Nat.eqb_spec n 1) as [->|K].
    - apply Reqb_true. reflexivity.
    - destruct (Reqb 1 (INR n)) eqn:E; auto. apply Reqb_true in E. exfalso. apply K. apply INR_eq. now rewrite <- E. }
  rewrite E1. destruct (Nat.eqb n 1); f_equal; ring.
Qed.

Lemma occurrences_RA (v : R) xs : occurrences (A := RA) v xs = cnt xs v.
Proof.
  unfold occurrences, cnt. induction xs as [|y xs IH]; simpl; auto. unfold Reqb at 1.
  destruct (Req_EM_T y v); simpl; auto.
Qed.

Lemma exact_new {A : arith} N W (ent : A) : 1 <= W ->
  exact_state N W [] (Entropy (new_window W) W 0 (hist_new (A := A) N W true) ent).
Proof.
  intros HW. exists [], (repeat 0 W), []. cbn. split; [|split; [apply new_live|]].
  - split; [constructor|]. split; [intros ? []|]. split; [intros ? []|reflexivity].
  - unfold new_window. destruct (Nat.ltb_spec 0 W); [auto|lia].
Qed.

Lemma entropy_run N W (xs : list R) : 1 <= W -> length xs <= W -> separated (A := RA) xs -> few (A := RA) N xs ->
  exists e, update_all (entropy_update log2R) (Entropy (new_window W) W 0 (hist_new (A := RA) N W true) 0%R) xs = Ret e /\
    exact_state N W xs e /\ e_value e = shannon xs (distinct xs).
Proof.
  intros HW. induction xs as [|x xs IH] using rev_ind; intros L S F.
  - eexists. split; [reflexivity|]. split; [now apply exact_new|]. unfold shannon. cbn. ring.
  - rewrite app_length in L. simpl in L.
    destruct IH as (e & E & X & V); [lia|eapply separated_prefix; eauto|eapply few_prefix; eauto|].
    rewrite update_all_snoc, E. cbn [bind].
    assert (Lx : length xs < W) by lia.
    destruct (exact_step log2R ordered_RA N W xs e x X Lx) as (e0 & X' & Eu); auto; [apply Forall_forall; intros; exact I|].
    rewrite Eu, ent_value_RA by lia. cbn [bind]. eexists. split; [reflexivity|]. split; [exact X'|]. cbn [e_value].
    rewrite occurrences_RA. rewrite V. destruct xs as [|y xs].
    + cbn [length Nat.eqb]. cbn [app]. unfold cnt. cbn [count_occ]. unfold shannon, distinct, share. cbn -[INR Req_EM_T].
      destruct (Req_EM_T x x); [|congruence]. cbn. unfold Rdiv. rewrite Rinv_1, !Rmult_1_r, log2R_1. ring.
    + rewrite shannon_snoc by (simpl; lia). cbn [length Nat.eqb]. reflexivity.
Qed.

(** ** Doubles: the arguments of xlogx are never negative *)

Lemma quot_nonneg (x y : double) : finite64 x = true -> (0 <= B2R x)%R -> finite64 y = true -> (1 <= B2R y)%R ->
  Bltb (Bquot x y) (Bz 0) = false.
Proof.
  intros Fx Px Fy Py. destruct (X_div x y Fx Fy) as [E N]; [lra|]. destruct (Bz_exact 0) as [E0 F0]; [lia|].
  apply X_ltb_false; auto using fin_nan. rewrite (X_fin _ F0), E0, E. rewrite <- R64_0. apply R64_le.
  apply Rmult_le_pos; [lra|]. left. apply Rinv_0_lt_compat. lra.
Qed.

Lemma xlogx_ok (log2 : double -> double) (y : double) : Bltb y (Bz 0) = false ->
  exists r, xlogx (A := B64) log2 y = Ret r.
Proof.
  intros H. unfold xlogx. change (ltb y zero) with (Bltb y (Bz 0)). rewrite H. destruct (eqb _ _); eauto.
Qed.

Lemma ent_value_B64 (log2 : double -> double) n c (ent : double) : 1 <= n -> 1 <= c ->
  (Z.of_nat n < 2 ^ 64)%Z -> (Z.of_nat c < 2 ^ 64)%Z -> exists r, ent_value (A := B64) log2 n c ent = Ret r.
Proof.
  intros Hn Hc Bn Bc. destruct (of_nat_ok n Hn Bn) as [Fn Pn]. destruct (of_nat_ok c Hc Bc) as [Fc Pc].
  destruct (Bz_exact 0) as [E0 F0]; [lia|]. destruct (Bz_exact 1) as [E1 F1]; [lia|].
  unfold ent_value. set (dn := of_nat n) in * . set (dc := of_nat c) in * .
  change (div (a := B64) dc dn) with (Bquot dc dn).
  destruct (xlogx_ok log2 (Bquot dc dn)) as (r1 & ->); [apply quot_nonneg; auto; lra|]. cbn [bind].
  assert (M : finite64 (max_ (A := B64) (Bz 0) (Bsub dc (Bz 1))) = true /\
              (0 <= B2R (max_ (A := B64) (Bz 0) (Bsub dc (Bz 1))))%R).
  { destruct (X_sub dc (Bz 1) Fc F1) as [Es Ns]. rewrite E1 in Es.
    destruct (Bz_pow 64) as [E6 F6]; [lia|].
    assert (L : (0 <= X (Bsub dc (Bz 1)) <= bpow radix2 64)%R).
    { rewrite Es, <- E6, <- (R64_B2R (Bz (2 ^ 64))), E6. split; [rewrite <- R64_0|]; apply R64_le; lra. }
    assert (F : finite64 (Bsub dc (Bz 1)) = true).
    { apply fin_X; auto. rewrite Rabs_pos_eq by lra. apply Rle_lt_trans with (bpow radix2 64); [lra|apply bpow_lt; lia]. }
    unfold max_. destruct (ltb _ _); [|rewrite E0; split; auto; lra].
    rewrite <- (X_fin _ F). split; auto. lra. }
  change (div (a := B64) (max_ (of_Z 0) (sub (a := B64) dc (of_Z 1))) dn) with (Bquot (max_ (A := B64) (Bz 0) (Bsub dc (Bz 1))) dn).
  destruct (xlogx_ok log2 (Bquot (max_ (A := B64) (Bz 0) (Bsub dc (Bz 1))) dn)) as (r2 & ->);
    [apply quot_nonneg; tauto|]. cbn [bind]. destruct (eqb _ _); eauto.
Qed.

(** ** Running out of bins *)

Lemma filter_all {X} (f : X -> bool) l : (forall b, In b l -> f b = true) -> filter f l = l.
Proof.
  induction l as [|b l IH]; intros H; simpl; auto. rewrite (H b) by (simpl; auto). f_equal. apply IH.
  intros; apply H; simpl; auto.
Qed.

Section Full.
  Context {A : arith} (log2 : A -> A) {D : A -> Prop} (O : ordered A D).

  Definition far_apart (xs : list A) : Prop := StronglySorted (fun a b => definitelyLessThan a b default_eps = true) xs.

  Lemma eqb_refl x : D x -> eqb x x = true.
  Proof. intros Dx. apply (eqb_trich O); auto. split; apply (o_irrefl _ _ O); auto. Qed.

  Lemma far_separated xs : Forall D xs -> far_apart xs -> separated xs.
  Proof.
    intros F S. induction S as [|a l S IH Fa]; [intros ? ? []|]. inversion_clear F as [|? ? Da Fl].
    rewrite Forall_forall in Fa. intros x y [<-|Ix] [<-|Iy]; auto.
    - left. now apply eqb_refl.
    - apply IH; auto.
  Qed.

  Lemma sorted_nodup vs : Forall D vs -> StronglySorted (fun a b => ltb a b = true) vs -> NoDup vs.
  Proof.
    intros F S. induction S as [|a l S IH Fa]; constructor; inversion_clear F; auto.
    rewrite Forall_forall in Fa. intros I. specialize (Fa a I). rewrite (o_irrefl _ _ O) in Fa; auto. discriminate.
  Qed.

  Lemma few_length xs : Forall D xs -> few (length xs) xs.
  Proof.
    intros F vs S I. apply NoDup_incl_length; auto. apply sorted_nodup; auto.
    rewrite Forall_forall in F |- *; auto.
  Qed.

  Lemma far_sorted xs : Forall D xs -> far_apart xs -> StronglySorted (fun a b => ltb a b = true) xs.
  Proof.
    intros F S. induction S as [|a l S IH Fa]; constructor; inversion_clear F as [|? ? Da Fl]; auto.
    rewrite Forall_forall in Fa, Fl |- * . intros b Ib. apply (o_less _ _ O); auto.
  Qed.

  Lemma exact_length xs vs bins : Forall D xs -> far_apart xs -> exact_bins xs vs bins -> length bins = length xs.
  Proof.
    intros F S (Sv & Iv & Cv & ->). rewrite map_length.
    assert (Dv : Forall D vs) by (rewrite Forall_forall in F |- *; auto).
    apply Nat.le_antisymm; [now apply (few_length xs F)|].
    apply NoDup_incl_length; [apply sorted_nodup; auto; now apply far_sorted|].
    intros x Ix. destruct (Cv x Ix) as (v & Iv' & E). rewrite Forall_forall in F.
    assert (Dx : D x) by auto. assert (Dv' : D v) by auto.
    apply (eqb_trich O) in E as [E1 E2]; auto.
    assert (T : forall l, far_apart l -> (forall y, In y l -> D y) -> In x l -> In v l -> x = v).
    { clear -O E1 E2. intros l S. induction S as [|a l S IH Fa]; intros Dl Ix Iv; [destruct Ix|].
      rewrite Forall_forall in Fa. destruct Ix as [<-|Ix], Iv as [<-|Iv]; auto.
      - rewrite (o_less _ _ O a v) in E1; auto; [discriminate|apply Dl; simpl; auto..].
      - rewrite (o_less _ _ O a x) in E2; auto; [discriminate|apply Dl; simpl; auto..].
      - apply IH; auto. intros; apply Dl; simpl; auto. }
    rewrite (T xs); auto.
  Qed.

  Lemma far_prefix xs ys : far_apart (xs ++ ys) -> far_apart xs.
  Proof. intros S. now apply sorted_app in S. Qed.

  (** Separated streams that fit keep the entropy defined. *)
  Lemma separated_entropy N W xs (ent : A) :
    (forall n c v, 1 <= n <= length xs -> 1 <= c <= n -> exists r, ent_value log2 n c v = Ret r) ->
    1 <= W -> length xs <= W -> Forall D xs -> separated xs -> few N xs ->
    exists e, update_all (entropy_update log2) (Entropy (new_window W) W 0 (hist_new N W true) ent) xs = Ret e /\
      exact_state N W xs e /\ hist_calls (hist_new N W true) (map HUpdate xs) = Ret (e_hist e).
  Proof.
    intros NT HW. induction xs as [|x xs IH] using rev_ind; intros L F S Fw.
    - eexists. split; [reflexivity|]. split; [now apply exact_new|reflexivity].
    - rewrite app_length in L, NT. simpl in L, NT.
      destruct IH as (e & E & X & Eh).
      { intros n c v Hn Hc. apply NT; lia. }
      { lia. } { apply Forall_app in F as []; auto. } { eapply separated_prefix; eauto. } { eapply few_prefix; eauto. }
      rewrite update_all_snoc, E. cbn [bind]. assert (Lx : length xs < W) by lia.
      destruct (exact_step log2 O N W xs e x X Lx F S Fw) as (e0 & X' & Eu).
      assert (C : occurrences x xs <= length xs) by (unfold occurrences; clear; induction xs as [|y xs IH]; simpl; [lia|destruct (eqb y x); simpl; lia]).
      destruct (NT (Datatypes.S (length xs)) (Datatypes.S (occurrences x xs)) (e_value e)) as (r & Er); [lia|lia|].
      rewrite Eu, Er. cbn [bind]. eexists. split; [reflexivity|]. split; [exact X'|]. cbn [e_hist].
      destruct X as (vs & hw & w & Xb & Lv & T & Ws & Hw & Lw & Hh).
      rewrite map_app. cbn [map]. rewrite hist_calls_snoc, Eh. cbn [bind hist_call].
      destruct (search_found (e_hist e) (Bin x x 1)) as (i & Es & _).
      rewrite (update_inside log2 e x w i) in Eu by (auto; lia).
      rewrite Er in Eu. cbn [bind] in Eu. apply bind_Ret in Eu as (h' & Eh' & Eu).
      apply bind_Ret in Eu as (ent' & _ & Eu). injection Eu as _ _ _ Ee _. now rewrite Eh', Ee.
  Qed.

  Lemma run_out W xs x (ent : A) :
    (forall n c v, 1 <= n <= length xs -> 1 <= c <= n -> exists r, ent_value log2 n c v = Ret r) ->
    1 <= length xs <= W -> Forall D (xs ++ [x]) -> far_apart (xs ++ [x]) ->
    exists e, update_all (entropy_update log2)
                (Entropy (new_window W) W 0 (hist_new (length xs) W true) ent) xs = Ret e /\
      hist_size (e_hist e) = h_numBins (e_hist e) /\
      hist_binSearch (e_hist e) x = Ret (hist_size (e_hist e)).
  Proof.
    intros NT L F S. pose proof (far_prefix _ _ S) as S1. apply Forall_app in F as [F1 F2]. inversion_clear F2 as [|? ? Dx _].
    destruct (separated_entropy (length xs) W xs ent NT) as (e & E & X & Eh);
      [lia|lia|auto|now apply far_separated|now apply few_length|].
    exists e. split; auto. destruct X as (vs & hw & w & Xb & Lv & T & Ws & Hw & Lw & Hh).
    pose proof (exact_length xs vs _ F1 S1 Xb) as Lb.
    unfold hist_size. rewrite Lb. split; [symmetry; apply Lv|].
    destruct Xb as (Sv & Iv & Cv & Eb).
    assert (Dv : Forall D vs) by (rewrite Forall_forall in F1 |- *; auto).
    rewrite (search_count O); auto.
    - f_equal. rewrite <- Lb. rewrite Eb. rewrite filter_all; [auto|].
      intros b Ib. apply in_map_iff in Ib as (v & <- & Iv'). cbn. apply sorted_app in S as (_ & _ & S3). apply S3; simpl; auto.
    - rewrite Eb. unfold Dbins. rewrite Forall_map. eapply Forall_impl; [|exact Dv]. intros a Da. split; auto.
    - apply (increasing_ascending O).
      + rewrite Eb. unfold Dbins. rewrite Forall_map. eapply Forall_impl; [|exact Dv]. intros a Da. split; auto.
      + rewrite Eb. clear -Sv. unfold lefts_increasing. induction Sv as [|y l H IH F]; simpl; constructor; auto.
        rewrite Forall_map. auto.
  Qed.
End Full.
