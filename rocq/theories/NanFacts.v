(** Proofs: what a NaN does. *)

From Coq Require Import List Reals ZArith Bool Arith Lia Lra.
From Flocq Require Import Core.Core IEEE754.BinarySingleNaN.
From Verif Require Import Outcome Arith Utils IBin Histogram Mean P2 Fame Spec HistSpec ListFacts FloatSpec FloatFacts
  HistFacts FameSpec P2Witness NanSpec.
Import ListNotations.
Local Open Scope nat_scope.

Local Notation bn := (bin B64).

Lemma nan_add_l x y : nan x = true -> nan (Badd x y) = true.
Proof. destruct x, y; try discriminate; reflexivity. Qed.
Lemma nan_add_r x y : nan y = true -> nan (Badd x y) = true.
Proof. destruct x, y; try discriminate; reflexivity. Qed.
Lemma nan_sub_l x y : nan x = true -> nan (Bsub x y) = true.
Proof. destruct x, y; try discriminate; reflexivity. Qed.
Lemma nan_sub_r x y : nan y = true -> nan (Bsub x y) = true.
Proof. destruct x, y; try discriminate; reflexivity. Qed.

(** ** Histogram *)

Lemma dlt_nan_l (a b e : double) : definitelyLessThan (A := B64) a b e = true -> nan a = false.
Proof.
  intros H. destruct (nan a) eqn:N; auto. unfold definitelyLessThan in H.
  change (Bltb (Bmul (if Bltb (Babs a) (Babs b) then Babs b else Babs a) e) (Bsub b a) = true) in H.
  rewrite nan_ltb_r in H; [discriminate|]. now apply nan_sub_r.
Qed.

Definition nanb (b : bn) : bool := nan (b_left b).
Definition pure (b : bn) : Prop := nan (b_right b) = nan (b_left b).
Definition nanbins (bins : list bn) : nat := length (filter nanb bins).

Lemma nanbins_app l r : nanbins (l ++ r) = nanbins l + nanbins r.
Proof. unfold nanbins. now rewrite filter_app, app_length. Qed.
Lemma nanbins_cons b r : nanbins (b :: r) = (if nanb b then 1 else 0) + nanbins r.
Proof. unfold nanbins. cbn [filter]. destruct (nanb b); reflexivity. Qed.
Lemma nanbins_le l : nanbins l <= length l.
Proof. induction l as [|b l IH]; [apply le_n|]. rewrite nanbins_cons. cbn [length]. destruct (nanb b); lia. Qed.

Lemma min_gap_numbers (bins : list bn) : forall idx m i m' i', min_gap bins idx m i = (m', i') ->
  (m' = m /\ i' = i) \/
  (exists l a c r, bins = l ++ a :: c :: r /\ i' = idx + length l /\ nan (b_right a) = false /\ nan (b_right c) = false).
Proof.
  induction bins as [|b bins IH]; intros idx m i m' i' E; [simpl in E; left; split; congruence|].
  destruct bins as [|c bins]; [simpl in E; left; split; congruence|].
  cbn [min_gap] in E. set (t := c :: bins) in * .
  destruct (definitelyLessThan (b_right c -. b_right b)%num m default_eps) eqn:D.
  - apply IH in E as [[-> ->]|(l & a & d & r & Eb & -> & Na & Nd)]; right.
    + exists [], b, c, bins. cbn. repeat split; try lia; apply dlt_nan_l in D.
      * destruct (nan (b_right b)) eqn:N; auto. now rewrite (nan_sub_r _ _ N : nan (b_right c -. b_right b)%num = true) in D.
      * destruct (nan (b_right c)) eqn:N; auto. now rewrite (nan_sub_l _ _ N : nan (b_right c -. b_right b)%num = true) in D.
    + exists (b :: l), a, d, r. cbn. rewrite <- Eb. repeat split; auto; lia.
  - apply IH in E as [H|(l & a & d & r & Eb & -> & Na & Nd)]; [auto|right].
    exists (b :: l), a, d, r. cbn. rewrite <- Eb. repeat split; auto; lia.
Qed.

Lemma merge_numbers (bins bins' : list bn) i : hist_merge bins = Ret (bins', i) -> 1 <= length bins ->
  exists l a c r, bins = l ++ a :: c :: r /\ bins' = l ++ bin_add a c :: r /\
    nan (b_right a) = false /\ nan (b_right c) = false.
Proof.
  intros E L. unfold hist_merge in E. destruct (min_gap bins 0 dbl_max (length bins)) as [m j] eqn:G.
  apply min_gap_numbers in G as [[_ ->]|(l & a & c & r & -> & -> & Na & Nc)].
  - unfold mergeBins in E. rewrite at_oob in E by lia. discriminate E.
  - cbn [Nat.add] in E. rewrite mergeBins_split in E. cbn [bind] in E. injection E as <- <-. exists l, a, c, r. auto.
Qed.

Lemma add_pure (a c : bn) : pure a -> pure c -> nan (b_right a) = false -> nan (b_right c) = false ->
  pure (bin_add a c) /\ nanb (bin_add a c) = false.
Proof.
  intros Pa Pc Na Nc. unfold pure, nanb, bin_add in *; cbn [b_left b_right].
  assert (La : nan (b_left a) = false) by congruence. assert (Lc : nan (b_left c) = false) by congruence.
  destruct (definitelyLessThan (b_left c) (b_left a) bin_eps), (definitelyGreaterThan (b_right c) (b_right a) bin_eps);
    split; congruence.
Qed.

Lemma adding_nans t (x : double) (bins bins' : list bn) i f : adding (A := B64) t x bins i bins' f -> Forall pure bins ->
  Forall pure bins' /\ nanbins bins' = nanbins bins + (if nan x then 1 else 0) /\
  length bins - nanbins bins <= length bins' - nanbins bins' /\
  (nan x = false -> 1 <= length bins' - nanbins bins').
Proof.
  assert (One : forall c, nanb (Bin (A := B64) x x c) = nan x) by reflexivity.
  intros [T|l b r T E1 E2 Hl|l b r T E1 E2 Hl] F; subst.
  - rewrite nanbins_app, nanbins_cons, app_length, One. change (nanbins []) with 0. cbn [length].
    pose proof (nanbins_le bins).
    split; [apply Forall_app; split; auto; constructor; auto; reflexivity|].
    destruct (nan x); (split; [lia|split; [lia|intros; try discriminate; lia]]).
  - assert (Nx : nan x = false).
    { destruct (nan x) eqn:N; auto. assert (Bleb (b_left b) x = false) by now apply nan_leb_r.
      change (Bleb (b_left b) x = true) in Hl. congruence. }
    assert (Nb : nanb b = false).
    { unfold nanb. destruct (nan (b_left b)) eqn:N; auto. assert (Bleb (b_left b) x = false) by now apply nan_leb_l.
      change (Bleb (b_left b) x = true) in Hl. congruence. }
    apply Forall_app in F as [F1 F2]. inversion_clear F2 as [|? ? Pb F3].
    split; [apply Forall_app; split; auto; constructor; auto|].
    assert (Nb' : nanb (Bin (A := B64) (b_left b) (b_right b) (b_count b + 1)) = false) by exact Nb.
    rewrite Nx, !nanbins_app, !nanbins_cons, !app_length, Nb, Nb'. cbn [length].
    pose proof (nanbins_le l). pose proof (nanbins_le r). split; [lia|split; [lia|intros; lia]].
  - apply Forall_app in F as [F1 F2].
    split; [apply Forall_app; split; auto; constructor; auto; reflexivity|].
    rewrite !nanbins_app, (nanbins_cons (Bin (A := B64) x x 1)), !app_length, One.
    pose proof (nanbins_le l). pose proof (nanbins_le (b :: r)). cbn [length] in * .
    destruct (nan x); (split; [lia|split; [lia|intros; try discriminate; lia]]).
Qed.

Lemma run_nans N W (xs : list double) (h : hist B64) : length xs <= W ->
  update_all hist_update (hist_new (A := B64) N W true) xs = Ret h ->
  Forall pure (h_bins h) /\ nanbins (h_bins h) = nans xs /\
  (numbers xs <> [] -> 1 <= length (h_bins h) - nanbins (h_bins h)).
Proof.
  revert h. induction xs as [|x xs IH] using rev_ind; intros h L E.
  { injection E as <-. cbn. repeat split; auto. intros H; congruence. }
  rewrite app_length in L. cbn in L. rewrite update_all_snoc in E. apply bind_Ret in E as (t & Et & E).
  destruct (IH t ltac:(lia) Et) as (P & C & M).
  pose proof Et as Ec. rewrite <- (calls_updates (A := B64)) in Ec.
  destruct (run_basic (A := B64) _ _ _ _ Ec) as ((w & Lv & _) & T & Lb & _). rewrite hist_items_updates in T.
  destruct (update_inv _ _ _ _ _ _ Lv E) as (i & bins & w' & f & _ & _ & -> & U & _).
  destruct U as [i0 bins1 f1 bins2 w2 bins3 w3 tot Ff Ha Hd Hm].
  destruct Hd as [(_ & -> & _ & _)|(HW & _)]; [|change (num B64) with double in *; lia].
  destruct (adding_nans _ _ _ _ _ _ Ha P) as (P1 & C1 & L1 & M1).
  pose proof (proj2 (adding_length _ _ _ _ _ _ Ha)) as Lf.
  assert (G : Forall pure bins1 /\ nanbins bins1 = nans (xs ++ [x]) /\
              (numbers (xs ++ [x]) <> [] -> 1 <= length bins1 - nanbins bins1)).
  { unfold nans, numbers. rewrite !filter_app, app_length. cbn [filter].
    split; auto. split; [rewrite C1, C; unfold nans; destruct (nan x); reflexivity|].
    destruct (nan x); cbn [negb]; [rewrite app_nil_r; intros H; specialize (M H); lia|intros _; apply M1; reflexivity]. }
  destruct G as (G1 & G2 & G3).
  destruct Hm as [(_ & -> & _)|(Hb & l & a & c & r & _ & Em & _ & _)]; [auto|].
  apply merge_numbers in Em as (l' & a' & c' & r' & -> & -> & Na & Nc); [|lia].
  apply Forall_app in G1 as [F1 F2]. inversion_clear F2 as [|? ? Pa F3]. inversion_clear F3 as [|? ? Pc F4].
  destruct (add_pure _ _ Pa Pc Na Nc) as (Pm & Nm).
  split; [apply Forall_app; split; auto|].
  assert (Ea : nanb a' = false) by (unfold nanb; rewrite <- Pa; exact Na).
  assert (Ec' : nanb c' = false) by (unfold nanb; rewrite <- Pc; exact Nc).
  rewrite !nanbins_app, !nanbins_cons in * . rewrite Nm, Ea, Ec' in * . rewrite !app_length. cbn [length].
  pose proof (nanbins_le l'). pose proof (nanbins_le r'). split; [lia|]. intros _. lia.
Qed.

Lemma hist_nan_bound N W (xs : list double) (h : hist B64) : length xs <= W ->
  update_all hist_update (hist_new (A := B64) N W true) xs = Ret h ->
  length (filter (fun b => nan (b_left b)) (h_bins h)) = nans xs /\
  nans xs + Nat.min 1 (length (numbers xs)) <= N.
Proof.
  intros L E. destruct (run_nans _ _ _ _ L E) as (_ & C & M). split; [exact C|].
  rewrite <- (calls_updates (A := B64)) in E.
  destruct (run_basic (A := B64) _ _ _ _ E) as (_ & _ & Lb & _). pose proof (nanbins_le (h_bins h)).
  destruct (numbers xs) as [|y ys]; cbn [length Nat.min]; [lia|]. specialize (M ltac:(discriminate)). lia.
Qed.

Lemma split_nans xs : length xs = nans xs + length (numbers xs).
Proof.
  unfold nans, numbers. induction xs as [|x xs IH]; [reflexivity|]. cbn [filter]. destruct (nan x); cbn [negb length]; lia.
Qed.

Lemma run_fails N W (xs : list double) :
  (exists h, update_all hist_update (hist_new (A := B64) N W true) xs = Ret h) \/
  update_all hist_update (hist_new (A := B64) N W true) xs = Undef OutOfBounds.
Proof.
  induction xs as [|x xs IH] using rev_ind; [left; eexists; reflexivity|]. rewrite update_all_snoc.
  destruct IH as [(t & Et)|Et]; rewrite Et; [|right; reflexivity]. cbn [bind].
  rewrite <- (calls_updates (A := B64)) in Et.
  destruct (run_basic (A := B64) _ _ _ _ Et) as ((w & Lv & _) & _). exact (update_fails _ x _ _ _ Lv).
Qed.

Lemma hist_nan_undefined N W (xs : list double) : length xs <= W -> N <= nans xs -> N < length xs ->
  update_all hist_update (hist_new (A := B64) N W true) xs = Undef OutOfBounds.
Proof.
  intros L H1 H2. destruct (run_fails N W xs) as [(h & E)|E]; auto.
  destruct (hist_nan_bound _ _ _ _ L E) as [_ B]. pose proof (split_nans xs). lia.
Qed.

(** With two bins one NaN is enough. *)
Lemma hist_one_nan : update_all hist_update (hist_new (A := B64) 2 3 true) [Bz 5; Bnan; Bz 3] = Undef OutOfBounds.
Proof.
  destruct (run_fails 2 3 [Bz 5; Bnan; Bz 3]) as [(h & E)|E]; [|exact E]. exfalso.
  assert (K : match update_all hist_update (hist_new (A := B64) 2 3 true) [Bz 5; Bnan; Bz 3] with
              | Ret _ => true | _ => false end = false) by (vm_compute; reflexivity).
  rewrite E in K. discriminate K.
Qed.

(** ** FAME and MAD *)

Lemma Bmul_one (x : double) : Bmul x (Bz 1) = x.
Proof.
  destruct (finite64 x) eqn:Fx.
  - pose proof (Bmult_correct 53 1024 prec_gt_0_53 prec_lt_emax_53 mode_NE x (Bz 1)) as H.
    destruct (Bz_exact 1 ltac:(cbn; lia)) as (V & F). rewrite V, Rmult_1_r in H.
    rewrite round_generic in H; [|apply valid_rnd_round_mode|apply generic_format_B2R].
    rewrite Rlt_bool_true in H by apply abs_B2R_lt_emax. destruct H as (Hr & Hf & Hs).
    unfold finite64 in Fx, F. rewrite Fx, F in Hf. unfold Bmul.
    apply B2R_Bsign_inj; auto. rewrite Hs.
    + replace (Bsign (Bz 1)) with false by (vm_compute; reflexivity). now rewrite xorb_false_r.
    + destruct (Bmult mode_NE x (Bz 1)); try discriminate Hf; reflexivity.
  - destruct x as [s|s| |s m e B]; try discriminate Fx; try destruct s; vm_compute; reflexivity.
Qed.

Lemma one_plus_zero : Badd (Bz 1) (Bz 0) = Bz 1.
Proof.
  destruct (Bz_exact 1 ltac:(cbn; lia)) as (V & F).
  assert (E : Beqb (Badd (Bz 1) (Bz 0)) (Bz 1) = true) by (vm_compute; reflexivity).
  assert (N : nan (Badd (Bz 1) (Bz 0)) = false) by (vm_compute; reflexivity).
  apply (X_eqb _ _ N (fin_nan _ F)) in E. apply (X_inj _ _ N (fin_nan _ F) E). rewrite E, X_fin, V by exact F. lra.
Qed.

Lemma fame_nan (s : fame B64) (x : double) : nan x = true -> 0 < f_history s ->
  fame_update s x = Fame (f_median s) (Bmul (f_step s) (Badd (Bz 1) (f_epsilon s))) (f_epsilon s) (f_history s + 1).
Proof.
  intros N H. unfold fame_update. destruct (Nat.eqb_spec (f_history s) 0) as [|_]; [lia|]. cbn [negb andb].
  change (@ltb B64) with (@Bltb 53 1024). rewrite (nan_ltb_l x _ N), (nan_ltb_r _ x N).
  replace (Bltb (fabs (sub (a := B64) x (f_median s))) (f_step s)) with false; [reflexivity|].
  symmetry. apply nan_ltb_l. change (nan (Babs (Bsub x (f_median s))) = true). rewrite nan_abs. now apply nan_sub_l.
Qed.

(** Same but for the counter. *)
Definition same_fame (s t : fame B64) : Prop :=
  f_median s = f_median t /\ f_step s = f_step t /\ f_epsilon s = f_epsilon t /\
  (f_history s = 0 <-> f_history t = 0).

Lemma same_update (s t : fame B64) (x : double) : same_fame s t -> same_fame (fame_update s x) (fame_update t x).
Proof.
  destruct s as [m st e n], t as [m' st' e' n']. intros (E1 & E2 & E3 & E4). cbn in E1, E2, E3, E4. subst m' st' e'.
  unfold fame_update. cbn [f_history f_median f_step f_epsilon].
  replace (Nat.eqb n' 0) with (Nat.eqb n 0); [|destruct (Nat.eqb_spec n 0), (Nat.eqb_spec n' 0); auto; tauto].
  repeat split; cbn; intros; lia.
Qed.

Lemma same_skip (s t : fame B64) (x : double) : same_fame s t -> f_epsilon s = Bz 0 -> nan x = true -> 0 < f_history s ->
  same_fame (fame_update s x) t.
Proof.
  intros (E1 & E2 & E3 & E4) Ee N H. rewrite fame_nan by auto. rewrite Ee.
  rewrite one_plus_zero, Bmul_one.
  repeat split; cbn; try congruence; lia.
Qed.

Lemma update_epsilon (s : fame B64) (x : double) : f_epsilon (fame_update s x) = f_epsilon s. Proof. reflexivity. Qed.
Lemma update_history (s : fame B64) (x : double) : f_history (fame_update s x) = f_history s + 1. Proof. reflexivity. Qed.

Lemma same_run (s t : fame B64) xs : same_fame s t -> f_epsilon s = Bz 0 -> 0 < f_history s ->
  same_fame (fame_run s xs) (fame_run t (numbers xs)).
Proof.
  revert s t. induction xs as [|x xs IH]; intros s t S0 Ee H; [exact S0|].
  unfold fame_run in *; cbn [fold_left numbers filter]. destruct (nan x) eqn:N; cbn [negb].
  - apply IH; [apply same_skip; auto|now rewrite update_epsilon|rewrite update_history; lia].
  - cbn [fold_left]. apply IH; [now apply same_update|now rewrite update_epsilon|rewrite update_history; lia].
Qed.

Lemma same_refl (s : fame B64) : same_fame s s. Proof. repeat split; auto. Qed.

Lemma fame_skips_nan (step : double) s0 (x : double) xs : fame_new (A := B64) step (Bz 0) = Ret s0 ->
  fame_evaluate (fame_run s0 (x :: xs)) = fame_evaluate (fame_run s0 (x :: numbers xs)) /\
  f_step (fame_run s0 (x :: xs)) = f_step (fame_run s0 (x :: numbers xs)).
Proof.
  intros E. assert (S0 : f_epsilon s0 = Bz 0).
  { unfold fame_new in E. destruct (_ || _); [discriminate E|]. injection E as <-. reflexivity. }
  change (fame_run s0 (x :: xs)) with (fame_run (fame_update s0 x) xs).
  change (fame_run s0 (x :: numbers xs)) with (fame_run (fame_update s0 x) (numbers xs)).
  destruct (same_run (fame_update s0 x) (fame_update s0 x) xs (same_refl _)) as (H1 & H2 & _);
    [now rewrite update_epsilon|rewrite update_history; lia|]. split; [exact H1|exact H2].
Qed.

Lemma fame_stays_nan (s : fame B64) xs : 0 < f_history s -> nan (f_median s) = true ->
  nan (fame_evaluate (fame_run s xs)) = true.
Proof.
  revert s. induction xs as [|x xs IH]; intros s H N; [exact N|]. unfold fame_run. cbn [fold_left]. apply IH.
  - rewrite update_history. lia.
  - unfold fame_update. destruct (Nat.eqb_spec (f_history s) 0) as [|_]; [lia|]. cbn [negb andb f_median].
    change (@ltb B64) with (@Bltb 53 1024). rewrite (nan_ltb_l _ x N), (nan_ltb_r x _ N). exact N.
Qed.

Lemma first_median (s : fame B64) (x : double) : f_history s = 0 -> fame_evaluate (fame_update s x) = x.
Proof.
  intros H. unfold fame_update, fame_evaluate. rewrite H. cbn [Nat.eqb f_median]. change (@ltb B64) with (@Bltb 53 1024).
  assert (I : Bltb x x = false).
  { destruct (nan x) eqn:N; [now apply nan_ltb_l|]. apply X_ltb_false; auto. lra. }
  now rewrite I.
Qed.

Lemma fame_new_history (step eps : double) s0 : fame_new (A := B64) step eps = Ret s0 -> f_history s0 = 0 /\ f_epsilon s0 = eps.
Proof. unfold fame_new. destruct (_ || _); [discriminate|]. intros H; injection H as <-. auto. Qed.

Lemma fame_first_nan (step eps : double) s0 (x : double) xs : fame_new (A := B64) step eps = Ret s0 -> nan x = true ->
  nan (fame_evaluate (fame_run s0 (x :: xs))) = true.
Proof.
  intros E N. destruct (fame_new_history _ _ _ E) as (H & _).
  change (fame_run s0 (x :: xs)) with (fame_run (fame_update s0 x) xs). apply fame_stays_nan; [rewrite update_history; lia|].
  change (nan (fame_evaluate (fame_update s0 x)) = true). now rewrite first_median.
Qed.

Definition same_mad (s t : mad B64) : Prop :=
  same_fame (a_score s) (a_score t) /\ same_fame (a_error s) (a_error t).

Lemma mad_same_run (s t : mad B64) xs : same_mad s t ->
  f_epsilon (a_score s) = Bz 0 -> f_epsilon (a_error s) = Bz 0 -> 0 < f_history (a_score s) -> 0 < f_history (a_error s) ->
  same_mad (mad_run s xs) (mad_run t (numbers xs)).
Proof.
  revert s t. induction xs as [|x xs IH]; intros s t S0 E1 E2 H1 H2; [exact S0|].
  unfold mad_run in *; cbn [fold_left numbers filter]. destruct S0 as (Sa & Sb). destruct (nan x) eqn:N; cbn [negb].
  - apply IH; try (cbn [mad_update a_score a_error]; rewrite ?update_epsilon, ?update_history; auto; lia).
    split; cbn [mad_update a_score a_error]; apply same_skip; auto.
    change (nan (Babs (Bsub x (fame_evaluate (fame_update (a_score s) x)))) = true). rewrite nan_abs. now apply nan_sub_l.
  - cbn [fold_left]. apply IH; try (cbn [mad_update a_score a_error]; rewrite ?update_epsilon, ?update_history; auto; lia).
    pose proof (same_update _ _ x Sa) as Su. split; [exact Su|]. cbn [mad_update a_score a_error].
    unfold fame_evaluate. destruct Su as (-> & _). now apply same_update.
Qed.

Lemma mad_skips_nan s0 (x : double) xs : mad_new (A := B64) = Ret s0 ->
  mad_evaluate (mad_run s0 (x :: xs)) = mad_evaluate (mad_run s0 (x :: numbers xs)).
Proof.
  intros E. unfold mad_new in E. apply bind_Ret in E as (s & Es & E). rewrite Es in E. cbn [bind] in E. injection E as <-.
  destruct (fame_new_history _ _ _ Es) as (H & Ee).
  change (mad_run (Mad s s 0) (x :: xs)) with (mad_run (mad_update (Mad s s 0) x) xs).
  change (mad_run (Mad s s 0) (x :: numbers xs)) with (mad_run (mad_update (Mad s s 0) x) (numbers xs)).
  destruct (mad_same_run (mad_update (Mad s s 0) x) (mad_update (Mad s s 0) x) xs) as (_ & (K & _));
    try (cbn [mad_update a_score a_error]; rewrite ?update_epsilon, ?update_history; auto; lia).
  split; apply same_refl.
Qed.

Lemma mad_first s0 (x : double) xs : mad_new (A := B64) = Ret s0 -> finite64 x = false ->
  nan (mad_evaluate (mad_run s0 (x :: xs))) = true.
Proof.
  intros E N. unfold mad_new in E. apply bind_Ret in E as (s & Es & E). rewrite Es in E. cbn [bind] in E. injection E as <-.
  destruct (fame_new_history _ _ _ Es) as (H & _).
  change (mad_run (Mad s s 0) (x :: xs)) with (mad_run (mad_update (Mad s s 0) x) xs).
  assert (G : forall m : mad B64, 0 < f_history (a_error m) -> nan (f_median (a_error m)) = true ->
    nan (mad_evaluate (mad_run m xs)) = true).
  { clear. induction xs as [|y ys IH]; intros m Hm Nm; [exact Nm|]. unfold mad_run. cbn [fold_left]. apply IH.
    - cbn. lia.
    - set (d := fabs (sub (a := B64) y (fame_evaluate (fame_update (a_score m) y)))).
      exact (fame_stays_nan (a_error m) [d] Hm Nm). }
  apply G; [cbn; lia|]. cbn [mad_update a_error].
  change (nan (fame_evaluate (fame_update (A := B64) s (Babs (Bsub x (fame_evaluate (fame_update s x)))))) = true).
  rewrite !first_median by auto. rewrite nan_abs. destruct x as [b|b| |b m e B]; try discriminate N; [destruct b|]; reflexivity.
Qed.

(** ** P2 *)

Definition nan_at (h : list double) (i : nat) : Prop := exists v, nth_error h i = Some v /\ nan v = true.

Lemma store_inv {X} (v : list X) i a v' : store v i a = Ret v' -> v' = set_nth v i a /\ i < length v.
Proof. unfold store. destruct (Nat.ltb_spec i (length v)); intros E; [|discriminate E]. injection E as <-. auto. Qed.

Lemma nan_store (h h' : list double) i j a : store h i a = Ret h' -> nan_at h j -> (j = i -> nan a = true) -> nan_at h' j.
Proof.
  intros E (v & Ev & Nv) Hi. apply store_inv in E as (-> & L). unfold nan_at. rewrite nth_error_set_nth.
  destruct (Nat.eqb_spec i j) as [->|N].
  - exists a. split; [|auto]. now rewrite (proj2 (Nat.ltb_lt _ _) L).
  - exists v. auto.
Qed.

Lemma parabolic_nan (h : list double) n i d v : parabolic (A := B64) h n i d = Ret v -> nan_at h i -> nan v = true.
Proof.
  intros E (hi & Eh & Nh). unfold parabolic in E.
  apply bind_Ret in E as (hp & _ & E). apply bind_Ret in E as (hi' & E1 & E). apply at_Ret in E1.
  apply bind_Ret in E as (hm & _ & E). apply bind_Ret in E as (n1 & _ & E). apply bind_Ret in E as (n2 & _ & E).
  apply bind_Ret in E as (n3 & _ & E). pose proof (eq_trans (eq_sym Eh) E1) as Z. injection Z as <-. injection E as <-. now apply nan_add_l.
Qed.

Lemma linear_nan (h : list double) n i d v : linear (A := B64) h n i d = Ret v -> nan_at h i -> nan v = true.
Proof.
  intros E (hi & Eh & Nh). unfold linear in E. apply bind_Ret in E as (hi' & E1 & E). apply at_Ret in E1.
  apply bind_Ret in E as (hj & _ & E). apply bind_Ret in E as (nj & _ & E).
  pose proof (eq_trans (eq_sym Eh) E1) as Z. injection Z as <-. injection E as <-. now apply nan_add_l.
Qed.

Lemma adjust_nan (des h : list double) n i h' n' j : adjustHeights (A := B64) des (h, n) i = Ret (h', n') -> nan_at h j -> nan_at h' j.
Proof.
  intros E H. unfold adjustHeights in E.
  apply bind_Ret in E as (d & _ & E). apply bind_Ret in E as (ni & _ & E). apply bind_Ret in E as (g1 & _ & E).
  apply bind_Ret in E as (g2 & _ & E).
  match type of E with (if ?c then _ else _) = _ => destruct c end; [|injection E as <- <-; exact H].
  apply bind_Ret in E as (q & Eq & E). apply bind_Ret in E as (hm & _ & E). apply bind_Ret in E as (hp & _ & E).
  apply bind_Ret in E as (h1 & Eh & E). apply bind_Ret in E as (ni' & _ & E). apply bind_Ret in E as (n1 & _ & E).
  injection E as <- _. match type of Eh with (if ?c then _ else _) = _ => destruct c end.
  - apply (nan_store _ _ _ _ _ Eh H). intros ->. exact (parabolic_nan _ _ _ _ _ Eq H).
  - apply bind_Ret in Eh as (v & El & Eh). apply (nan_store _ _ _ _ _ Eh H). intros ->. exact (linear_nan _ _ _ _ _ El H).
Qed.

Lemma findK_nan (h : list double) (x : double) h' k j : findK (A := B64) h x = Ret (h', k) -> nan_at h j -> 1 <= j <= 3 -> nan_at h' j.
Proof.
  intros E H J. unfold findK in E. do 5 (apply bind_Ret in E as (? & _ & E)).
  repeat match type of E with (if ?c then _ else _) = _ => destruct c end;
    try (injection E as <- <-; exact H);
    (apply bind_Ret in E as (h1 & Es & E); injection E as <- <-; apply (nan_store _ _ _ _ _ Es H); lia).
Qed.

Lemma p2_update_nan (s s' : p2 B64) (x : double) j : 5 <= p_history s -> p2_update s x = Ret s' ->
  nan_at (p_heights s) j -> 1 <= j <= 3 -> 5 <= p_history s' /\ nan_at (p_heights s') j.
Proof.
  intros H E N J. unfold p2_update in E. destruct (Nat.ltb_spec (p_history s) 5); [lia|].
  apply bind_Ret in E as ((h, k) & Ek & E). apply bind_Ret in E as (n & _ & E). apply bind_Ret in E as (d0 & _ & E).
  apply bind_Ret in E as ((h', n') & Ea & E). injection E as <-. cbn [p_history p_heights]. split; [lia|].
  pose proof (findK_nan _ _ _ _ _ Ek N J) as N1.
  match type of Ea with (if ?c then _ else _) = _ => destruct c end;
    apply bind_Ret in Ea as ((h1, n1) & E1 & Ea); apply bind_Ret in Ea as ((h2, n2) & E2 & Ea);
    exact (adjust_nan _ _ _ _ _ _ _ Ea (adjust_nan _ _ _ _ _ _ _ E2 (adjust_nan _ _ _ _ _ _ _ E1 N1))).
Qed.

Lemma p2_run_nan (s s' : p2 B64) xs j : 5 <= p_history s -> update_all p2_update s xs = Ret s' ->
  nan_at (p_heights s) j -> 1 <= j <= 3 -> 5 <= p_history s' /\ nan_at (p_heights s') j.
Proof.
  revert s. induction xs as [|x xs IH]; intros s H E N J; [injection E as <-; auto|].
  cbn [update_all] in E. apply bind_Ret in E as (t & Et & E).
  destruct (p2_update_nan _ _ _ _ H Et N J) as (H' & N'). exact (IH _ H' E N' J).
Qed.

Lemma p2_nan_forever (s s' : p2 B64) xs : 5 < p_history s -> update_all p2_update s xs = Ret s' ->
  (exists v, p2_evaluate s = Ret (s, v) /\ nan v = true) -> exists v, p2_evaluate s' = Ret (s', v) /\ nan v = true.
Proof.
  intros H E (v & Ev & Nv). unfold p2_evaluate in Ev |- * . destruct (Nat.leb_spec (p_history s) 5); [lia|].
  apply bind_Ret in Ev as (w & Ew & Ev). injection Ev as <-. apply at_Ret in Ew.
  assert (Hs : 5 < p_history s').
  { clear -H E. revert s H E. induction xs as [|x xs IH]; intros s H E; [injection E as <-; auto|].
    cbn [update_all] in E. apply bind_Ret in E as (t & Et & E). apply (IH t); auto.
    unfold p2_update in Et. destruct (Nat.ltb_spec (p_history s) 5); [lia|].
    apply bind_Ret in Et as ((h, k) & Ek & Et). apply bind_Ret in Et as (n & _ & Et). apply bind_Ret in Et as (d0 & _ & Et).
    apply bind_Ret in Et as ((h', n') & Ea & Et). injection Et as <-. cbn. lia. }
  destruct (p2_run_nan s s' xs 2 ltac:(lia) E) as (_ & (u & Eu & Nu)); [exists w; auto|lia|].
  destruct (Nat.leb_spec (p_history s') 5); [lia|]. exists u. split; [|exact Nu].
  apply (proj2 (at_Ret (p_heights s' : list (num B64)) 2 u)) in Eu. now rewrite Eu.
Qed.

(** One NaN among numbers. *)
Definition spoiled : list double := map Bz [1; 2; 3; 4; 5; 6]%Z ++ [Bnan; Bz 7].

Lemma p2_one_nan : exists s0 s, p2_new (A := B64) (Bquot (Bz 1) (Bz 2)) = Ret s0 /\
  update_all p2_update s0 spoiled = Ret s /\
  forall ys s', update_all p2_update s ys = Ret s' -> exists v, p2_evaluate s' = Ret (s', v) /\ nan v = true.
Proof.
  assert (K : ok (p2_new (A := B64) (Bquot (Bz 1) (Bz 2))) (fun s0 => ok (update_all p2_update s0 spoiled) (fun s =>
    Nat.ltb 5 (p_history s) && ok (p2_evaluate s) (fun sv => nan (snd sv)))) = true) by (vm_compute; reflexivity).
  apply ok_true in K as (s0 & E0 & K). apply ok_true in K as (s & Es & K). apply andb_true_iff in K as [K1 K2].
  apply Nat.ltb_lt in K1. apply ok_true in K2 as ((s1, v) & Ev & Nv).
  exists s0, s. split; [exact E0|]. split; [exact Es|]. intros ys s' E. apply (p2_nan_forever s s' ys K1 E).
  exists v. split; [|exact Nv]. unfold p2_evaluate in Ev |- * . destruct (Nat.leb_spec (p_history s) 5); [lia|].
  apply bind_Ret in Ev as (u & Eu & Ev). injection Ev as <- <-. rewrite Eu. reflexivity.
Qed.

(** A NaN becomes the largest marker. *)
Lemma p2_nan_maximum (s s' : p2 B64) (x : double) : length (p_heights s) = 5 -> 5 <= p_history s -> nan x = true ->
  p2_update s x = Ret s' -> nan_at (p_heights s') 4.
Proof.
  intros L H N E. unfold p2_update in E. destruct (Nat.ltb_spec (p_history s) 5); [lia|].
  apply bind_Ret in E as ((h, k) & Ek & E). apply bind_Ret in E as (n & _ & E). apply bind_Ret in E as (d0 & _ & E).
  apply bind_Ret in E as ((h', n') & Ea & E). injection E as <-. cbn [p_heights].
  assert (N1 : nan_at h 4).
  { unfold findK in Ek. do 5 (apply bind_Ret in Ek as (? & _ & Ek)). change (@ltb B64) with (@Bltb 53 1024) in Ek.
    rewrite !(nan_ltb_l x _ N) in Ek. apply bind_Ret in Ek as (h1 & Es & Ek). injection Ek as <- _.
    apply store_inv in Es as (-> & L4). exists x. split; auto. rewrite nth_error_set_nth. change (num B64) with double in L4 |- * . now rewrite (proj2 (Nat.ltb_lt _ _) L4), Nat.eqb_refl. }
  match type of Ea with (if ?c then _ else _) = _ => destruct c end;
    apply bind_Ret in Ea as ((h1, n1) & E1 & Ea); apply bind_Ret in Ea as ((h2, n2) & E2 & Ea);
    exact (adjust_nan _ _ _ _ _ _ _ Ea (adjust_nan _ _ _ _ _ _ _ E2 (adjust_nan _ _ _ _ _ _ _ E1 N1))).
Qed.

(** The windowed estimator after its restart. *)
Lemma wp2_one_nan : exists s0 s, wp2_new (A := B64) (Bquot (Bz 1) (Bz 2)) 8 = Ret s0 /\
  update_all wp2_update s0 (spoiled ++ [Bz 8]) = Ret s /\ wp2_evaluate s = Undef BadPrecondition.
Proof.
  assert (K : ok (wp2_new (A := B64) (Bquot (Bz 1) (Bz 2)) 8) (fun s0 => ok (update_all wp2_update s0 (spoiled ++ [Bz 8])) (fun s =>
    match wp2_evaluate s with Undef BadPrecondition => true | _ => false end)) = true) by (vm_compute; reflexivity).
  apply ok_true in K as (s0 & E0 & K). apply ok_true in K as (s & Es & K). exists s0, s.
  split; [exact E0|]. split; [exact Es|]. destruct (wp2_evaluate s) as [|e|u]; [discriminate K|discriminate K|].
  destruct u; try discriminate K. reflexivity.
Qed.

Lemma p2_early_nan (q : double) s0 xs : p2_new (A := B64) q = Ret s0 -> length xs = 5 -> 1 <= nans xs ->
  update_all p2_update s0 xs = Undef BadPrecondition.
Proof.
  intros E L N. unfold p2_new in E. destruct (_ || _); [discriminate E|]. injection E as <-.
  destruct xs as [|x0 [|x1 [|x2 [|x3 [|x4 [|x5 xs]]]]]]; try discriminate L. clear L.
  cbn [update_all p2_update p_history p_heights p_desired p_pos p_quantile Nat.ltb Nat.leb repeat store length set_nth bind Nat.eqb].
  unfold std_sort. cbn [forallb].
  assert (K : forall x : double, not_nan (A := B64) x = negb (nan x)).
  { intros x. unfold not_nan. change (Beqb x x = negb (nan x)). destruct (nan x) eqn:Nx; [now apply nan_eqb_l|].
    apply X_eqb; auto. }
  rewrite !K. unfold nans in N. cbn [filter] in N.
  destruct (nan x0), (nan x1), (nan x2), (nan x3), (nan x4); cbn in N |- *; try reflexivity; lia.
Qed.
