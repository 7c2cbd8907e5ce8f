(** Which results depend on the order of the observations. *)

From Coq Require Import List Reals ZArith Lra Lia Bool Arith Permutation Sorting.Sorted.
From Flocq Require Import Core.Core IEEE754.BinarySingleNaN.
From Verif Require Import Outcome Arith Utils IBin Histogram Entropy Mean Fame P2 Spec ListFacts HistSpec EntropySpec MeanSpec FloatSpec FloatFacts P2Spec MeanFacts P2Facts P2Float P2Witness HistWitness EntropyFacts UtilsFacts P2Window.
From Verif Require PEntropy PMean P2Affine.
Import ListNotations.
Local Open Scope nat_scope.

(** ** Sorted lists *)
Lemma sorted_unique {X} (le : X -> X -> Prop) (l l' : list X) :
  (forall x y, In x l -> In y l -> le x y -> le y x -> x = y) ->
  StronglySorted le l -> StronglySorted le l' -> Permutation l l' -> l = l'.
Proof.
  revert l'. induction l as [|x l IH]; intros l' An S S' Pm.
  - apply Permutation_nil in Pm. now subst.
  - destruct l' as [|y l']; [apply Permutation_sym, Permutation_nil in Pm; discriminate Pm|].
    inversion S as [|? ? Sl Fx]; subst. inversion S' as [|? ? Sl' Fy]; subst.
    assert (E : x = y).
    { assert (Ix : In x (y :: l')) by (eapply Permutation_in; [exact Pm|now left]).
      assert (Iy : In y (x :: l)) by (eapply Permutation_in; [apply Permutation_sym, Pm|now left]).
      destruct Ix as [Ix|Ix]; [now subst|]. destruct Iy as [Iy|Iy]; [now subst|].
      rewrite Forall_forall in Fx, Fy. apply An; [now left|now right|apply Fx; exact Iy|apply Fy; exact Ix]. }
    subst y. f_equal. apply IH; auto.
    + intros a b Ha Hb. apply An; now right.
    + eapply Permutation_cons_inv; exact Pm.
Qed.

Lemma sorted_members (l l' : list R) : StronglySorted Rlt l -> StronglySorted Rlt l' ->
  (forall v, In v l <-> In v l') -> l = l'.
Proof.
  intros S S' H. apply (sorted_unique Rlt); auto; [intros; lra|].
  apply NoDup_Permutation; auto.
  - clear -S. induction S as [|x l S IH F]; constructor; auto. intros I. rewrite Forall_forall in F. apply F in I. lra.
  - clear -S'. induction S' as [|x l S IH F]; constructor; auto. intros I. rewrite Forall_forall in F. apply F in I. lra.
Qed.

(** ** Mean and variance *)
Lemma rsum_perm l l' : Permutation l l' -> rsum l = rsum l'.
Proof. induction 1; cbn [rsum]; lra. Qed.
Lemma avg_perm l l' : Permutation l l' -> avg l = avg l'.
Proof.
  intros P. pose proof (Permutation_length P) as L. pose proof (rsum_perm _ _ P) as E. unfold avg.
  destruct l, l'; cbn [length] in L; try lia; auto. cbn [length]. now rewrite E, L.
Qed.
Lemma pvar_perm l l' : Permutation l l' -> pvar l = pvar l'.
Proof. intros P. unfold pvar. rewrite (avg_perm _ _ P). apply avg_perm. now apply Permutation_map. Qed.

Lemma mean_order (W : nat) (xs ys : list R) : Permutation (window_of W xs) (window_of W ys) ->
  exists s t, update_all (mean_update (A := RA)) (mean_new W) xs = Ret s /\
    update_all (mean_update (A := RA)) (mean_new W) ys = Ret t /\ mean_evaluate (A := RA) s = mean_evaluate (A := RA) t.
Proof.
  intros P. destruct (mean_exact W xs) as (s & Es & Vs). destruct (mean_exact W ys) as (t & Et & Vt).
  exists s, t. split; [exact Es|]. split; [exact Et|]. rewrite Vs, Vt. now apply avg_perm.
Qed.

Lemma variance_order (W : nat) (xs ys : list R) : Permutation (window_of W xs) (window_of W ys) ->
  exists s t, update_all (variance_update (A := RA)) (variance_new W) xs = Ret s /\
    update_all (variance_update (A := RA)) (variance_new W) ys = Ret t /\
    variance_evaluate (A := RA) s = variance_evaluate (A := RA) t.
Proof.
  intros P. destruct (PMean.C39_variance_is_population_variance W xs) as (s & Es & Vs & _).
  destruct (PMean.C39_variance_is_population_variance W ys) as (t & Et & Vt & _).
  exists s, t. split; [exact Es|]. split; [exact Et|]. rewrite Vs, Vt. now apply pvar_perm.
Qed.

Lemma zsum_perm l l' : Permutation l l' -> zsum l = zsum l'.
Proof. induction 1; cbn [zsum fold_right] in * ; fold zsum in *; unfold zsum in * ; lia. Qed.

Lemma mean_order_int (W : nat) (B : Z) (zs ws : list Z) : (1 <= B)%Z -> zs <> [] -> length ws = length zs ->
  Forall (fun z => Z.abs z <= B)%Z (zs ++ ws) ->
  (B * Z.of_nat (match W with O => length zs | _ => W end) <= 2 ^ 53)%Z ->
  Permutation (window_of W zs) (window_of W ws) ->
  exists s t, update_all (mean_update (A := B64)) (mean_new W) (map Bz zs) = Ret s /\
    update_all (mean_update (A := B64)) (mean_new W) (map Bz ws) = Ret t /\
    finite64 (mean_evaluate (A := B64) s) = true /\ finite64 (mean_evaluate (A := B64) t) = true /\
    B2R (mean_evaluate (A := B64) s) = B2R (mean_evaluate (A := B64) t).
Proof.
  intros HB N L F HS P. apply Forall_app in F as [F F'].
  destruct (mean_int W B zs HB N F HS) as (s & Es & Fs & Vs).
  destruct (mean_int W B ws) as (t & Et & Ft & Vt); auto.
  { intros ->. destruct zs; [auto|discriminate L]. }
  { now rewrite L. }
  exists s, t. split; [exact Es|]. split; [exact Et|]. split; [exact Fs|]. split; [exact Ft|].
  rewrite Vs, Vt, (zsum_perm _ _ P), (Permutation_length P). reflexivity.
Qed.

(** ** Histogram and entropy *)
Lemma separated_perm {A : arith} (xs ys : list A) : Permutation xs ys -> separated xs -> separated ys.
Proof. intros P S x y Hx Hy. apply S; eapply Permutation_in; try (apply Permutation_sym, P); auto. Qed.
Lemma few_perm {A : arith} N (xs ys : list A) : Permutation xs ys -> few N xs -> few N ys.
Proof. intros P F vs S I. apply F; auto. intros v Hv. eapply Permutation_in; [apply Permutation_sym, P|auto]. Qed.
Lemma count_perm (xs ys : list R) v : Permutation xs ys -> count_occ Req_EM_T xs v = count_occ Req_EM_T ys v.
Proof. intros P. now apply (Permutation_count_occ Req_EM_T). Qed.

Lemma hist_order (N W : nat) (xs ys : list R) : Permutation xs ys ->
  length xs <= W -> separated (A := RA) xs -> few (A := RA) N xs ->
  exists h g, update_all hist_update (hist_new (A := RA) N W true) xs = Ret h /\
    update_all hist_update (hist_new (A := RA) N W true) ys = Ret g /\
    hist_report h = hist_report g /\ hist_binCounts h = hist_binCounts g.
Proof.
  intros P L S F. destruct (separated_RA N W xs L S F) as (h & vs & Eh & Sv & Iv & Rh & Ch).
  destruct (separated_RA N W ys) as (g & us & Eg & Su & Iu & Rg & Cg).
  { now rewrite <- (Permutation_length P). }
  { eapply separated_perm; eauto. }
  { eapply few_perm; eauto. }
  exists h, g. split; [exact Eh|]. split; [exact Eg|].
  assert (E : vs = us).
  { apply sorted_members; auto. intros v. rewrite Iv, Iu. split; apply Permutation_in; auto. now apply Permutation_sym. }
  subst us. rewrite Rh, Rg, Ch, Cg. split; [|f_equal]; apply map_ext; intros v; now rewrite (count_perm xs ys).
Qed.

Lemma hist_order_B64 (N W : nat) (xs ys : list double) : Permutation xs ys ->
  length xs <= W -> Forall (fun x => finite64 x = true) xs -> separated (A := B64) xs -> few (A := B64) N xs ->
  exists h g, update_all hist_update (hist_new (A := B64) N W true) xs = Ret h /\
    update_all hist_update (hist_new (A := B64) N W true) ys = Ret g /\
    map (fun e => (B2R (fst (fst e) : double), B2R (snd (fst e) : double), snd e)) (hist_report h) =
    map (fun e => (B2R (fst (fst e) : double), B2R (snd (fst e) : double), snd e)) (hist_report g) /\
    hist_binCounts h = hist_binCounts g.
Proof.
  intros P L Fx S F. destruct (separated_B64 N W xs L Fx S F) as (h & vs & Eh & Sv & Iv & Cv & Rh & Ch).
  destruct (separated_B64 N W ys) as (g & us & Eg & Su & Iu & Cu & Rg & Cg).
  { pose proof (Permutation_length P) as E. cbn [B64 num] in * . lia. }
  { eapply Permutation_Forall; eauto. }
  { eapply separated_perm; eauto. }
  { eapply few_perm; eauto. }
  exists h, g. split; [exact Eh|]. split; [exact Eg|].
  assert (MS : forall l : list double, StronglySorted (fun a b : double => (B2R a < B2R b)%R) l -> StronglySorted Rlt (map B2R l)).
  { induction 1; cbn [map]; constructor; auto. now apply Forall_map. }
  assert (E : map B2R vs = map B2R us).
  { apply sorted_members; auto. intros v. rewrite !in_map_iff. split; intros (x & <- & Ix).
    - destruct (Cu x) as (u & Iu' & E); [eapply Permutation_in; [exact P|]; now apply Iv|]. eauto.
    - destruct (Cv x) as (u & Iu' & E); [eapply Permutation_in; [apply Permutation_sym, P|]; now apply Iu|]. eauto. }
  pose proof (Permutation_map B2R P) as PM.
  assert (T : forall {Y} (fn : R -> Y), map (fun v : double => fn (B2R v)) vs = map (fun v : double => fn (B2R v)) us).
  { intros Y fn. transitivity (map fn (map B2R vs)); [symmetry; apply map_map|]. rewrite E. apply map_map. }
  rewrite Rh, Rg, Ch, Cg, !map_map. cbn [fst snd]. split.
  - rewrite (map_ext _ (fun v : double => (fun r => (r, r, count_occ Req_EM_T (map B2R ys) r)) (B2R v))).
    + apply (T _ (fun r => (r, r, count_occ Req_EM_T (map B2R ys) r))).
    + intros v. now rewrite (count_perm _ _ (B2R v) PM).
  - f_equal. rewrite (map_ext _ (fun v : double => (fun r => count_occ Req_EM_T (map B2R ys) r) (B2R v))).
    + apply (T _ (fun r => count_occ Req_EM_T (map B2R ys) r)).
    + intros v. now rewrite (count_perm _ _ (B2R v) PM).
Qed.

Lemma entropy_order (W N B : nat) (xs ys : list R) : Permutation xs ys ->
  1 <= N /\ B = N \/ N = 0 /\ 1 <= W /\ B = Nat.log2_up W + 1 ->
  length xs <= W -> separated (A := RA) xs -> few (A := RA) B xs ->
  exists e0 s t, entropy_new (A := RA) W N = Ret e0 /\ update_all (entropy_update log2R) e0 xs = Ret s /\
    update_all (entropy_update log2R) e0 ys = Ret t /\ entropy_evaluate s = entropy_evaluate t.
Proof.
  intros P HB L S F. destruct (PEntropy.C57_shannon_entropy W N B xs HB L S F) as (e0 & s & E0 & Es & Vs).
  destruct (PEntropy.C57_shannon_entropy W N B ys HB) as (e1 & t & E1 & Et & Vt).
  { now rewrite <- (Permutation_length P). }
  { eapply separated_perm; eauto. }
  { eapply few_perm; eauto. }
  rewrite E0 in E1. injection E1 as <-. exists e0, s, t. split; [exact E0|]. split; [exact Es|]. split; [exact Et|].
  destruct (Vs (nodup Req_EM_T xs)) as [-> _]; [apply NoDup_nodup|intros; apply nodup_In|].
  destruct (Vt (nodup Req_EM_T xs)) as [-> _]; [apply NoDup_nodup|intros v; rewrite nodup_In; split; apply Permutation_in; auto; now apply Permutation_sym|].
  unfold shannon. f_equal. f_equal. apply map_ext. intros v. unfold share. now rewrite (count_perm _ _ v P), (Permutation_length P).
Qed.

(** ** P2: the order of the first five observations *)
Lemma sort_asc_RA (l : list R) : StronglySorted Rle (sort_list (A := RA) l).
Proof.
  unfold sort_list. enough (G : forall acc : list R, StronglySorted Rle acc ->
    StronglySorted Rle (fold_left (fun acc x => sort_insert (A := RA) x acc) l acc)) by (apply G; constructor).
  induction l as [|x l IH]; intros acc Sa; cbn [fold_left]; auto. apply IH. clear IH l.
  induction Sa as [|y acc Sa IH F]; cbn [sort_insert]; [repeat constructor|].
  cbn [ltb RA]. destruct (Rltb x y) eqn:E.
  - apply Rltb_true in E. constructor; [constructor; auto|]. constructor; [lra|]. eapply Forall_impl; [|exact F]. cbn. intros; lra.
  - assert (Rle y x) by (destruct (Rle_lt_dec y x) as [|K]; auto; apply Rltb_true in K; congruence).
    constructor; [exact IH|]. rewrite Forall_forall in F |- * . intros z Hz.
    apply (Permutation_in _ (sort_insert_perm (A := RA) x acc)) in Hz. destruct Hz as [<-|Hz]; auto.
Qed.

Lemma sort_perm_RA (l l' : list R) : Permutation l l' -> sort_list (A := RA) l = sort_list (A := RA) l'.
Proof.
  intros P. apply (sorted_unique Rle); try apply sort_asc_RA; [intros; lra|].
  etransitivity; [apply (sort_list_perm (A := RA))|]. etransitivity; [exact P|]. symmetry. apply (sort_list_perm (A := RA)).
Qed.

Lemma sort_perm_B64 (l l' : list double) : Forall (fun x => nan x = false /\ x <> B754_zero true) l ->
  Permutation l l' -> sort_list (A := B64) l = sort_list (A := B64) l'.
Proof.
  intros F P. pose proof (Permutation_Forall P F) as F'. apply (sorted_unique (fun a b : double => Bleb a b = true)).
  - intros x y Ix Iy L1 L2. apply (Permutation_in _ (sort_list_perm (A := B64) l)) in Ix, Iy.
    rewrite Forall_forall in F. destruct (F x Ix) as [Nx Zx], (F y Iy) as [Ny Zy].
    apply X_leb in L1; auto. apply X_leb in L2; auto. assert (E : X x = X y) by lra.
    destruct (Req_EM_T (X x) 0) as [Z|Z]; [|now apply X_inj].
    rewrite Z in E. symmetry in E. clear -Z E Zx Zy Nx Ny.
    assert (K : forall u : double, nan u = false -> u <> B754_zero true -> X u = 0%R -> u = B754_zero false).
    { intros u Nu Zu Xu. pose proof big_pos. destruct u as [[]|[]| |s m e0 Bd]; try congruence; try discriminate Nu; cbn in Xu; try lra.
      exfalso. apply (F2R_neq_0 radix2 (Float radix2 (cond_Zopp s (Zpos m)) e0)); [|exact Xu]. cbn. destruct s; discriminate. }
    rewrite (K x), (K y); auto.
  - apply asc_sort. eapply Forall_impl; [|exact F]. cbn. tauto.
  - apply asc_sort. eapply Forall_impl; [|exact F']. cbn. tauto.
  - etransitivity; [apply (sort_list_perm (A := B64))|]. etransitivity; [exact P|]. symmetry. apply (sort_list_perm (A := B64)).
Qed.

Lemma first_five {A : arith} (q : A) (xs ys zs : list A) : length xs = 5 -> length ys = 5 ->
  forallb not_nan xs = forallb not_nan ys -> (forallb not_nan xs = true -> sort_list xs = sort_list ys) ->
  forall s0, p2_new q = Ret s0 -> update_all p2_update s0 (xs ++ zs) = update_all p2_update s0 (ys ++ zs).
Proof.
  intros Lx Ly Hn Hs s0 E0. destruct (new_shape q s0 E0) as [-> _].
  rewrite !update_all_app. f_equal. rewrite !run_five by auto. rewrite <- Hn.
  destruct (forallb not_nan xs); [|reflexivity]. now rewrite Hs.
Qed.

Lemma p2_order_five (q : R) (s0 : p2 RA) (xs ys zs : list R) : p2_new (A := RA) q = Ret s0 ->
  length xs = 5 -> Permutation xs ys ->
  update_all p2_update s0 (xs ++ zs) = update_all p2_update s0 (ys ++ zs).
Proof.
  intros E0 L P. assert (T : forall l : list R, forallb (not_nan (A := RA)) l = true).
  { intros l. apply forallb_forall. intros x _. unfold not_nan. cbn. unfold Reqb. destruct (Req_EM_T x x); congruence. }
  apply (first_five (A := RA) q); auto.
  - rewrite <- L. symmetry. now apply Permutation_length.
  - etransitivity; [apply T|symmetry; apply T].
  - intros _. now apply sort_perm_RA.
Qed.

Lemma p2_order_five_B64 (q : double) (s0 : p2 B64) (xs ys zs : list double) : p2_new (A := B64) q = Ret s0 ->
  length xs = 5 -> Permutation xs ys -> Forall (fun x => x <> B754_zero true) xs ->
  update_all p2_update s0 (xs ++ zs) = update_all p2_update s0 (ys ++ zs).
Proof.
  intros E0 L P F. apply (first_five (A := B64) q); auto.
  - rewrite <- L. symmetry. now apply Permutation_length.
  - clear -P. induction P; cbn [forallb]; try congruence. now rewrite !andb_assoc, (andb_comm (not_nan y)).
  - intros H. apply sort_perm_B64; auto. apply not_nan_B64 in H. rewrite Forall_forall in * . intros x Hx. split; auto.
Qed.

Lemma wp2_order_five_B64 (q : double) (W : nat) (s0 : wp2 B64) (xs ys zs : list double) : wp2_new (A := B64) q W = Ret s0 ->
  5 <= W -> length xs = 5 -> Permutation xs ys -> Forall (fun x => x <> B754_zero true) xs ->
  update_all wp2_update s0 (xs ++ zs) = update_all wp2_update s0 (ys ++ zs).
Proof.
  intros E0 HW L P F. assert (Ly : length ys = 5) by (rewrite <- L; symmetry; now apply Permutation_length).
  destruct (p2_new (A := B64) q) as [p0|e|u] eqn:Ep; [|unfold wp2_new in E0; rewrite Ep in E0; discriminate E0..].
  rewrite !update_all_app. f_equal.
  pose proof (@wp2_first_window B64 q W s0 p0 xs E0 Ep (or_intror (eq_ind_r (fun n => n <= W) HW L))) as K1.
  pose proof (@wp2_first_window B64 q W s0 p0 ys E0 Ep (or_intror (eq_ind_r (fun n => n <= W) HW Ly))) as K2.
  etransitivity; [exact K1|]. etransitivity; [|symmetry; exact K2].
  pose proof (p2_order_five_B64 q p0 xs ys [] Ep L P F) as E. rewrite !app_nil_r in E. cbn [B64 num] in E |- * .
  rewrite E, L, Ly. reflexivity.
Qed.

(** ** Where the order matters *)
Lemma mean_order_matters :
  exists (xs ys : list double) (s t : mean B64), Permutation xs ys /\ xs = [@lit B64 1 10; @lit B64 2 10; @lit B64 3 10] /\
    update_all mean_update (mean_new (A := B64) 100) xs = Ret s /\ update_all mean_update (mean_new (A := B64) 100) ys = Ret t /\
    Beqb (mean_evaluate s) (mean_evaluate t) = false.
Proof.
  set (a := @lit B64 1 10). set (b := @lit B64 2 10). set (c := @lit B64 3 10).
  assert (T : ok (update_all mean_update (mean_new (A := B64) 100) [a; b; c]) (fun s =>
    ok (update_all mean_update (mean_new (A := B64) 100) [c; b; a]) (fun t => negb (Beqb (mean_evaluate s) (mean_evaluate t)))) = true) by (vm_compute; reflexivity).
  apply ok_true in T as (s & E1 & T). apply ok_true in T as (t & E2 & T). apply negb_true_iff in T.
  exists [a; b; c], [c; b; a], s, t. split; [exact (Permutation_rev [a; b; c])|]. auto.
Qed.

Lemma hist_order_matters :
  (exists h g : hist B64, hist_stream 10 100 [10000; 10001; 10002]%Z = Ret h /\ hist_stream 10 100 [10002; 10001; 10000]%Z = Ret g /\
    hist_size h = 2 /\ hist_size g = 3) /\
  (exists h g : hist B64, hist_stream 2 100 [1; 5; 8; 12]%Z = Ret h /\ hist_stream 2 100 [1; 5; 12; 8]%Z = Ret g /\
    hist_binCounts h = Ret [1; 3] /\ hist_binCounts g = Ret [3; 1]).
Proof.
  split.
  - assert (T : ok (hist_stream 10 100 [10000; 10001; 10002]%Z) (fun h => ok (hist_stream 10 100 [10002; 10001; 10000]%Z) (fun g =>
      Nat.eqb (hist_size h) 2 && Nat.eqb (hist_size g) 3)) = true) by (vm_compute; reflexivity).
    apply ok_true in T as (h & E1 & T). apply ok_true in T as (g & E2 & T). apply andb_prop in T as [T1 T2].
    apply Nat.eqb_eq in T1, T2. exists h, g. auto.
  - assert (T : ok (hist_stream 2 100 [1; 5; 8; 12]%Z) (fun h => ok (hist_stream 2 100 [1; 5; 12; 8]%Z) (fun g =>
      match hist_binCounts h, hist_binCounts g with Ret [1; 3], Ret [3; 1] => true | _, _ => false end)) = true) by (vm_compute; reflexivity).
    apply ok_true in T as (h & E1 & T). apply ok_true in T as (g & E2 & T). exists h, g. split; [exact E1|]. split; [exact E2|].
    destruct (hist_binCounts h) as [[|[|[]] [|[|[|[|[]]]] []]]| |]; try discriminate T.
    destruct (hist_binCounts g) as [[|[|[|[|[]]]] [|[|[]] []]]| |]; try discriminate T. auto.
Qed.

Lemma p2_order_matters :
  exists (s t s' t' : p2 B64) (u v : double), p2_stream Bhalf [1; 2; 3; 4; 5; 100]%Z = Ret s /\
    p2_stream Bhalf [100; 5; 4; 3; 2; 1]%Z = Ret t /\
    p2_evaluate s = Ret (s', u) /\ p2_evaluate t = Ret (t', v) /\ Beqb u v = false.
Proof.
  assert (T : ok (p2_stream Bhalf [1; 2; 3; 4; 5; 100]%Z) (fun s => ok (p2_stream Bhalf [100; 5; 4; 3; 2; 1]%Z) (fun t =>
    ok (p2_evaluate s) (fun '(_, u) => ok (p2_evaluate t) (fun '(_, v) => negb (Beqb u v))))) = true) by (vm_compute; reflexivity).
  apply ok_true in T as (s & E1 & T). apply ok_true in T as (t & E2 & T). apply ok_true in T as ([s' u] & E3 & T).
  apply ok_true in T as ([t' v] & E4 & T). apply negb_true_iff in T. exists s, t, s', t', u, v. repeat (split; [assumption|]). exact T.
Qed.

Lemma fame_order_matters :
  exists (s0 : fame B64), fame_new (A := B64) (Bz 1) (Bz 0) = Ret s0 /\
    let run zs := fame_evaluate (fold_left fame_update (map Bz zs) s0) in
    Beqb (run [1; 9]%Z) (Bz 2) = true /\ Beqb (run [9; 1]%Z) (lit (A := B64) 9 2) = true.
Proof.
  assert (T : ok (fame_new (A := B64) (Bz 1) (Bz 0)) (fun s0 =>
    let run zs := fame_evaluate (fold_left fame_update (map Bz zs) s0) in
    Beqb (run [1; 9]%Z) (Bz 2) && Beqb (run [9; 1]%Z) (lit (A := B64) 9 2)) = true) by (vm_compute; reflexivity).
  apply ok_true in T as (s0 & E & T). exists s0. split; [exact E|]. apply andb_prop in T. exact T.
Qed.
