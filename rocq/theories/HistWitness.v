(** Instances for the reals and the doubles, and concrete runs. *)

From Coq Require Import List Sorting.Sorted Arith Bool Lia ZArith Reals Lra.
From Flocq Require Import Core.Core IEEE754.BinarySingleNaN.
From Verif Require Import Outcome Arith Utils IBin Histogram Spec ListFacts HistSpec UtilsFacts HistFacts
  FloatSpec FloatFacts UtilsMono HistOrder HistStreams HistQuant P2Witness.
Import ListNotations.
Local Open Scope nat_scope.

Definition hist_stream (N W : nat) (zs : list Z) : outcome (hist B64) :=
  update_all hist_update (hist_new (A := B64) N W true) (map Bz zs).

(** ** C24, C33 *)

Lemma well_formed_RA N W os (h : hist RA) : 1 <= W -> hist_calls (hist_new N W true) os = Ret h ->
  Forall (fun b => (b_left b <= b_right b)%R /\ In (b_left b) (since_reset [] os) /\ In (b_right b) (since_reset [] os)) (h_bins h) /\
  StronglySorted (fun a b => (b_left a < b_left b)%R) (h_bins h).
Proof.
  intros HW E. assert (F : Forall anyR (hist_items os)) by (apply Forall_forall; intros; exact I).
  destruct (run_good ordered_RA N W os h HW E F) as ((_ & S & O) & _). split.
  - pose proof (run_edges _ _ _ _ E) as Ed. unfold edges_in in Ed. rewrite Forall_forall in * . intros b Ib.
    split; [|apply Ed; auto]. specialize (O b Ib). cbn in O. now apply Rltb_false in O.
  - clear -S. unfold lefts_increasing in S. induction S as [|b l H IH F]; constructor; auto.
    eapply Forall_impl; [|exact F]. cbn. intros c Hc. now apply Rltb_true.
Qed.

Lemma since_in {A : arith} (os : list (hist_op A)) v : forall acc, In v (since_reset acc os) -> In v acc \/ In v (hist_items os).
Proof.
  induction os as [|[x|] os IH]; intros acc H; simpl in *; auto.
  - apply IH in H as [H|H]; auto. apply in_app_or in H as [H|[<-|[]]]; auto.
  - apply IH in H as [[]|H]; auto.
Qed.

Lemma well_formed_B64 N W os (h : hist B64) : 1 <= W -> hist_calls (hist_new N W true) os = Ret h ->
  Forall (fun x : double => finite64 x = true) (hist_items os) ->
  Forall (fun b : bin B64 => (B2R (b_left b) <= B2R (b_right b))%R /\ In (b_left b) (since_reset [] os) /\ In (b_right b) (since_reset [] os)) (h_bins h) /\
  StronglySorted (fun a b : bin B64 => (B2R (b_left a) < B2R (b_left b))%R) (h_bins h).
Proof.
  intros HW E F. destruct (run_good ordered_B64 N W os h HW E F) as ((HD & S & O) & _).
  unfold Dbins, Dbin, finD in HD. rewrite Forall_forall in HD. split.
  - pose proof (run_edges _ _ _ _ E) as Ed. unfold edges_in in Ed. rewrite Forall_forall in O, Ed |- * . intros b Ib.
    split; [|apply Ed; auto]. specialize (O b Ib). destruct (HD b Ib) as [D1 D2]. cbn [ltb B64] in O.
    apply X_ltb_false in O; auto using fin_nan. now rewrite (X_fin _ D1), (X_fin _ D2) in O.
  - clear -S HD. unfold lefts_increasing in S. induction S as [|b l H IH F]; constructor.
    + apply IH. intros; apply HD; simpl; auto.
    + rewrite Forall_forall in F |- * . intros c Ic. specialize (F c Ic). cbn [ltb B64] in F.
      destruct (HD b (or_introl eq_refl)) as [D1 _]. destruct (HD c (or_intror Ic)) as [D2 _].
      apply X_ltb in F; auto using fin_nan. now rewrite (X_fin _ D1), (X_fin _ D2) in F.
Qed.

Lemma report_RA N W os (h : hist RA) : 1 <= W -> hist_calls (hist_new N W true) os = Ret h ->
  hist_report h = map (fun b => ((b_left b, b_right b), b_count b)) (h_bins h).
Proof.
  intros HW E. assert (F : Forall anyR (hist_items os)) by (apply Forall_forall; intros; exact I).
  destruct (run_good ordered_RA N W os h HW E F) as ((HD & S & _) & _). now apply (report_bins ordered_RA).
Qed.

Lemma report_B64 N W os (h : hist B64) : 1 <= W -> hist_calls (hist_new N W true) os = Ret h ->
  Forall (fun x : double => finite64 x = true) (hist_items os) ->
  hist_report h = map (fun b => ((b_left b, b_right b), b_count b)) (h_bins h).
Proof.
  intros HW E F. destruct (run_good ordered_B64 N W os h HW E F) as ((HD & S & _) & _). now apply (report_bins ordered_B64).
Qed.

Lemma report_loses : exists (h : hist B64), hist_stream 2 0 [1; 1]%Z = Ret h /\ hist_size h = 2 /\ length (hist_report h) = 1.
Proof.
  assert (H : ok (hist_stream 2 0 [1; 1]%Z) (fun h => Nat.eqb (hist_size h) 2 && Nat.eqb (length (hist_report h)) 1) = true)
    by (vm_compute; reflexivity).
  apply ok_true in H as (h & E & H). apply andb_prop in H as [H1 H2]. exists h.
  apply Nat.eqb_eq in H1, H2. auto.
Qed.

(** ** C28 *)

Lemma search_terminates {A : arith} (h : hist A) (x : A) :
  exists i, hist_binSearch h x = Ret i /\ i <= hist_size h.
Proof. destruct (search_found h (Bin x x 1)) as (i & E & L & _). exists i. auto. Qed.

Lemma search_RA (h : hist RA) (x : R) : StronglySorted (fun a b => (b_left a <= b_left b)%R) (h_bins h) ->
  hist_binSearch h x = Ret (length (filter (fun b => definitelyLessThan (b_left b) x default_eps) (h_bins h))).
Proof.
  intros S. apply (search_count ordered_RA); try exact I.
  - apply Forall_forall. intros; split; exact I.
  - unfold lefts_ascending. induction S as [|b l H IH F]; constructor; auto.
    eapply Forall_impl; [|exact F]. cbn. intros c Hc. now apply Rltb_false.
Qed.

Lemma search_B64 (h : hist B64) (x : double) : finite64 x = true ->
  Forall (fun b : bin B64 => finite64 (b_left b) = true /\ finite64 (b_right b) = true) (h_bins h) ->
  StronglySorted (fun a b : bin B64 => (B2R (b_left a) <= B2R (b_left b))%R) (h_bins h) ->
  hist_binSearch h x = Ret (length (filter (fun b => definitelyLessThan (b_left b) x default_eps) (h_bins h))).
Proof.
  intros Fx FD S. apply (search_count ordered_B64); auto.
  unfold lefts_ascending. induction S as [|b l H IH F]; constructor; inversion_clear FD as [|? ? [D1 _] FD']; auto.
  rewrite Forall_forall in F, FD' |- * . intros c Ic. destruct (FD' c Ic) as [D2 _]. cbn [ltb B64].
  apply X_ltb_false; auto using fin_nan. rewrite (X_fin _ D1), (X_fin _ D2). auto.
Qed.

(** ** C26 *)

Lemma separated_RA N W (xs : list R) : length xs <= W -> separated (A := RA) xs -> few (A := RA) N xs ->
  exists h vs, update_all hist_update (hist_new (A := RA) N W true) xs = Ret h /\
    StronglySorted Rlt vs /\ (forall v, In v vs <-> In v xs) /\
    hist_report h = map (fun v => ((v, v), count_occ Req_EM_T xs v)) vs /\
    hist_binCounts h = Ret (map (count_occ Req_EM_T xs) vs).
Proof.
  intros L S F. assert (FD : Forall anyR xs) by (apply Forall_forall; intros; exact I).
  destruct (separated_run ordered_RA N W xs L FD S F) as (h & vs0 & w & E & _).
  destruct (separated_report ordered_RA N W xs h L FD S F E) as (vs & Sv & Iv & Cv & Er & Eb & _).
  assert (O : forall v, occurrences (A := RA) v xs = count_occ Req_EM_T xs v).
  { intros v. unfold occurrences. clear. induction xs as [|y xs IH]; simpl; auto. unfold Reqb at 1.
    destruct (Req_EM_T y v); simpl; auto. }
  exists h, vs. split; auto. split; [|split; [|split]].
  - clear -Sv. induction Sv as [|b l H IH F]; constructor; auto. eapply Forall_impl; [|exact F].
    cbn. intros c Hc. now apply Rltb_true.
  - intros v. split; [apply Iv|]. intros I. destruct (Cv v I) as (u & Iu & Eu). cbn in Eu.
    apply Reqb_true in Eu. now subst.
  - rewrite Er. apply map_ext. intros v. now rewrite O.
  - rewrite Eb. f_equal. apply map_ext. auto.
Qed.

Lemma separated_B64 N W (xs : list double) : length xs <= W -> Forall (fun x => finite64 x = true) xs ->
  separated (A := B64) xs -> few (A := B64) N xs ->
  exists h vs, update_all hist_update (hist_new (A := B64) N W true) xs = Ret h /\
    StronglySorted (fun a b : double => (B2R a < B2R b)%R) vs /\ incl vs xs /\
    (forall x, In x xs -> exists v, In v vs /\ B2R x = B2R v) /\
    hist_report h = map (fun v => ((v, v), count_occ Req_EM_T (map B2R xs) (B2R v))) vs /\
    hist_binCounts h = Ret (map (fun v => count_occ Req_EM_T (map B2R xs) (B2R v)) vs).
Proof.
  intros L FD S F.
  destruct (separated_run ordered_B64 N W xs L FD S F) as (h & vs0 & w & E & _).
  destruct (separated_report ordered_B64 N W xs h L FD S F E) as (vs & Sv & Iv & Cv & Er & Eb & _).
  rewrite Forall_forall in FD. assert (Fv : forall v, In v vs -> finite64 v = true) by (intros; apply FD; auto).
  assert (Q : forall x v : double, finite64 x = true -> finite64 v = true -> (Beqb x v = true <-> B2R x = B2R v)).
  { intros x v Fx Fv'. rewrite X_eqb by auto using fin_nan. now rewrite (X_fin _ Fx), (X_fin _ Fv'). }
  assert (O : forall v, In v vs -> occurrences (A := B64) v xs = count_occ Req_EM_T (map B2R xs) (B2R v)).
  { intros v Hv. specialize (Fv v Hv). clear -FD Fv Q. unfold occurrences. induction xs as [|y xs IH]; simpl; auto.
    assert (Fy : finite64 y = true) by (apply FD; simpl; auto). specialize (Q y v Fy Fv).
    assert (IH' := IH (fun x H => FD x (or_intror H))).
    destruct (Req_EM_T (B2R y) (B2R v)) as [e|n], (Beqb y v).
    - exact (f_equal S IH').
    - specialize (proj2 Q e). discriminate.
    - destruct (n (proj1 Q eq_refl)).
    - exact IH'. }
  exists h, vs. split; auto. split; [|split; [|split; [|split]]]; auto.
  - clear -Sv Fv. induction Sv as [|b l H IH F]; constructor.
    + apply IH. intros; apply Fv; simpl; auto.
    + rewrite Forall_forall in F |- * . intros c Ic. specialize (F c Ic). cbn [ltb B64] in F.
      assert (Fb : finite64 b = true) by (apply Fv; simpl; auto). assert (Fc : finite64 c = true) by (apply Fv; simpl; auto).
      apply X_ltb in F; auto using fin_nan. now rewrite (X_fin _ Fb), (X_fin _ Fc) in F.
  - intros x I. destruct (Cv x I) as (u & Iu & Eu). exists u. split; auto. cbn in Eu. apply Q; auto.
  - rewrite Er. apply map_ext_in. intros v Hv. now rewrite O.
  - rewrite Eb. f_equal. apply map_ext_in. auto.
Qed.

(** ** C23 *)

Lemma drift_RA (a b : R) N W k : definitelyLessThan (A := RA) a b default_eps = true -> 2 <= N -> 1 <= W -> W < k ->
  exists h, update_all hist_update (hist_new (A := RA) N W true) (a :: repeat b k) = Ret h /\
    hist_binCounts h = Throw RuntimeError.
Proof.
  intros H HN HW Hk. apply drift_counts; auto.
  - destruct (definitelyLessThan (A := RA) b b default_eps) eqn:E; auto.
    apply (o_less _ _ ordered_RA) in E; try exact I. rewrite (o_irrefl _ _ ordered_RA) in E; [discriminate|exact I].
  - cbn. apply Rleb_true. lra.
Qed.

Lemma drift_B64 (a b : double) N W k : finite64 b = true ->
  definitelyLessThan (A := B64) a b default_eps = true -> 2 <= N -> 1 <= W -> W < k ->
  exists h, update_all hist_update (hist_new (A := B64) N W true) (a :: repeat b k) = Ret h /\
    hist_binCounts h = Throw RuntimeError.
Proof.
  intros Fb H HN HW Hk. destruct default_eps_ok as [Fe He]. destruct (B_refl b default_eps Fb Fe He) as (_ & _ & Irr).
  apply drift_counts; auto. cbn [leb B64]. apply X_leb; auto using fin_nan. lra.
Qed.

(** ** C25 *)

Definition oob {X} (o : outcome X) : bool := match o with Undef OutOfBounds => true | _ => false end.
Lemma oob_true {X} (o : outcome X) : oob o = true -> o = Undef OutOfBounds.
Proof. destruct o as [| |[]]; try discriminate; auto. Qed.

Lemma stale_index : exists h : hist B64, hist_stream 2 1 [1; 10; 20; 20]%Z = Ret h /\ hist_update h (Bz 20) = Undef OutOfBounds.
Proof.
  assert (H : ok (hist_stream 2 1 [1; 10; 20; 20]%Z) (fun h => oob (hist_update h (Bz 20 : num B64))) = true)
    by (vm_compute; reflexivity).
  apply ok_true in H as (h & E & H). exists h. split; [exact E|exact (oob_true _ H)].
Qed.

(** ** C29 *)

Lemma merge_gap_RA (bins bins' : list (bin RA)) i : hist_merge bins = Ret (bins', i) ->
  exists l b c r, bins = l ++ b :: c :: r /\ i = length l /\ bins' = l ++ bin_add b c :: r /\
    list_sum (map b_count bins') = list_sum (map b_count bins) /\
    forall l' b' c' r', bins = l' ++ b' :: c' :: r' -> (b_right b' <= b_right c')%R ->
      ((b_right c - b_right b) * (1 - / 10000) <= b_right c' - b_right b')%R.
Proof.
  intros E. destruct (merge_choice_RA _ _ _ E) as (l & b & c & r & E1 & E2 & E3 & No).
  exists l, b, c, r. split; auto. split; auto. split; auto. split.
  - rewrite E1, E3, !map_app, !list_sum_app. cbn [map list_sum fold_right]. rewrite bin_add_count. lia.
  - intros l' b' c' r' E' H. specialize (No _ _ _ _ E'). unfold gap in No. cbn [sub RA] in No.
    apply gap_bound; auto. lra.
Qed.

(** ** C35 *)

Lemma merge_infinite (bins : list (bin B64)) : 1 <= length bins ->
  (forall l b c r, bins = l ++ b :: c :: r -> gap b c = B754_infinity false) ->
  hist_merge bins = Undef OutOfBounds.
Proof.
  intros L H. apply merge_undefined; auto. intros l b c r E. specialize (H l b c r E). unfold gap in H.
  rewrite H. apply infinity_not_less.
Qed.

(** ** C31 *)

Lemma constant_quantile_RA (x q : R) N W n : 1 <= N -> 1 <= W -> 1 <= n ->
  exists h, update_all hist_update (hist_new (A := RA) N W true) (repeat x n) = Ret h /\
    hist_quantile h q =
    (if Rltb q 0 || Rltb 1 q then Throw RuntimeError
     else if essentiallyEqual (A := RA) q 1%R default_eps then Ret x else Undef OutOfBounds).
Proof.
  intros HN HW Hn. destruct (constant_run (A := RA) x N W n) as (h & E & _ & B & T); auto.
  - destruct (definitelyLessThan (A := RA) x x default_eps) eqn:K; auto.
    apply (o_less _ _ ordered_RA) in K; try exact I. rewrite (o_irrefl _ _ ordered_RA) in K; [discriminate|exact I].
  - cbn. apply Rleb_true. lra.
  - exists h. split; auto. rewrite (single_quantile h x _ q B); auto. rewrite T. unfold of_nat. cbn.
    apply Rinv_r. apply not_0_IZR. lia.
Qed.

Lemma constant_quantile_B64 (x q : double) N W n : finite64 x = true -> 1 <= N -> 1 <= W -> 1 <= n ->
  (Z.of_nat W < 2 ^ 64)%Z ->
  exists h, update_all hist_update (hist_new (A := B64) N W true) (repeat x n) = Ret h /\
    hist_quantile h q =
    (if Bltb q (Bz 0) || Bltb (Bz 1) q then Throw RuntimeError
     else if essentiallyEqual (A := B64) q (Bz 1) default_eps then Ret x else Undef OutOfBounds).
Proof.
  intros Fx HN HW Hn L. destruct default_eps_ok as [Fe He]. destruct (B_refl x default_eps Fx Fe He) as (_ & _ & Irr).
  destruct (constant_run (A := B64) x N W n) as (h & E & _ & B & T); auto.
  - cbn [leb B64]. apply X_leb; auto using fin_nan. lra.
  - exists h. split; auto. rewrite (single_quantile h x _ q B); auto. rewrite T. apply self_div; lia.
Qed.

Lemma quantile_not_monotone : exists h (u v : double), hist_stream 3 10 [1; 2]%Z = Ret h /\
  hist_quantile h (lit (A := B64) 45 100) = Ret u /\ hist_quantile h (lit (A := B64) 50 100) = Ret v /\ Bltb v u = true.
Proof.
  assert (H : ok (hist_stream 3 10 [1; 2]%Z) (fun h =>
     ok (hist_quantile h (lit (A := B64) 45 100)) (fun u => ok (hist_quantile h (lit (A := B64) 50 100)) (fun v => Bltb (v : double) u))) = true)
    by (vm_compute; reflexivity).
  apply ok_true in H as (h & E & H). apply ok_true in H as (u & Eu & H). apply ok_true in H as (v & Ev & H).
  exists h, u, v. auto.
Qed.

(** ** C30 *)

Lemma run_quantile_RA N W (xs : list R) (h : hist RA) (q : R) :
  update_all hist_update (hist_new N W true) xs = Ret h -> length xs <= W -> 2 <= hist_size h -> (0 <= q <= 1)%R ->
  let cs := map b_count (h_bins h) in
  exists k b, selected cs q k /\ nth_error (h_bins h) k = Some b /\
    (essentiallyEqual (A := RA) q (Fcum cs k) default_eps = true /\ hist_quantile h q = Ret (b_left b) \/
     essentiallyEqual (A := RA) q (Fcum cs k) default_eps = false /\
     exists b', nth_error (h_bins h) (k + 1) = Some b' /\
       hist_quantile h q = Ret (b_left b +
         (if Req_EM_T (b_right b) (b_left b) then / INR N else b_right b - b_left b) *
         (INR (b_count b') / INR (b_count b)))%R).
Proof.
  intros E L S Hq cs. destruct (run_counts _ _ _ _ E) as [_ C]. destruct (C L) as [C1 C2].
  pose proof E as E'. rewrite <- calls_updates in E'. destruct (run_basic _ _ _ _ E') as ((w & (HN & _) & _) & _).
  rewrite <- HN. apply quantile_RA; auto; [congruence|]. eapply run_positive; eauto.
Qed.

Lemma run_quantile_B64 N W (xs : list double) (h : hist B64) (q : double) :
  update_all hist_update (hist_new N W true) xs = Ret h -> length xs <= W -> 2 <= hist_size h ->
  (Z.of_nat N <= 2 ^ 32)%Z -> (Z.of_nat (length xs) <= 2 ^ 53)%Z ->
  Bltb q (Bz 0) = false -> Bltb (Bz 1) q = false -> exists v, hist_quantile h q = Ret v.
Proof.
  intros E L S HN Hx Q0 Q1. destruct (run_counts _ _ _ _ E) as [_ C]. destruct (C L) as [C1 C2].
  pose proof E as E'. rewrite <- calls_updates in E'. destruct (run_basic _ _ _ _ E') as (_ & _ & Lb & _).
  apply quantile_safe_B64; auto; [congruence|eapply run_positive; eauto|lia|].
  rewrite C2. exact Hx.
Qed.

Lemma quantile_throws {A : arith} (h : hist A) (q : A) : ltb q zero = true \/ ltb (of_Z 1%Z) q = true ->
  hist_quantile h q = Throw RuntimeError.
Proof.
  intros H. unfold hist_quantile. change (q >?. of_Z 1)%num with (ltb (of_Z 1) q).
  destruct H as [-> | ->]; auto. rewrite orb_true_r. auto.
Qed.


Definition nothrow {X} (o : outcome X) : Prop := match o with Throw _ => False | _ => True end.
Lemma nothrow_bind {X Y} (o : outcome X) (f : X -> outcome Y) : nothrow o -> (forall x, nothrow (f x)) -> nothrow (bind o f).
Proof. destruct o; simpl; auto. Qed.
Lemma nothrow_at {X} (l : list X) i : nothrow (at_ l i).
Proof. unfold at_. destruct (nth_error l i); exact I. Qed.
Lemma nothrow_lower {A : arith} (l : list A) q : nothrow (lower_bound l q).
Proof.
  induction l as [|x l IH]; cbn; auto. destruct (ltb x q).
  - apply nothrow_bind; cbn; auto.
  - destruct (forallb _ l); exact I.
Qed.

Lemma quantile_throws_only {A : arith} (h : hist A) (q : A) e : hist_quantile h q = Throw e ->
  ltb q zero = true \/ ltb (of_Z 1%Z) q = true.
Proof.
  intros H. assert (K : ltb q zero || ltb (of_Z 1%Z) q = true).
  { destruct (ltb q zero || ltb (of_Z 1%Z) q) eqn:E; auto. exfalso.
    assert (N : nothrow (hist_quantile h q)); [|rewrite H in N; exact N].
    unfold hist_quantile. change (q >?. of_Z 1)%num with (ltb (of_Z 1) q). rewrite E.
    apply nothrow_bind; [apply nothrow_lower|]. intros i. apply nothrow_bind.
    { destruct (Nat.eqb _ _); [destruct (length _); exact I|]. destruct (Nat.eqb i 0); [exact I|].
      apply nothrow_bind; [apply nothrow_at|]. intros c. destruct (ltb q c); exact I. }
    intros k. apply nothrow_bind; [apply nothrow_at|]. intros c. destruct (essentiallyEqual q c default_eps).
    - apply nothrow_bind; [apply nothrow_at|]. intros; exact I.
    - apply nothrow_bind.
      + destruct (Nat.leb _ _); [exact I|]. apply nothrow_bind; [apply nothrow_at|]. intros c1.
        apply nothrow_bind; [apply nothrow_at|]. intros; exact I.
      + intros [[index p] w]. apply nothrow_bind; [apply nothrow_at|]. intros; exact I. }
  now apply orb_true_iff in K.
Qed.

Lemma quantile_throws_iff (A : arith) (h : hist A) (q : A) :
  (exists e, hist_quantile h q = Throw e) <-> ltb q zero = true \/ ltb (of_Z 1%Z) q = true.
Proof.
  split.
  - intros (e & E). eapply quantile_throws_only; eauto.
  - intros H. exists RuntimeError. now apply quantile_throws.
Qed.

Lemma run_update_outcome {A : arith} N W (os : list (hist_op A)) h x :
  hist_calls (hist_new N W true) os = Ret h ->
  (exists h', hist_update h x = Ret h') \/ hist_update h x = Undef OutOfBounds.
Proof.
  intros E. destruct (run_basic _ _ _ _ E) as ((w & L & _) & _). eapply update_fails; eauto.
Qed.

Lemma moderate_example :
  Forall (fun x => finite64 x = true /\ (Rabs (B2R x) <= bpow radix2 1022)%R) [Bz 0; Bz 1] /\
  ok (hist_stream 2 4 [1; 10; 20; 20]%Z) (fun _ => true) = true.
Proof.
  split; [|vm_compute; reflexivity].
  destruct (Bz_exact 0) as [E0 F0]; [lia|]. destruct (Bz_exact 1) as [E1 F1]; [lia|].
  assert (1 <= bpow radix2 1022)%R by (apply (bpow_le radix2 0 1022); lia).
  apply Forall_cons; [split; [exact F0|]|apply Forall_cons; [split; [exact F1|]|apply Forall_nil]].
  - rewrite E0, Rabs_R0. apply bpow_ge_0.
  - rewrite E1, Rabs_R1. exact H.
Qed.

Lemma separated_example : separated (A := RA) [2; 1; 2]%R /\ few (A := RA) 2 [2; 1; 2]%R.
Proof.
  split.
  - intros x y Ix Iy. assert (D : definitelyLessThan (A := RA) 1%R 2%R default_eps = true).
    { apply RA_less. unfold default_eps, lit. cbn. rewrite !Rabs_pos_eq, Rmax_right by lra. lra. }
    simpl in Ix, Iy. destruct Ix as [<-|[<-|[<-|[]]]], Iy as [<-|[<-|[<-|[]]]]; auto; left; cbn; now apply Reqb_true.
  - intros vs S I. destruct vs as [|a [|b [|c vs]]]; simpl; try lia. exfalso.
    inversion_clear S as [|? ? S1 F1]. inversion_clear S1 as [|? ? S2 F2].
    inversion_clear F1 as [|? ? H1 F3]. inversion_clear F3 as [|? ? H2 F4]. inversion_clear F2 as [|? ? H3 F5].
    cbn in H1, H2, H3. rewrite Rltb_true in * .
    assert (Ha := I a (or_introl eq_refl)). assert (Hb := I b (or_intror (or_introl eq_refl))).
    assert (Hc := I c (or_intror (or_intror (or_introl eq_refl)))). simpl in Ha, Hb, Hc.
    destruct Ha as [<-|[<-|[<-|[]]]], Hb as [<-|[<-|[<-|[]]]], Hc as [<-|[<-|[<-|[]]]]; lra.
Qed.

Lemma pdf_entries (h : hist RA) (nz : bool) :
  hist_pdf h true false = map (fun b => INR (b_count b) / INR (h_total h))%R (h_bins h) /\
  hist_pdf h false false = map (fun b => INR (b_count b)) (h_bins h) /\
  hist_pdf h nz true = map (fun b => INR (b_count b) / (INR (h_total h) * widthR b))%R (h_bins h).
Proof.
  split; [|split].
  - unfold hist_pdf, of_nat. cbn. apply map_ext. intros b. now rewrite !INR_IZR_INZ.
  - unfold hist_pdf, of_nat. cbn. apply map_ext. intros b. rewrite !INR_IZR_INZ. lra.
  - rewrite density_RA. apply map_ext. intros b. now rewrite !INR_IZR_INZ.
Qed.

Lemma Rsum_snoc l x : Rsum (l ++ [x]) = (Rsum l + x)%R.
Proof. induction l; simpl; lra. Qed.

Lemma partial_running (l : list R) : forall acc k, k < length l ->
  nth_error (partial_sum_from (A := RA) acc l) k = Some (acc + Rsum (firstn (S k) l))%R.
Proof.
  induction l as [|x l IH]; intros acc k L; [simpl in L; lia|]. cbn [partial_sum_from]. destruct k as [|k].
  - cbn. f_equal. lra.
  - simpl in L. cbn [nth_error]. rewrite IH by lia. f_equal. cbn. lra.
Qed.

Lemma cdf_running (h : hist RA) nz k : k < hist_size h ->
  nth_error (hist_cdf h nz) k = Some (Rsum (firstn (S k) (hist_pdf h nz false))).
Proof.
  intros L. unfold hist_cdf, hist_size in * . rewrite <- (pdf_length h nz false) in L.
  destruct (hist_pdf h nz false) as [|x l]; [simpl in L; lia|]. cbn [partial_sum]. destruct k as [|k].
  - cbn. f_equal. lra.
  - simpl in L. cbn [nth_error]. rewrite partial_running by lia. reflexivity.
Qed.

Lemma masses_sum N W (xs : list R) (h : hist RA) (nz : bool) :
  update_all hist_update (hist_new N W true) xs = Ret h -> 1 <= length xs <= W ->
  Rsum (hist_pdf h true false) = 1%R /\
  nth_error (hist_cdf h true) (hist_size h - 1) = Some 1%R /\
  Rsum (map (fun p => (fst p * snd p)%R) (combine (hist_pdf h nz true) (map widthR (h_bins h)))) = 1%R.
Proof.
  intros E [L1 L2]. destruct (run_counts _ _ _ _ E) as [_ C]. destruct (C L2) as [C1 C2].
  assert (T : h_total h = counts_sum h) by congruence. assert (P : 1 <= h_total h) by (rewrite C2; exact L1).
  split; [now apply pdf_sum_RA|]. split; [|now apply density_sum_RA].
  apply cdf_last_RA; auto. rewrite T in P. unfold counts_sum in P. destruct (h_bins h); simpl in *; lia.
Qed.
