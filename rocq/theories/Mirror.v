(** Reflecting the data in doubles. *)

From Coq Require Import List Arith Bool Lia ZArith Reals Lra.
From Flocq Require Import Core.Core IEEE754.BinarySingleNaN.
From Verif Require Import Outcome Arith Mean Fame IBin Histogram P2 Spec FloatSpec FloatFacts FameSpec MirrorSpec P2Witness HistWitness.
Import ListNotations.
Local Open Scope R_scope.

Lemma nan_eq (x : double) : nan x = true -> x = B754_nan.
Proof. destruct x; simpl; auto; discriminate. Qed.

Lemma opposite_X (x y : double) : nan x = false -> nan y = false -> X y = - X x -> opposite x y.
Proof. intros Nx Ny E. right. apply X_eqb; auto; [now rewrite nan_opp|]. now rewrite X_opp. Qed.

Lemma opposite_inv (x y : double) : opposite x y ->
  (x = B754_nan /\ y = B754_nan) \/
  (exists s, x = B754_infinity s /\ y = B754_infinity (negb s)) \/
  (finite64 x = true /\ finite64 y = true /\ B2R y = - B2R x).
Proof.
  intros [[Nx Ny]|E]; [left; split; now apply nan_eq|].
  assert (Ny : nan y = false) by (destruct y; auto; discriminate).
  assert (Nx : nan x = false) by (destruct x; auto; destruct y as [|[]| |[]]; discriminate).
  right. apply X_eqb in E; auto; [|now rewrite nan_opp]. rewrite X_opp in E.
  destruct (finite64 x) eqn:Fx.
  - right. assert (Fy : finite64 y = true).
    { apply fin_X; auto. rewrite E, Rabs_Ropp. now apply fin_X. }
    rewrite !X_fin in E by auto. auto.
  - left. pose proof big_pos. destruct x as [?|s| |? ? ? ?]; try discriminate. exists s. split; auto.
    destruct y as [?|s'| |s' m e B]; try discriminate.
    + destruct s; simpl in E; lra.
    + destruct s, s'; simpl in *; auto; lra.
    + pose proof (B2R_lt_big (B754_finite s' m e B)) as L. change (X (B754_finite s' m e B)) with (B2R (B754_finite s' m e B)) in E.
      rewrite E in L. destruct s; simpl in L; rewrite ?Ropp_involutive, ?Rabs_Ropp in L; rewrite Rabs_pos_eq in L; lra.
Qed.

Lemma opposite_nan : opposite B754_nan B754_nan.
Proof. left. auto. Qed.

Lemma opposite_inf s : opposite (B754_infinity s) (B754_infinity (negb s)).
Proof. right. destruct s; reflexivity. Qed.

Lemma opposite_opp (x : double) : opposite x (Bopp x).
Proof.
  destruct (nan x) eqn:N; [left; rewrite nan_opp; auto|]. apply opposite_X; auto; [now rewrite nan_opp|apply X_opp].
Qed.

Lemma opposite_zero : opposite (Bz 0) (Bz 0).
Proof. right. reflexivity. Qed.

Lemma opposite_add x y a b : opposite x y -> opposite a b -> opposite (Badd x a) (Badd y b).
Proof.
  intros H K. apply opposite_inv in H as [[-> ->]|[[s [-> ->]]|(Fx & Fy & E)]];
    apply opposite_inv in K as [[-> ->]|[[s' [-> ->]]|(Fa & Fb & E')]].
  all: try (destruct x as [|[]| |[]]; try discriminate; destruct y as [|[]| |[]]; try discriminate; exact opposite_nan).
  all: try (destruct s, s'; exact opposite_nan || exact (opposite_inf true) || exact (opposite_inf false)).
  all: try (exact opposite_nan).
  all: try (destruct a; try discriminate; destruct b; try discriminate; exact opposite_nan || exact (opposite_inf s)).
  all: try (destruct x; try discriminate; destruct y; try discriminate; exact (opposite_inf s')).
  destruct (X_add x a Fx Fa) as [E1 N1], (X_add y b Fy Fb) as [E2 N2]. apply opposite_X; auto.
  rewrite E1, E2, <- R64_opp. f_equal. lra.
Qed.

Lemma sub_opp (x a : double) : Bsub x a = Badd x (Bopp a).
Proof. destruct x, a; reflexivity. Qed.

Lemma opposite_sub x y a b : opposite x y -> opposite a b -> opposite (Bsub x a) (Bsub y b).
Proof.
  intros H K. rewrite !sub_opp. apply opposite_add; auto.
  destruct K as [[Na Nb]|E]; [left; rewrite !nan_opp; auto|].
  destruct (opposite_inv a b (or_intror E)) as [[-> ->]|[[s [-> ->]]|(Fa & Fb & E')]].
  - exact opposite_nan.
  - exact (opposite_inf (negb s)).
  - apply opposite_X; rewrite ?nan_opp; auto using fin_nan. rewrite !X_opp, !X_fin by auto. lra.
Qed.

Lemma opposite_sub_add x y a : opposite x y -> opposite (Bsub x a) (Badd y a).
Proof.
  intros H. rewrite sub_opp. apply opposite_add; auto. rewrite <- (Bopp_involutive 53 1024 a) at 2. apply opposite_opp.
Qed.

Lemma opposite_add_sub x y a : opposite x y -> opposite (Badd x a) (Bsub y a).
Proof. intros H. rewrite sub_opp. apply opposite_add; auto using opposite_opp. Qed.

Lemma opposite_shape (x y : double) : opposite x y -> y = Bopp x \/ (exists s s', x = B754_zero s /\ y = B754_zero s').
Proof.
  intros H. apply opposite_inv in H as [[-> ->]|[[s [-> ->]]|(Fx & Fy & E)]]; auto.
  destruct (Req_dec (B2R x) 0) as [Z|Z].
  - right. rewrite Z, Ropp_0 in E.
    assert (Zero : forall z : double, finite64 z = true -> B2R z = 0 -> exists s, z = B754_zero s).
    { intros [s|s| |s m e B] F V; try discriminate; [eauto|]. exfalso. revert V. simpl.
      intros V. apply eq_0_F2R in V. destruct s; discriminate. }
    destruct (Zero x Fx Z) as [s ->], (Zero y Fy E) as [s' ->]. eauto.
  - left. apply B2R_inj; auto.
    + apply is_finite_strict_B2R. lra.
    + rewrite is_finite_strict_Bopp. now apply is_finite_strict_B2R.
    + now rewrite B2R_Bopp.
Qed.

Lemma opposite_abs (x y : double) : opposite x y -> Babs x = Babs y.
Proof.
  intros H. apply opposite_shape in H as [->|(s & s' & -> & ->)]; auto. destruct x; reflexivity.
Qed.

Lemma square_opp (x : double) : Bmul (Bopp x) (Bopp x) = Bmul x x.
Proof.
  destruct x as [s|s| |s m e B]; try (destruct s; reflexivity). reflexivity. apply B2SF_inj. unfold Bmul, Bopp, Bmult.
  rewrite !B2SF_SF2B. now destruct s.
Qed.

Lemma opposite_square (x y : double) : opposite x y -> Bmul x x = Bmul y y.
Proof.
  intros H. apply opposite_shape in H as [->|(s & s' & -> & ->)]; [now rewrite square_opp|]. destruct s, s'; reflexivity.
Qed.

Lemma opposite_ltb x y a b : opposite x y -> opposite a b -> Bltb b y = Bltb x a.
Proof.
  intros H K. apply opposite_inv in H as [[-> ->]|[[s [-> ->]]|(Fx & Fy & E)]];
    apply opposite_inv in K as [[-> ->]|[[s' [-> ->]]|(Fa & Fb & E')]].
  all: try (destruct s, s'; reflexivity).
  all: try (destruct s; reflexivity).
  all: try (destruct s'; reflexivity).
  all: try reflexivity.
  all: try (destruct a; try discriminate; destruct b; try discriminate; try destruct s; reflexivity).
  all: try (destruct x; try discriminate; destruct y; try discriminate; try destruct s'; reflexivity).
  rewrite !Bltb_correct by auto. rewrite E, E'.
  destruct (Rlt_bool_spec (- B2R a) (- B2R x)), (Rlt_bool_spec (B2R x) (B2R a)); auto; lra.
Qed.

Lemma opposite_div x y d : opposite x y -> opposite (Bquot x d) (Bquot y d).
Proof.
  intros H. pose proof (opposite_shape x y H) as [->|(s & s' & -> & ->)].
  - destruct (finite64 x && finite64 d) eqn:F.
    + apply andb_prop in F as [Fx Fd]. destruct (Req_dec (B2R d) 0) as [Z|Z].
      * destruct d as [sd|sd| |sd m e B]; try discriminate.
        { destruct x as [s|s| |s m e B]; try discriminate; [exact opposite_nan|].
          right. destruct s, sd; reflexivity. }
        exfalso. simpl in Z. apply eq_0_F2R in Z. destruct sd; discriminate.
      * destruct (X_div x d Fx Fd Z) as [E1 N1].
        assert (Fo : finite64 (Bopp x) = true) by (now rewrite <- Fx; apply is_finite_Bopp).
        destruct (X_div (Bopp x) d Fo Fd Z) as [E2 N2]. apply opposite_X; auto. rewrite E1, E2, <- R64_opp, B2R_Bopp.
        f_equal. unfold Rdiv. ring.
    + destruct x as [s|s| |s m e B], d as [t|t| |t m' e' B']; try discriminate; try exact opposite_nan;
        right; destruct s, t; reflexivity.
  - destruct d as [t|t| |t m e B]; try exact opposite_nan; right; destruct s, s', t; reflexivity.
Qed.

(** ** StreamingMean *)

Lemma same_length (xs ys : list double) : Forall2 opposite xs ys -> length xs = length ys.
Proof. induction 1; cbn; auto. Qed.

Definition mean_mirror (s t : mean B64) : Prop :=
  match mn_window s, mn_window t with
  | None, None => True
  | Some w, Some v => Forall2 opposite (w : list double) (v : list double)
  | _, _ => False
  end /\ mn_wsize s = mn_wsize t /\ mn_history s = mn_history t /\ opposite (mn_sum s : double) (mn_sum t : double).

Lemma mean_new_mirror W : mean_mirror (mean_new W) (mean_new W).
Proof. unfold mean_mirror, mean_new, new_window. destruct (Nat.ltb 0 W); cbn; repeat split; auto using opposite_zero. Qed.

Lemma mean_step_mirror (s t : mean B64) (x y : double) : mean_mirror s t -> opposite x y ->
  match mean_update s x, mean_update t y with
  | Ret s', Ret t' => mean_mirror s' t'
  | Throw e, Throw e' => e = e'
  | Undef u, Undef u' => u = u'
  | _, _ => False
  end.
Proof.
  destruct s as [w W n z], t as [v W' n' z']. unfold mean_mirror. cbn. intros (Hw & <- & <- & Hz) Hxy.
  unfold mean_update. cbn [mn_window mn_wsize mn_history mn_sum]. destruct w as [w|], v as [v|]; try contradiction.
  - replace (length v) with (length w) by exact (same_length _ _ Hw). destruct (Nat.ltb W (length w + 1)); cbn [bind].
    + inversion Hw as [|a b w' v' Hab Hr E1 E2]; cbn; auto. repeat split; auto.
      * apply Forall2_app; auto.
      * apply opposite_add; auto. now apply opposite_sub.
    + cbn. repeat split; auto; [apply Forall2_app; auto|now apply opposite_add].
  - cbn. repeat split; auto. now apply opposite_add.
Qed.

Lemma mean_evaluate_mirror (s t : mean B64) : mean_mirror s t -> opposite (mean_evaluate s) (mean_evaluate t).
Proof.
  destruct s as [w W n z], t as [v W' n' z']. unfold mean_mirror, mean_evaluate. cbn. intros (Hw & <- & <- & Hz).
  destruct (Nat.eqb n 0); [exact opposite_zero|]. destruct w as [w|], v as [v|]; try contradiction; cbn.
  - rewrite <- (same_length _ _ Hw). now apply opposite_div.
  - now apply opposite_div.
Qed.

Definition same_end {S T : Type} (R : S -> T -> Prop) (a : outcome S) (b : outcome T) : Prop :=
  match a, b with
  | Ret s, Ret t => R s t
  | Throw e, Throw e' => e = e'
  | Undef u, Undef u' => u = u'
  | _, _ => False
  end.

Lemma update_all_mirror {S : Type} (R : S -> S -> Prop) (upd : S -> double -> outcome S) :
  (forall s t x y, R s t -> opposite x y -> same_end R (upd s x) (upd t y)) ->
  forall xs ys, Forall2 opposite xs ys -> forall s t, R s t -> same_end R (update_all upd s xs) (update_all upd t ys).
Proof.
  intros Step xs ys F. induction F as [|x y xs ys H F IH]; intros s t K; [exact K|]. cbn.
  specialize (Step s t x y K H). unfold same_end in Step.
  destruct (upd s x), (upd t y); try contradiction; cbn; auto.
Qed.

Lemma same_end_ret {S T : Type} (R : S -> T -> Prop) a b s : same_end R a b -> a = Ret s -> exists t, b = Ret t /\ R s t.
Proof. intros H ->. destruct b as [t| |]; try contradiction. exists t. auto. Qed.

Lemma mean_reflection (W : nat) (xs ys : list double) (s : mean B64) : Forall2 opposite xs ys ->
  update_all mean_update (mean_new (A := B64) W) xs = Ret s ->
  exists t : mean B64, update_all mean_update (mean_new W) ys = Ret t /\
    opposite (mean_evaluate s) (mean_evaluate t).
Proof.
  intros F E. pose proof (update_all_mirror mean_mirror mean_update mean_step_mirror xs ys F _ _ (mean_new_mirror W)) as H.
  destruct (same_end_ret _ _ _ _ H E) as (t & K & Ht). clear H. rename Ht into H.
  exists t. split; [exact K|]. exact (mean_evaluate_mirror s t H).
Qed.

(** ** StreamingVariance: the two objects of squares are the same *)

Definition variance_mirror (s t : variance B64) : Prop :=
  mean_mirror (va_mean s) (va_mean t) /\ va_sq s = va_sq t.

Lemma variance_step_mirror (s t : variance B64) (x y : double) : variance_mirror s t -> opposite x y ->
  same_end variance_mirror (variance_update s x) (variance_update t y).
Proof.
  intros [Hm Hq] Hxy. unfold variance_update. pose proof (mean_step_mirror _ _ x y Hm Hxy) as H.
  destruct (mean_update (va_mean s) x) as [m| |], (mean_update (va_mean t) y) as [m'| |]; try contradiction; cbn; auto.
  rewrite Hq. cbn [mul B64]. rewrite <- (opposite_square x y Hxy).
  destruct (mean_update (va_sq t) (Bmul x x)); cbn; auto. split; auto.
Qed.

Lemma variance_reflection (W : nat) (xs ys : list double) (s : variance B64) : Forall2 opposite xs ys ->
  update_all variance_update (variance_new (A := B64) W) xs = Ret s ->
  exists t : variance B64, update_all variance_update (variance_new W) ys = Ret t /\
    variance_evaluate t = variance_evaluate s.
Proof.
  intros F E. assert (K0 : variance_mirror (variance_new W) (variance_new W)) by (split; [apply mean_new_mirror|reflexivity]).
  pose proof (update_all_mirror variance_mirror variance_update variance_step_mirror xs ys F _ _ K0) as H.
  destruct (same_end_ret _ _ _ _ H E) as (t & K & Ht). clear H. rename Ht into H.
  exists t. split; [exact K|]. destruct H as [Hm Hq]. unfold variance_evaluate. cbn [sub mul B64].
  rewrite Hq. f_equal. symmetry. now apply opposite_square, mean_evaluate_mirror.
Qed.

(** ** WindowedFAME and StreamingMAD: the steps are the same *)

Definition fame_mirror (s t : fame B64) : Prop :=
  opposite (f_median s : double) (f_median t : double) /\ f_step s = f_step t /\ f_epsilon s = f_epsilon t /\ f_history s = f_history t.

(** The median and the step after an update, in terms of those before it. *)
Definition moved (a s0 x : double) : double := if Bltb x a then Bsub a s0 else if Bltb a x then Badd a s0 else a.
Definition stepped (first : bool) (m1 s0 x e : double) : double :=
  Bmul (if negb first && Bltb (Babs (Bsub x m1)) s0 then Bquot s0 (Bz 2) else s0) (Badd (Bz 1) e).
Definition start_step (first : bool) (st x : double) : double :=
  if first then (if Bltb (Bquot (Babs x) (Bz 2)) st then st else Bquot (Babs x) (Bz 2)) else st.

Lemma fame_update_parts (m st e x : double) n :
  let first := Nat.eqb n 0 in
  let s0 := start_step first st x in
  let m1 := moved (if first then x else m) s0 x in
  fame_update (A := B64) (Fame (A := B64) m st e n) x = Fame (A := B64) m1 (stepped first m1 s0 x e) e (n + 1).
Proof. reflexivity. Qed.

Lemma moved_mirror a b s0 x y : opposite a b -> opposite x y -> opposite (moved a s0 x) (moved b s0 y).
Proof.
  intros Hab Hxy. unfold moved. rewrite (opposite_ltb x y a b Hxy Hab), (opposite_ltb a b x y Hab Hxy).
  destruct (Bltb x a) eqn:Lt, (Bltb a x) eqn:Gt; auto using opposite_sub_add, opposite_add_sub.
  exfalso. assert (Na : nan a = false) by (destruct a; auto; destruct x as [|[]| |[]]; discriminate).
  assert (Nx : nan x = false) by (destruct x; auto; destruct a as [|[]| |[]]; discriminate).
  apply X_ltb in Lt, Gt; auto. lra.
Qed.

Lemma fame_step_mirror (s t : fame B64) (x y : double) : fame_mirror s t -> opposite x y ->
  fame_mirror (fame_update s x) (fame_update t y).
Proof.
  destruct s as [m st e n], t as [m' st' e' n']. unfold fame_mirror. cbn [f_history f_median f_step f_epsilon].
  intros (Hm & <- & <- & <-) Hxy. rewrite !fame_update_parts. cbn [f_history f_median f_step f_epsilon].
  set (first := Nat.eqb n 0).
  assert (Es : start_step first st y = start_step first st x) by (unfold start_step; now rewrite (opposite_abs x y Hxy)).
  rewrite Es. set (s0 := start_step first st x).
  assert (H1 : opposite (moved (if first then x else m) s0 x) (moved (if first then y else m') s0 y)).
  { apply moved_mirror; auto. destruct first; auto. }
  split; [exact H1|]. split; auto. unfold stepped.
  rewrite (opposite_abs _ _ (opposite_sub _ _ _ _ Hxy H1)). reflexivity.
Qed.

Lemma fame_runs_mirror (xs ys : list double) : Forall2 opposite xs ys -> forall s t, fame_mirror s t ->
  fame_mirror (fame_run s xs) (fame_run t ys).
Proof.
  intros F. induction F as [|x y xs ys H F IH]; intros s t K; [exact K|]. cbn. apply IH. now apply fame_step_mirror.
Qed.

Lemma fame_reflection (step epsilon : double) (xs ys : list double) s : Forall2 opposite xs ys ->
  fame_new (A := B64) step epsilon = Ret s ->
  opposite (fame_evaluate (fame_run s xs)) (fame_evaluate (fame_run s ys)).
Proof.
  intros F E. assert (K : fame_mirror s s).
  { unfold fame_new in E. destruct (_ || _)%bool; [discriminate|]. injection E as <-. repeat split. exact opposite_zero. }
  exact (proj1 (fame_runs_mirror xs ys F s s K)).
Qed.

Definition mad_mirror (s t : mad B64) : Prop :=
  fame_mirror (a_score s) (a_score t) /\ a_error s = a_error t.

Lemma mad_reflection (xs ys : list double) s : Forall2 opposite xs ys -> mad_new (A := B64) = Ret s ->
  mad_evaluate (mad_run s ys) = mad_evaluate (mad_run s xs).
Proof.
  intros F E. assert (K : mad_mirror s s).
  { unfold mad_new, fame_new in E. destruct (_ || _)%bool; [discriminate|]. injection E as <-. repeat split. exact opposite_zero. }
  clear E. assert (H : mad_mirror (mad_run s xs) (mad_run s ys)); [|unfold mad_evaluate; now rewrite (proj2 H)].
  revert K. generalize s at 1 3 as a. generalize s as b. induction F as [|x y xs ys H F IH]; intros b a K; [exact K|]. cbn.
  apply IH. destruct K as [K1 K2]. unfold mad_update. pose proof (fame_step_mirror _ _ x y K1 H) as K3.
  split; [exact K3|]. cbn [a_error]. rewrite K2. f_equal. cbn [fabs sub B64].
  apply opposite_abs, opposite_sub; auto. apply K3.
Qed.

(** ** StreamingP2Quantile and StreamingHistogram are not symmetric *)

Lemma p2_not_mirrored : exists (s t s' t' : p2 B64) (a b : double),
  p2_stream (lit 1 2) [1; 2; 4; 8; 16; 32; 64]%Z = Ret s /\ p2_evaluate s = Ret (s', a) /\
  p2_stream (lit 1 2) (map Z.opp [1; 2; 4; 8; 16; 32; 64]%Z) = Ret t /\ p2_evaluate t = Ret (t', b) /\
  Beqb a (Bz 4) = true /\ Bltb b (Bz (-9)) = true.
Proof.
  assert (H : ok (p2_stream (lit 1 2) [1; 2; 4; 8; 16; 32; 64]%Z) (fun s => ok (p2_evaluate s) (fun '(_, a) => Beqb a (Bz 4))) &&
              ok (p2_stream (lit 1 2) (map Z.opp [1; 2; 4; 8; 16; 32; 64]%Z))
                (fun s => ok (p2_evaluate s) (fun '(_, b) => Bltb b (Bz (-9)))) = true) by (vm_compute; reflexivity).
  apply andb_prop in H as [H1 H2]. apply ok_true in H1 as (s & E1 & H1). apply ok_true in H2 as (t & E2 & H2).
  apply ok_true in H1 as ([s' a] & F1 & H1). apply ok_true in H2 as ([t' b] & F2 & H2).
  exists s, t, s', t', a, b. split; [exact E1|]. split; [exact F1|]. split; [exact E2|]. split; [exact F2|]. split; [exact H1|exact H2].
Qed.

Lemma hist_not_mirrored : exists (h g : hist B64) (b1 b2 c1 c2 : bin B64),
  hist_stream 2%nat 3%nat [0; 1; 2]%Z = Ret h /\ hist_stream 2%nat 3%nat [0; -1; -2]%Z = Ret g /\
  h_bins h = [b1; b2] /\ h_bins g = [c1; c2] /\
  b_count b1 = 2%nat /\ b_count b2 = 1%nat /\ b_count c1 = 2%nat /\ b_count c2 = 1%nat.
Proof.
  assert (H : ok (hist_stream 2%nat 3%nat [0; 1; 2]%Z) (fun h => match h_bins h with [b1; b2] => Nat.eqb (b_count b1) 2%nat && Nat.eqb (b_count b2) 1%nat | _ => false end) &&
              ok (hist_stream 2%nat 3%nat [0; -1; -2]%Z) (fun h => match h_bins h with [b1; b2] => Nat.eqb (b_count b1) 2%nat && Nat.eqb (b_count b2) 1%nat | _ => false end)
              = true) by (vm_compute; reflexivity).
  apply andb_prop in H as [H1 H2]. apply ok_true in H1 as (h & E1 & H1). apply ok_true in H2 as (g & E2 & H2).
  destruct (h_bins h) as [|b1 [|b2 [|]]] eqn:Eh; try discriminate H1.
  destruct (h_bins g) as [|c1 [|c2 [|]]] eqn:Eg; try discriminate H2.
  apply andb_prop in H1 as [A1 A2]. apply andb_prop in H2 as [A3 A4]. apply Nat.eqb_eq in A1, A2, A3, A4.
  exists h, g, b1, b2, c1, c2. repeat split; auto.
Qed.
