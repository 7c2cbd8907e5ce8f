(** P2 quantile estimation in binary64: order of the heights, bracketing. *)

From Coq Require Import List Reals ZArith Lra Lia Bool Arith Sorting.Sorted Sorting.Permutation.
From Flocq Require Import Core.Core IEEE754.BinarySingleNaN.
From Flocq Require Plus_error.
From Verif Require Import Outcome Arith P2 P2Spec Spec FloatSpec ListFacts FloatFacts UtilsFacts MeanFacts FameFacts P2Facts.
Import ListNotations.
Open Scope R_scope.

(** ** Signs *)
Lemma pos_B64 (x : double) : Bleb (Bz 1) x = true -> Bltb (Bz 0) x = true.
Proof.
  intros H. destruct (Bz_exact 1) as [E1 F1]; [lia|]. destruct (Bz_exact 0) as [E0 F0]; [lia|].
  destruct (nan x) eqn:N; [rewrite nan_leb_r in H by auto; discriminate|].
  apply X_leb in H; auto using fin_nan. apply X_ltb; auto using fin_nan.
  rewrite (X_fin _ F1), E1 in H. rewrite (X_fin _ F0), E0. lra.
Qed.

Lemma neg_B64 (x : double) : Bleb x (Bz (-1)) = true -> Bltb (Bz 0) x = false /\ Bltb x (Bz 0) = true.
Proof.
  intros H. destruct (Bz_exact (-1)) as [E1 F1]; [lia|]. destruct (Bz_exact 0) as [E0 F0]; [lia|].
  destruct (nan x) eqn:N; [rewrite nan_leb_l in H by auto; discriminate|].
  apply X_leb in H; auto using fin_nan. rewrite (X_fin _ F1), E1 in H.
  split; [apply X_ltb_false|apply X_ltb]; auto using fin_nan; rewrite (X_fin _ F0), E0; lra.
Qed.

Lemma pos_RA (x : R) : Rleb 1 x = true -> Rltb 0 x = true.
Proof. rewrite Rleb_true, Rltb_true. lra. Qed.

Lemma neg_RA (x : R) : Rleb x (-1) = true -> Rltb 0 x = false /\ Rltb x 0 = true.
Proof. rewrite Rleb_true, Rltb_true, Rltb_false. lra. Qed.

(** ** Linear interpolation stays between its end points *)
Lemma half_diff (a b : R) : generic_format radix2 fexp64 a -> generic_format radix2 fexp64 b -> a <= b ->
  rnd (rnd (b - a) / 2) <= b - a.
Proof.
  intros Fa Fb H. destruct (Req_dec (b - a) 0) as [E|E].
  { rewrite E. rewrite rnd_0. unfold Rdiv. rewrite Rmult_0_l, rnd_0. lra. }
  set (D := b - a) in * . assert (HD : 0 < D) by (unfold D in *; lra).
  set (dn := round radix2 fexp64 Zfloor D).
  assert (Fdn : generic_format radix2 fexp64 dn) by (apply generic_format_round; typeclasses eauto).
  assert (Hdn : dn <= D) by (apply (round_DN_pt radix2 fexp64 D)).
  assert (dn0 : 0 < dn).
  { assert (dn <> 0).
    { unfold dn, D, Rminus. apply Plus_error.round_plus_neq_0; auto using generic_format_opp; try typeclasses eauto. }
    assert (0 <= dn) by (apply round_ge_generic; [typeclasses eauto..|apply generic_format_0|lra]). lra. }
  assert (Hup : rnd D <= 2 * dn).
  { destruct (generic_format_EM radix2 fexp64 D) as [FD|FD].
    - rewrite rnd_fix by auto. unfold dn. rewrite round_generic; auto; [lra|typeclasses eauto].
    - apply Rle_trans with (round radix2 fexp64 Zceil D).
      + unfold rnd. apply round_le_generic; [typeclasses eauto..| |].
        * apply generic_format_round; typeclasses eauto.
        * apply (round_UP_pt radix2 fexp64 D).
      + rewrite round_UP_DN_ulp by auto. fold dn.
        rewrite <- (ulp_DN radix2 fexp64 D) by (fold dn; lra). fold dn.
        pose proof (ulp_le_id radix2 fexp64 dn dn0 Fdn). lra. }
  apply Rle_trans with dn; auto. rewrite <- (rnd_fix dn Fdn). apply rnd_le. lra.
Qed.

Lemma format_X (x : double) : generic_format radix2 fexp64 (B2R x).
Proof. apply B2R_format. Qed.

Definition spread_ok (a b : R) : Prop := rnd (b - a) < big.

Lemma lin_up (a b : double) (g : Z) : finite64 a = true -> finite64 b = true -> B2R a <= B2R b ->
  spread_ok (B2R a) (B2R b) -> (2 <= g <= 2 ^ 31)%Z ->
  let v := Badd a (Bquot (Bmul (Bz 1) (Bsub b a)) (Bz g)) in
  finite64 v = true /\ B2R a <= B2R v <= B2R b.
Proof.
  intros Fa Fb H Hs Hg. unfold spread_ok in Hs. cbv zeta.
  destruct (Bz_exact 1) as [E1 F1]; [lia|]. destruct (Bz_exact g) as [Eg Fg]; [lia|].
  assert (HG : 2 <= IZR g) by (apply IZR_le; lia).
  destruct (X_sub b a Fb Fa) as [XS NS].
  assert (D0 : 0 <= rnd (B2R b - B2R a)) by (rewrite <- rnd_0; apply rnd_le; lra).
  assert (XS' : X (Bsub b a) = rnd (B2R b - B2R a)).
  { rewrite XS. unfold R64. apply sat_in. rewrite Rabs_pos_eq; auto. }
  assert (FS : finite64 (Bsub b a) = true) by (apply fin_X; auto; rewrite XS', Rabs_pos_eq; auto).
  rewrite (X_fin _ FS) in XS'.
  destruct (X_mul (Bz 1) (Bsub b a) F1 FS) as [XM NM]. rewrite E1, Rmult_1_l, R64_B2R in XM.
  assert (FM : finite64 (Bmul (Bz 1) (Bsub b a)) = true) by (apply fin_X; auto; rewrite XM; apply B2R_lt_big).
  rewrite (X_fin _ FM), XS' in XM.
  destruct (X_div _ (Bz g) FM Fg) as [XD ND]; [rewrite Eg; lra|]. rewrite Eg, XM in XD.
  set (dl := rnd (B2R b - B2R a)) in * .
  assert (HD : 0 <= rnd (dl / IZR g) <= B2R b - B2R a).
  { split.
    - rewrite <- rnd_0. apply rnd_le. apply Rmult_le_pos; auto. left. apply Rinv_0_lt_compat. lra.
    - eapply Rle_trans; [|apply half_diff; auto using B2R_format]. fold dl. apply rnd_le.
      apply Rmult_le_compat_l; auto. apply Rinv_le; lra. }
  assert (HB : rnd (dl / IZR g) < big).
  { apply Rle_lt_trans with dl; auto. unfold dl at 2. rewrite <- (rnd_fix (rnd (B2R b - B2R a))).
    - apply rnd_le. fold dl. apply Rle_trans with (dl * / 1); [|lra]. apply Rmult_le_compat_l; auto.
      apply Rinv_le; lra.
    - apply generic_format_round; typeclasses eauto. }
  assert (XD' : X (Bquot (Bmul (Bz 1) (Bsub b a)) (Bz g)) = rnd (dl / IZR g)).
  { rewrite XD. unfold R64. apply sat_in. rewrite Rabs_pos_eq; lra. }
  assert (FD : finite64 (Bquot (Bmul (Bz 1) (Bsub b a)) (Bz g)) = true).
  { apply fin_X; auto. rewrite XD', Rabs_pos_eq; lra. }
  rewrite (X_fin _ FD) in XD'.
  destruct (X_add a _ Fa FD) as [XA NA]. rewrite XD' in XA.
  assert (HA : B2R a <= X (Badd a (Bquot (Bmul (Bz 1) (Bsub b a)) (Bz g))) <= B2R b).
  { rewrite XA. split; [rewrite <- (R64_B2R a) at 1|rewrite <- (R64_B2R b)]; apply R64_le; lra. }
  assert (FA : finite64 (Badd a (Bquot (Bmul (Bz 1) (Bsub b a)) (Bz g))) = true).
  { apply fin_X; auto. pose proof (B2R_lt_big a). pose proof (B2R_lt_big b).
    apply Rabs_lt_inv in H0, H1. apply Rabs_lt. lra. }
  split; auto. rewrite <- (X_fin _ FA). auto.
Qed.

Lemma lin_down (a b : double) (g : Z) : finite64 a = true -> finite64 b = true -> B2R b <= B2R a ->
  spread_ok (B2R b) (B2R a) -> (2 <= g <= 2 ^ 31)%Z ->
  let v := Badd a (Bquot (Bmul (Bz (-1)) (Bsub b a)) (Bz (- g))) in
  finite64 v = true /\ B2R b <= B2R v <= B2R a.
Proof.
  intros Fa Fb H Hs Hg. unfold spread_ok in Hs. cbv zeta.
  destruct (Bz_exact (-1)) as [E1 F1]; [lia|]. destruct (Bz_exact (- g)) as [Eg Fg]; [lia|].
  rewrite opp_IZR in Eg.
  assert (HG : 2 <= IZR g) by (apply IZR_le; lia).
  destruct (X_sub b a Fb Fa) as [XS NS].
  set (dl := rnd (B2R a - B2R b)) in * .
  assert (D0 : 0 <= dl) by (unfold dl; rewrite <- rnd_0; apply rnd_le; lra).
  assert (XS' : X (Bsub b a) = - dl).
  { rewrite XS. unfold R64. replace (B2R b - B2R a) with (- (B2R a - B2R b)) by ring.
    rewrite rnd_opp. fold dl. apply sat_in. rewrite Rabs_Ropp, Rabs_pos_eq; auto. }
  assert (FS : finite64 (Bsub b a) = true) by (apply fin_X; auto; rewrite XS', Rabs_Ropp, Rabs_pos_eq; auto).
  rewrite (X_fin _ FS) in XS'.
  destruct (X_mul (Bz (-1)) (Bsub b a) F1 FS) as [XM NM].
  replace (B2R (Bz (-1)) * B2R (Bsub b a)) with (- B2R (Bsub b a)) in XM by (rewrite E1; ring).
  rewrite R64_opp, R64_B2R, XS', Ropp_involutive in XM.
  assert (FM : finite64 (Bmul (Bz (-1)) (Bsub b a)) = true) by (apply fin_X; auto; rewrite XM, Rabs_pos_eq; auto).
  rewrite (X_fin _ FM) in XM.
  destruct (X_div _ (Bz (- g)) FM Fg) as [XD ND]; [rewrite Eg; lra|]. rewrite Eg, XM in XD.
  replace (dl / - IZR g) with (- (dl / IZR g)) in XD by (field; lra).
  assert (HD : 0 <= rnd (dl / IZR g) <= B2R a - B2R b).
  { split.
    - rewrite <- rnd_0. apply rnd_le. apply Rmult_le_pos; auto. left. apply Rinv_0_lt_compat. lra.
    - eapply Rle_trans; [|apply half_diff; auto using B2R_format]. fold dl. apply rnd_le.
      apply Rmult_le_compat_l; auto. apply Rinv_le; lra. }
  assert (HB : rnd (dl / IZR g) < big).
  { apply Rle_lt_trans with dl; auto. unfold dl at 2. rewrite <- (rnd_fix (rnd (B2R a - B2R b))).
    - apply rnd_le. fold dl. apply Rle_trans with (dl * / 1); [|lra]. apply Rmult_le_compat_l; auto.
      apply Rinv_le; lra.
    - apply generic_format_round; typeclasses eauto. }
  assert (XD' : X (Bquot (Bmul (Bz (-1)) (Bsub b a)) (Bz (- g))) = - rnd (dl / IZR g)).
  { rewrite XD, R64_opp. f_equal. unfold R64. apply sat_in. rewrite Rabs_pos_eq; lra. }
  assert (FD : finite64 (Bquot (Bmul (Bz (-1)) (Bsub b a)) (Bz (- g))) = true).
  { apply fin_X; auto. rewrite XD', Rabs_Ropp, Rabs_pos_eq; lra. }
  rewrite (X_fin _ FD) in XD'.
  destruct (X_add a _ Fa FD) as [XA NA]. rewrite XD' in XA.
  assert (HA : B2R b <= X (Badd a (Bquot (Bmul (Bz (-1)) (Bsub b a)) (Bz (- g)))) <= B2R a).
  { rewrite XA. split; [rewrite <- (R64_B2R b) at 1|rewrite <- (R64_B2R a) at 2]; apply R64_le; lra. }
  assert (FA : finite64 (Badd a (Bquot (Bmul (Bz (-1)) (Bsub b a)) (Bz (- g)))) = true).
  { apply fin_X; auto. pose proof (B2R_lt_big a). pose proof (B2R_lt_big b).
    apply Rabs_lt_inv in H0, H1. apply Rabs_lt. lra. }
  split; auto. rewrite <- (X_fin _ FA). auto.
Qed.

Lemma spread_sub (a b c d : R) : a <= c -> d <= b -> spread_ok a b -> spread_ok c d.
Proof. unfold spread_ok. intros H1 H2 H. eapply Rle_lt_trans; [|exact H]. apply rnd_le. lra. Qed.

Lemma core_between (des hm hi hp : double) (nm ni np : Z) :
  finite64 hm = true -> finite64 hi = true -> finite64 hp = true ->
  B2R hm <= B2R hi <= B2R hp -> spread_ok (B2R hm) (B2R hp) ->
  (0 <= nm)%Z -> (nm < ni < np)%Z -> (np <= int_max)%Z ->
  let v := fst (core (A := B64) des hm hi hp nm ni np) in
  finite64 v = true /\ B2R hm <= B2R v <= B2R hp.
Proof.
  intros Fm Fi Fp H Hs H0 H1 H2. cbv zeta. unfold core.
  destruct (dir_cases (A := B64) des nm ni np) as [->|[[-> Hg]|[-> Hg]]]; simpl fst; auto.
  - unfold mv. destruct (_ && _)%bool eqn:E.
    + apply andb_true_iff in E as [E1 E2].
      set (q := par hm hi hp nm ni np 1) in * . clearbody q. change (num B64) with double in q.
      cbn [ltb B64] in E1, E2.
      assert (N : nan q = false) by (destruct (nan q) eqn:N; auto; rewrite nan_ltb_r in E1; auto; discriminate).
      apply X_ltb in E1; auto using fin_nan. apply X_ltb in E2; auto using fin_nan.
      rewrite (X_fin _ Fm) in E1. rewrite (X_fin _ Fp) in E2.
      assert (Fq : finite64 q = true).
      { apply fin_X; auto. pose proof (B2R_lt_big hm). pose proof (B2R_lt_big hp).
        apply Rabs_lt_inv in H3, H4. apply Rabs_lt. lra. }
      rewrite (X_fin _ Fq) in E1, E2. split; auto. lra.
    + unfold lin. simpl Z.eqb. cbv iota. cbn [add mul sub div of_Z B64].
      destruct (lin_up hi hp (np - ni) Fi Fp) as [Fv Hv]; try lra.
      * eapply spread_sub; [| |exact Hs]; lra.
      * unfold int_max in * . lia.
      * split; [exact Fv|]. lra.
  - unfold mv. destruct (_ && _)%bool eqn:E.
    + apply andb_true_iff in E as [E1 E2].
      set (q := par hm hi hp nm ni np (-1)) in * . clearbody q. change (num B64) with double in q.
      cbn [ltb B64] in E1, E2.
      assert (N : nan q = false) by (destruct (nan q) eqn:N; auto; rewrite nan_ltb_r in E1; auto; discriminate).
      apply X_ltb in E1; auto using fin_nan. apply X_ltb in E2; auto using fin_nan.
      rewrite (X_fin _ Fm) in E1. rewrite (X_fin _ Fp) in E2.
      assert (Fq : finite64 q = true).
      { apply fin_X; auto. pose proof (B2R_lt_big hm). pose proof (B2R_lt_big hp).
        apply Rabs_lt_inv in H3, H4. apply Rabs_lt. lra. }
      rewrite (X_fin _ Fq) in E1, E2. split; auto. lra.
    + unfold lin. simpl Z.eqb. cbv iota. cbn [add mul sub div of_Z B64].
      destruct (lin_down hi hm (ni - nm) Fi Fm) as [Fv Hv]; try lra.
      * eapply spread_sub; [| |exact Hs]; lra.
      * unfold int_max in * . lia.
      * replace (- (ni - nm))%Z with (nm - ni)%Z in Fv, Hv by ring. split; [exact Fv|]. lra.
Qed.

(** ** The heights of the markers *)
Definition fins (h : list double) : Prop := Forall (fun x => finite64 x = true) h.

Definition chain (h0 h1 h2 h3 h4 : double) : Prop :=
  fins [h0; h1; h2; h3; h4] /\
  B2R h0 <= B2R h1 <= B2R h2 /\ B2R h2 <= B2R h3 <= B2R h4 /\ spread_ok (B2R h0) (B2R h4).

Ltac unchain H :=
  let F0 := fresh "F0" in let F1 := fresh "F1" in let F2 := fresh "F2" in
  let F3 := fresh "F3" in let F4 := fresh "F4" in
  let FF := fresh "FF" in
  destruct H as (FF & ?C1 & ?C2 & ?C3);
  inversion_clear FF as [|? ? F0 FF1]; inversion_clear FF1 as [|? ? F1 FF2];
  inversion_clear FF2 as [|? ? F2 FF3]; inversion_clear FF3 as [|? ? F3 FF4];
  inversion_clear FF4 as [|? ? F4 _].

Lemma chain_core (des : double) h0 h1 h2 h3 h4 nm ni np :
  (nm < ni < np)%Z -> (np <= int_max)%Z -> (0 <= nm)%Z -> chain h0 h1 h2 h3 h4 ->
  chain h0 (fst (core (A := B64) des h0 h1 h2 nm ni np)) h2 h3 h4 /\
  chain h0 h1 (fst (core (A := B64) des h1 h2 h3 nm ni np)) h3 h4 /\
  chain h0 h1 h2 (fst (core (A := B64) des h2 h3 h4 nm ni np)) h4.
Proof.
  intros H1 H2 H3 C. unchain C.
  destruct (core_between des h0 h1 h2 nm ni np) as [Fa Ha]; auto; [eapply spread_sub; [| |exact C3]; lra|].
  destruct (core_between des h1 h2 h3 nm ni np) as [Fb Hb]; auto; [lra|eapply spread_sub; [| |exact C3]; lra|].
  destruct (core_between des h2 h3 h4 nm ni np) as [Fc Hc]; auto; [eapply spread_sub; [| |exact C3]; lra|].
  unfold chain. cbn [num B64] in * .
  repeat split; auto; try (repeat constructor; assumption); try lra.
Qed.

Lemma fk_B64 h0 h1 h2 h3 h4 (x : double) : chain h0 h1 h2 h3 h4 -> finite64 x = true ->
  exists a b k, fk (A := B64) h0 h1 h2 h3 h4 x = (a, b, k) /\
    (a = x /\ B2R x < B2R h0 \/ a = h0 /\ B2R h0 <= B2R x) /\
    (b = x /\ B2R h4 <= B2R x \/ b = h4 /\ B2R x <= B2R h4).
Proof.
  intros C Fx. unchain C. unfold fk. cbn [ltb B64].
  assert (T : forall h : double, finite64 h = true -> (Bltb x h = true /\ B2R x < B2R h) \/ (Bltb x h = false /\ B2R h <= B2R x)).
  { intros h Fh. destruct (Bltb x h) eqn:E; [left|right]; split; auto;
      [apply X_ltb in E|apply X_ltb_false in E]; auto using fin_nan; rewrite !X_fin in E by auto; lra. }
  destruct (T h0 F0) as [[-> G0]|[-> G0]]; [eexists _, _, _; split; [reflexivity|]; split; [left|right]; split; auto; lra|].
  destruct (T h1 F1) as [[-> G1]|[-> G1]]; [eexists _, _, _; split; [reflexivity|]; split; [right|right]; split; auto; lra|].
  destruct (T h2 F2) as [[-> G2]|[-> G2]]; [eexists _, _, _; split; [reflexivity|]; split; [right|right]; split; auto; lra|].
  destruct (T h3 F3) as [[-> G3]|[-> G3]]; [eexists _, _, _; split; [reflexivity|]; split; [right|right]; split; auto; lra|].
  destruct (T h4 F4) as [[-> G4]|[-> G4]]; [eexists _, _, _; split; [reflexivity|]; split; [right|right]; split; auto; lra|].
  eexists _, _, _; split; [reflexivity|]; split; [right|left]; split; auto; lra.
Qed.

(** ** Sorting *)
Lemma asc_insert (x : double) l : nan x = false -> Forall (fun y => nan y = false) l -> ascending l ->
  ascending (sort_insert (A := B64) x l).
Proof.
  intros Nx. induction l as [|y l IH]; intros Nl Al; simpl.
  - repeat constructor.
  - inversion_clear Nl as [|? ? Ny Nl']. inversion_clear Al as [|? ? Al' Hy].
    destruct (Bltb x y) eqn:E.
    + apply X_ltb in E; auto. constructor; [constructor; auto|].
      assert (Lxy : Bleb x y = true) by (apply X_leb; auto; lra).
      constructor; auto. rewrite Forall_forall in Hy, Nl' |- * . intros z Hz.
      specialize (Hy z Hz). specialize (Nl' z Hz). apply X_leb in Hy; auto. apply X_leb; auto. lra.
    + apply X_ltb_false in E; auto. constructor; [apply IH; auto|].
      rewrite Forall_forall in Hy, Nl' |- * . intros z Hz.
      apply (Permutation_in _ (sort_insert_perm (A := B64) x l)) in Hz. destruct Hz as [<-|Hz]; auto.
      apply X_leb; auto.
Qed.

Lemma asc_sort (l : list double) : Forall (fun y => nan y = false) l -> ascending (sort_list (A := B64) l).
Proof.
  intros N. unfold sort_list.
  enough (G : forall acc : list double, Forall (fun y => nan y = false) acc -> ascending acc ->
    ascending (fold_left (fun acc x => sort_insert (A := B64) x acc) l acc)) by (apply G; constructor).
  induction N as [|x l Nx N IH]; intros acc Na Aa; simpl; auto. apply IH.
  - rewrite Forall_forall in Na |- * . intros z Hz.
    apply (Permutation_in _ (sort_insert_perm (A := B64) x acc)) in Hz. destruct Hz as [<-|Hz]; auto.
  - apply asc_insert; auto.
Qed.

Lemma sort_insert_last (x : double) l : Forall (fun y => Bltb x y = false) l ->
  sort_insert (A := B64) x l = l ++ [x].
Proof.
  induction 1 as [|y l H _ IH]; simpl; auto. cbn [ltb B64]. change (num B64) with double.
  unfold double in * . rewrite H. f_equal. exact IH.
Qed.

Lemma sort_sorted (l : list double) : Forall (fun y => nan y = false) l -> ascending l ->
  sort_list (A := B64) l = l.
Proof.
  intros N As. unfold sort_list.
  enough (G : forall acc, Forall (fun y => nan y = false) (acc ++ l) -> ascending (acc ++ l) ->
    fold_left (fun acc x => sort_insert (A := B64) x acc) l acc = acc ++ l) by (apply (G []); auto).
  clear. induction l as [|x l IH]; intros acc N As; simpl; [now rewrite app_nil_r|].
  assert (F : Forall (fun y => Bltb x y = false) acc).
  { rewrite Forall_forall. intros y Hy. rewrite Forall_forall in N.
    assert (Ny : nan y = false) by (apply N, in_or_app; auto).
    assert (Nx : nan x = false) by (apply N, in_or_app; right; left; auto).
    apply X_ltb_false; auto. apply X_leb; auto. clear N IH.
    induction acc as [|z acc IHa]; [inversion Hy|]. simpl in As. inversion_clear As as [|? ? As' Hz].
    destruct Hy as [->|Hy]; auto. rewrite Forall_forall in Hz. apply Hz, in_or_app. right. left. auto. }
  replace (sort_insert (A := B64) x acc) with (acc ++ [x]) by (symmetry; apply sort_insert_last; auto).
  rewrite IH; rewrite <- app_assoc; auto.
Qed.

Lemma fins_nan l : fins l -> Forall (fun y => nan y = false) l.
Proof. apply Forall_impl. auto using fin_nan. Qed.

Lemma not_nan_B64 (l : list double) : forallb (not_nan (A := B64)) l = true <-> Forall (fun y => nan y = false) l.
Proof.
  rewrite forallb_forall, Forall_forall.
  assert (K : forall x : double, not_nan (A := B64) x = true <-> nan x = false).
  { intros x. unfold not_nan. cbn. destruct (nan x) eqn:N.
    - rewrite nan_eqb_l by auto. split; discriminate.
    - split; auto. intros _. apply X_eqb; auto. }
  split; intros H x Hx; apply K; auto.
Qed.

Lemma asc_chain h0 h1 h2 h3 h4 : fins [h0; h1; h2; h3; h4] -> ascending [h0; h1; h2; h3; h4] ->
  spread_ok (B2R h0) (B2R h4) -> chain h0 h1 h2 h3 h4.
Proof.
  intros F As Hs.
  assert (K : forall a b, In a [h0; h1; h2; h3; h4] -> In b [h0; h1; h2; h3; h4] -> Bleb a b = true -> B2R a <= B2R b).
  { intros a b Ia Ib L. unfold fins in F. rewrite Forall_forall in F. pose proof (F a Ia). pose proof (F b Ib).
    apply X_leb in L; auto using fin_nan. rewrite !X_fin in L by auto. auto. }
  repeat match goal with H : ascending (_ :: _) |- _ => inversion_clear H
                       | H : StronglySorted _ (_ :: _) |- _ => inversion_clear H end.
  repeat match goal with H : Forall _ (_ :: _) |- _ => first [constr_eq H F; fail 1 | inversion H; clear H; subst] end.
  repeat split; auto; apply K; simpl; auto 10.
Qed.

(** All observations pairwise close enough for their difference to be finite. *)
Definition spread_list (xs : list double) : Prop := forall x y, In x xs -> In y xs -> spread_ok (B2R x) (B2R y).

Definition extremes (xs : list double) (a b : double) : Prop :=
  In a xs /\ In b xs /\ forall x, In x xs -> B2R a <= B2R x <= B2R b.

Lemma run_bracket (s0 : p2 B64) h n0 n1 n2 n3 n4 (xs : list double) :
  shape s0 h (n0, n1, n2, n3, n4) -> p_history s0 = 0%nat -> (5 <= length xs)%nat ->
  (n4 + (Z.of_nat (length xs) - 5) <= int_max)%Z ->
  fins xs -> spread_list xs ->
  exists s h0 h1 h2 h3 h4 m1 m2 m3, update_all p2_update s0 xs = Ret s /\
    shape s (h0, h1, h2, h3, h4) (n0, m1, m2, m3, n4 + (Z.of_nat (length xs) - 5))%Z /\
    chain h0 h1 h2 h3 h4 /\ extremes xs h0 h4 /\
    p_history s = length xs /\ p_quantile s = p_quantile s0.
Proof.
  intros Sh H0 HL. destruct (split5 xs HL) as [Ex L5]. set (ys := skipn 5 xs) in * .
  set (f := firstn 5 xs) in * . clearbody ys f. subst xs.
  induction ys as [|y ys IH] using rev_ind; intros HM HF HS.
  - rewrite app_nil_r in * . rewrite run_five; auto.
    2: { destruct h as [[[[? ?] ?] ?] ?]. cbn in Sh. destruct Sh as (-> & _). reflexivity. }
    rewrite (proj2 (not_nan_B64 f) (fins_nan _ HF)).
    destruct (list5 (sort_list (A := B64) f)) as (a & b & c & d & e & E); [rewrite sort_list_length; auto|].
    pose proof (asc_sort f (fins_nan _ HF)) as As. pose proof (sort_list_In (A := B64) f) as HI.
    rewrite E in As, HI.
    assert (Fs : fins [a; b; c; d; e]).
    { apply Forall_forall. intros x Hx. apply HI in Hx. unfold fins in HF. rewrite Forall_forall in HF. auto. }
    assert (Ch : chain a b c d e).
    { apply asc_chain; auto. apply HS; apply HI; simpl; auto 10. }
    eexists _, a, b, c, d, e, n1, n2, n3. split; [reflexivity|].
    replace (n4 + (Z.of_nat (length f) - 5))%Z with n4 by lia.
    split; [|split; [exact Ch|split; [|split; [cbn; lia|reflexivity]]]].
    + destruct h as [[[[? ?] ?] ?] ?]. cbn in Sh |- * . rewrite E. intuition auto.
    + repeat split; try (apply HI; simpl; auto 10); apply HI in H; unchain Ch;
        repeat (destruct H as [<-|H]; [lra|]); destruct H.
  - rewrite app_assoc in HM, HF, HS |- * . rewrite app_length in HM, HL |- * . simpl (length [y]) in * .
    assert (HL' : (5 <= length (f ++ ys))%nat) by (rewrite app_length; lia).
    apply Forall_app in HF as [HF Fy]. inversion_clear Fy as [|? ? Fy' _].
    assert (HS' : spread_list (f ++ ys)) by (intros a b Ha Hb; apply HS; apply in_or_app; auto).
    destruct (IH HL') as (s & h0 & h1 & h2 & h3 & h4 & m1 & m2 & m3 & E & Shs & Ch & (I0 & I4 & Ext) & Hh & Hq);
      [lia|auto|auto|].
    destruct (fk_B64 _ _ _ _ _ y Ch Fy') as (a & b & k & Efk & Ha & Hb).
    assert (Ia : In a ((f ++ ys) ++ [y])) by (apply in_or_app; destruct Ha as [[-> _]|[-> _]]; [right; left|left]; auto).
    assert (Ib : In b ((f ++ ys) ++ [y])) by (apply in_or_app; destruct Hb as [[-> _]|[-> _]]; [right; left|left]; auto).
    pose proof Ch as Ch'. unchain Ch'.
    assert (Cab : chain a h1 h2 h3 b).
    { split; [|split; [|split]].
      - repeat constructor; auto; [destruct Ha as [[-> _]|[-> _]]|destruct Hb as [[-> _]|[-> _]]]; auto.
      - destruct Ha as [[-> ?]|[-> ?]]; lra.
      - destruct Hb as [[-> ?]|[-> ?]]; lra.
      - apply HS; auto. }
    destruct (update_big (A := B64) pos_B64 neg_B64 chain s y h0 h1 h2 h3 h4 n0 m1 m2 m3 (n4 + (Z.of_nat (length (f ++ ys)) - 5))%Z)
      as (s' & g1 & g2 & g3 & l1 & l2 & l3 & E' & HS'' & Hh' & Hq'); auto; try lia.
    { intros. apply chain_core; auto. }
    { unfold double in * . change (num B64) with (binary_float 53 1024). rewrite Efk. exact Cab. }
    rewrite Efk in HS''. destruct HS'' as [Sh' Ch''].
    exists s', a, g1, g2, g3, b, l1, l2, l3.
    rewrite update_all_snoc, E. cbn [bind]. split; [exact E'|].
    replace (n4 + (Z.of_nat (length (f ++ ys) + 1) - 5))%Z with (n4 + (Z.of_nat (length (f ++ ys)) - 5) + 1)%Z by lia.
    split; [exact Sh'|]. split; [exact Ch''|].
    split; [|split; [lia|congruence]].
    split; [exact Ia|]. split; [exact Ib|].
    intros x Hx. apply in_app_or in Hx. destruct Hx as [Hx|[<-|[]]].
    + specialize (Ext _ Hx). destruct Ha as [[-> ?]|[-> ?]], Hb as [[-> ?]|[-> ?]]; lra.
    + destruct Ha as [[-> ?]|[-> ?]], Hb as [[-> ?]|[-> ?]]; lra.
Qed.

(** ** std::round *)
Lemma round_away_nonneg (r : R) : 0 <= r -> round_away r = Zfloor (r + / 2).
Proof.
  intros H. unfold round_away, Znearest.
  pose proof (Zfloor_lb r). pose proof (Zfloor_ub r).
  assert (F0 : (0 <= Zfloor r)%Z) by (apply Zfloor_lub; auto).
  destruct (Rcompare_spec (r - IZR (Zfloor r)) (/ 2)) as [L|L|L].
  - symmetry. apply Zfloor_imp. rewrite plus_IZR. lra.
  - destruct (Z.leb_spec 0 (Zfloor r)); [|lia].
    rewrite Zceil_floor_neq by lra. symmetry. apply Zfloor_imp. rewrite !plus_IZR. lra.
  - assert (C : Zceil r = (Zfloor r + 1)%Z).
    { apply Zceil_floor_neq. lra. }
    rewrite C. symmetry. apply Zfloor_imp. rewrite !plus_IZR. lra.
Qed.

Lemma round_away_opp (r : R) : 0 <= r -> round_away (- r) = (- round_away r)%Z.
Proof.
  intros H. unfold round_away. rewrite Znearest_opp. f_equal. unfold Znearest.
  destruct (Rcompare _ _); auto.
  assert (F0 : (0 <= Zfloor r)%Z) by (apply Zfloor_lub; auto).
  destruct (Z.leb_spec 0 (- (Zfloor r + 1))), (Z.leb_spec 0 (Zfloor r)); auto; lia.
Qed.

Lemma parts_pos (m : positive) (e : Z) :
  round_away_parts false m e = round_away (IZR (Zpos m) * bpow radix2 e).
Proof.
  assert (P : 0 <= IZR (Zpos m) * bpow radix2 e) by (apply Rmult_le_pos; [apply IZR_le; lia|apply bpow_ge_0]).
  rewrite round_away_nonneg by auto. unfold round_away_parts. destruct e as [|p|p].
  - simpl. rewrite Rmult_1_r. symmetry. apply Zfloor_imp. rewrite plus_IZR. lra.
  - rewrite bpow_powerRZ. replace (IZR (Zpos m) * powerRZ (IZR radix2) (Zpos p)) with (IZR (Zpos m * 2 ^ Zpos p)).
    + symmetry. apply Zfloor_imp. rewrite plus_IZR. lra.
    + rewrite mult_IZR. f_equal. rewrite <- bpow_powerRZ. rewrite <- IZR_Zpower by lia. reflexivity.
  - symmetry.
    assert (P2 : IZR (2 ^ Zpos p) = bpow radix2 (Zpos p)).
    { change 2%Z with (radix_val radix2). rewrite IZR_Zpower by lia. auto. }
    assert (B : bpow radix2 (Zneg p) = / IZR (2 ^ Zpos p)).
    { rewrite P2. change (Zneg p) with (- Zpos p)%Z. apply bpow_opp. }
    assert (K : 0 < IZR (2 ^ Zpos p)) by (rewrite P2; apply bpow_gt_0).
    rewrite B. replace (IZR (Zpos m) * / IZR (2 ^ Zpos p) + / 2) with
      (IZR (2 * Zpos m + 2 ^ Zpos p) / IZR (2 ^ (Zpos p + 1))).
    + apply Zfloor_div. rewrite Z.pow_add_r by lia. lia.
    + rewrite Z.pow_add_r, Z.pow_1_r by lia. rewrite plus_IZR, !mult_IZR. field. lra.
Qed.

Lemma Bround_correct (x : double) : finite64 x = true -> Bround_int x = Some (round_away (B2R x)).
Proof.
  destruct x as [b| | |b m e H]; try discriminate; intros _; simpl.
  - f_equal. symmetry. unfold round_away. apply Znearest_imp. simpl. rewrite Rminus_0_r, Rabs_R0. lra.
  - f_equal. assert (P : 0 <= IZR (Zpos m) * bpow radix2 e) by (apply Rmult_le_pos; [apply IZR_le; lia|apply bpow_ge_0]).
    unfold F2R. cbn [Fnum Fexp]. destruct b; cbn [cond_Zopp].
    + rewrite opp_IZR, Ropp_mult_distr_l_reverse, round_away_opp by auto. rewrite <- parts_pos. reflexivity.
    + apply parts_pos.
Qed.

Lemma round_away_bound (r : R) (k : Z) : 0 <= r <= IZR k -> (0 <= round_away r <= k)%Z.
Proof.
  intros H. rewrite round_away_nonneg by lra. split.
  - apply Zfloor_lub. simpl. lra.
  - replace k with (Zfloor (IZR k + / 2)); [apply Zfloor_le; lra|].
    apply Zfloor_imp. rewrite plus_IZR. lra.
Qed.

(** ** evaluate with at most five observations *)
Definition rank (n : nat) (q : double) : nat := Z.to_nat (round_away (rnd (Rabs (INR n - 1) * B2R q))).

Lemma quant_bounds (q : double) : nan q = false -> 0 < X q < 1 -> finite64 q = true /\ 0 < B2R q < 1.
Proof.
  intros N H. assert (F : finite64 q = true).
  { apply fin_X; auto. apply Rabs_lt. pose proof big_pos.
    assert (1 < big) by (change 1 with (bpow radix2 0); apply bpow_lt; lia). lra. }
  split; auto. now rewrite <- (X_fin _ F).
Qed.

Lemma new_quant (q : double) s0 : p2_new (A := B64) q = Ret s0 -> nan q = false -> finite64 q = true /\ 0 < B2R q < 1.
Proof.
  intros E N. apply quant_bounds; auto. unfold p2_new in E. cbn [leb of_Z B64 zero] in E.
  destruct (Bz_exact 1) as [E1 F1]; [lia|]. destruct (Bz_exact 0) as [E0 F0]; [lia|].
  unfold zero in E. cbn [of_Z B64] in E.
  destruct (Bleb q (Bz 0)) eqn:L1; [discriminate|]. destruct (Bleb (Bz 1) q) eqn:L2; [discriminate|].
  apply X_leb_false in L1; auto using fin_nan. apply X_leb_false in L2; auto using fin_nan.
  rewrite (X_fin _ F0), E0 in L1. rewrite (X_fin _ F1), E1 in L2. lra.
Qed.

Lemma rank_facts (n : nat) (q : double) : (n <= 5)%nat -> finite64 q = true -> 0 < B2R q < 1 ->
  Bround_int (Bmul (Babs (Bsub (Bz (Z.of_nat n)) (Bz 1))) q) = Some (Z.of_nat (rank n q)) /\ (rank n q <= 4)%nat.
Proof.
  intros Hn Fq Hq.
  destruct (Bz_exact (Z.of_nat n)) as [En Fn]; [lia|]. destruct (Bz_exact 1) as [E1 F1]; [lia|].
  destruct (X_sub _ _ Fn F1) as [XS NS]. rewrite En, E1, <- minus_IZR in XS.
  destruct (IZR_bound (Z.of_nat n - 1)) as [RI BI]; [lia|]. rewrite RI in XS.
  assert (FS : finite64 (Bsub (Bz (Z.of_nat n)) (Bz 1)) = true) by (apply fin_X; auto; rewrite XS; auto).
  assert (FA : finite64 (Babs (Bsub (Bz (Z.of_nat n)) (Bz 1))) = true) by (rewrite fin_abs; auto).
  assert (EA : B2R (Babs (Bsub (Bz (Z.of_nat n)) (Bz 1))) = Rabs (INR n - 1)).
  { rewrite <- (X_fin _ FA), X_abs, XS. f_equal. rewrite minus_IZR, <- INR_IZR_INZ. auto. }
  destruct (X_mul _ q FA Fq) as [XM NM]. rewrite EA in XM.
  assert (A4 : 0 <= Rabs (INR n - 1) <= 4).
  { split; [apply Rabs_pos|]. apply Rabs_le. pose proof (pos_INR n). apply le_INR in Hn. simpl in Hn. lra. }
  assert (HR : 0 <= rnd (Rabs (INR n - 1) * B2R q) <= 4).
  { split.
    - rewrite <- rnd_0. apply rnd_le. apply Rmult_le_pos; lra.
    - rewrite <- (rnd_fix 4) by (apply (format_IZR 4); lia). apply rnd_le.
      apply Rle_trans with (4 * 1); [apply Rmult_le_compat; lra|lra]. }
  assert (B4 : 4 < big) by (change 4 with (bpow radix2 2); apply bpow_lt; lia).
  assert (XM' : X (Bmul (Babs (Bsub (Bz (Z.of_nat n)) (Bz 1))) q) = rnd (Rabs (INR n - 1) * B2R q)).
  { rewrite XM. unfold R64. apply sat_in. apply Rabs_lt. lra. }
  assert (FM : finite64 (Bmul (Babs (Bsub (Bz (Z.of_nat n)) (Bz 1))) q) = true).
  { apply fin_X; auto. rewrite XM'. apply Rabs_lt. lra. }
  pose proof (round_away_bound _ 4 HR) as RB.
  rewrite (Bround_correct _ FM), <- (X_fin _ FM), XM'.
  unfold rank. rewrite Z2Nat.id by lia. split; auto. lia.
Qed.

Lemma eval_small (s : p2 B64) : (p_history s <= 5)%nat -> length (p_heights s) = 5%nat ->
  finite64 (p_quantile s) = true -> 0 < B2R (p_quantile s) < 1 ->
  p2_evaluate s =
  if forallb not_nan (p_heights s)
  then Ret (P2 (p_quantile s) (p_desired s) (p_pos s) (sort_list (p_heights s)) (p_history s),
            nth (rank (p_history s) (p_quantile s)) (sort_list (p_heights s)) (B754_nan : double))
  else Undef BadPrecondition.
Proof.
  intros Hn H5 Fq Hq. unfold p2_evaluate. destruct (Nat.leb_spec (p_history s) 5); [|lia].
  unfold std_sort. destruct (forallb not_nan (p_heights s)); [|reflexivity]. cbn [bind].
  destruct (rank_facts _ _ Hn Fq Hq) as [ER R4].
  unfold of_nat. cbn [round_int fabs sub mul of_Z B64]. unfold double in * . rewrite ER.
  set (k := rank _ _) in * .
  assert (C : (Z.leb int_min (Z.of_nat k) && Z.leb (Z.of_nat k) int_max)%bool = true).
  { apply andb_true_iff. split; apply Z.leb_le; unfold int_min, int_max; lia. }
  rewrite C. destruct (Z.ltb_spec (Z.of_nat k) 0); [lia|]. rewrite Nat2Z.id. cbn [bind].
  unfold at_. rewrite (nth_error_nth' (sort_list (p_heights s)) (B754_nan : double)) by (rewrite sort_list_length; lia).
  reflexivity.
Qed.

Lemma eval_big (A : arith) (s : p2 A) h n : (5 < p_history s)%nat -> shape s h n ->
  p2_evaluate s = let '(_, _, h2, _, _) := h in Ret (s, h2).
Proof.
  intros H Sh. unfold p2_evaluate. destruct (Nat.leb_spec (p_history s) 5); [lia|].
  destruct h as [[[[h0 h1] h2] h3] h4], n as [[[[n0 n1] n2] n3] n4]. destruct Sh as (-> & _). reflexivity.
Qed.

(** ** Statements in the form used by the property file *)

Lemma p2_new_B64 (q : double) :
  (p2_new (A := B64) q = Throw InvalidArgument <-> nan q = false /\ (X q <= 0 \/ 1 <= X q)) /\
  ((exists s, p2_new (A := B64) q = Ret s) <-> nan q = true \/ 0 < X q < 1).
Proof.
  unfold p2_new. unfold zero. cbn [leb of_Z B64].
  destruct (Bz_exact 1) as [E1 F1]; [lia|]. destruct (Bz_exact 0) as [E0 F0]; [lia|].
  destruct (nan q) eqn:N.
  - rewrite nan_leb_l, nan_leb_r by auto. cbn [orb]. split; split; eauto; try discriminate.
    intros [? _]; discriminate.
  - pose proof (X_leb q (Bz 0) N (fin_nan _ F0)) as L. pose proof (X_leb (Bz 1) q (fin_nan _ F1) N) as G.
    rewrite (X_fin _ F0), E0 in L. rewrite (X_fin _ F1), E1 in G.
    change (num B64) with double.
    destruct (Bleb q (Bz 0)); cbn [orb].
    + assert (X q <= 0) by (apply L; auto). split; split; auto.
      * intros [? ?]; discriminate.
      * intros [?|?]; [discriminate|lra].
    + assert (0 < X q) by (apply Rnot_le_lt; intros K; apply L in K; discriminate).
      destruct (Bleb (Bz 1) q); cbn [orb].
      * assert (1 <= X q) by (apply G; auto). split; split; auto.
        -- intros [? ?]; discriminate.
        -- intros [?|?]; [discriminate|lra].
      * assert (X q < 1) by (apply Rnot_le_lt; intros K; apply G in K; discriminate).
        split; split; eauto; try discriminate. intros [_ ?]. lra.
Qed.

Lemma nan_mul_r (x y : double) : nan y = true -> Bmul x y = B754_nan.
Proof. destruct y; try discriminate. destruct x; reflexivity. Qed.

Lemma update_quantile (A : arith) (s s' : p2 A) x : p2_update s x = Ret s' -> p_quantile s' = p_quantile s.
Proof.
  unfold p2_update. destruct (Nat.ltb _ _).
  - intros H. apply bind_Ret in H as (h & _ & H). destruct (Nat.eqb _ _).
    + apply bind_Ret in H as (h' & _ & H). injection H as <-. reflexivity.
    + injection H as <-. reflexivity.
  - intros H. apply bind_Ret in H as ([h k] & _ & H). apply bind_Ret in H as (n & _ & H).
    apply bind_Ret in H as (d0 & _ & H). apply bind_Ret in H as ([h' n'] & _ & H). injection H as <-. reflexivity.
Qed.

Lemma run_quantile_history (A : arith) (q : A) s0 xs s : p2_new q = Ret s0 -> update_all p2_update s0 xs = Ret s ->
  p_quantile s = q /\ p_history s = length xs.
Proof.
  intros E0. apply new_shape in E0 as [-> _].
  revert s. induction xs as [|x xs IH] using rev_ind; intros s E.
  - injection E as <-. auto.
  - rewrite update_all_snoc in E. apply bind_Ret in E as (t & Et & E). destruct (IH _ Et) as [IH1 IH2].
    rewrite (update_quantile _ _ _ _ E). split; auto. rewrite app_length. simpl.
    assert (H : p_history s = S (p_history t)); [|lia]. clear - E. unfold p2_update in E.
    destruct (Nat.ltb _ _).
    + apply bind_Ret in E as (h & _ & H). destruct (Nat.eqb _ _).
      * apply bind_Ret in H as (h' & _ & H). injection H as <-. reflexivity.
      * injection H as <-. reflexivity.
    + apply bind_Ret in E as ([h k] & _ & H). apply bind_Ret in H as (n & _ & H).
      apply bind_Ret in H as (d0 & _ & H). apply bind_Ret in H as ([h' n'] & _ & H). injection H as <-. reflexivity.
Qed.

Ltac lia64 := change (num B64) with double in * ; lia.

Lemma p2_nan_quantile (q : double) s0 (xs : list double) s : nan q = true ->
  p2_new (A := B64) q = Ret s0 -> (length xs <= 5)%nat -> Forall (fun x => nan x = false) xs ->
  update_all (p2_update (A := B64)) s0 xs = Ret s -> p2_evaluate s = Undef BadCast.
Proof.
  intros N E0 HL HN E. destruct (run_quantile_history B64 q s0 xs s E0 E) as [Hq Hh].
  change (num B64) with double in Hh. unfold p2_evaluate. destruct (Nat.leb_spec (p_history s) 5); [|lia64].
  assert (HF : forallb (not_nan (A := B64)) (p_heights s) = true).
  { apply new_shape in E0 as [-> _]. destruct (Nat.lt_ge_cases (length xs) 5) as [HL5|HL5].
    - rewrite run_small in E by (auto; lia64). injection E as <-. cbn [p_heights].
      apply not_nan_B64, Forall_app. split; auto. rewrite Forall_forall. intros x Hx.
      assert (I : In x (repeat (of_Z 0 : B64) 5)).
      { rewrite <- (firstn_skipn (length xs)). apply in_or_app. right. exact Hx. }
      apply repeat_spec in I. subst x. reflexivity.
    - rewrite run_five in E by (auto; lia64). rewrite (proj2 (not_nan_B64 xs) HN) in E. injection E as <-.
      cbn [p_heights]. apply not_nan_B64. rewrite Forall_forall in HN |- * . intros x Hx. apply (proj1 (sort_list_In (A := B64) _ _)) in Hx. auto. }
  unfold std_sort. rewrite HF. cbn [bind]. rewrite Hq. cbn [mul B64].
  rewrite nan_mul_r by auto. reflexivity.
Qed.

Lemma In_repeat_skipn {X} (x y : X) n k : In x (skipn k (repeat y n)) -> x = y.
Proof.
  intros H. apply (repeat_spec n). rewrite <- (firstn_skipn k). apply in_or_app. auto.
Qed.

Lemma skipn_repeat {X} (y : X) n k : skipn k (repeat y n) = repeat y (n - k).
Proof. revert k. induction n; intros [|k]; simpl; auto. Qed.

Lemma p2_bracket (q : double) s0 (xs : list double) :
  p2_new (A := B64) q = Ret s0 -> nan q = false ->
  (5 <= length xs)%nat -> (Z.of_nat (length xs) <= 2 ^ 31)%Z ->
  Forall (fun x => finite64 x = true) xs ->
  (forall x y, In x xs -> In y xs -> rnd (B2R y - B2R x) < big) ->
  exists s v lo hi h1 h2 h3,
    update_all p2_update s0 xs = Ret s /\ p2_evaluate s = Ret (s, v) /\
    In lo xs /\ In hi xs /\ (forall x, In x xs -> B2R lo <= B2R x <= B2R hi) /\
    finite64 v = true /\ B2R lo <= B2R v <= B2R hi /\
    p_heights s = [lo; h1; h2; h3; hi] /\ ascending [lo; h1; h2; h3; hi].
Proof.
  intros E0 N H5 HM HF HS. pose proof (new_quant q s0 E0 N) as [Fq Hq].
  pose proof (new_shape (A := B64) q s0 E0) as [Es Sh0].
  destruct (run_bracket s0 _ _ _ _ _ _ xs Sh0) as (s & h0 & h1 & h2 & h3 & h4 & m1 & m2 & m3 & E & Sh & Ch & (I0 & I4 & Ext) & Hh & Hqs);
    auto; [subst s0; reflexivity|unfold int_max; lia64|].
  assert (Qs : p_quantile s = q) by (rewrite Hqs; subst s0; reflexivity).
  pose proof Ch as Ch'. unchain Ch'.
  assert (LE : forall a b : double, finite64 a = true -> finite64 b = true -> B2R a <= B2R b -> Bleb a b = true).
  { intros a b Fa Fb Hab. apply X_leb; auto using fin_nan. rewrite !X_fin by auto. auto. }
  assert (AS : ascending [h0; h1; h2; h3; h4]).
  { repeat constructor; apply LE; auto; lra. }
  assert (NN : Forall (fun x : double => nan x = false) [h0; h1; h2; h3; h4]) by (repeat constructor; auto using fin_nan).
  assert (EV : exists v, p2_evaluate s = Ret (s, v) /\ In v [h0; h1; h2; h3; h4]).
  { destruct (Nat.eq_dec (length xs) 5) as [L5|L5].
    - destruct Sh as (Eh & En & _). rewrite eval_small; [|lia64|rewrite Eh; reflexivity|rewrite Qs; auto|rewrite Qs; auto].
      rewrite Eh, Qs, Hh, L5. rewrite (proj2 (not_nan_B64 _) NN). rewrite (sort_sorted _ NN AS).
      eexists. split; [f_equal; f_equal; destruct s; cbn in * ; congruence|].
      apply nth_In. simpl. destruct (rank_facts 5 q (le_n _) Fq Hq) as [_ R]. lia64.
    - rewrite (eval_big B64 s _ _ ltac:(lia64) Sh). exists h2. split; auto. simpl; auto. }
  destruct EV as (v & EV & Iv). exists s, v, h0, h4, h1, h2, h3.
  destruct Sh as (Eh & _). split; [exact E|]. split; [exact EV|].
  split; [exact I0|]. split; [exact I4|]. split; [exact Ext|].
  assert (V : finite64 v = true /\ B2R h0 <= B2R v <= B2R h4).
  { repeat (destruct Iv as [<-|Iv]; [split; auto; lra|]). destruct Iv. }
  split; [apply V|]. split; [apply V|]. auto.
Qed.

Lemma p2_constant (q : double) s0 (c : double) (n : nat) :
  p2_new (A := B64) q = Ret s0 -> nan q = false -> finite64 c = true ->
  (5 <= n)%nat -> (Z.of_nat n <= 2 ^ 31)%Z ->
  exists s v, update_all p2_update s0 (repeat c n) = Ret s /\ p2_evaluate s = Ret (s, v) /\
    finite64 v = true /\ B2R v = B2R c.
Proof.
  intros E0 N Fc H5 HM.
  destruct (p2_bracket q s0 (repeat c n) E0 N) as (s & v & lo & hi & h1 & h2 & h3 & E & EV & Il & Ih & _ & Fv & Hv & _);
    rewrite ?repeat_length; auto.
  - apply Forall_forall. intros x Hx. apply repeat_spec in Hx. now subst.
  - intros x y Hx Hy. apply repeat_spec in Hx, Hy. subst. rewrite Rminus_diag_eq, rnd_0 by auto. apply big_pos.
  - apply repeat_spec in Il, Ih. subst. exists s, v. repeat split; auto. lra.
Qed.

Lemma rank_five (q : double) : finite64 q = true -> 0 < B2R q < 1 -> rank 5 q = Z.to_nat (round_away (4 * B2R q)).
Proof.
  intros Fq Hq. unfold rank. do 2 f_equal. replace (INR 5 - 1) with 4 by (simpl; lra). rewrite Rabs_pos_eq by lra.
  apply rnd_fix. replace (4 * B2R q) with (B2R q * bpow radix2 2) by (change (bpow radix2 2) with 4; ring).
  assert (Fm : generic_format radix2 fexp64 (B2R q)) by apply B2R_format.
  unfold fexp64. change (SpecFloat.fexp 53 1024) with (FLT_exp (-1074) 53) in * .
  apply FLT_format_generic in Fm; [|reflexivity]. destruct Fm as [[m e] Hf Hm He].
  apply generic_format_FLT. exists (Float radix2 m (e + 2)); cbn [Fnum Fexp] in * .
  - rewrite Hf. unfold F2R. cbn [Fnum Fexp]. rewrite bpow_plus. ring.
  - auto.
  - unfold SpecFloat.emin in He. lia.
Qed.

Lemma p2_small (q : double) s0 (xs : list double) :
  p2_new (A := B64) q = Ret s0 -> nan q = false -> (length xs <= 5)%nat ->
  Forall (fun x => nan x = false) xs ->
  exists s s' l,
    update_all p2_update s0 xs = Ret s /\
    Permutation l (xs ++ repeat (Bz 0) (5 - length xs)) /\ ascending l /\
    p2_evaluate s =
      Ret (s', nth (Z.to_nat (round_away (rnd (Rabs (INR (length xs) - 1) * B2R q)))) l (B754_nan : double)).
Proof.
  intros E0 N HL HN. pose proof (new_quant q s0 E0 N) as [Fq Hq].
  pose proof (new_shape (A := B64) q s0 E0) as [Es Sh0].
  rewrite <- skipn_repeat.
  set (pad := xs ++ skipn (length xs) (repeat (Bz 0) 5)).
  assert (NP : Forall (fun x : double => nan x = false) pad).
  { unfold pad. apply Forall_app. split; auto. apply Forall_forall. intros x Hx. apply In_repeat_skipn in Hx. subst.
    reflexivity. }
  assert (K : exists s, update_all p2_update s0 xs = Ret s /\ p_history s = length xs /\ p_quantile s = q /\
     Forall (fun x : double => nan x = false) (p_heights s) /\ length (p_heights s) = 5%nat /\
     Permutation (sort_list (p_heights s)) pad).
  { destruct (Nat.eq_dec (length xs) 5) as [L5|L5].
    - rewrite run_five by (subst s0; auto). rewrite (proj2 (not_nan_B64 xs) HN).
      eexists. split; [reflexivity|]. cbn [p_history p_quantile p_heights]. subst s0.
      split; [auto|]. split; [reflexivity|]. split; [|split].
      + rewrite Forall_forall in HN |- * . intros x Hx. apply (proj1 (sort_list_In (A := B64) _ _)) in Hx. auto.
      + now rewrite sort_list_length.
      + rewrite sort_list_perm, sort_list_perm. unfold pad. rewrite L5. simpl. now rewrite app_nil_r.
    - rewrite run_small by (subst s0; auto; lia64). eexists. split; [reflexivity|].
      cbn [p_history p_quantile p_heights]. subst s0. cbn [p_quantile p_heights].
      split; [auto|]. split; [reflexivity|]. split; [exact NP|]. split.
      + rewrite app_length, skipn_length, repeat_length. lia64.
      + apply sort_list_perm. }
  destruct K as (s & E & Hh & Qs & Ns & L5 & P).
  exists s. rewrite eval_small; rewrite ?Qs, ?Hh; auto.
  rewrite (proj2 (not_nan_B64 _) Ns).
  eexists _, (sort_list (p_heights s)). split; [exact E|]. split; [exact P|]. split; [apply asc_sort; auto|].
  unfold rank. reflexivity.
Qed.

Lemma p2_five (q : double) s0 (xs : list double) :
  p2_new (A := B64) q = Ret s0 -> nan q = false -> length xs = 5%nat ->
  Forall (fun x => nan x = false) xs ->
  exists s s' l, update_all p2_update s0 xs = Ret s /\ Permutation l xs /\ ascending l /\
    p2_evaluate s = Ret (s', nth (Z.to_nat (round_away (4 * B2R q))) l (B754_nan : double)).
Proof.
  intros E0 N HL HN. pose proof (new_quant q s0 E0 N) as [Fq Hq].
  destruct (p2_small q s0 xs E0 N ltac:(lia64) HN) as (s & s' & l & E & P & As & EV).
  exists s, s', l. rewrite HL in P, EV. simpl repeat in P. rewrite app_nil_r in P.
  split; auto. split; auto. split; auto. rewrite EV. rewrite <- rank_five by auto. reflexivity.
Qed.

Lemma p2_single (q : double) s0 (x : double) :
  p2_new (A := B64) q = Ret s0 -> nan q = false -> nan x = false -> 0 < X x ->
  exists s s' v, update_all p2_update s0 [x] = Ret s /\ p2_evaluate s = Ret (s', v) /\ X v = 0.
Proof.
  intros E0 N Nx Hx.
  destruct (p2_small q s0 [x] E0 N) as (s & s' & l & E & P & As & EV); [simpl; lia64|auto|].
  cbn [length] in P, EV. replace (INR 1 - 1) with 0 in EV by (simpl; lra).
  rewrite Rabs_R0, Rmult_0_l, rnd_0 in EV.
  replace (round_away 0) with 0%Z in EV
    by (symmetry; unfold round_away; apply Znearest_imp; simpl; rewrite Rminus_0_r, Rabs_R0; lra).
  exists s, s', (nth 0 l (B754_nan : double)). split; auto. split; auto.
  destruct l as [|a l]; [apply Permutation_nil in P; discriminate|]. simpl.
  assert (Ia : In a [x; Bz 0; Bz 0; Bz 0; Bz 0]) by (apply (Permutation_in _ P); left; auto).
  assert (Z0 : X (Bz 0) = 0 /\ nan (Bz 0) = false) by (destruct zero_fin as [F E0']; rewrite (X_fin _ F); auto using fin_nan).
  simpl in Ia. destruct Ia as [<-|Ia]; [|repeat (destruct Ia as [<-|Ia]; [apply Z0|]); destruct Ia].
  exfalso. assert (I0 : In (Bz 0) (x :: l)) by (apply (Permutation_in _ (Permutation_sym P)); simpl; auto).
  assert (Iz : In (Bz 0) l).
  { destruct I0 as [->|I0]; auto. destruct Z0. lra. }
  inversion_clear As as [|? ? _ Ha]. rewrite Forall_forall in Ha. specialize (Ha _ Iz).
  apply X_leb in Ha; auto; try apply Z0. destruct Z0. lra.
Qed.

(** ** evaluate as an observer *)
Definition settled (s : p2 B64) : Prop :=
  (5 <= p_history s)%nat /\ (exists last, wf s last) /\
  (p_history s = 5%nat -> Forall (fun x : double => nan x = false) (p_heights s) /\ ascending (p_heights s)).

Lemma settled_eval (s : p2 B64) : settled s -> finite64 (p_quantile s) = true -> 0 < B2R (p_quantile s) < 1 ->
  exists v, p2_evaluate s = Ret (s, v).
Proof.
  intros (H5 & (last & W) & Hs) Fq Hq. pose proof (wf_len _ _ W) as [L5 _].
  destruct (Nat.eq_dec (p_history s) 5) as [E|E].
  - destruct (Hs E) as [N As]. rewrite eval_small by (auto; lia64).
    rewrite (proj2 (not_nan_B64 _) N). rewrite (sort_sorted _ N As). eexists. f_equal. f_equal. now destruct s.
  - destruct W as (h & m1 & m2 & m3 & Sh). rewrite (eval_big B64 s _ _ ltac:(lia64) Sh).
    destruct h as [[[[? ?] ?] ?] ?]. eauto.
Qed.

Lemma settled_update (s s' : p2 B64) x : settled s -> p2_update s x = Ret s' -> settled s'.
Proof.
  intros (H5 & (last & W) & Hs) E. destruct (call_update (A := B64) pos_B64 neg_B64 _ _ _ _ W E) as [W' Hh].
  split; [lia64|]. split; [eauto|]. intros K. lia64.
Qed.

Lemma settled_first (q : double) s0 (xs : list double) s :
  p2_new (A := B64) q = Ret s0 -> (5 <= length xs)%nat -> update_all p2_update s0 xs = Ret s -> settled s.
Proof.
  intros E0 HL E. pose proof (new_shape (A := B64) q s0 E0) as [Es Sh0].
  destruct (split5 xs HL) as [Ex L5]. rewrite Ex, update_all_app in E. rewrite run_five in E by (subst s0; auto).
  destruct (forallb not_nan (firstn 5 xs)) eqn:N; [|discriminate]. cbn [bind] in E.
  set (t := P2 _ _ _ _ _) in E.
  assert (St : settled t).
  { split; [cbn; lia64|]. split.
    - exists 4%Z. destruct (five_shape (A := B64) s0 (firstn 5 xs) (0, 1, 2, 3, 4)%Z L5) as [h Sh]; [eauto|].
      exists h, 1%Z, 2%Z, 3%Z. exact Sh.
    - intros _. apply not_nan_B64 in N. cbn. split; [|apply asc_sort; auto].
      rewrite Forall_forall in N |- * . intros x Hx. apply (proj1 (sort_list_In (A := B64) _ _)) in Hx. auto. }
  clearbody t. clear Ex. revert t St E. induction (skipn 5 xs) as [|y ys IH]; intros t St E; simpl in E.
  - injection E as <-. auto.
  - apply bind_Ret in E as (t' & Et & E). eapply IH; [|exact E]. eapply settled_update; eauto.
Qed.

Lemma p2_observer (q : double) s0 (xs : list double) s (os : list (p2_op B64)) :
  p2_new (A := B64) q = Ret s0 -> nan q = false ->
  (5 <= length xs)%nat -> update_all p2_update s0 xs = Ret s ->
  forallb (fun o => negb (is_clear o)) os = true ->
  p2_calls s os = p2_calls s (filter (fun o => negb (is_evaluate o)) os) /\
  exists v, p2_evaluate s = Ret (s, v).
Proof.
  intros E0 N HL E HC. pose proof (new_quant q s0 E0 N) as [Fq Hq].
  pose proof (settled_first q s0 xs s E0 HL E) as St.
  destruct (run_quantile_history B64 q s0 xs s E0 E) as [Qs _].
  split.
  - clear E HL. revert s St Qs HC. induction os as [|o os IH]; intros s St Qs HC; simpl; auto.
    simpl in HC. apply andb_true_iff in HC as [HC1 HC].
    destruct o as [x| |]; simpl in * ; try discriminate.
    + destruct (p2_update s x) as [t| |] eqn:Et; simpl; auto. apply IH; auto.
      * eapply settled_update; eauto.
      * rewrite (update_quantile _ _ _ _ Et). auto.
    + destruct (settled_eval s St) as [v Ev]; [rewrite Qs; auto..|]. rewrite Ev. simpl. apply IH; auto.
  - apply settled_eval; auto; rewrite Qs; auto.
Qed.

(** ** Marker positions over all calls *)

Lemma p2_positions (A : arith)
  (Hpos : forall x : A, leb (of_Z 1) x = true -> ltb (of_Z 0) x = true)
  (Hneg : forall x : A, leb x (of_Z (-1)) = true -> ltb (of_Z 0) x = false /\ ltb x (of_Z 0) = true)
  (q : A) s0 os s : p2_new q = Ret s0 -> p2_calls s0 os = Ret s ->
  length (p_pos s) = 5%nat /\ strictly_increasing (p_pos s) /\ nth 0 (p_pos s) (-1)%Z = 0%Z /\
  (forallb (fun o => negb (is_clear o)) os = true -> (5 <= n_updates os)%nat ->
     nth 4 (p_pos s) (-1)%Z = (Z.of_nat (n_updates os) - 1)%Z).
Proof.
  intros E0 E. destruct (calls_wf Hpos Hneg q s0 os s E0 E) as [[last W] H].
  destruct W as (((((h0 & h1) & h2) & h3) & h4) & m1 & m2 & m3 & _ & Ep & P & _).
  rewrite Ep. split; [reflexivity|]. split.
  { unfold pos5 in P. unfold strictly_increasing. repeat constructor; lia. }
  split; [reflexivity|]. intros NC L. destruct (H NC) as [_ W].
  destruct W as (((((k0 & k1) & k2) & k3) & k4) & l1 & l2 & l3 & _ & Ep' & _).
  rewrite Ep in Ep'. injection Ep' as _ _ _ ->. cbn [nth]. lia.
Qed.

Lemma p2_positions_B64 (q : double) s0 (os : list (p2_op B64)) s : p2_new (A := B64) q = Ret s0 -> p2_calls s0 os = Ret s ->
  length (p_pos s) = 5%nat /\ strictly_increasing (p_pos s) /\ nth 0 (p_pos s) (-1)%Z = 0%Z /\
  (forallb (fun o => negb (is_clear o)) os = true -> (5 <= n_updates os)%nat ->
     nth 4 (p_pos s) (-1)%Z = (Z.of_nat (n_updates os) - 1)%Z).
Proof. exact (p2_positions B64 pos_B64 neg_B64 q s0 os s). Qed.

Lemma p2_positions_RA (q : R) s0 (os : list (p2_op RA)) s : p2_new (A := RA) q = Ret s0 -> p2_calls s0 os = Ret s ->
  length (p_pos s) = 5%nat /\ strictly_increasing (p_pos s) /\ nth 0 (p_pos s) (-1)%Z = 0%Z /\
  (forallb (fun o => negb (is_clear o)) os = true -> (5 <= n_updates os)%nat ->
     nth 4 (p_pos s) (-1)%Z = (Z.of_nat (n_updates os) - 1)%Z).
Proof. exact (p2_positions RA pos_RA neg_RA q s0 os s). Qed.

Lemma p2_total_B64 (q : double) s0 (xs : list double) : p2_new (A := B64) q = Ret s0 ->
  ((Z.of_nat (length xs) <= 2 ^ 31)%Z -> Forall (fun x => nan x = false) (firstn 5 xs) ->
     exists s, update_all p2_update s0 xs = Ret s) /\
  ((2 ^ 31 < Z.of_nat (length xs))%Z -> Forall (fun x => nan x = false) (firstn 5 xs) ->
     update_all p2_update s0 xs = Undef IntOverflow) /\
  ((5 <= length xs)%nat -> ~ Forall (fun x => nan x = false) (firstn 5 xs) ->
     update_all p2_update s0 xs = Undef BadPrecondition).
Proof.
  intros E. destruct (p2_total pos_B64 neg_B64 q s0 xs E) as (H1 & H2 & H3). split; [|split].
  - intros L N. apply H1; auto. right. now apply not_nan_B64.
  - intros L N. apply H2; auto. now apply not_nan_B64.
  - intros L N. apply H3; auto. destruct (forallb _ _) eqn:F; auto. exfalso. apply N. now apply not_nan_B64.
Qed.
