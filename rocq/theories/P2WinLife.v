(** How long a WindowedP2Quantile lives: restarting does not reset the marker
    positions, so the last one keeps growing until it overflows. *)

From Coq Require Import List Reals ZArith Lia Bool Arith Permutation.
From Flocq Require Import Core.Core IEEE754.BinarySingleNaN.
From Verif Require Import Outcome Arith P2 P2Spec Spec ListFacts FloatSpec FloatFacts P2Facts P2Float P2Window P2Witness.
Import ListNotations.
Local Open Scope nat_scope.

Lemma late_S W n : late W (S n) = late W n + (if Nat.leb 5 (n mod (W + 1)) then 1 else 0).
Proof.
  unfold late. rewrite seq_S, filter_app, app_length. cbn [filter Nat.add]. destruct (Nat.leb _ _); reflexivity.
Qed.

Lemma late_small W n : W <= 4 -> late W n = 0.
Proof.
  intros H. induction n; [reflexivity|]. rewrite late_S, IHn.
  pose proof (Nat.mod_upper_bound n (W + 1) ltac:(lia)). destruct (Nat.leb_spec 5 (n mod (W + 1))); lia.
Qed.

Lemma late_closed W n : 4 <= W -> late W n = n / (W + 1) * (W - 4) + (n mod (W + 1) - 5).
Proof.
  intros H. induction n; [cbn; rewrite Nat.div_small, Nat.mod_small by lia; lia|].
  rewrite late_S, IHn. pose proof (Nat.div_mod n (W + 1) ltac:(lia)) as D.
  pose proof (Nat.mod_upper_bound n (W + 1) ltac:(lia)) as B.
  set (a := n / (W + 1)) in * . set (r := n mod (W + 1)) in * .
  destruct (Nat.eq_dec (S r) (W + 1)) as [E|E].
  - assert (E1 : S n / (W + 1) = S a) by (symmetry; apply Nat.div_unique with 0; lia).
    assert (E2 : S n mod (W + 1) = 0) by (symmetry; apply Nat.mod_unique with (S a); lia).
    rewrite E1, E2. destruct (Nat.leb_spec 5 r); nia.
  - assert (E1 : S n / (W + 1) = a) by (symmetry; apply Nat.div_unique with (S r); lia).
    assert (E2 : S n mod (W + 1) = S r) by (symmetry; apply Nat.mod_unique with a; lia).
    rewrite E1, E2. destruct (Nat.leb_spec 5 r); nia.
Qed.

Notation okay := (fun x : double => nan x = false).

Record linv (q : double) (W n : nat) (s : wp2 B64) : Prop := {
  li_wf : wf (w_p2 s) (4 + Z.of_nat (late W n));
  li_h : p_history (w_p2 s) = n mod (W + 1);
  li_q : p_quantile (w_p2 s) = q;
  li_w : w_wsize s = W;
  li_n : w_history s = n;
  li_first : Forall okay (firstn (p_history (w_p2 s)) (p_heights (w_p2 s))) \/ 5 < p_history (w_p2 s);
  li_all : W <= 4 -> Forall okay (p_heights (w_p2 s))
}.

Lemma firstn_set_nth {X} (l : list X) i x : i < length l -> firstn (S i) (set_nth l i x) = firstn i l ++ [x].
Proof. revert i. induction l; intros [|i] H; cbn in *; try lia; auto. f_equal. apply IHl. lia. Qed.

Lemma Forall_set_nth {X} (P : X -> Prop) (l : list X) i x : Forall P l -> P x -> Forall P (set_nth l i x).
Proof. intros H Hx. revert i. induction H; intros [|i]; cbn; auto. Qed.

Lemma Forall_sort (l : list double) : Forall okay l -> Forall okay (sort_list (A := B64) l).
Proof. intros H. eapply Permutation_Forall; [apply Permutation_sym, (sort_list_perm (A := B64))|exact H]. Qed.

Lemma linv_step (q : double) W n s (x : double) : finite64 q = true -> (0 < B2R q < 1)%R -> 1 <= W -> linv q W n s -> nan x = false ->
  if Z.leb (4 + Z.of_nat (late W (S n))) int_max
  then exists s', wp2_update s x = Ret s' /\ linv q W (S n) s'
  else wp2_update s x = Undef IntOverflow.
Proof.
  intros Fq Hq HW I Nx. destruct I as [Iw Ih Iq Isz In If Ia].
  pose proof (wf_len _ _ Iw) as [L5 D5].
  assert (Up : if Z.leb (4 + Z.of_nat (late W (S n))) int_max
    then exists p, p2_update (w_p2 s) x = Ret p /\ wf p (4 + Z.of_nat (late W (S n))) /\
           p_history p = S (n mod (W + 1)) /\ p_quantile p = q /\
           (Forall okay (firstn (p_history p) (p_heights p)) \/ 5 < p_history p) /\ (W <= 4 -> Forall okay (p_heights p))
    else p2_update (w_p2 s) x = Undef IntOverflow).
  { rewrite late_S. destruct (Nat.leb_spec 5 (n mod (W + 1))) as [H5|H5].
    - (* after the fifth *)
      destruct Iw as ([[[[h0 h1] h2] h3] h4] & m1 & m2 & m3 & Sh).
      destruct (Z.leb_spec (4 + Z.of_nat (late W n + 1)) int_max) as [Hm|Hm].
      + destruct (update_big (A := B64) pos_B64 neg_B64 trivial_inv (w_p2 s) x h0 h1 h2 h3 h4 0 m1 m2 m3 (4 + Z.of_nat (late W n)))
          as (t & k1 & k2 & k3 & l1 & l2 & l3 & E' & HS & Hy' & Hq');
          [unfold trivial_inv; auto|rewrite Ih; exact H5|exact Sh|lia|
           destruct (fk h0 h1 h2 h3 h4 x) as [[? ?] ?]; exact Logic.I|].
        exists t. split; [exact E'|]. split.
        { destruct (fk h0 h1 h2 h3 h4 x) as [[a b] k]. exists (a, k1, k2, k3, b), l1, l2, l3.
          replace (4 + Z.of_nat (late W n + 1))%Z with (4 + Z.of_nat (late W n) + 1)%Z by lia. apply HS. }
        split; [rewrite Hy', Ih; reflexivity|]. split; [congruence|]. split; [right; rewrite Hy', Ih; lia|].
        intros HW4. pose proof (Nat.mod_upper_bound n (W + 1) ltac:(lia)). lia.
      + apply (update_over (A := B64) _ _ _ _ ltac:(rewrite Ih; exact H5) Sh). change (4 + Z.of_nat (late W n) = int_max)%Z. destruct Sh as (_ & _ & P & _).
        unfold pos5 in P. lia.
    - rewrite Nat.add_0_r. assert (Hm : (4 + Z.of_nat (late W n) <= int_max)%Z).
      { destruct Iw as ([[[[h0 h1] h2] h3] h4] & m1 & m2 & m3 & (_ & _ & P & _)). unfold pos5 in P. lia. }
      destruct (Z.leb_spec (4 + Z.of_nat (late W n)) int_max); [|lia].
      assert (Hf : Forall okay (firstn (p_history (w_p2 s)) (p_heights (w_p2 s)))) by (destruct If; [auto|lia]).
      unfold p2_update. destruct (Nat.ltb_spec (p_history (w_p2 s)) 5); [|lia].
      rewrite store_Ret by lia. cbn [bind]. set (h' := set_nth (p_heights (w_p2 s)) (p_history (w_p2 s)) x).
      assert (Lh : length h' = 5) by (unfold h'; now rewrite set_nth_length).
      assert (Fh : Forall okay (firstn (S (p_history (w_p2 s))) h')).
      { unfold h'. rewrite firstn_set_nth by lia. apply Forall_app. auto. }
      assert (Ah : W <= 4 -> Forall okay h') by (intros; apply Forall_set_nth; auto).
      destruct (Nat.eqb_spec (S (p_history (w_p2 s))) 5) as [K|K].
      + rewrite K, firstn_all2 in Fh by lia. unfold std_sort. rewrite (proj2 (not_nan_B64 h') Fh). cbn [bind].
        eexists. split; [reflexivity|]. cbn [p_history p_quantile p_heights].
        split; [apply (wf_fields (w_p2 s)); auto; cbn; now rewrite sort_list_length|].
        split; [congruence|]. split; [exact Iq|].
        split; [left; rewrite K, firstn_all2 by (rewrite sort_list_length; lia); now apply Forall_sort|].
        intros _. now apply Forall_sort.
      + eexists. split; [reflexivity|]. cbn [p_history p_quantile p_heights].
        split; [apply (wf_fields (w_p2 s)); auto|]. split; [congruence|]. split; [exact Iq|]. split; [auto|auto]. }
  unfold wp2_update. rewrite Isz, In.
  destruct (Z.leb_spec (4 + Z.of_nat (late W (S n))) int_max) as [Hm|Hm]; [|now rewrite Up].
  destruct Up as (p & Ep & Wp & Hp & Qp & Fp & Ap). rewrite Ep. cbn [bind].
  destruct (Nat.ltb_spec 0 W); [|lia]. cbn [andb].
  rewrite mod_succ by lia. destruct (Nat.eqb_spec (S (n mod (W + 1))) (W + 1)) as [K|K].
  - cbn [Nat.eqb]. pose proof (wf_len _ _ Wp) as [Lp Dp].
    assert (Ev : exists p' v, p2_evaluate p = Ret (p', v) /\ (W <= 4 -> Forall okay (p_heights p'))).
    { destruct (le_lt_dec (p_history p) 5) as [S5|S5].
      - rewrite eval_small by (auto; now rewrite Qp). rewrite (proj2 (not_nan_B64 _)) by (apply Ap; lia).
        eexists _, _. split; [reflexivity|]. cbn. intros. apply Forall_sort. auto.
      - pose proof Wp as (h & m1 & m2 & m3 & Sh). rewrite (eval_big B64 p _ _ S5 Sh). destruct h as [[[[? ?] ?] ?] ?].
        eexists _, _. split; [reflexivity|]. auto. }
    destruct Ev as (p' & v & Ev & Ap'). rewrite Ev. cbn [bind]. destruct (eval_fields _ _ _ Ev) as (E1 & E2 & E3 & E4 & E5).
    eexists. split; [reflexivity|]. constructor; cbn [w_p2 w_wsize w_history p2_clear p_history p_quantile p_heights]; auto.
    + apply (wf_fields p); unfold p2_clear; cbn [p_heights p_pos p_desired]; [exact Wp|rewrite E5; exact Lp|exact E3|rewrite E2; exact Dp].
    + rewrite mod_succ by lia. destruct (Nat.eqb_spec (S (n mod (W + 1))) (W + 1)); [reflexivity|lia].
    + congruence.
    + left. constructor.
  - cbn [Nat.eqb]. eexists. split; [reflexivity|]. constructor; cbn [w_p2 w_wsize w_history]; auto.
    rewrite mod_succ by lia. destruct (Nat.eqb_spec (S (n mod (W + 1))) (W + 1)); [lia|exact Hp].
Qed.

Lemma late_mono W n m : n <= m -> late W n <= late W m.
Proof. induction 1; [auto|]. rewrite late_S. lia. Qed.

Lemma wp2_life (q : double) W s0 (xs : list double) : wp2_new (A := B64) q W = Ret s0 -> nan q = false -> 1 <= W ->
  Forall (fun x => nan x = false) xs ->
  if Z.leb (4 + Z.of_nat (late W (length xs))) (2 ^ 31 - 1)
  then exists s, update_all wp2_update s0 xs = Ret s /\ nth 4 (p_pos (w_p2 s)) 0%Z = (4 + Z.of_nat (late W (length xs)))%Z
  else update_all wp2_update s0 xs = Undef IntOverflow.
Proof.
  intros E0 Nq HW HF. assert (Hn : exists p0, p2_new (A := B64) q = Ret p0 /\ s0 = WP2 p0 (of_Z 0) W 0).
  { unfold wp2_new in E0. apply bind_Ret in E0 as (p0 & Ep & E0). injection E0 as <-. eauto. }
  destruct Hn as (p0 & Ep & ->). destruct (new_quant q p0 Ep Nq) as [Fq Hq].
  change (2 ^ 31 - 1)%Z with int_max.
  assert (G : if Z.leb (4 + Z.of_nat (late W (length xs))) int_max
    then exists s, update_all wp2_update (WP2 p0 (of_Z 0) W 0) xs = Ret s /\ linv q W (length xs) s
    else update_all wp2_update (WP2 p0 (of_Z 0) W 0) xs = Undef IntOverflow).
  { induction xs as [|x xs IH] using rev_ind.
    - cbn [length]. replace (late W 0) with 0 by reflexivity. change (Z.leb _ _) with true. cbn iota.
      eexists. split; [reflexivity|]. apply new_shape in Ep as [-> Sh].
      constructor; cbn [w_p2 w_wsize w_history p_history p_quantile p_heights]; auto.
      + eexists _, _, _, _. exact Sh.
      + now rewrite Nat.mod_small by lia.
      + intros _. repeat constructor.
    - apply Forall_app in HF as [HF Hx]. inversion Hx as [|? ? Nx _]; subst. specialize (IH HF).
      rewrite app_length. cbn [length]. replace (length xs + 1) with (S (length xs)) by lia. rewrite update_all_snoc.
      destruct (Z.leb_spec (4 + Z.of_nat (late W (length xs))) int_max) as [H|H].
      + destruct IH as (s & -> & I). cbn [bind].
        pose proof (linv_step q W _ s x Fq Hq HW I Nx) as St. exact St.
      + rewrite IH. cbn [bind]. pose proof (late_mono W (length xs) (S (length xs)) ltac:(lia)).
        destruct (Z.leb_spec (4 + Z.of_nat (late W (S (length xs)))) int_max); [lia|reflexivity]. }
  destruct (Z.leb _ _); [|exact G]. destruct G as (s & E & I). exists s. split; [exact E|].
  destruct (li_wf _ _ _ _ I) as ([[[[h0 h1] h2] h3] h4] & m1 & m2 & m3 & (_ & Ep' & _)). rewrite Ep'. reflexivity.
Qed.

Lemma wp2_immortal (q : double) W s0 (xs : list double) : wp2_new (A := B64) q W = Ret s0 -> nan q = false -> 1 <= W <= 4 ->
  Forall (fun x => nan x = false) xs ->
  exists s, update_all wp2_update s0 xs = Ret s /\ p_pos (w_p2 s) = [0; 1; 2; 3; 4]%Z.
Proof.
  intros E0 Nq HW HF. pose proof (wp2_life q W s0 xs E0 Nq ltac:(lia) HF) as G. rewrite late_small in G by lia.
  change (Z.leb _ _) with true in G. cbn iota in G. destruct G as (s & E & N4). exists s. split; [exact E|].
  revert s E N4. assert (Hn : exists p0, p2_new (A := B64) q = Ret p0 /\ s0 = WP2 p0 (of_Z 0) W 0).
  { unfold wp2_new in E0. apply bind_Ret in E0 as (p0 & Ep & E1). injection E1 as <-. eauto. }
  destruct Hn as (p0 & Ep & ->). destruct (new_quant q p0 Ep Nq) as [Fq Hq].
  intros s E _. revert s E. induction xs as [|x xs IH] using rev_ind; intros s E.
  - injection E as <-. apply new_shape in Ep as [-> _]. reflexivity.
  - apply Forall_app in HF as [HF Hx]. rewrite update_all_snoc in E. apply bind_Ret in E as (t & Et & E). specialize (IH HF t Et).
    destruct (wp2_restart (A := B64) q W _ _ _ _ _ E0 ltac:(lia) Et E) as (p & Eu & C).
    pose proof (wp2_inner_count (A := B64) q W _ _ _ E0 ltac:(lia) Et) as Hc.
    pose proof (Nat.mod_upper_bound (length xs) (W + 1) ltac:(lia)) as B.
    assert (Pp : p_pos p = p_pos (w_p2 t)).
    { unfold p2_update in Eu. destruct (Nat.ltb_spec (p_history (w_p2 t)) 5); [|exfalso; assert (p_history (w_p2 t) < 5) by (rewrite Hc; eapply Nat.lt_le_trans; [apply Nat.mod_upper_bound; lia|lia]); lia]. apply bind_Ret in Eu as (h & _ & Eu).
      destruct (Nat.eqb _ _); [apply bind_Ret in Eu as (h' & _ & Eu)|]; injection Eu as <-; reflexivity. }
    destruct (Nat.eqb _ 0).
    + destruct C as (p' & _ & _ & C & _). congruence.
    + destruct C as [C _]. congruence.
Qed.

Lemma late_unbounded n : exists m, n <= late 6 m.
Proof. exists (n * 7). rewrite late_closed by lia. rewrite Nat.div_mul by lia. lia. Qed.

Lemma wp2_life_case :
  late 6 14 = 4 /\
  ok (let* s0 := wp2_new (A := B64) Bhalf 6 in update_all wp2_update s0 (map Bz [3; 1; 4; 1; 5; 9; 2; 6; 5; 3; 5; 8; 9; 7]%Z))
     (fun s => andb (Z.eqb (nth 4 (p_pos (w_p2 s)) 0%Z) 8) (Nat.eqb (p_history (w_p2 s)) 0)) = true /\
  ok (let* s0 := wp2_new (A := B64) Bhalf 3 in update_all wp2_update s0 (map Bz [3; 1; 4; 1; 5; 9; 2; 6; 5; 3; 5; 8; 9; 7]%Z))
     (fun s => Z.eqb (nth 4 (p_pos (w_p2 s)) 0%Z) 4) = true /\
  (exists xs : list double, (2 ^ 31 - 1 < 4 + Z.of_nat (late 6 (length xs)))%Z /\ Forall (fun x => nan x = false) xs).
Proof.
  split; [reflexivity|]. split; [vm_compute; reflexivity|]. split; [vm_compute; reflexivity|].
  destruct (late_unbounded (Z.to_nat (2 ^ 31))) as [m Hm]. exists (repeat (Bz 1) m). split.
  - rewrite repeat_length. apply Nat2Z.inj_le in Hm. rewrite Z2Nat.id in Hm by lia. lia.
  - apply Forall_forall. intros y Hy. apply repeat_spec in Hy. subst y. reflexivity.
Qed.
