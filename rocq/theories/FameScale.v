(** WindowedFAME and StreamingMAD in another unit, in exact arithmetic. *)

From Coq Require Import List Reals ZArith Lra Lia Bool Arith.
From Verif Require Import Outcome Arith UtilsFacts Fame FameSpec FameFacts.
Import ListNotations.
Open Scope R_scope.

Section Scale.
  Variables (c : R) (Hc : c <> 0).

  Definition fscale (s : fame RA) : fame RA :=
    Fame (A := RA) (c * f_median s) (Rabs c * f_step s) (f_epsilon s) (f_history s).

  Lemma abs_pos : 0 < Rabs c.
  Proof. now apply Rabs_pos_lt. Qed.

  Lemma max_scale x y : max_ (A := RA) (Rabs c * x) (Rabs c * y) = Rabs c * max_ (A := RA) x y.
  Proof.
    pose proof abs_pos. unfold max_. cbn [RA ltb]. unfold Rltb.
    destruct (Rlt_dec (Rabs c * x) (Rabs c * y)), (Rlt_dec x y); auto; exfalso; nra.
  Qed.

  Lemma move_scale (m x st : R) :
    (if Rltb (c * x) (c * m) then c * m - Rabs c * st else if Rltb (c * m) (c * x) then c * m + Rabs c * st else c * m) =
    c * (if Rltb x m then m - st else if Rltb m x then m + st else m).
  Proof.
    unfold Rltb. destruct (Rlt_dec c 0) as [N|N].
    - rewrite (Rabs_left c) by auto.
      destruct (Rlt_dec (c * x) (c * m)), (Rlt_dec x m), (Rlt_dec m x), (Rlt_dec (c * m) (c * x)); try lra; exfalso; nra.
    - assert (P : 0 < c) by lra. rewrite (Rabs_right c) by lra.
      destruct (Rlt_dec (c * x) (c * m)), (Rlt_dec x m), (Rlt_dec m x), (Rlt_dec (c * m) (c * x)); try lra; exfalso; nra.
  Qed.

  Lemma near_scale (x m st : R) : Rltb (Rabs (c * x - c * m)) (Rabs c * st) = Rltb (Rabs (x - m)) st.
  Proof.
    pose proof abs_pos. replace (c * x - c * m) with (c * (x - m)) by ring. rewrite Rabs_mult. unfold Rltb.
    destruct (Rlt_dec (Rabs c * Rabs (x - m)) (Rabs c * st)), (Rlt_dec (Rabs (x - m)) st); auto; exfalso; nra.
  Qed.

  (** The last part of update, from the median and the step it starts with. *)
  Definition tail (first : bool) (m st e x : R) (h : nat) : fame RA :=
    let m1 := if Rltb x m then m - st else if Rltb m x then m + st else m in
    let st1 := if negb first && Rltb (Rabs (x - m1)) st then st / 2 else st in
    Fame (A := RA) m1 (st1 * (1 + e)) e (h + 1).

  Lemma tail_scale b m st e x h : tail b (c * m) (Rabs c * st) e (c * x) h = fscale (tail b m st e x h).
  Proof.
    unfold tail. rewrite move_scale. set (m1 := if Rltb x m then _ else _). rewrite near_scale. unfold fscale.
    cbn [f_median f_step f_epsilon f_history].
    destruct (negb b && _)%bool; apply (f_equal (fun t => Fame (A := RA) _ t _ _)); match goal with |- ?x = ?y => change (@eq R x y) end; unfold Rdiv; ring.
  Qed.

  Lemma update_fscale (s : fame RA) x : fame_update (fscale s) (c * x) = fscale (fame_update s x).
  Proof.
    destruct s as [m st e h]. destruct h as [|h].
    - change (fame_update (fscale (Fame (A := RA) m st e 0)) (c * x)) with
        (tail true (c * x) (max_ (A := RA) (Rabs (c * x) / 2) (Rabs c * st)) e (c * x) 0).
      change (fame_update (Fame (A := RA) m st e 0) x) with (tail true x (max_ (A := RA) (Rabs x / 2) st) e x 0).
      rewrite <- tail_scale. f_equal. rewrite <- max_scale. apply (f_equal (fun t => max_ (A := RA) t _)).
      match goal with |- ?x = ?y => change (@eq R x y) end. rewrite Rabs_mult. unfold Rdiv. ring.
    - exact (tail_scale false m st e x (S h)).
  Qed.

  Lemma run_fscale (s : fame RA) xs : fame_run (fscale s) (map (Rmult c) xs) = fscale (fame_run s xs).
  Proof.
    unfold fame_run. revert s. induction xs as [|x xs IH]; intros s; [reflexivity|].
    cbn [map fold_left]. rewrite <- IH. f_equal. apply update_fscale.
  Qed.

  Lemma fame_scale step eps s s' xs : fame_new (A := RA) step eps = Ret s -> fame_new (A := RA) (Rabs c * step) eps = Ret s' ->
    fame_evaluate (fame_run s' (map (Rmult c) xs)) = c * fame_evaluate (fame_run s xs).
  Proof.
    unfold fame_new. destruct (_ || _)%bool; [discriminate|]. intros [= <-] [= <-].
    etransitivity; [|exact (f_equal f_median (run_fscale (Fame (A := RA) (of_Z 0) step eps 0) xs))].
    unfold fame_evaluate. f_equal. f_equal. unfold fscale. cbn [f_median f_step f_epsilon f_history]. f_equal. cbn. ring.
  Qed.
End Scale.

(** The default parameters do not scale: every observation adds at most 0.1. *)
Lemma mad_new_fields s : mad_new (A := RA) = Ret s -> a_error s = Fame (A := RA) 0 (1 / 10) 0 0 /\ a_score s = Fame (A := RA) 0 (1 / 10) 0 0.
Proof.
  unfold mad_new, fame_new. cbn. unfold Rltb, Rleb.
  destruct (Rlt_dec 0 0); [lra|]. destruct (Rle_dec 1 0); [lra|]. intros [= <-]. split; reflexivity.
Qed.

Lemma fame_up (s : fame RA) x : f_epsilon s = 0 -> f_history s <> 0%nat -> 0 <= f_step s ->
  f_median (fame_update s x) <= f_median s + f_step s /\ 0 <= f_step (fame_update s x) <= f_step s /\
  f_epsilon (fame_update s x) = 0 /\ f_history (fame_update s x) <> 0%nat.
Proof.
  destruct s as [m st e h]. cbn [f_median f_step f_epsilon f_history]. intros -> Hh Hs. unfold fame_update.
  cbn [f_median f_step f_epsilon f_history]. destruct (Nat.eqb_spec h 0) as [K|_]; [contradiction|].
  cbn [RA ltb add sub mul div fabs of_Z negb andb]. set (m1 := if Rltb x m then _ else _).
  assert (M : m1 <= m + st) by (unfold m1; destruct (Rltb x m); [lra|destruct (Rltb m x); lra]).
  repeat split; auto; try lia; destruct (Rltb _ st); lra.
Qed.

Lemma mad_error_run : forall xs (s : mad RA), f_epsilon (a_error s) = 0 -> f_history (a_error s) <> 0%nat -> 0 <= f_step (a_error s) <= 1 / 10 ->
  mad_evaluate (mad_run s xs) <= mad_evaluate s + INR (length xs) / 10.
Proof.
  induction xs as [|x xs IH]; intros s He Hh Hs.
  - cbn. lra.
  - cbn [mad_run fold_left length]. rewrite S_INR. change (fold_left mad_update xs (mad_update s x)) with (mad_run (mad_update s x) xs).
    set (d := fabs (a := RA) (x -. fame_evaluate (fame_update (a_score s) x))%num).
    destruct (fame_up (a_error s) d He Hh (proj1 Hs)) as (U & (S1 & S2) & He' & Hh').
    eapply Rle_trans.
    + apply IH; [exact He'|exact Hh'|].
      change (a_error (mad_update s x)) with (fame_update (a_error s) d). lra.
    + change (mad_evaluate (mad_update s x)) with (f_median (fame_update (a_error s) d)).
      change (mad_evaluate s) with (f_median (a_error s)). lra.
Qed.

Lemma mad_speed s x xs : mad_new (A := RA) = Ret s -> 0 <= mad_evaluate (mad_run s (x :: xs)) <= INR (length xs) / 10.
Proof.
  intros E. split; [now apply mad_nonneg_RA|]. destruct (mad_new_fields s E) as (Ee & Es).
  cbn [mad_run fold_left]. change (fold_left mad_update xs (mad_update s x)) with (mad_run (mad_update s x) xs).
  assert (K : a_error (mad_update s x) = Fame (A := RA) 0 (1 / 10) 0 1).
  { assert (F : forall y, fame_update (Fame (A := RA) 0 (1 / 10) 0 0) y = tail true y (max_ (A := RA) (Rabs y / 2) (1 / 10)) 0 y 0) by reflexivity.
    unfold mad_update. cbn [a_error]. rewrite Ee, Es, !F. unfold tail. rewrite !Rltb_irrefl. unfold fame_evaluate. cbn [f_median negb andb].
    cbn [RA sub fabs]. rewrite Rminus_eq_0, !Rabs_R0.
    unfold max_. cbn [RA ltb]. unfold Rltb. destruct (Rlt_dec (0 / 2) (1 / 10)); [|exfalso; lra]. f_equal. lra. }
  eapply Rle_trans; [apply mad_error_run; rewrite K; cbn; auto; lra|].
  unfold mad_evaluate, fame_evaluate. rewrite K. cbn. lra.
Qed.

Lemma mad_negate s xs : mad_new (A := RA) = Ret s ->
  mad_evaluate (mad_run s (map (Rmult (-1)) xs)) = mad_evaluate (mad_run s xs).
Proof.
  intros E. destruct (mad_new_fields s E) as (Ee & Es).
  assert (G : forall xs (t t' : mad RA), a_error t' = a_error t -> a_score t' = fscale (-1) (a_score t) ->
            mad_evaluate (mad_run t' (map (Rmult (-1)) xs)) = mad_evaluate (mad_run t xs)).
  { clear. induction xs as [|x xs IH]; intros t t' H1 H2.
    - unfold mad_evaluate. cbn. now rewrite H1.
    - cbn [map mad_run fold_left]. apply IH.
      + unfold mad_update. cbn [a_error]. rewrite H1, H2. f_equal. rewrite update_fscale by lra.
        unfold fscale, fame_evaluate. cbn [f_median RA sub fabs].
        match goal with |- Rabs ?u = Rabs ?v => replace u with (- v) by ring end. apply Rabs_Ropp.
      + unfold mad_update. cbn [a_score]. rewrite H2. apply update_fscale. lra. }
  apply G; auto. rewrite Es. unfold fscale. cbn. f_equal; [lra|]. rewrite Rabs_left by lra. lra.
Qed.

Ltac rl := repeat match goal with
  | |- context [Rltb ?x ?y] => first
      [ replace (Rltb x y) with true by (symmetry; apply Rltb_true; lra)
      | replace (Rltb x y) with false by (symmetry; apply Rltb_false; lra) ]
  end.

Lemma mad_two s : mad_new (A := RA) = Ret s -> mad_evaluate (mad_run s [4; 10]) = 1 / 10.
Proof.
  intros E. destruct (mad_new_fields s E) as (Ee & Es).
  assert (F0 : forall y, fame_update (Fame (A := RA) 0 (1 / 10) 0 0) y = tail true y (max_ (A := RA) (Rabs y / 2) (1 / 10)) 0 y 0) by reflexivity.
  assert (F1 : forall m st e y, fame_update (Fame (A := RA) m st e 1) y = tail false m st e y 1) by reflexivity.
  assert (K4 : fame_update (Fame (A := RA) 0 (1 / 10) 0 0) 4 = Fame (A := RA) 4 2 0 1).
  { rewrite F0. unfold tail. rewrite !Rltb_irrefl. cbn [negb andb]. unfold max_. cbn [RA ltb]. rewrite Rabs_pos_eq by lra. rl. f_equal. lra. }
  assert (K0 : fame_update (Fame (A := RA) 0 (1 / 10) 0 0) 0 = Fame (A := RA) 0 (1 / 10) 0 1).
  { rewrite F0. unfold tail. rewrite !Rltb_irrefl. cbn [negb andb]. unfold max_. cbn [RA ltb]. rewrite Rabs_R0. rl. f_equal. lra. }
  unfold mad_run. cbn [fold_left]. unfold mad_update. cbn [a_score a_error a_history]. rewrite Es, Ee, K4.
  unfold fame_evaluate at 1. cbn [f_median RA sub fabs]. rewrite Rminus_eq_0, Rabs_R0, K0, F1.
  unfold mad_evaluate, fame_evaluate. cbn [a_error]. rewrite F1. unfold tail. cbn [f_median]. rl.
  rewrite Rabs_pos_eq by lra. rl. lra.
Qed.

Lemma mad_not_scaled s : mad_new (A := RA) = Ret s ->
  mad_evaluate (mad_run s [4; 10]) = 1 / 10 /\ mad_evaluate (mad_run s (map (Rmult 1000) [4; 10])) <= 1 / 10.
Proof.
  intros E. split; [now apply mad_two|]. cbn [map].
  destruct (mad_speed s (1000 * 4) [1000 * 10] E) as (_ & H). cbn [length INR] in H. exact H.
Qed.

Lemma fame_new_zero step : fame_new (A := RA) step 0 = Ret (Fame (A := RA) 0 step 0 0).
Proof. unfold fame_new. cbn. unfold Rltb, Rleb. destruct (Rlt_dec 0 0); [lra|]. destruct (Rle_dec 1 0); [lra|]. reflexivity. Qed.

Lemma fame_both : exists s s', fame_new (A := RA) (1 / 10) 0 = Ret s /\
  fame_new (A := RA) (Rabs (-3) * (1 / 10)) 0 = Ret s'.
Proof. rewrite !fame_new_zero. eauto. Qed.

Lemma mad_exists : exists s, mad_new (A := RA) = Ret s.
Proof.
  unfold mad_new. pose proof (fame_new_zero (1 / 10)) as E.
  exists (Mad (A := RA) (Fame (A := RA) 0 (1 / 10) 0 0) (Fame (A := RA) 0 (1 / 10) 0 0) 0).
  change (fame_new (A := RA) (lit 1 10) (of_Z 0)) with (fame_new (A := RA) (1 / 10) 0). rewrite E. reflexivity.
Qed.
