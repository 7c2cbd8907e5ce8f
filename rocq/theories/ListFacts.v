(** List lemmas shared by the proofs. *)

From Coq Require Import List Arith Lia.
From Verif Require Import Outcome Spec.
Import ListNotations.

Lemma set_nth_length {X} (v : list X) i a : length (set_nth v i a) = length v.
Proof. revert i; induction v; intros [|i]; simpl; auto. Qed.

Lemma nth_error_set_nth {X} (v : list X) i a j :
  nth_error (set_nth v i a) j =
  if Nat.eqb i j then (if Nat.ltb i (length v) then Some a else None) else nth_error v j.
Proof.
  revert i j; induction v; intros [|i] [|j]; simpl; auto.
  - destruct (Nat.eqb i j); auto.
  - rewrite IHv. destruct (Nat.eqb i j); auto.
Qed.

Lemma at_Ret {X} (v : list X) i a : at_ v i = Ret a <-> nth_error v i = Some a.
Proof. unfold at_; destruct (nth_error v i); split; congruence. Qed.

Lemma at_lt {X} (v : list X) i : i < length v -> exists a, at_ v i = Ret a.
Proof.
  intros H. unfold at_. destruct (nth_error v i) eqn:E; eauto.
  apply nth_error_None in E; lia.
Qed.

Lemma at_oob {X} (v : list X) i : length v <= i -> at_ v i = Undef OutOfBounds.
Proof. intros H. unfold at_. apply nth_error_None in H. now rewrite H. Qed.

Lemma store_Ret {X} (v : list X) i a : i < length v -> store v i a = Ret (set_nth v i a).
Proof. intros H. unfold store. apply Nat.ltb_lt in H. now rewrite H. Qed.

Lemma lastn_length {X} n (l : list X) : length (lastn n l) = Nat.min n (length l).
Proof. unfold lastn. rewrite skipn_length. lia. Qed.

Lemma lastn_all {X} n (l : list X) : length l <= n -> lastn n l = l.
Proof. intros H. unfold lastn. now replace (length l - n) with 0 by lia. Qed.

Lemma lastn_snoc_short {X} n (l : list X) x : length l < n -> lastn n (l ++ [x]) = l ++ [x].
Proof. intros. apply lastn_all. rewrite app_length; simpl; lia. Qed.

Lemma lastn_snoc_full {X} n (l : list X) x : length l = n -> 0 < n ->
  lastn n (l ++ [x]) = tl l ++ [x].
Proof.
  intros H Hn. unfold lastn. rewrite app_length; simpl.
  replace (length l + 1 - n) with 1 by lia. destruct l; simpl in *; [lia|auto].
Qed.

(** Appending one more item: what the window loses and gains. *)
Lemma lastn_snoc {X} n (l : list X) x : 0 < n ->
  lastn n (l ++ [x]) = (if Nat.ltb (length l) n then lastn n l else tl (lastn n l)) ++ [x].
Proof.
  intros Hn. destruct (Nat.ltb_spec (length l) n).
  - rewrite lastn_snoc_short, lastn_all by lia. auto.
  - unfold lastn. rewrite app_length; simpl.
    replace (length l + 1 - n) with (S (length l - n)) by lia.
    assert (length l - n < length l) by lia. revert H0. generalize (length l - n) as k.
    clear H Hn. induction l; simpl; intros k Hk; [lia|].
    destruct k; simpl; auto. rewrite <- IHl by lia. destruct l; simpl; auto; simpl in Hk; lia.
Qed.

Lemma lastn_lastn_snoc {X} n (l : list X) x :
  lastn n (lastn n l ++ [x]) = lastn n (l ++ [x]).
Proof.
  destruct (Nat.eq_dec n 0) as [->|].
  - unfold lastn. rewrite !skipn_all2; auto; rewrite ?app_length, ?skipn_length; lia.
  - rewrite !lastn_snoc by lia. rewrite lastn_length.
    destruct (Nat.ltb_spec (length l) n).
    + rewrite (lastn_all n l) by lia. rewrite Nat.min_r by lia.
      destruct (Nat.ltb_spec (length l) n); [|lia]. now rewrite lastn_all by lia.
    + rewrite Nat.min_l by lia. rewrite Nat.ltb_irrefl.
      rewrite (lastn_all n (lastn n l)); auto. rewrite lastn_length; lia.
Qed.

(** ** Batch updates *)
Lemma update_all_app {S X} (u : S -> X -> outcome S) s xs ys :
  update_all u s (xs ++ ys) = bind (update_all u s xs) (fun s' => update_all u s' ys).
Proof.
  revert s; induction xs; intros s; simpl; auto.
  destruct (u s a); simpl; auto.
Qed.

Lemma update_all_snoc {S X} (u : S -> X -> outcome S) s xs x :
  update_all u s (xs ++ [x]) = bind (update_all u s xs) (fun s' => u s' x).
Proof.
  rewrite update_all_app. destruct (update_all u s xs); simpl; auto.
  destruct (u a x); auto.
Qed.

Lemma bind_Ret {A B} (m : outcome A) (f : A -> outcome B) b :
  bind m f = Ret b -> exists a, m = Ret a /\ f a = Ret b.
Proof. destruct m; simpl; intros; try discriminate; eauto. Qed.

(** Invariant principle for streams. *)
Lemma update_all_inv {S X} (u : S -> X -> outcome S) (P : list X -> S -> Prop) s0 :
  P [] s0 ->
  (forall xs s x s', P xs s -> u s x = Ret s' -> P (xs ++ [x]) s') ->
  forall xs s, update_all u s0 xs = Ret s -> P xs s.
Proof.
  intros H0 Hs xs. induction xs using rev_ind; intros s H.
  - simpl in H. inversion H; subst; auto.
  - rewrite update_all_snoc in H. apply bind_Ret in H as (s' & H1 & H2). eauto.
Qed.

(** Invariant principle when updates never fail. *)
Lemma update_all_total {S X} (u : S -> X -> outcome S) (P : list X -> S -> Prop) s0 :
  P [] s0 ->
  (forall xs s x, P xs s -> exists s', u s x = Ret s' /\ P (xs ++ [x]) s') ->
  forall xs, exists s, update_all u s0 xs = Ret s /\ P xs s.
Proof.
  intros H0 Hs xs. induction xs using rev_ind.
  - simpl. eauto.
  - destruct IHxs as (s & E & HP). destruct (Hs _ _ x HP) as (s' & E' & HP').
    exists s'. rewrite update_all_snoc, E. simpl. auto.
Qed.

(** Prefixes of a successful stream succeed. *)
Lemma update_all_prefix {S X} (u : S -> X -> outcome S) s xs ys s' :
  update_all u s (xs ++ ys) = Ret s' -> exists s1, update_all u s xs = Ret s1.
Proof. rewrite update_all_app. intros H. apply bind_Ret in H as (s1 & H1 & _). eauto. Qed.

(** The iterator loop calls update on the elements in order. *)
Lemma batch_update_all {S X} (u : S -> X -> outcome S) s xs :
  batch_update u s xs = update_all u s xs.
Proof.
  unfold batch_update.
  assert (G : forall ys zs s, xs = zs ++ ys ->
    batch_from (length ys) u s xs (length zs) = update_all u s ys).
  { induction ys as [|y ys IH]; intros zs t E; subst xs; simpl; rewrite app_length; simpl.
    - now rewrite Nat.add_0_r, Nat.eqb_refl.
    - destruct (Nat.eqb_spec (length zs) (length zs + Datatypes.S (length ys))); [lia|].
      unfold at_. rewrite nth_error_app2, Nat.sub_diag by lia. simpl.
      destruct (u t y) as [t'| |]; simpl; auto.
      specialize (IH (zs ++ [y]) t'). rewrite app_length in IH. simpl in IH.
      rewrite <- app_assoc in IH. apply IH. auto. }
  apply (G xs [] s). auto.
Qed.

Lemma batches_concat {S X} (u : S -> X -> outcome S) s xss :
  update_all (batch_update u) s xss = update_all u s (concat xss).
Proof.
  revert s; induction xss as [|xs xss IH]; intros s; simpl; auto.
  rewrite batch_update_all, update_all_app. destruct (update_all u s xs); simpl; auto.
Qed.

Lemma batches_any_split {S X} (u : S -> X -> outcome S) s xss yss :
  concat xss = concat yss ->
  update_all (batch_update u) s xss = update_all (batch_update u) s yss.
Proof. intros H. rewrite !batches_concat. now rewrite H. Qed.

Lemma batch_failure {S X} (u : S -> X -> outcome S) s xs ys :
  (forall s', update_all u s xs <> Ret s') ->
  batch_update u s (xs ++ ys) = batch_update u s xs.
Proof.
  intros H. rewrite !batch_update_all, update_all_app.
  destruct (update_all u s xs); simpl; auto. exfalso. eapply H; eauto.
Qed.
