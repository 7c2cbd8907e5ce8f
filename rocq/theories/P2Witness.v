(** Concrete runs of the P2 estimators in doubles. *)

From Coq Require Import List Reals ZArith Lra Lia Bool Arith.
From Flocq Require Import Core.Core IEEE754.BinarySingleNaN.
From Verif Require Import Outcome Arith Spec P2 P2Spec FloatSpec FloatFacts ListFacts.
Import ListNotations.

Definition Bhalf : double := lit (A := B64) 1 2.
Definition Bq3 : double := lit (A := B64) 3 4.
Definition Bnan : double := Bquot (Bz 0) (Bz 0).

(** [ok o f] runs a boolean check on a normal outcome. *)
Definition ok {X} (o : outcome X) (f : X -> bool) : bool := match o with Ret x => f x | _ => false end.
Lemma ok_true {X} (o : outcome X) f : ok o f = true -> exists x, o = Ret x /\ f x = true.
Proof. destruct o; simpl; try discriminate. eauto. Qed.

Definition p2_stream (q : double) (zs : list Z) : outcome (p2 B64) :=
  let* s0 := p2_new (A := B64) q in update_all p2_update s0 (map Bz zs).
Definition wp2_stream (q : double) (W : nat) (zs : list Z) : outcome (wp2 B64) :=
  let* s0 := wp2_new (A := B64) q W in update_all wp2_update s0 (map Bz zs).
Definition iqr_stream (W : nat) (zs : list Z) : outcome (iqr B64) :=
  let* s0 := iqr_new (A := B64) W in update_all iqr_update s0 (map Bz zs).

Lemma Forall_Bz (f : double -> bool) zs : forallb (fun z => f (Bz z)) zs = true -> Forall (fun x => f x = true) (map Bz zs).
Proof.
  intros H. rewrite forallb_forall in H. apply Forall_forall. intros x I. apply in_map_iff in I as (z & <- & I). auto.
Qed.

Lemma p2_overflow_witness :
  exists (q : double) s0 (xs : list double) s v,
    p2_new (A := B64) q = Ret s0 /\ nan q = false /\ Forall (fun x => finite64 x = true) xs /\
    update_all p2_update s0 xs = Ret s /\ p2_evaluate s = Ret (s, v) /\ finite64 v = false.
Proof.
  set (zs := [- 2 ^ 1023; - 2 ^ 1023; 2 ^ 1023; - 2 ^ 1023; 2 ^ 1023; 0]%Z).
  assert (H : ok (p2_stream Bq3 zs) (fun s => negb (Nat.leb (p_history s) 5) &&
            ok (p2_evaluate s) (fun '(_, v) => negb (finite64 v)))%bool = true) by (vm_compute; reflexivity).
  apply ok_true in H as (s & E & H). apply andb_prop in H as [Hh H].
  apply ok_true in H as ([s' v] & Ev & Hv).
  unfold p2_stream in E. apply ListFacts.bind_Ret in E as (s0 & E0 & E).
  exists Bq3, s0, (map Bz zs), s, v. repeat split; auto.
  - apply Forall_Bz. vm_compute. reflexivity.
  - unfold p2_evaluate in Ev |- * . apply negb_true_iff in Hh. rewrite Hh in Ev |- * .
    destruct (at_ (p_heights s) 2); cbn [bind] in Ev |- * ; try discriminate. injection Ev as <- <-. reflexivity.
  - now apply negb_true_iff.
Qed.

(** evaluate() after the fourth observation changes the answer after the fifth. *)
Lemma p2_evaluate_interferes :
  exists (q : double) s0 (xs : list double) (x : double) s1 s2 a b u v,
    p2_new (A := B64) q = Ret s0 /\ Forall (fun x => finite64 x = true) (x :: xs) /\ length xs = 4%nat /\
    p2_calls s0 (map PUpdate xs ++ [PUpdate x]) = Ret s1 /\
    p2_calls s0 (map PUpdate xs ++ [PEvaluate; PUpdate x]) = Ret s2 /\
    p2_evaluate s1 = Ret (a, u) /\ p2_evaluate s2 = Ret (b, v) /\ Beqb u v = false.
Proof.
  set (zs := [4; -3; 0; 3]%Z).
  assert (H : ok (p2_new (A := B64) Bhalf) (fun s0 =>
              ok (p2_calls s0 (map PUpdate (map Bz zs) ++ [PUpdate (Bz 2 : num B64)])) (fun s1 =>
              ok (p2_calls s0 (map PUpdate (map Bz zs) ++ [PEvaluate; PUpdate (Bz 2 : num B64)])) (fun s2 =>
              ok (p2_evaluate s1) (fun '(_, u) => ok (p2_evaluate s2) (fun '(_, v) =>
                negb (Beqb (u : double) v)))))) = true) by (vm_compute; reflexivity).
  apply ok_true in H as (s0 & E0 & H). apply ok_true in H as (s1 & E1 & H). apply ok_true in H as (s2 & E2 & H).
  apply ok_true in H as ([a u] & Ea & H). apply ok_true in H as ([b v] & Eb & H).
  exists Bhalf, s0, (map Bz zs), (Bz 2), s1, s2, a, b, u, v. repeat split; auto.
  - apply (Forall_Bz finite64 (2 :: zs)%Z). vm_compute. reflexivity.
  - now apply negb_true_iff.
Qed.

Lemma wp2_out_of_range :
  exists (q : double) W s0 (xs : list double) s s' v,
    wp2_new (A := B64) q W = Ret s0 /\ nan q = false /\ Forall (fun x => Bleb (Bz 1) x = true /\ Bleb x (Bz 10) = true) xs /\
    update_all wp2_update s0 xs = Ret s /\ wp2_evaluate s = Ret (s', v) /\ Beqb v (Bz (-8)) = true.
Proof.
  set (zs := [10; 10; 10; 10; 10; 10; 1; 1; 1; 1; 1]%Z).
  assert (H : ok (wp2_stream Bhalf 5 zs) (fun s => ok (wp2_evaluate s) (fun '(_, v) => Beqb (v : double) (Bz (-8)))) = true)
    by (vm_compute; reflexivity).
  apply ok_true in H as (s & E & H). apply ok_true in H as ([s' v] & Ev & Hv).
  unfold wp2_stream in E. apply ListFacts.bind_Ret in E as (s0 & E0 & E).
  exists Bhalf, 5%nat, s0, (map Bz zs), s, s', v. repeat split; auto.
  apply Forall_forall. intros x I. apply andb_prop.
  assert (F := Forall_Bz (fun x => Bleb (Bz 1) x && Bleb x (Bz 10))%bool zs ltac:(vm_compute; reflexivity)).
  rewrite Forall_forall in F. exact (F x I).
Qed.

Lemma iqr_negative (W : nat) zs : ok (iqr_stream W zs) (fun s => ok (iqr_evaluate s) (fun '(_, v) => Bltb (v : double) (Bz 0))) = true ->
  exists s0 s s' v, iqr_new (A := B64) W = Ret s0 /\ update_all iqr_update s0 (map Bz zs) = Ret s /\
    iqr_evaluate s = Ret (s', v) /\ Bltb v (Bz 0) = true.
Proof.
  intros H. apply ok_true in H as (s & E & H). apply ok_true in H as ([s' v] & Ev & Hv).
  unfold iqr_stream in E. apply ListFacts.bind_Ret in E as (s0 & E0 & E). exists s0, s, s', v. auto.
Qed.

Lemma iqr_negative_stream :
  exists (W : nat) s0 (xs : list double) s s' v,
    (length xs < W)%nat /\ iqr_new (A := B64) W = Ret s0 /\ update_all iqr_update s0 xs = Ret s /\
    iqr_evaluate s = Ret (s', v) /\ Bltb v (Bz 0) = true.
Proof.
  destruct (iqr_negative 100 [10;1;0;10;100;100;1000;1;100;1;10;100;1]%Z) as (s0 & s & s' & v & H); [vm_compute; reflexivity|].
  exists 100%nat, s0. eexists. exists s, s', v. split; [|exact H]. apply Nat.ltb_lt. reflexivity.
Qed.

Lemma iqr_negative_constant :
  exists (W : nat) s0 s s' v,
    iqr_new (A := B64) W = Ret s0 /\ update_all iqr_update s0 [Bz 1; Bz 1; Bz 1] = Ret s /\
    iqr_evaluate s = Ret (s', v) /\ Bltb v (Bz 0) = true.
Proof.
  destruct (iqr_negative 2 [1; 1; 1]%Z) as (s0 & s & s' & v & H); [vm_compute; reflexivity|].
  exists 2%nat, s0, s, s', v. exact H.
Qed.

Lemma p2_bracket_case :
  exists s0, p2_new (A := B64) Bhalf = Ret s0 /\
  let xs := map Bz [5; 1; 4; 2; 3; 7]%Z in
  Forall (fun x => finite64 x = true) xs /\ (5 <= length xs)%nat /\
  (forall x y, In x xs -> In y xs -> rnd (B2R y - B2R x) < big)%R.
Proof.
  assert (H : ok (p2_new (A := B64) Bhalf) (fun _ => true) = true) by (vm_compute; reflexivity).
  apply ok_true in H as (s0 & E & _). exists s0. split; auto. cbv zeta. split; [|split].
  - apply Forall_Bz. vm_compute. reflexivity.
  - simpl. lia.
  - assert (G : forall x, In x (map Bz [5; 1; 4; 2; 3; 7]%Z) -> exists z, x = Bz z /\ (1 <= z <= 7)%Z).
    { intros x I. apply in_map_iff in I as (z & <- & I). exists z. split; auto. simpl in I. lia. }
    intros x y Ix Iy. destruct (G x Ix) as (a & -> & Ha). destruct (G y Iy) as (b & -> & Hb).
    destruct (Bz_exact a) as [-> _]; [lia|]. destruct (Bz_exact b) as [-> _]; [lia|].
    rewrite <- minus_IZR. rewrite rnd_fix by (apply format_IZR; lia).
    apply Rle_lt_trans with (IZR 6); [apply IZR_le; lia|].
    unfold big. change 6%Z with (2 * 3)%Z. apply Rlt_le_trans with (bpow radix2 3); [simpl; lra|]. apply bpow_le. lia.
Qed.

Lemma p2_lifetime_case :
  (exists xs : list double, (2 ^ 31 < Z.of_nat (length xs))%Z /\ Forall (fun x => nan x = false) (firstn 5 xs)) /\
  ok (let* s0 := p2_new (A := B64) Bhalf in
      update_all p2_update s0 [Bz 1; Bz 2; Bz 3; Bz 4; Bz 5; Bnan]) (fun _ => true) = true /\
  match (let* s0 := p2_new (A := B64) Bhalf in
         update_all p2_update s0 [Bz 1; Bz 2; Bnan; Bz 4; Bz 5]) with Undef BadPrecondition => true | _ => false end = true.
Proof.
  split; [|split; vm_compute; reflexivity].
  exists (repeat (Bz 0) (Z.to_nat (2 ^ 31 + 1))). rewrite repeat_length, Z2Nat.id by lia. split; [lia|].
  apply Forall_forall. intros x I.
  assert (I' : In x (repeat (Bz 0) (Z.to_nat (2 ^ 31 + 1)))).
  { rewrite <- (firstn_skipn 5). apply in_or_app. auto. }
  apply repeat_spec in I'. subst x. vm_compute. reflexivity.
Qed.
