(** Proofs about the concurrent LinkedList. *)

From Coq Require Import List.
From stdpp Require Import gmap.
From Verif Require Import Outcome Calls LinkedList LinkedListConc Spec ListFacts.
Import ListNotations.

Section Facts.
  Context {T : Type} (dflt : T).

  (** Run a body without interruption. *)
  Fixpoint lfinish (fuel : nat) (m : llist T) (p : lprog T) : outcome (llist T * rout T) :=
    match p with
    | LDone o => Ret (m, o)
    | _ => match fuel with
           | O => Undef BadPrecondition
           | S f => let* (m', p') := laccess m p in lfinish f m' p'
           end
    end.

  Lemma lfinish_S f m p : (forall o, p <> LDone o) ->
    lfinish (S f) m p = bind (laccess m p) (fun '(m', p') => lfinish f m' p').
  Proof. intros H. destruct p; auto. specialize (H o). congruence. Qed.

  Local Ltac red_l :=
    unfold deref, with_heap;
    cbn [lbody l_update l_update_tail l_pop laccess with_heap bind deref
         ll_window ll_head ll_tail ll_size ll_history ll_heap ll_fresh
         n_value n_next n_prev Nat.pred].
  Local Ltac run_l := repeat (rewrite lfinish_S by (intros; discriminate); red_l).

  (** The bodies, run without interruption, are the sequential functions. *)
  Lemma lfinish_body (m : llist T) c : c <> CReset ->
    (forall l, ll_fresh m <= l -> ll_heap m !! l = None) ->
    (forall t, ll_tail m = Some t -> t < ll_fresh m) ->
    lfinish 30 m (lbody dflt (ll_window m) c) = ll_call dflt m c.
  Proof.
    intros Hc Hf Ht. destruct m as [W hd tl sz hist hp fr]. cbn [ll_fresh ll_heap ll_tail] in Hf, Ht.
    destruct c; try congruence; unfold ll_call.
    - unfold ll_update, ll_empty. red_l. destruct hd as [h|]; run_l; [|auto].
      destruct tl as [t|]; run_l; [|auto].
      specialize (Ht t eq_refl).
            assert (E1 : forall n : node T, <[fr := n]> hp !! t = hp !! t)
        by (intros; apply lookup_insert_ne; lia).
      red_l. rewrite !E1. destruct (hp !! t) as [tn|] eqn:Et; red_l; [|rewrite ?E1; auto]. rewrite ?E1. red_l. run_l.
      assert (E2 : forall n n' : node T, <[t := n']> (<[fr := n]> hp) !! fr = Some n)
        by (intros; rewrite lookup_insert_ne by lia; apply lookup_insert).
       rewrite !E2. red_l. run_l.
      destruct (Nat.eqb_spec sz W); [|run_l; auto].
      unfold ll_pop, ll_empty; run_l.
      match goal with |- context [?hh !! h] => destruct (hh !! h) as [n|] eqn:En end; red_l; [|auto].
      repeat (run_l; rewrite ?En; red_l). auto.
    - unfold ll_pop, ll_empty; red_l. destruct hd as [h|]; run_l; [|auto].
      destruct (hp !! h) as [n|] eqn:E; red_l; [|auto].
      repeat (run_l; rewrite ?E; red_l). auto.
    - auto.
    - destruct hd; auto.
    - destruct hd; auto.
  Qed.

  (** Two updates of an empty list, both seeing it empty. *)
  Lemma race_lost_item W (x y : T) :
    exists s c m' ,
      lexec dflt (lstart W [[CUpdate x]; [CUpdate y]]) s = Ret c /\
      lc_threads c = [LThread None [] [(CUpdate x, OUnit)]; LThread None [] [(CUpdate y, OUnit)]] /\
      ll_run dflt (lc_mem c) [CSize; CPop; CEmpty; CPop; CSize] =
        Ret (m', [ONum 2%N; OVal y; OBool true; OVal dflt; ONum 1%N]).
  Proof.
    exists ([0;0;0] ++ [1;1;1] ++ repeat 0 7 ++ repeat 1 7).
    eexists _, _. split; [vm_compute; reflexivity|]. split; vm_compute; reflexivity.
  Qed.

  (** Two pops of a single item. *)
  Lemma race_pop_undef W (x : T) :
    exists s, lexec dflt (lstart W [[CUpdate x; CPop]; [CPop]]) s = Undef NullDeref.
  Proof.
    exists (repeat 0 10 ++ [0;0] ++ repeat 1 12 ++ [0;0]). vm_compute. reflexivity.
  Qed.

  (** Two pops of the same item can also delete a node twice. *)
  Lemma race_double_free W (x : T) :
    exists s, lexec dflt (lstart W [[CUpdate x; CPop]; [CPop]]) s = Undef BadPointer.
  Proof.
    exists (repeat 0 10 ++ repeat 0 7 ++ repeat 1 7 ++ [0; 1]). vm_compute. reflexivity.
  Qed.
End Facts.
