(** Property theorems C128: objects that are asked between observations. *)

From Coq Require Import List Reals ZArith Bool.
From Flocq Require Import Core.Core IEEE754.BinarySingleNaN.
From Verif Require Import Outcome Arith P2 Spec FloatSpec P2Facts P2Float P2Witness AskWinSpec AskWin.
Import ListNotations.
Local Open Scope nat_scope.

(** C128. Calls of evaluate() made only before the first or after the fifth
    observation of a block leave every later answer as it would have been
    without them. *)
Theorem C128_windowed_p2 :
  forall (q : R) (W : nat) (os : list (w_op R)),
    (0 < q < 1)%R -> 4 <= W -> asked_well W (os ++ [WAsk]) -> (Z.of_nat (length (observations os)) <= 2 ^ 31)%Z ->
    exists s0 s s' t t' v, wp2_new (A := RA) q W = Ret s0 /\
      w_calls (X := R) wp2_update wp2_evaluate s0 os = Ret s /\ wp2_evaluate s = Ret (s', v) /\
      update_all wp2_update s0 (observations os) = Ret t /\ wp2_evaluate t = Ret (t', v).
Proof. exact asked_RA. Qed.
Print Assumptions C128_windowed_p2.

Theorem C128_windowed_p2_double :
  forall (q : double) (W : nat) (s0 : wp2 B64) (os : list (w_op double)) (s s' : wp2 B64) (v : double),
    4 <= W -> wp2_new (A := B64) q W = Ret s0 -> asked_well W (os ++ [WAsk]) ->
    w_calls (X := double) wp2_update wp2_evaluate s0 os = Ret s -> wp2_evaluate s = Ret (s', v) ->
    exists t t', update_all wp2_update s0 (observations os) = Ret t /\ wp2_evaluate t = Ret (t', v).
Proof. exact (asked_same pos_B64 neg_B64 idem_B64). Qed.
Print Assumptions C128_windowed_p2_double.

Theorem C128_iqr :
  forall (ql qh : R) (W : nat) (os : list (w_op R)),
    (0 < ql < 1)%R -> (0 < qh < 1)%R -> 4 <= W -> asked_well W (os ++ [WAsk]) ->
    (Z.of_nat (length (observations os)) <= 2 ^ 31)%Z ->
    exists s0 s s' t t' v, iqr_new_range (A := RA) ql qh W = Ret s0 /\
      w_calls (X := R) iqr_update iqr_evaluate s0 os = Ret s /\ iqr_evaluate s = Ret (s', v) /\
      update_all iqr_update s0 (observations os) = Ret t /\ iqr_evaluate t = Ret (t', v).
Proof. exact iqr_asked_RA. Qed.
Print Assumptions C128_iqr.

Theorem C128_iqr_double :
  forall (ql qh : double) (W : nat) (s0 : iqr B64) (os : list (w_op double)) (s s' : iqr B64) (v : double),
    4 <= W -> iqr_new_range (A := B64) ql qh W = Ret s0 -> asked_well W (os ++ [WAsk]) ->
    w_calls (X := double) iqr_update iqr_evaluate s0 os = Ret s -> iqr_evaluate s = Ret (s', v) ->
    exists t t', update_all iqr_update s0 (observations os) = Ret t /\ iqr_evaluate t = Ret (t', v).
Proof. exact (iqr_asked_same pos_B64 neg_B64 idem_B64). Qed.
Print Assumptions C128_iqr_double.

(** The same observations, asked after each of the first four of the second
    block or not: 2 against 6. *)
Theorem C128_asked_early_refuted :
  exists (q : double) (W : nat) (os os' : list (w_op double)) (s0 s t s' t' : wp2 B64) (u v : double),
    4 <= W /\ observations os = observations os' /\ wp2_new (A := B64) q W = Ret s0 /\
    w_calls (X := double) wp2_update wp2_evaluate s0 os = Ret s /\ w_calls (X := double) wp2_update wp2_evaluate s0 os' = Ret t /\
    wp2_evaluate s = Ret (s', u) /\ wp2_evaluate t = Ret (t', v) /\ Beqb u (Bz 2) = true /\ Beqb v (Bz 6) = true.
Proof. exact early_refuted. Qed.
Print Assumptions C128_asked_early_refuted.

Example C128_example :
  asked_well 5 (late_ops ++ [WAsk]) /\
  exists (s0 s s' : wp2 B64) (v : double), wp2_new (A := B64) Bhalf 5 = Ret s0 /\
    w_calls (X := double) wp2_update wp2_evaluate s0 late_ops = Ret s /\ wp2_evaluate s = Ret (s', v).
Proof. exact late_example. Qed.
