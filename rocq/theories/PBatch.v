(** Property C06: batch updates. The loop is inherited by every structure and
    statistic, so the statements quantify over the state and its update. *)

From Coq Require Import List Arith NArith.
From Verif Require Import Outcome RingBuffer Mean Spec ListFacts.
Import ListNotations.

Theorem C06_batch_is_one_by_one :
  forall (S X : Type) (update : S -> X -> outcome S) (s : S) (xs : list X),
    batch_update update s xs = update_all update s xs.
Proof. exact @batch_update_all. Qed.
Print Assumptions C06_batch_is_one_by_one.

(** However a stream is cut into batches, the outcome is the same. *)
Theorem C06_batches_concatenate :
  forall (S X : Type) (update : S -> X -> outcome S) (s : S) (xss yss : list (list X)),
    concat xss = concat yss ->
    update_all (batch_update update) s xss = update_all (batch_update update) s yss.
Proof. exact @batches_any_split. Qed.
Print Assumptions C06_batches_concatenate.

(** Elements after one whose update does not return are irrelevant. *)
Theorem C06_nothing_after_a_failure :
  forall (S X : Type) (update : S -> X -> outcome S) (s : S) (xs ys : list X),
    (forall s', update_all update s xs <> Ret s') ->
    batch_update update s (xs ++ ys) = batch_update update s xs.
Proof. exact @batch_failure. Qed.
Print Assumptions C06_nothing_after_a_failure.

Example C06_example :
  concat [[1; 2]; [3]] = concat [[1]; []; [2; 3]] /\
  exists s, batch_update rb_update (rb_new 2%N) [1; 2; 3] = Ret s /\ rb_history s = 3 /\
  forall s', update_all rb_update (rb_new 0%N) [7] <> Ret s'.
Proof. split; [reflexivity|]. eexists. split; [vm_compute; reflexivity|]. split; [reflexivity|discriminate]. Qed.
