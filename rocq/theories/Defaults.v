(** The default parameters written in the headers. *)

From Coq Require Import List Reals ZArith Lra Lia Bool Arith.
From Flocq Require Import Core.Core IEEE754.BinarySingleNaN.
From Verif Require Import Outcome Arith Utils Fame P2 FloatSpec FloatFacts P2Float.
Open Scope R_scope.

Lemma eps_default : B2R (default_eps (A := B64)) = rnd (1 / 10000) /\ finite64 (default_eps (A := B64)) = true.
Proof. apply lit_nearest; lia. Qed.

Lemma mad_default : exists s, mad_new (A := B64) = Ret s /\
  B2R (f_step (a_score s)) = rnd (1 / 10) /\ B2R (f_step (a_error s)) = rnd (1 / 10) /\
  B2R (f_epsilon (a_score s)) = 0 /\ B2R (f_epsilon (a_error s)) = 0 /\
  B2R (f_median (a_score s)) = 0 /\ B2R (f_median (a_error s)) = 0.
Proof.
  destruct (lit_nearest 1 10) as [E _]; [lia|lia|].
  exists (Mad (Fame (of_Z 0) (lit 1 10) (of_Z 0) 0) (Fame (of_Z 0) (lit 1 10) (of_Z 0) 0) 0).
  split; [reflexivity|]. cbn [a_score a_error f_step f_epsilon f_median].
  repeat split; auto; reflexivity.
Qed.

Lemma format_quarters (m : Z) : (Z.abs m < 2 ^ 53)%Z -> generic_format radix2 fexp64 (IZR m / 4).
Proof.
  intros H. replace (IZR m / 4) with (F2R (Float radix2 m (-2))).
  2:{ unfold F2R. cbn [Fnum Fexp]. change (bpow radix2 (-2)) with (/ IZR (Zpower_pos radix2 2)).
      change (Zpower_pos radix2 2) with 4%Z. reflexivity. }
  apply generic_format_FLT. eexists; [reflexivity| |]; cbn [Fnum Fexp]; [exact H|unfold SpecFloat.emin; lia].
Qed.

Lemma iqr_default W : exists s, iqr_new (A := B64) W = Ret s /\
  B2R (p_quantile (w_p2 (i_low s))) = 1 / 4 /\ B2R (p_quantile (w_p2 (i_high s))) = 3 / 4 /\
  w_wsize (i_low s) = W /\ w_wsize (i_high s) = W.
Proof.
  destruct (lit_nearest 1 4) as [E1 F1]; [lia|lia|]. destruct (lit_nearest 3 4) as [E3 F3]; [lia|lia|].
  rewrite rnd_fix in E1 by (apply format_quarters; lia). rewrite rnd_fix in E3 by (apply format_quarters; lia).
  assert (N : forall q : double, finite64 q = true -> 0 < B2R q < 1 -> exists s, p2_new (A := B64) q = Ret s /\ p_quantile s = q).
  { intros q Fq Hq. destruct (p2_new_B64 q) as [_ [_ H]].
    destruct H as [s H]; [right; rewrite X_fin by auto; auto|]. exists s. split; auto.
    unfold p2_new in H. destruct (_ || _); [discriminate|]. now injection H as <-. }
  destruct (N _ F1) as (l & El & Ql); [lra|]. destruct (N _ F3) as (h & Eh & Qh); [lra|].
  unfold iqr_new, iqr_new_range, wp2_new. rewrite El, Eh. cbn [bind].
  eexists. split; [reflexivity|]. cbn [i_low i_high w_p2 w_wsize]. rewrite Ql, Qh. auto.
Qed.
