(** Properties C85 and C86: how far the P2 markers can be from their ideals, and
    what the estimate is on data that grow at the ends. *)

From Coq Require Import List Reals ZArith Lra Lia Sorting.Permutation Sorting.Sorted.
From Flocq Require Import Core.Core IEEE754.BinarySingleNaN.
From Verif Require Import Outcome Arith Spec P2 P2Spec FloatSpec P2TrackSpec P2JainFacts P2Track P2TrackDouble.
Import ListNotations.
Open Scope R_scope.

(** C85. Exact arithmetic. *)
Theorem C85_p2_tracks_exact :
  forall (q : R) s0 (xs : list R),
    p2_new (A := RA) q = Ret s0 -> (5 <= length xs)%nat -> (Z.of_nat (length xs) <= 2 ^ 31)%Z ->
    exists s n1 n2 n3,
      update_all p2_update s0 xs = Ret s /\ p_pos s = [0; n1; n2; n3; Z.of_nat (length xs) - 1]%Z /\
      let ideal f := f * (INR (length xs) - 1) in
      -5 <= IZR n1 - ideal (q / 2) <= 1 /\ -3 <= IZR n2 - ideal q <= 3 /\ -1 <= IZR n3 - ideal ((1 + q) / 2) <= 5.
Proof. exact markers_track. Qed.
Print Assumptions C85_p2_tracks_exact.

(** Doubles: everything after the fifth observation may be NaN or infinite. *)
Theorem C85_p2_tracks_double :
  forall (q : double) s0 (xs : list double),
    p2_new (A := B64) q = Ret s0 -> nan q = false ->
    (5 <= length xs)%nat -> (Z.of_nat (length xs) <= 2 ^ 31)%Z -> Forall (fun x => nan x = false) (firstn 5 xs) ->
    exists s n1 n2 n3,
      update_all p2_update s0 xs = Ret s /\ p_pos s = [0; n1; n2; n3; Z.of_nat (length xs) - 1]%Z /\
      let ideal f := f * (INR (length xs) - 1) in
      -5 - 1 / 262144 <= IZR n1 - ideal (B2R q / 2) <= 1 + 1 / 262144 /\
      -3 - 1 / 262144 <= IZR n2 - ideal (B2R q) <= 3 + 1 / 262144 /\
      -1 - 1 / 262144 <= IZR n3 - ideal ((1 + B2R q) / 2) <= 5 + 1 / 262144.
Proof. exact markers_track_B64. Qed.
Print Assumptions C85_p2_tracks_double.

(** No bound below 3 holds for the middle marker. *)
Theorem C85_p2_tight :
  forall e : R, 0 < e ->
    exists (q : R) s0 s n2,
      p2_new (A := RA) q = Ret s0 /\ update_all p2_update s0 [1; 2; 3; 4; 5; 6] = Ret s /\
      nth_error (p_pos s) 2 = Some n2 /\ q * (INR (length [1; 2; 3; 4; 5; 6]) - 1) - IZR n2 > 3 - e.
Proof. exact track_tight. Qed.
Print Assumptions C85_p2_tight.

(** The hypotheses hold; in doubles with a NaN and an infinity in the stream. *)
Example C85_example :
  (exists s0, p2_new (A := RA) (1 / 2) = Ret s0) /\
  match (let* s0 := p2_new (A := B64) (lit 1 2) in
         update_all p2_update s0 (map Bz [5; 1; 4; 2; 3]%Z ++ [Bquot (Bz 0) (Bz 0); Bquot (Bz 1) (Bz 0); Bz 2])) with
  | Ret s => match p_pos s with [0; 1; 3; 5; 7]%Z => true | _ => false end
  | _ => false
  end = true.
Proof. split; [apply p2_published_case|vm_compute; reflexivity]. Qed.

(** C86. [ys] is the sorted stream: the estimate is its item number k. *)
Theorem C86_p2_ramp :
  forall (q : R) s0 (b lo : R) (xs : list R),
    p2_new (A := RA) q = Ret s0 -> 0 < b -> ramp b lo xs ->
    (5 < length xs)%nat -> (Z.of_nat (length xs) <= 2 ^ 31)%Z ->
    exists s k,
      update_all p2_update s0 xs = Ret s /\ p2_evaluate s = Ret (s, lo + b * INR k) /\
      (k < length xs)%nat /\ Rabs (INR k - q * (INR (length xs) - 1)) <= 3 /\
      (forall ys, Permutation ys xs -> StronglySorted Rle ys -> nth k ys 0 = lo + b * INR k).
Proof. exact ramp_estimate. Qed.
Print Assumptions C86_p2_ramp.

(** 3, 1, 2, 5, 4, then 6 at the top and 0 at the bottom. *)
Example C86_example : ramp 1 0 [3; 1; 2; 5; 4; 6; 0] /\ (exists s0, p2_new (A := RA) (1 / 2) = Ret s0).
Proof.
  split; [|apply p2_published_case].
  replace [3; 1; 2; 5; 4; 6; 0] with ([3; 1; 2; 5; 4; 6] ++ [1 - 1]) by (cbn; do 6 f_equal; f_equal; lra).
  replace 0 with (1 - 1) at 1 by lra. apply ramp_down.
  replace [3; 1; 2; 5; 4; 6] with ([3; 1; 2; 5; 4] ++ [1 + 1 * INR (length [3; 1; 2; 5; 4])]) by (cbn; do 5 f_equal; f_equal; lra).
  apply ramp_up, ramp_five.
  replace (1 + 1) with 2 by lra. replace (1 + 2 * 1) with 3 by lra. replace (1 + 3 * 1) with 4 by lra. replace (1 + 4 * 1) with 5 by lra.
  apply Permutation_cons_app with (l1 := [1; 2]) (l2 := [4; 5]). cbn [app].
  apply perm_skip, perm_skip, perm_swap.
Qed.
