(** Proofs about PyStreamingHistogram. *)

From Coq Require Import List Sorting.Sorted Arith Bool Lia ZArith Reals Lra.
From Flocq Require Import Core.Core IEEE754.BinarySingleNaN.
From Verif Require Import Outcome Arith Utils IBin Histogram Spec ListFacts HistSpec HistExactSpec FloatSpec FloatFacts
  HistFacts HistOrder HistWitness HistStreams HistExact PyFloat Cython CythonFacts PyHist PyHistSpec.
Import ListNotations.
Local Open Scope nat_scope.

Lemma convert_finite v x : finite_val v = true -> as_double v = inl x -> finite64 x = true.
Proof.
  destruct v as [y|z| | |]; cbn [as_double]; try discriminate; intros F E; [now injection E as <-|].
  destruct (finite64 (Bz z)) eqn:K; [|discriminate]. now injection E as <-.
Qed.

Lemma calls_of_updates (h : hist B64) (xs : list double) :
  hist_calls h (map HUpdate xs) = update_all hist_update h xs.
Proof.
  revert h. induction xs as [|x xs IH]; intros h; cbn; auto. destruct (hist_update h x); cbn; auto.
Qed.

Lemma items_of_updates (xs : list double) : hist_items (A := B64) (map HUpdate xs) = xs.
Proof. induction xs as [|x xs IH]; cbn; auto. f_equal. exact IH. Qed.

Lemma call_ops truth h m h' r : py_hist_call truth h m = Ret (h', r) -> finite_method m = true ->
  exists os, hist_calls h os = Ret h' /\ Forall (fun x : double => finite64 x = true) (hist_items os : list double).
Proof.
  destruct m as [item|n d|n|q| | | | | |]; cbn [py_hist_call finite_method]; intros E F.
  - apply bind_Ret in E as ([h1 e] & Eu & E). injection E as <- _.
    assert (One : forall v h1 e, py_update_one as_double hist_update h v = Ret (h1, e) -> finite_val v = true ->
        exists os, hist_calls h os = Ret h1 /\ Forall (fun x : double => finite64 x = true) (hist_items os : list double)).
    { intros v h2 e2 E1 Fv. unfold py_update_one in E1. destruct (as_double v) as [x|ex] eqn:Ev.
      - apply bind_Ret in E1 as (h3 & E1 & E2). injection E2 as <- _. exists [HUpdate x]. split; [cbn; now rewrite E1|].
        constructor; auto. now apply (convert_finite v).
      - injection E1 as <- _. exists []. split; [reflexivity|constructor]. }
    destruct item as [x|z| | |vs]; try (eapply One; [exact Eu|exact F]).
    apply each_inv in Eu as (xs & k & _ & C & U & _).
    exists (map HUpdate xs). split; [rewrite calls_of_updates; exact U|]. rewrite items_of_updates.
    cbn [finite_val] in F.
    assert (Ff : forallb finite_val (firstn k vs) = true).
    { apply forallb_forall. intros v Iv. rewrite forallb_forall in F. apply F. rewrite <- (firstn_skipn k vs). apply in_or_app. auto. }
    clear - C Ff. induction C as [|v x vs' xs' Ev C IH]; constructor.
    + cbn in Ff. apply andb_prop in Ff as [Fv _]. now apply (convert_finite v).
    + cbn in Ff. apply andb_prop in Ff as [_ Ff]. auto.
  - injection E as <- _. exists []. split; [reflexivity|constructor].
  - injection E as <- _. exists []. split; [reflexivity|constructor].
  - apply bind_Ret in E as (y & _ & E). injection E as <- _. exists []. split; [reflexivity|constructor].
  - apply bind_Ret in E as (y & _ & E). injection E as <- _. exists []. split; [reflexivity|constructor].
  - injection E as <- _. exists []. split; [reflexivity|constructor].
  - injection E as <- _. exists [HReset]. split; [reflexivity|constructor].
  - injection E as <- _. exists []. split; [reflexivity|constructor].
  - injection E as <- _. exists []. split; [reflexivity|constructor].
  - injection E as <- _. exists []. split; [reflexivity|constructor].
Qed.

Lemma calls_app (h : hist B64) os1 os2 : hist_calls h (os1 ++ os2) = bind (hist_calls h os1) (fun h' => hist_calls h' os2).
Proof. revert h. induction os1 as [|o os1 IH]; intros h; cbn; auto. destruct (hist_call h o); cbn; auto. Qed.

Lemma calls_ops truth ms : forall h h', py_hist_calls truth h ms = Ret h' -> forallb finite_method ms = true ->
  exists os, hist_calls h os = Ret h' /\ Forall (fun x : double => finite64 x = true) (hist_items os : list double).
Proof.
  induction ms as [|m ms IH]; cbn; intros h h' E F.
  - injection E as <-. exists []. split; [reflexivity|constructor].
  - apply andb_prop in F as [Fm Fs]. apply bind_Ret in E as ([h1 r] & E1 & E).
    destruct (call_ops truth h m h1 r E1 Fm) as (os1 & C1 & F1). destruct (IH _ _ E Fs) as (os2 & C2 & F2).
    exists (os1 ++ os2). split; [rewrite calls_app, C1; exact C2|].
    clear - F1 F2. induction os1 as [|[x|] os1 IH]; cbn in *; auto. inversion_clear F1. constructor; auto.
Qed.

(** ** The dict has the entries of the map *)

Lemma dict_set_snoc d k v : Forall (fun e => same_key (fst e) k = false) d -> dict_set d k v = d ++ [(k, v)].
Proof. induction 1 as [|[k' v'] d H F IH]; cbn; auto. cbn in H. now rewrite H, IH. Qed.

Lemma dict_of_sorted m : StronglySorted (fun a b => same_key (fst a) (fst b) = false) m -> dict_of_map m = m.
Proof.
  intros S. unfold dict_of_map.
  assert (G : forall r l, StronglySorted (fun a b => same_key (fst a) (fst b) = false) (l ++ r) ->
    fold_left (fun d e => dict_set d (fst e) (snd e)) r l = l ++ r); [|exact (G m [] S)].
  induction r as [|[k v] r IH]; intros l Sl; cbn; [now rewrite app_nil_r|].
  rewrite dict_set_snoc.
  - rewrite IH; rewrite <- app_assoc; auto.
  - clear IH S. induction l as [|e l IHl]; [constructor|]. cbn in Sl. inversion_clear Sl as [|? ? Sl' F].
    constructor; auto. apply Forall_app in F as [_ F]. now inversion_clear F.
Qed.

Lemma lefts_keys (bins : list (bin B64)) : lefts_increasing bins ->
  StronglySorted (fun a b => same_key (fst a) (fst b) = false) (map entry bins).
Proof.
  unfold lefts_increasing. induction 1 as [|b bins S IH F]; cbn; constructor; auto.
  rewrite Forall_map. eapply Forall_impl; [|exact F]. cbn beta. intros c L. unfold same_key, entry. cbn [fst snd].
  assert (Hn : Beqb (b_left b : double) (b_left c) = false); [|now rewrite Hn].
  cbn [ltb B64] in L. set (x := b_left b : double) in * . set (y := b_left c : double) in * . clearbody x y.
  assert (Nx : nan x = false) by (destruct x; auto; destruct y as [|[]| |[]]; discriminate).
  assert (Ny : nan y = false) by (destruct y; auto; destruct x as [|[]| |[]]; discriminate).
  destruct (Beqb x y) eqn:E; auto. apply X_eqb in E; auto. apply X_ltb in L; auto. lra.
Qed.

Lemma python_report truth N W ms (h : hist B64) : 1 <= W ->
  py_hist_calls truth (hist_new N W true) ms = Ret h -> forallb finite_method ms = true ->
  py_hist_call truth h PyReport = Ret (h, inl (RDict (map entry (h_bins h)))) /\
  StronglySorted (fun a b => same_key (fst a) (fst b) = false) (map entry (h_bins h)).
Proof.
  intros HW E F. destruct (calls_ops truth ms _ _ E F) as (os & C & Fi).
  pose proof (report_B64 N W os h HW C Fi) as R.
  destruct (run_good ordered_B64 N W os h HW C Fi) as ((_ & S & _) & _).
  pose proof (lefts_keys _ S) as K. split; [|exact K].
  cbn [py_hist_call]. rewrite R. rewrite dict_of_sorted; [reflexivity|exact K].
Qed.

(** ** update of a whole list, then report *)

Lemma python_end_to_end truth N W (xs : list double) : 1 <= N -> length xs <= W ->
  Forall (fun x => finite64 x = true /\ (Rabs (B2R x) <= bpow radix2 1022)%R) xs -> separated (A := B64) xs ->
  exists h d,
    py_hist_call truth (hist_new N W true) (PyUpdate (PyIter (map PyFloat xs))) = Ret (h, inl RNone) /\
    py_hist_call truth h PyReport = Ret (h, inl (RDict d)) /\
    py_hist_call truth h PyBinCounts = Ret (h, inl (RList (map (fun e => RInt (Z.of_nat (snd e))) d))) /\
    py_hist_call truth h PySize = Ret (h, inl (RInt (Z.of_nat (length d)))) /\
    py_hist_call truth h PyEmpty = Ret (h, inl (RBool (Nat.eqb (length xs) 0))) /\
    py_hist_call truth h PyFull = Ret (h, inl (RBool (Nat.ltb 0 (length xs)))) /\
    length d <= N /\ list_sum (map snd d) = length xs /\
    Forall (fun e => let '((l, r), c) := e in
      (B2R l <= B2R r)%R /\ c = inside (B2R l) (B2R r) (map B2R xs)) d /\
    StronglySorted (fun a b => (B2R (snd (fst a)) < B2R (fst (fst b)))%R) d.
Proof.
  intros HN L F S. destruct (exact_B64 N W xs HN L F S) as (h & E & Sz & Ord & Cnt & _).
  destruct xs as [|x0 xs0].
  { injection E as <-. exists (hist_new N W true), []. cbn. repeat split; auto; try lia; try constructor. }
  assert (HW : 1 <= W) by (cbn in L; lia). set (xs := x0 :: xs0) in * . clearbody xs. clear x0 xs0.
  assert (E' := E). rewrite <- calls_of_updates in E'.
  assert (Fi : Forall (fun x : double => finite64 x = true) (hist_items (A := B64) (map HUpdate xs))).
  { rewrite items_of_updates. eapply Forall_impl; [|exact F]. intros a [H _]. exact H. }
  pose proof (report_B64 N W _ h HW E' Fi) as R.
  destruct (run_good ordered_B64 N W _ h HW E' Fi) as ((_ & Sl & _) & _).
  destruct (proj2 (run_counts _ _ _ _ E) L) as [C T].
  exists h, (map entry (h_bins h)).
  assert (U : py_update as_double hist_update (hist_new (A := B64) N W true) (PyIter (map PyFloat xs)) = Ret (h, None)).
  { rewrite (py_update_numbers _ _ _ xs _ (floats_convert xs)).
    transitivity (bind (Ret h) (fun s' => Ret (s', @None pyexn))); [f_equal; exact E|reflexivity]. }
  split; [cbn [py_hist_call]; rewrite U; reflexivity|].
  split; [cbn [py_hist_call]; rewrite R, dict_of_sorted; [reflexivity|now apply lefts_keys]|].
  split.
  { cbn [py_hist_call]. pose proof (run_binCounts N W xs h E L) as B. rewrite B. cbn. rewrite !map_map. reflexivity. }
  split; [cbn [py_hist_call]; unfold hist_size; now rewrite map_length|].
  assert (Em : hist_empty h = Nat.eqb (length xs) 0).
  { unfold hist_empty. destruct (h_bins h) as [|b bs] eqn:Hb.
    - unfold counts_sum in C. rewrite Hb in C. cbn [map list_sum fold_right] in C. change (0 = length (xs : list double)) in C. now rewrite <- C.
    - destruct xs; [|reflexivity]. injection E as <-. discriminate Hb. }
  split; [cbn [py_hist_call]; now rewrite Em|].
  split; [cbn [py_hist_call]; unfold hist_full; rewrite Em; destruct xs; reflexivity|].
  split; [rewrite map_length; exact Sz|].
  split; [rewrite map_map; exact C|].
  split.
  - rewrite Forall_map. eapply Forall_impl; [|exact Cnt]. cbn. intros b (_ & _ & H1 & H2). auto.
  - clear - Ord. induction Ord as [|b bs S IH F]; cbn; constructor; auto. rewrite Forall_map. exact F.
Qed.

(** ** quantile *)

Lemma python_quantile truth (h : hist B64) v :
  py_hist_call truth h (PyQuantile v) =
  match as_double v with
  | inr e => Ret (h, inr e)
  | inl q =>
      match hist_quantile h q with
      | Ret x => Ret (h, inl (RFloat x))
      | Throw e => Ret (h, inr (translate e))
      | Undef u => Undef u
      end
  end.
Proof. cbn [py_hist_call]. destruct (as_double v) as [q|e]; cbn; auto. destruct (hist_quantile h q); reflexivity. Qed.

Lemma python_new_quantile truth N W :
  py_hist_call truth (hist_new N W true) (PyQuantile (PyFloat (lit (A := B64) 1 2))) = Undef OutOfBounds.
Proof.
  rewrite python_quantile. cbn [as_double].
  assert (B : (@ltb B64 (lit 1 2) zero || @ltb B64 (of_Z 1%Z) (lit 1 2))%bool = false) by (vm_compute; reflexivity).
  pose proof (@HistStreams.empty_quantile B64 N W (lit 1 2) B) as H. rewrite H. reflexivity.
Qed.
