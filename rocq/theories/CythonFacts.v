(** Proofs about the Cython wrapper classes. *)

From Coq Require Import List ZArith NArith Bool Reals Lra Lia Arith.
From Flocq Require Import Core.Core IEEE754.BinarySingleNaN.
From Verif Require Import Outcome Arith Spec FloatSpec ListFacts FloatFacts Mean P2 Fame Entropy Histogram
  RingBuffer LinkedList PyFloat Cython CythonSpec.
Import ListNotations.
Local Open Scope nat_scope.

Section Update.
  Context {S E : Type} (convert : pyval -> result E) (update : S -> E -> outcome S).

  Lemma each_numbers vs xs s rest :
    Forall2 (fun v x => convert v = inl x) vs xs ->
    py_update_each convert update s (vs ++ rest) =
    bind (update_all update s xs) (fun s' => py_update_each convert update s' rest).
  Proof.
    intros H. revert s. induction H as [|v x vs xs Hv H IH]; intros s; auto.
    simpl. unfold py_update_one. rewrite Hv. destruct (update s x) as [s'|e|u]; simpl; auto.
  Qed.

  Lemma py_update_numbers vs xs s : Forall2 (fun v x => convert v = inl x) vs xs ->
    py_update convert update s (PyIter vs) = bind (update_all update s xs) (fun s' => Ret (s', None)).
  Proof.
    intros H. cbn [py_update]. rewrite <- (app_nil_r vs), (each_numbers vs xs s [] H). reflexivity.
  Qed.

  Lemma py_update_stops vs xs s s' bad e rest : Forall2 (fun v x => convert v = inl x) vs xs ->
    update_all update s xs = Ret s' -> convert bad = inr e ->
    py_update convert update s (PyIter (vs ++ bad :: rest)) = Ret (s', Some e).
  Proof.
    intros H Hs Hb. cbn [py_update]. rewrite (each_numbers vs xs s _ H), Hs.
    cbn [bind py_update_each]. unfold py_update_one. rewrite Hb. reflexivity.
  Qed.

  (** Every outcome of an update with an iterable is of one of these forms. *)
  Lemma each_inv vs s s' o : py_update_each convert update s vs = Ret (s', o) ->
    exists xs k, k <= length vs /\ Forall2 (fun v x => convert v = inl x) (firstn k vs) xs /\
      update_all update s xs = Ret s' /\
      match o with
      | None => k = length vs
      | Some e => exists bad, nth_error vs k = Some bad /\ convert bad = inr e
      end.
  Proof.
    revert s. induction vs as [|v vs IH]; intros s H.
    - injection H as <- <-. exists [], 0. repeat split; auto. constructor.
    - simpl in H. unfold py_update_one in H. destruct (convert v) as [x|e] eqn:Ev.
      + destruct (update s x) as [s1|e|u] eqn:Eu; try discriminate. cbn [bind] in H.
        apply IH in H as (xs & k & Hk & HF & Hu & Ho). exists (x :: xs), (Datatypes.S k). simpl.
        split; [lia|]. split; [constructor; auto|]. rewrite Eu. split; auto. destruct o; [exact Ho|lia].
      + injection H as <- <-. exists [], 0. repeat split; auto; [simpl; lia|constructor|]. exists v. auto.
  Qed.
End Update.

Lemma floats_convert (xs : list double) : Forall2 (fun v x => as_double v = inl x) (map PyFloat xs) xs.
Proof. induction xs; constructor; auto. Qed.

Lemma int_convert (z : Z) :
  (forall x, as_double (PyInt z) = inl x <-> x = Bz z /\ (Rabs (rnd (IZR z)) < big)%R) /\
  (as_double (PyInt z) = inr OverflowError <-> (big <= Rabs (rnd (IZR z)))%R) /\
  ((Rabs (rnd (IZR z)) < big)%R -> B2R (Bz z) = rnd (IZR z) /\ finite64 (Bz z) = true) /\
  ((Z.abs z <= 2 ^ 53)%Z -> B2R (Bz z) = IZR z).
Proof.
  destruct (Bz_X z) as [HX Hn].
  assert (F : finite64 (Bz z) = true <-> (Rabs (rnd (IZR z)) < big)%R).
  { rewrite (fin_X _ Hn), HX. unfold R64, sat. destruct (Rlt_bool_spec (Rabs (rnd (IZR z))) big) as [H|H].
    - split; auto.
    - pose proof big_pos. split; [|lra]. destruct (Rlt_bool _ 0); [rewrite Rabs_Ropp|]; rewrite Rabs_pos_eq; lra. }
  repeat split.
  - cbn in H. destruct (finite64 (Bz z)); [now injection H|discriminate].
  - cbn in H. destruct (finite64 (Bz z)); [now apply F|discriminate].
  - intros [-> H]. cbn. apply F in H. now rewrite H.
  - intros H. cbn in H. destruct (finite64 (Bz z)); [discriminate|].
    destruct (Rlt_le_dec (Rabs (rnd (IZR z))) big) as [L|L]; auto. apply F in L. discriminate.
  - intros H. cbn. destruct (finite64 (Bz z)); auto. exfalso. apply proj1 in F. specialize (F eq_refl). lra.
  - assert (Ff := H). apply F in Ff. rewrite <- (X_fin _ Ff), HX. unfold R64. now apply sat_in.
  - now apply F.
  - intros Hz. now apply Bz_exact.
Qed.

(** ** Constructors *)
Lemma none_window fs :
  py_mean fs PyNone = Ret (inr TypeError) /\ py_variance fs PyNone = Ret (inr TypeError) /\
  (forall q x, as_double q = inl x -> py_wp2 fs q PyNone = Ret (inr TypeError)) /\
  (forall lo hi, is_none lo \/ is_none hi -> py_iqr fs lo hi PyNone = Ret (inr TypeError)) /\
  (forall lo hi x y, as_double lo = inl x -> as_double hi = inl y -> py_iqr fs lo hi PyNone = Ret (inr TypeError)) /\
  py_ring fs PyNone = Ret (inr TypeError) /\ py_list fs PyNone = Ret (inr TypeError).
Proof.
  repeat split; auto.
  - intros q x H. unfold py_wp2. rewrite H. reflexivity.
  - intros lo hi [->| ->]; [reflexivity|]. destruct lo; reflexivity.
  - intros lo hi x y Hl Hh. destruct lo; try discriminate; destruct hi; try discriminate; unfold py_iqr; rewrite Hl, Hh; reflexivity.
Qed.

Lemma as_uint64_spec fs v : (forall x, v <> PyFloat x) ->
  (forall n, as_uint64 fs v = inl n <-> v = PyInt (Z.of_N n) /\ (Z.of_N n < 2 ^ 64)%Z) /\
  (as_uint64 fs v = inr OverflowError <-> exists z, v = PyInt z /\ (z < 0 \/ 2 ^ 64 <= z)%Z) /\
  (as_uint64 fs v = inr TypeError <-> forall z, v <> PyInt z).
Proof.
  intros NF. destruct v as [x|z| | |l]; [now destruct (NF x)|..]; cbn;
    try (split; [intros n; split; [discriminate|intros [[=] _]]|split;
         [split; [discriminate|intros (z & [=] & _)]|split; [intros _ z [=]|auto]]]).
  destruct (Z.leb_spec 0 z), (Z.ltb_spec z (2 ^ 64)); cbn [andb];
    (split; [|split]).
  all: try (intros n; split; [intros [=]|intros [[=] ?]]; subst; try lia).
  - rewrite Z2N.id by lia. auto.
  - now rewrite N2Z.id.
  - split; [discriminate|]. intros (z' & [= <-] & ?). lia.
  - split; [discriminate|]. intros K. now destruct (K z).
  - split; auto. intros _. exists z. auto.
  - split; [discriminate|]. intros K. now destruct (K z).
  - split; auto. intros _. exists z. auto.
  - split; [discriminate|]. intros K. now destruct (K z).
  - split; auto. intros _. exists z. auto.
  - split; [discriminate|]. intros K. now destruct (K z).
Qed.

Lemma one_sided_iqr fs lo hi w : is_none lo \/ is_none hi -> py_iqr fs lo hi w = py_iqr fs PyNone PyNone w.
Proof. intros [->| ->]; [reflexivity|]. destruct lo; reflexivity. Qed.

(** A constructor of the four classes with parameters in (0,1) or [0,1). *)
Lemma py_p2_rejects v q : as_double v = inl q ->
  (py_p2 v = Ret (inr ValueError) <-> p2_new (A := B64) q = Throw InvalidArgument) /\
  (forall s, py_p2 v = Ret (inl s) <-> p2_new (A := B64) q = Ret s).
Proof.
  intros H. unfold py_p2. rewrite H. cbn [try_]. unfold p2_new. destruct (_ || _); cbn [cpp translate]; split; try split;
    try split; intros K; try discriminate; auto; congruence.
Qed.

Lemma py_fame_rejects v w st ep : as_double v = inl st -> as_double w = inl ep ->
  (py_fame v w = Ret (inr ValueError) <-> fame_new (A := B64) st ep = Throw InvalidArgument) /\
  (forall s, py_fame v w = Ret (inl s) <-> fame_new (A := B64) st ep = Ret s).
Proof.
  intros H1 H2. unfold py_fame. rewrite H1, H2. cbn [try_]. unfold fame_new. destruct (_ || _); cbn [cpp translate]; split; try split;
    try split; intros K; try discriminate; auto; congruence.
Qed.

(** The classes whose default arguments work. *)
Lemma defaults_work fs :
  (exists s, py_p2 (PyFloat (lit (A := B64) 1 2)) = Ret (inl s)) /\
  (exists s, py_fame (PyFloat (lit (A := B64) 1 10)) (PyFloat (Bz 0)) = Ret (inl s)) /\
  (exists s, py_mad = Ret (inl s)) /\
  (exists s, py_entropy fs (PyInt 100) (PyInt 0) = Ret (inl s) /\ e_wsize s = 100 /\ h_numBins (e_hist s) = 8) /\
  (forall n, (0 <= n < 2 ^ 64)%Z -> exists s, py_hist fs (PyInt n) (PyInt 100) = Ret (inl s) /\
     h_numBins s = Z.to_nat n /\ h_windowSize s = 100).
Proof.
  split; [|split; [|split; [|split]]].
  - eexists. reflexivity.
  - eexists. reflexivity.
  - eexists. reflexivity.
  - eexists. split; [reflexivity|]. split; reflexivity.
  - intros n Hn. unfold py_hist, as_size, as_uint64.
    destruct (Z.leb_spec 0 n), (Z.ltb_spec n (2 ^ 64)); try lia. cbn [andb try_].
    eexists. split; [reflexivity|]. cbn. split; [|reflexivity]. apply Z_N_nat.
Qed.

(** ** Lifetime *)
Lemma class_eqb_eq a b : class_eqb a b = true <-> a = b.
Proof. split; [destruct a, b; simpl; auto; discriminate|intros ->; destruct b; reflexivity]. Qed.

Lemma set_same f c n : set_count f c n c = n.
Proof. unfold set_count. replace (class_eqb c c) with true; auto. symmetry. now apply class_eqb_eq. Qed.
Lemma set_other f c d n : d <> c -> set_count f c n d = f d.
Proof.
  intros H. unfold set_count. destruct (class_eqb d c) eqn:E; auto. apply class_eqb_eq in E. contradiction.
Qed.

Lemma class_dec (a b : pyclass) : {a = b} + {a <> b}.
Proof. decide equality. Qed.

Lemma lifetimes_snoc es e h : lifetimes h (es ++ [e]) =
  match lifetimes h es with Some h' => lifetime h' e | None => None end.
Proof.
  revert h. induction es as [|a es IH]; intros h; simpl.
  - destruct (lifetime h e); auto.
  - destruct (lifetime h a); auto.
Qed.

Lemma constructed_snoc c es e : constructed c (es ++ [e]) = constructed c es + constructed c [e].
Proof. unfold constructed. now rewrite filter_app, app_length. Qed.
Lemma collected_snoc c es e : collected c (es ++ [e]) = collected c es + collected c [e].
Proof. unfold collected. now rewrite filter_app, app_length. Qed.

Lemma lifetimes_counts es h c : lifetimes no_objects es = Some h ->
  py_live h c + collected c es = constructed c es /\
  cpp_live h c = if has_dealloc c then py_live h c else constructed c es.
Proof.
  revert h. induction es as [|e es IH] using rev_ind; intros h H.
  - injection H as <-. cbn. destruct (has_dealloc c); auto.
  - rewrite lifetimes_snoc in H. destruct (lifetimes no_objects es) as [h1|]; [|discriminate].
    specialize (IH _ eq_refl) as [I1 I2]. rewrite constructed_snoc, collected_snoc.
    destruct e as [d|d|d]; simpl in H.
    + injection H as <-. cbn [py_live cpp_live]. unfold constructed at 2 4, collected at 2. cbn [filter].
      destruct (class_dec c d) as [->|N].
      * rewrite !set_same. replace (class_eqb d d) with true by (symmetry; now apply class_eqb_eq).
        cbn [length]. destruct (has_dealloc d); lia.
      * rewrite !set_other by auto. destruct (class_eqb c d) eqn:Ec; [apply class_eqb_eq in Ec; contradiction|].
        cbn [length]. destruct (has_dealloc c); lia.
    + injection H as <-. cbn. destruct (has_dealloc c); lia.
    + destruct (py_live h1 d) as [|n] eqn:En; [discriminate|]. injection H as <-. cbn [py_live cpp_live].
      unfold constructed at 2 4, collected at 2. cbn [filter].
      destruct (class_dec c d) as [->|N].
      * rewrite set_same. replace (class_eqb d d) with true by (symmetry; now apply class_eqb_eq). cbn [length].
        destruct (has_dealloc d) eqn:Ed; [rewrite set_same|]; lia.
      * rewrite set_other by auto. destruct (class_eqb c d) eqn:Ec; [apply class_eqb_eq in Ec; contradiction|].
        cbn [length]. destruct (has_dealloc d); [rewrite set_other by auto|]; destruct (has_dealloc c); lia.
Qed.

Lemma lifetimes_table es h c : lifetimes no_objects es = Some h ->
  py_live h c + collected c es = constructed c es /\
  cpp_live h c =
    match c with
    | CHistogram | CRingBuffer | CLinkedList => constructed c es
    | _ => py_live h c
    end.
Proof.
  intros H. destruct (lifetimes_counts es h c H) as [H1 H2]. split; auto. destruct c; exact H2.
Qed.

Lemma py_scalars :
  (forall x, as_double (PyFloat x) = inl x) /\
  (forall z x, as_double (PyInt z) = inl x <-> x = Bz z /\ (Rabs (rnd (IZR z)) < big)%R) /\
  (forall z, as_double (PyInt z) = inr OverflowError <-> (big <= Rabs (rnd (IZR z)))%R) /\
  (forall z, (Rabs (rnd (IZR z)) < big)%R -> B2R (Bz z) = rnd (IZR z) /\ finite64 (Bz z) = true) /\
  (forall z, (Z.abs z <= 2 ^ 53)%Z -> B2R (Bz z) = IZR z) /\
  (forall (S E : Type) (convert : pyval -> result E) (update : S -> E -> outcome S) s v,
     (forall vs, v <> PyIter vs) ->
     py_update convert update s v =
       match convert v with
       | inl x => bind (update s x) (fun s' => Ret (s', None))
       | inr e => Ret (s, Some e)
       end) /\
  as_double PyNone = inr TypeError /\ as_double PyOther = inr TypeError /\
  (forall vs, as_double (PyIter vs) = inr TypeError).
Proof.
  split; [reflexivity|]. split; [intros z; apply int_convert|]. split; [intros z; apply int_convert|].
  split; [intros z; apply int_convert|]. split; [intros z; apply int_convert|].
  split; [|repeat split]. intros S E convert update s v H. destruct v; try reflexivity. now destruct (H elements).
Qed.

From Verif Require Import PyFloatSpec PyFloatFacts.

Lemma single_conversion v : match as_double v with
  | inl x => exists y, as_single v = inl y /\ through_single x (to_double y)
  | inr e => as_single v = inr e
  end.
Proof.
  unfold as_single. destruct (as_double v) as [x|e]; [|reflexivity].
  exists (to_single x). split; [reflexivity|apply round_trip].
Qed.
