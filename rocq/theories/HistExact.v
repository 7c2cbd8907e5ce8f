(** Inside the window every bin counts the observations between its edges. *)

From Coq Require Import List Sorting.Sorted Arith Bool Lia ZArith Reals Lra.
From Flocq Require Import Core.Core IEEE754.BinarySingleNaN Plus_error.
From Verif Require Import Outcome Arith Utils IBin Histogram Spec ListFacts HistSpec UtilsFacts HistFacts
  FloatSpec FloatFacts UtilsMono HistOrder HistStreams HistExactSpec.
Import ListNotations.
Local Open Scope nat_scope.

(** Values that behave like the reals they denote. *)
Record valued (A : arith) (D P : A -> Prop) (val : A -> R) : Prop := Valued {
  v_dom : forall a : A, P a -> D a;
  v_lt : forall a b : A, P a -> P b -> ltb a b = true <-> (val a < val b)%R;
  v_le : forall a b : A, P a -> P b -> leb a b = true <-> (val a <= val b)%R;
  v_eq : forall a b : A, P a -> P b -> eqb a b = true <-> val a = val b;
  v_less6 : forall a b : A, P a -> P b -> definitelyLessThan a b default_eps = true ->
    definitelyGreaterThan b a bin_eps = true;
  v_gap : forall a b c d : A, P a -> P b -> P c -> P d -> (val b <= val a)%R -> (val c < val d)%R ->
    definitelyLessThan (sub b a) (sub d c) default_eps = true;
  v_choice : forall bins bins' i, Forall (fun b : bin A => P (b_left b) /\ P (b_right b)) bins ->
    hist_merge bins = Ret (bins', i) ->
    exists l b c r, bins = l ++ b :: c :: r /\ i = length l /\ bins' = l ++ bin_add b c :: r /\
      forall l' b' c' r', bins = l' ++ b' :: c' :: r' ->
        definitelyLessThan (gap b' c') (gap b c) default_eps = false
}.

Lemma inside_app lo hi xs ys : inside lo hi (xs ++ ys) = inside lo hi xs + inside lo hi ys.
Proof. unfold inside. now rewrite filter_app, app_length. Qed.

Lemma inside_in lo hi x : (lo <= x <= hi)%R -> inside lo hi [x] = 1.
Proof. intros [H1 H2]. unfold inside. cbn. destruct (Rle_dec lo x); [|lra]. destruct (Rle_dec x hi); [auto|lra]. Qed.

Lemma inside_out lo hi x : (x < lo \/ hi < x)%R -> inside lo hi [x] = 0.
Proof. intros H. unfold inside. cbn. destruct (Rle_dec lo x); auto. destruct (Rle_dec x hi); auto. lra. Qed.

Lemma inside_none lo hi xs : (forall x, In x xs -> x < lo \/ hi < x)%R -> inside lo hi xs = 0.
Proof.
  induction xs as [|x xs IH]; intros H; auto. change (x :: xs) with ([x] ++ xs).
  rewrite inside_app, IH, inside_out; auto; [apply H; left; auto|intros; apply H; right; auto].
Qed.

Lemma inside_split lo m1 m2 hi xs : (lo <= m1)%R -> (m1 < m2)%R -> (m2 <= hi)%R ->
  (forall x, In x xs -> x <= m1 \/ m2 <= x)%R ->
  inside lo hi xs = inside lo m1 xs + inside m2 hi xs.
Proof.
  intros H1 H2 H3. induction xs as [|x xs IH]; intros H; auto. change (x :: xs) with ([x] ++ xs).
  rewrite !inside_app, IH by (intros; apply H; right; auto).
  enough (inside lo hi [x] = inside lo m1 [x] + inside m2 hi [x]) by lia.
  destruct (H x (or_introl eq_refl)) as [K|K].
  - rewrite (inside_out m2 hi x) by lra. unfold inside. cbn. destruct (Rle_dec lo x); auto.
    destruct (Rle_dec x hi), (Rle_dec x m1); auto; lra.
  - rewrite (inside_out lo m1 x) by lra. unfold inside. cbn. destruct (Rle_dec x hi); [|destruct (Rle_dec lo x), (Rle_dec m2 x); auto].
    destruct (Rle_dec lo x), (Rle_dec m2 x); auto; lra.
Qed.

Lemma app_split {X} (l l' r r' : list X) : l ++ r = l' ++ r' -> length l = length l' -> l = l' /\ r = r'.
Proof.
  revert l'. induction l as [|y l IH]; intros [|z l'] E L; simpl in *; try discriminate; auto.
  injection E as <- E. destruct (IH l' E) as [-> ->]; auto.
Qed.

Lemma exists_last_or {X} (l : list X) : l = [] \/ exists l' x, l = l' ++ [x].
Proof. destruct l as [|y l] using rev_ind; eauto. Qed.

Section Exact.
  Context {A : arith} {D P : A -> Prop} {val : A -> R} (O : ordered A D) (V : valued A D P val).
  Implicit Types (x : A) (bins : list (bin A)) (xs : list A).

  Definition lv (b : bin A) : R := val (b_left b).
  Definition rv (b : bin A) : R := val (b_right b).

  Record exact_core xs bins : Prop := ExactCore {
    e_edges : Forall (fun b => In (b_left b) xs /\ In (b_right b) xs) bins;
    e_sorted : StronglySorted (fun b c => (rv b < lv c)%R) bins;
    e_wf : Forall (fun b => (lv b <= rv b)%R) bins;
    e_cover : forall x, In x xs -> exists b, In b bins /\ (lv b <= val x <= rv b)%R;
    e_count : Forall (fun b => b_count b = inside (lv b) (rv b) (map val xs)) bins
  }.

  Definition exact_inv (N : nat) xs bins : Prop :=
    exact_core xs bins /\ length bins <= N /\
    (length bins < N -> Forall (fun b => lv b = rv b) bins).

  Lemma edges_P xs bins : Forall P xs -> Forall (fun b => In (b_left b) xs /\ In (b_right b) xs) bins ->
    Forall (fun b => P (b_left b) /\ P (b_right b)) bins.
  Proof. intros F. apply Forall_impl. rewrite Forall_forall in F. intros b []. auto. Qed.

  (** The order of the bins before and after one of them. *)
  Lemma sorted_around l b r : StronglySorted (fun b c => (rv b < lv c)%R) (l ++ b :: r) ->
    Forall (fun b => (lv b <= rv b)%R) (l ++ b :: r) ->
    (forall c, In c l -> rv c < lv b)%R /\ (forall c, In c r -> rv b < lv c)%R.
  Proof.
    intros S _. apply sorted_app in S as (_ & S2 & S3). apply sorted_cons in S2 as [_ S2].
    rewrite Forall_forall in S2. split; auto. intros c Hc. apply S3; simpl; auto.
  Qed.

  Lemma merge_hull a c : P (b_left a) -> P (b_left c) -> P (b_right a) -> P (b_right c) ->
    (lv a <= lv c)%R ->
    (definitelyLessThan (b_right a) (b_right c) default_eps = true \/ (rv c <= rv a)%R) ->
    bin_add a c = Bin (b_left a) (if Rlt_bool (rv a) (rv c) then b_right c else b_right a) (b_count a + b_count c).
  Proof.
    intros P1 P2 P3 P4 Hl Hr. unfold bin_add.
    assert (Q : forall y, P y -> D y) by apply (v_dom _ _ _ _ V).
    replace (definitelyLessThan (b_left c) (b_left a) bin_eps) with false.
    2:{ symmetry. destruct (definitelyLessThan (b_left c) (b_left a) bin_eps) eqn:E; auto.
        apply (o_less6 _ _ O) in E; auto. apply (v_lt _ _ _ _ V) in E; auto. unfold lv in Hl. lra. }
    f_equal. destruct Hr as [Hr|Hr].
    - pose proof Hr as Hr'. apply (v_less6 _ _ _ _ V) in Hr'; auto. rewrite Hr'.
      apply (o_less _ _ O) in Hr; auto. apply (v_lt _ _ _ _ V) in Hr; auto. unfold rv. now rewrite Rlt_bool_true.
    - rewrite Rlt_bool_false by exact Hr.
      destruct (definitelyGreaterThan (b_right c) (b_right a) bin_eps) eqn:E; auto.
      apply (o_greater6 _ _ O) in E; auto. apply (v_lt _ _ _ _ V) in E; auto. unfold rv in Hr. lra.
  Qed.

  Definition inc b : bin A := Bin (b_left b) (b_right b) (b_count b + 1).

  Lemma edges_snoc xs x bins : Forall (fun b => In (b_left b) xs /\ In (b_right b) xs) bins ->
    Forall (fun b => In (b_left b) (xs ++ [x]) /\ In (b_right b) (xs ++ [x])) bins.
  Proof. apply Forall_impl. intros b []. split; apply in_or_app; auto. Qed.

  Lemma count_snoc xs x (b : bin A) : inside (lv b) (rv b) (map val (xs ++ [x])) =
    inside (lv b) (rv b) (map val xs) + inside (lv b) (rv b) [val x].
  Proof. now rewrite map_app, inside_app. Qed.

  (** Counting an item in the bin that contains it. *)
  Lemma core_hit xs l b r x : exact_core xs (l ++ b :: r) -> (lv b <= val x <= rv b)%R ->
    exact_core (xs ++ [x]) (l ++ inc b :: r).
  Proof.
    intros [Ie Is Iw Ic Ik] Hx. destruct (sorted_around _ _ _ Is Iw) as [Sl Sr].
    apply Forall_app in Ie as [Ie1 Ie2], Iw as [Iw1 Iw2], Ik as [Ik1 Ik2].
    inversion_clear Ie2 as [|? ? Ieb Ie3]. inversion_clear Iw2 as [|? ? Iwb Iw3]. inversion_clear Ik2 as [|? ? Ikb Ik3].
    constructor.
    - apply Forall_app. split; [now apply edges_snoc|]. constructor; [|now apply edges_snoc].
      cbn. destruct Ieb. split; apply in_or_app; auto.
    - apply sorted_app in Is as (S1 & S2 & S3). apply sorted_cons in S2 as [S2 S4].
      apply sorted_app. split; auto. split; [apply sorted_cons; auto|].
      intros a c Ia [<-|Hc]; [exact (Sl a Ia)|apply S3; simpl; auto].
    - apply Forall_app. split; auto.
    - intros y Iy. apply in_app_or in Iy as [Iy|[<-|[]]].
      + destruct (Ic y Iy) as (c & Hc & Hy). apply in_app_or in Hc as [Hc|[<-|Hc]].
        * exists c. split; auto. apply in_or_app; auto.
        * exists (inc b). split; auto. apply in_or_app; simpl; auto.
        * exists c. split; auto. apply in_or_app; simpl; auto.
      + exists (inc b). split; auto. apply in_or_app; simpl; auto.
    - apply Forall_app. split; [|constructor].
      + rewrite Forall_forall in Ik1 |- * . intros c Hc. rewrite count_snoc, inside_out, (Ik1 c Hc); [lia|].
        specialize (Sl c Hc). lra.
      + change (b_count b + 1 = inside (lv b) (rv b) (map val (xs ++ [x]))).
        rewrite count_snoc, Ikb, inside_in; auto.
      + rewrite Forall_forall in Ik3 |- * . intros c Hc. rewrite count_snoc, inside_out, (Ik3 c Hc); [lia|].
        specialize (Sr c Hc). lra.
  Qed.

  (** A new bin between the others. *)
  Lemma core_new xs l r x : exact_core xs (l ++ r) -> (forall b, In b l -> rv b < val x)%R ->
    (forall b, In b r -> val x < lv b)%R -> exact_core (xs ++ [x]) (l ++ Bin x x 1 :: r).
  Proof.
    intros [Ie Is Iw Ic Ik] Hl Hr.
    apply Forall_app in Ie as [Ie1 Ie2], Ik as [Ik1 Ik2]. pose proof Iw as Iw0. apply Forall_app in Iw as [Iw1 Iw2].
    constructor.
    - apply Forall_app. split; [now apply edges_snoc|]. constructor; [|now apply edges_snoc].
      split; apply in_or_app; simpl; auto.
    - apply sorted_app in Is as (S1 & S2 & S3). apply sorted_app. split; auto. split.
      + apply sorted_cons. split; auto. apply Forall_forall. exact Hr.
      + intros a c Ia [<-|Hc]; [exact (Hl a Ia)|apply S3; auto].
    - apply Forall_app. split; auto. constructor; auto. unfold lv, rv. cbn. lra.
    - intros y Iy. apply in_app_or in Iy as [Iy|[<-|[]]].
      + destruct (Ic y Iy) as (c & Hc & Hy). exists c. split; auto. apply in_app_or in Hc as [Hc|Hc];
          apply in_or_app; simpl; auto.
      + exists (Bin x x 1). split; [apply in_or_app; simpl; auto|]. unfold lv, rv. cbn. lra.
    - apply Forall_app. split; [|constructor].
      + rewrite Forall_forall in Ik1, Iw1 |- * . intros c Hc. rewrite count_snoc, inside_out, (Ik1 c Hc); [lia|].
        specialize (Hl c Hc). lra.
      + change (1 = inside (val x) (val x) (map val (xs ++ [x]))).
        rewrite map_app, inside_app, inside_none; [cbn [map]; rewrite inside_in; [auto|lra]|].
        intros y Hy. apply in_map_iff in Hy as (z & <- & Hz). destruct (Ic z Hz) as (c & Hc & Hy).
        apply in_app_or in Hc as [Hc|Hc]; [specialize (Hl c Hc); lra|specialize (Hr c Hc); lra].
      + rewrite Forall_forall in Ik2, Iw2 |- * . intros c Hc. rewrite count_snoc, inside_out, (Ik2 c Hc); [lia|].
        specialize (Hr c Hc). lra.
  Qed.

  Lemma separated_less xs x y : Forall P xs -> separated xs -> In x xs -> In y xs -> (val x < val y)%R ->
    definitelyLessThan x y default_eps = true.
  Proof.
    intros F S Ix Iy H. rewrite Forall_forall in F. destruct (S x y Ix Iy) as [E|[E|E]]; auto.
    - apply (v_eq _ _ _ _ V) in E; auto. lra.
    - apply (o_less _ _ O) in E; auto using (v_dom _ _ _ _ V). apply (v_lt _ _ _ _ V) in E; auto. lra.
  Qed.

  (** Merging two neighbours. *)
  Lemma core_merge xs l a c r : Forall P xs -> separated xs -> exact_core xs (l ++ a :: c :: r) ->
    exact_core xs (l ++ bin_add a c :: r).
  Proof.
    intros FP Sep [Ie Is Iw Ic Ik]. pose proof (edges_P _ _ FP Ie) as PP.
    destruct (sorted_around _ _ _ Is Iw) as [Sl Sr].
    apply Forall_app in Ie as [Ie1 Ie2], Iw as [Iw1 Iw2], Ik as [Ik1 Ik2], PP as [_ PP].
    inversion_clear Ie2 as [|? ? [Ea1 Ea2] Ie3]. inversion_clear Ie3 as [|? ? [Ec1 Ec2] Ie4].
    inversion_clear Iw2 as [|? ? Iwa Iw3]. inversion_clear Iw3 as [|? ? Iwc Iw4].
    inversion_clear Ik2 as [|? ? Ika Ik3]. inversion_clear Ik3 as [|? ? Ikc Ik4].
    inversion_clear PP as [|? ? [Pa1 Pa2] PP3]. inversion_clear PP3 as [|? ? [Pc1 Pc2] PP4].
    assert (Hac : (rv a < lv c)%R) by (apply Sr; simpl; auto).
    assert (Eb : bin_add a c = Bin (b_left a) (b_right c) (b_count a + b_count c)).
    { rewrite merge_hull; auto; [|lra|left; apply (separated_less xs); auto; unfold lv, rv in *; lra].
      now rewrite Rlt_bool_true by lra. }
    rewrite Eb. set (m := Bin _ _ _).
    assert (Em1 : lv m = lv a) by reflexivity. assert (Em2 : rv m = rv c) by reflexivity.
    apply sorted_app in Is as (S1 & S2 & S3). apply sorted_cons in S2 as [S2 S4].
    apply sorted_cons in S2 as [S2 S5]. rewrite Forall_forall in S5.
    constructor.
    - apply Forall_app. split; auto.
    - apply sorted_app. split; auto. split; [apply sorted_cons; split; auto; apply Forall_forall; exact S5|].
      intros b d Hb [<-|Hd]; [exact (Sl b Hb)|apply S3; simpl; auto].
    - apply Forall_app. split; auto. constructor; auto. rewrite Em1, Em2. lra.
    - intros y Iy. destruct (Ic y Iy) as (b & Hb & Hy). apply in_app_or in Hb as [Hb|[<-|[<-|Hb]]].
      + exists b. split; auto. apply in_or_app; auto.
      + exists m. split; [apply in_or_app; simpl; auto|]. rewrite Em1, Em2. lra.
      + exists m. split; [apply in_or_app; simpl; auto|]. rewrite Em1, Em2. lra.
      + exists b. split; auto. apply in_or_app; simpl; auto.
    - apply Forall_app. split; auto. constructor; auto. rewrite Em1, Em2. cbn [b_count m].
      rewrite (inside_split (lv a) (rv a) (lv c) (rv c)), Ika, Ikc; auto.
      intros y Hy. apply in_map_iff in Hy as (z & <- & Hz). destruct (Ic z Hz) as (b & Hb & Hy).
      apply in_app_or in Hb as [Hb|[<-|[<-|Hb]]]; try lra.
      + specialize (Sl b Hb). lra.
      + specialize (S5 b Hb). lra.
  Qed.

  (** Where merge joins when the new bin lies inside its left neighbour. *)
  Lemma interior_choice xs L p x R bins' i : Forall P (xs ++ [x]) -> exact_core xs (L ++ p :: R) ->
    (lv p < val x <= rv p)%R -> (forall b, In b R -> val x < lv b)%R ->
    hist_merge (L ++ p :: Bin x x 1 :: R) = Ret (bins', i) -> bins' = L ++ inc p :: R.
  Proof.
    intros FP [Ie Is Iw Ic Ik] Hx HR Em. apply Forall_app in FP as [FP Fx]. inversion_clear Fx as [|? ? Px _].
    pose proof (edges_P _ _ FP Ie) as PP.
    assert (Pp : P (b_left p) /\ P (b_right p)).
    { apply Forall_app in PP as [_ PP]. now inversion_clear PP. }
    assert (PP1 : Forall (fun b => P (b_left b) /\ P (b_right b)) (L ++ p :: Bin x x 1 :: R)).
    { apply Forall_app in PP as [PP1 PP2]. inversion_clear PP2 as [|? ? PP3 PP4].
      apply Forall_app. split; auto. }
    destruct (v_choice _ _ _ _ V _ _ _ PP1 Em) as (l & a & c & r & Eq & _ & -> & Best).
    assert (Pac : (P (b_left a) /\ P (b_right a)) /\ P (b_left c) /\ P (b_right c)).
    { rewrite Eq in PP1. apply Forall_app in PP1 as [_ PP2]. inversion_clear PP2 as [|? ? Qa PP3].
      inversion_clear PP3. auto. }
    assert (No : (rv a < rv c)%R -> False).
    { intros H. specialize (Best L p (Bin x x 1) R eq_refl). unfold gap in Best. cbn [b_right] in Best.
      rewrite (v_gap _ _ _ _ V) in Best; try discriminate; try tauto. }
    assert (W : forall b, In b (L ++ p :: R) -> (lv b <= rv b)%R) by (apply Forall_forall; auto).
    assert (Adj : forall l1 a c r1, L ++ p :: R = l1 ++ a :: c :: r1 -> (rv a < rv c)%R).
    { intros l1 a' c' r1 E. pose proof Is as Is'. rewrite E in Is', W. apply sorted_app in Is' as (_ & S2 & _).
      apply sorted_cons in S2 as [_ S2]. inversion_clear S2 as [|? ? S3 _].
      assert (lv c' <= rv c')%R by (apply W; apply in_or_app; simpl; auto). lra. }
    assert (First : R = c :: r -> a = Bin x x 1 -> False).
    { intros -> ->. apply No. specialize (HR c (or_introl eq_refl)). unfold rv at 1. cbn [b_right].
      assert (lv c <= rv c)%R by (apply W; apply in_or_app; simpl; auto). lra. }
    change (L ++ p :: Bin x x 1 :: R) with (L ++ [p] ++ Bin x x 1 :: R) in Eq. rewrite app_assoc in Eq.
    destruct (app_eq_app _ _ _ _ Eq) as (k & [[E1 E2]|[E1 E2]]).
    - destruct k as [|k1 [|k2 k]]; simpl in E2.
      + injection E2 as E3 E4. exfalso. eapply First; eauto.
      + injection E2 as -> -> ->.
        apply app_inj_tail in E1 as [-> ->]. f_equal. f_equal.
        rewrite merge_hull; try tauto; try (right; tauto).
        2:{ unfold lv at 2. cbn [b_left]. lra. }
        rewrite Rlt_bool_false; [reflexivity|]. unfold rv at 1. cbn [b_right]. lra.
      + injection E2 as -> -> ->. exfalso. apply No.
        apply (Adj l k1 k2 (k ++ R)). change (p :: R) with ([p] ++ R). now rewrite app_assoc, E1, <- app_assoc.
    - destruct k as [|k1 k]; simpl in E2.
      + injection E2 as E3 E4. exfalso. eapply First; eauto.
      + injection E2 as _ ->. exfalso. apply No. apply (Adj (L ++ p :: k) a c r). now rewrite <- app_assoc.
  Qed.

  Lemma exact_step N W total xs bins w x i bins' w' total' :
    updating N W total bins w x i bins' w' total' -> total = length xs -> total < W ->
    Forall P (xs ++ [x]) -> separated (xs ++ [x]) -> exact_inv N xs bins -> exact_inv N (xs ++ [x]) bins'.
  Proof.
    intros [i0 bins1 f bins2 w2 bins3 w3 tot Ff Ha Hd Hm] T LW FP Sep (Core & Iz & Ip).
    destruct Hd as [(_ & -> & _)|(C & _)]; [|lia].
    pose proof Core as [Ie Is Iw Ic Ik]. pose proof FP as FP'. apply Forall_app in FP' as [FPx Px].
    inversion_clear Px as [|? ? Px' _]. rename Px' into Px. pose proof (edges_P _ _ FPx Ie) as PP.
    assert (Q : forall y, P y -> D y) by apply (v_dom _ _ _ _ V).
    assert (HD : Dbins (D := D) bins).
    { eapply Forall_impl; [|exact PP]. intros b []. split; auto. }
    assert (Sb : lefts_increasing bins).
    { clear -V Is Iw PP. unfold lefts_increasing. induction Is as [|b l S IH F]; constructor;
        inversion_clear Iw as [|? ? Wb Wl]; inversion_clear PP as [|? ? Pb Pl]; auto.
      rewrite Forall_forall in F, Pl |- * . intros c Hc. apply (v_lt _ _ _ _ V); try tauto; [now apply Pl|].
      specialize (F c Hc). unfold lv, rv in * . lra. }
    destruct (found_split O _ _ _ HD (Q _ Px) (increasing_ascending O _ HD Sb) Ff) as (L & R & EL & LL & FL & FR).
    rewrite Forall_forall in FL, FR, PP.
    assert (HL : forall b, In b L -> (lv b < val x)%R).
    { intros b Hb. assert (P (b_left b)) by (apply PP; rewrite EL; apply in_or_app; auto).
      apply (v_lt _ _ _ _ V); auto. apply (o_less _ _ O); auto. }
    assert (HR : forall b, In b R -> (val x <= lv b)%R).
    { intros b Hb. apply Rnot_lt_le. intros K. specialize (FR b Hb). revert FR.
      rewrite (separated_less (xs ++ [x])); try discriminate; auto; [|apply in_or_app; simpl; auto].
      apply in_or_app. left. rewrite Forall_forall in Ie. apply Ie. rewrite EL. apply in_or_app; auto. }
    assert (Two : (exists b r, R = b :: r /\ lv b = val x /\ bins1 = L ++ inc b :: r) \/
      ((forall b, In b R -> val x < lv b)%R /\ bins1 = L ++ Bin x x 1 :: R)).
    { destruct Ha as [C|l b r _ E1 E2 H|l b r _ E1 E2 H].
      - right. assert (R = []) as ->.
        { destruct C as [C|C].
          - destruct xs; [|simpl in T; lia]. destruct bins as [|b0 bins0]; [destruct L, R; auto; discriminate|].
            inversion_clear Ie as [|? ? [[] _]].
          - rewrite EL, app_length, <- LL in C. destruct R; auto. simpl in C. lia. }
        rewrite app_nil_r in EL. subst L. split; auto. intros b [].
      - left. rewrite EL in E1. destruct (app_split _ _ _ _ E1) as [<- ER]; [lia|].
        exists b, r. split; auto. split; auto.
        assert (Pb : P (b_left b)) by (apply PP; rewrite EL, ER; apply in_or_app; simpl; auto).
        apply (v_le _ _ _ _ V) in H; auto. specialize (HR b). rewrite ER in HR. specialize (HR (or_introl eq_refl)).
        unfold lv in * . lra.
      - right. rewrite EL in E1. destruct (app_split _ _ _ _ E1) as [<- ER]; [lia|].
        split; [|now rewrite ER]. intros c Hc.
        assert (Pb : P (b_left b)) by (apply PP; rewrite EL, ER; apply in_or_app; simpl; auto).
        assert (Kb : (val x < lv b)%R).
        { apply Rnot_le_lt. intros K. apply (v_le _ _ _ _ V) in K; auto. congruence. }
        rewrite ER in Hc. destruct Hc as [<-|Hc]; auto.
        rewrite EL, ER in Is, Iw. destruct (sorted_around _ _ _ Is Iw) as [_ Sr]. specialize (Sr c Hc).
        apply Forall_app in Iw as [_ Iw]. inversion_clear Iw. lra. }
    subst bins. destruct Two as [(b & r & -> & Eb & ->)|[HR' ->]].
    - assert (bins3 = L ++ inc b :: r) as ->.
      { destruct Hm as [(_ & -> & _)|(C & _)]; auto. rewrite app_length in C, Iz. simpl in C, Iz. lia. }
      split; [|split].
      + apply core_hit; auto. apply Forall_app in Iw as [_ Iw]. inversion_clear Iw. lra.
      + rewrite app_length in Iz |- * . exact Iz.
      + rewrite app_length in Ip |- * . cbn [length] in Ip |- * . intros C. specialize (Ip C).
        apply Forall_app in Ip as [Ip1 Ip2]. apply Forall_app. split; auto. inversion_clear Ip2. constructor; auto.
    - assert (Three : (exists L' p, L = L' ++ [p] /\ (val x <= rv p)%R) \/ (forall b, In b L -> (rv b < val x)%R)).
      { destruct (exists_last_or L) as [->|(L' & p & ->)]; [right; intros b []|].
        destruct (Rle_lt_dec (val x) (rv p)) as [K|K]; [left; eauto|right].
        intros b Hb. apply in_app_or in Hb as [Hb|[<-|[]]]; auto.
        rewrite <- app_assoc in Is, Iw. destruct (sorted_around _ _ _ Is Iw) as [Sl _]. specialize (Sl b Hb).
        apply Forall_app in Iw as [_ Iw]. inversion_clear Iw. lra. }
      destruct Three as [(L' & p & -> & Hp)|HL'].
      + assert (Hp' : (lv p < val x)%R) by (apply HL; apply in_or_app; simpl; auto).
        rewrite <- app_assoc in * . cbn [app] in * .
        assert (Full : N <= length (L' ++ p :: R)).
        { apply Nat.nlt_ge. intros C. specialize (Ip C). apply Forall_app in Ip as [_ Ip]. inversion_clear Ip. lra. }
        destruct Hm as [(C & _)|(_ & l & a & c & r & _ & Em & _)].
        { exfalso. rewrite app_length in C, Full. simpl in C, Full. lia. }
        rewrite (interior_choice xs L' p x R bins3 (length l)); auto.
        split; [apply core_hit; auto; lra|]. split; rewrite app_length in * ; cbn [length] in *; [lia|]. intros C. lia.
      + pose proof (core_new _ _ _ _ Core HL' HR') as Core'.
        destruct Hm as [(C & -> & _)|(C & l & a & c & r & E1 & _ & -> & _)].
        * split; auto. split; auto. intros _.
          assert (Lt : length (L ++ R) < N) by (rewrite app_length in C |- *; simpl in C; lia).
          specialize (Ip Lt). apply Forall_app in Ip as [Ip1 Ip2]. apply Forall_app. split; auto.
        * rewrite E1 in Core'. split; [now apply core_merge|].
          assert (Len : length (l ++ a :: c :: r) = S (length (L ++ R))).
          { rewrite <- E1, !app_length. simpl. lia. }
          rewrite E1 in C. rewrite app_length in Len, C |- * . cbn [length] in * . split; [lia|]. intros K. lia.
  Qed.

  Lemma exact_run N W xs h : length xs <= W -> Forall P xs -> separated xs ->
    update_all hist_update (hist_new N W true) xs = Ret h -> exact_inv N xs (h_bins h) /\ h_total h = length xs.
  Proof.
    intros Hl HP Hs E.
    enough (exact_inv N xs (h_bins h) /\ h_total h = length xs /\ exists w, live h N W w) by tauto.
    revert h Hl HP Hs E. induction xs as [|x xs IH] using rev_ind; intros h Hl HP Hs E.
    - injection E as <-. split; [|split; [reflexivity|exists (repeat 0 W); apply new_live]].
      split; [|split; [simpl; lia|intros _; constructor]].
      constructor; try constructor. intros ? [].
    - rewrite app_length in Hl. simpl in Hl. rewrite update_all_snoc in E. apply bind_Ret in E as (h1 & E1 & E).
      pose proof HP as HP'. apply Forall_app in HP' as [HP1 _].
      destruct (IH h1) as (I & T & w & Lv); auto; [lia|eapply separated_prefix; eauto|].
      destruct (update_inv _ _ _ _ _ _ Lv E) as (i & bins & w' & f & _ & L' & Eb & U & _).
      split; [rewrite Eb; eapply (exact_step N W); eauto; lia|]. split; [|eauto].
      pose proof (updating_total _ _ _ _ _ _ _ _ _ _ U). rewrite app_length. simpl. lia.
  Qed.

  (** The counts of the first bins add up to the number of values up to their last edge. *)
  Lemma counts_upto xs bins k b : exact_core xs bins -> nth_error bins k = Some b ->
    below (map b_count bins) (S k) = upto (rv b) (map val xs).
  Proof.
    intros C Ek. apply nth_error_split in Ek as (l & r & -> & <-). destruct C as [_ Is Iw Ic Ik].
    unfold below. rewrite firstn_map. rewrite firstn_app, firstn_all2 by lia.
    replace (S (length l) - length l) with 1 by lia. cbn [firstn].
    change (firstn 0 r) with (@nil (bin A)).
    assert (Sr : forall c, In c r -> (rv b < lv c)%R) by apply (sorted_around _ _ _ Is Iw).
    apply sorted_app in Is as (S1 & S2 & S3). clear S2.
    assert (S3' : forall c, In c l -> (rv c < lv b)%R) by (intros; apply S3; simpl; auto). clear S3.
    assert (Q : forall y, In y xs -> (rv b < val y)%R \/ exists c, In c (l ++ [b]) /\ (lv c <= val y <= rv c)%R).
    { intros y Iy. destruct (Ic y Iy) as (c & Hc & Hy). apply in_app_or in Hc as [Hc|[<-|Hc]].
      - right. exists c. split; auto. apply in_or_app; auto.
      - right. exists b. split; auto. apply in_or_app; simpl; auto.
      - left. specialize (Sr c Hc). lra. }
    clear Ic Sr. apply Forall_app in Iw as [Iw1 Iw2], Ik as [Ik1 Ik2].
    inversion_clear Iw2 as [|? ? Wb _]. inversion_clear Ik2 as [|? ? Kb _].
    revert b Wb Kb S3' Q. induction l as [|c l IH] using rev_ind; intros b Wb Kb S3 Q.
    - cbn. rewrite Kb, Nat.add_0_r. unfold inside, upto. f_equal. apply filter_ext_in.
      intros a Ha. apply in_map_iff in Ha as (y & <- & Iy). destruct (Q y Iy) as [H|(c & [<-|[]] & H)].
      + destruct (Rle_dec (lv b) (val y)), (Rle_dec (val y) (rv b)); auto; lra.
      + destruct (Rle_dec (lv b) (val y)), (Rle_dec (val y) (rv b)); auto; lra.
    - rewrite map_app, list_sum_app. cbn [map]. cbn [list_sum fold_right]. rewrite Nat.add_0_r.
      apply sorted_app in S1 as (S1 & _ & S4). apply Forall_app in Iw1 as [Iw1 Wc], Ik1 as [Ik1 Kc].
      inversion_clear Wc as [|? ? Wc' _]. inversion_clear Kc as [|? ? Kc' _].
      assert (Lt : (rv c < lv b)%R) by (apply S3; apply in_or_app; simpl; auto).
      rewrite (IH S1 Iw1 Ik1 c); auto.
      2:{ intros d Hd. apply S4; simpl; auto. }
      2:{ intros y Iy. destruct (Q y Iy) as [H|(d & Hd & H)]; [left; lra|].
          apply in_app_or in Hd as [Hd|[<-|[]]]; [right; eauto|left; lra]. }
      rewrite Kb. clear -Lt Wb Wc' Q S4.
      assert (Q' : forall y, In y xs -> (rv c < val y)%R -> (lv b <= val y)%R).
      { intros y Iy Hy. destruct (Q y Iy) as [H|(d & Hd & H)]; [lra|].
        apply in_app_or in Hd as [Hd|[<-|[]]]; [|lra].
        apply in_app_or in Hd as [Hd|[<-|[]]]; [|lra].
        specialize (S4 d c Hd (or_introl eq_refl)). lra. }
      clear Q S4. unfold upto, inside. induction xs as [|y xs IH]; auto. cbn [map filter].
      assert (Qy := Q' y (or_introl eq_refl)). specialize (IH (fun z Iz => Q' z (or_intror Iz))).
      destruct (Rle_dec (val y) (rv c)), (Rle_dec (lv b) (val y)), (Rle_dec (val y) (rv b)); cbn [length]; try lia; lra.
  Qed.
End Exact.

Lemma valued_RA : valued RA anyR anyR (fun x => x).
Proof.
  constructor; try (intros; exact I); cbn [num RA ltb leb eqb]; intros.
  - apply Rltb_true.
  - apply Rleb_true.
  - apply Reqb_true.
  - apply RA_less in H1. apply RA_greater. unfold default_eps, bin_eps, lit in * . cbn in * .
    rewrite Rmax_comm. pose proof (Rmax_l (Rabs a) (Rabs b)). pose proof (Rabs_pos a). lra.
  - apply RA_less. unfold default_eps, lit. cbn. set (g := (b - a)%R) in * . set (m := (d - c)%R) in * .
    assert (g <= 0)%R by (unfold g; lra). assert (0 < m)%R by (unfold m; lra).
    rewrite Rabs_left1, (Rabs_pos_eq m) by lra. apply Rmax_case; lra.
  - now apply merge_choice_RA.
Qed.

Definition mod64 (x : double) : Prop := finite64 x = true /\ (Rabs (B2R x) <= bpow radix2 1022)%R.

Lemma mod_sub x y : mod64 x -> mod64 y -> finite64 (Bsub y x) = true /\ B2R (Bsub y x) = R64 (B2R y - B2R x).
Proof.
  intros [Fx Hx] [Fy Hy]. destruct (X_sub y x Fy Fx) as [Xs Ns]. destruct (Bz_pow 1023) as [E3 F3]; [lia|].
  assert (B : (bpow radix2 1022 + bpow radix2 1022 = bpow radix2 1023)%R).
  { change 1023%Z with (1022 + 1)%Z. rewrite bpow_plus. change (bpow radix2 1) with 2%R. ring. }
  apply Rabs_le_inv in Hx, Hy.
  assert (L : (- bpow radix2 1023 <= X (Bsub y x) <= bpow radix2 1023)%R).
  { rewrite Xs, <- E3. rewrite <- (R64_B2R (Bz (2 ^ 1023))), <- R64_opp. rewrite E3. split; apply R64_le; lra. }
  assert (F : finite64 (Bsub y x) = true).
  { apply fin_X; auto. apply Rle_lt_trans with (bpow radix2 1023); [apply Rabs_le; lra|apply bpow_lt; lia]. }
  split; auto. now rewrite <- X_fin.
Qed.

Lemma eps_order : (B2R (bin_eps (A := B64)) <= B2R (default_eps (A := B64)))%R.
Proof.
  destruct default_eps_ok as [F1 _], bin_eps_ok as [F2 _].
  rewrite <- (X_fin _ F1), <- (X_fin _ F2). apply X_leb; auto using fin_nan.
Qed.

(** The difference of two different doubles is not rounded to zero. *)
Lemma sub_positive (x y : double) : (B2R x < B2R y)%R -> (0 < R64 (B2R y - B2R x))%R.
Proof.
  intros H. pose proof big_pos.
  assert (N : rnd (B2R y - B2R x) <> 0%R).
  { unfold rnd, Rminus. apply Plus_error.round_plus_neq_0; try typeclasses eauto.
    - apply B2R_format.
    - apply generic_format_opp, B2R_format.
    - lra. }
  assert (0 <= rnd (B2R y - B2R x))%R by (rewrite <- rnd_0; apply rnd_le; lra).
  unfold R64, sat. destruct (Rlt_bool _ big); [lra|]. rewrite Rlt_bool_false by lra. lra.
Qed.

Lemma valued_B64 : valued B64 finD mod64 (@B2R 53 1024).
Proof.
  destruct default_eps_ok as [F1 P1], bin_eps_ok as [F2 P2]. pose proof eps_order as Eo.
  constructor; cbn [num B64 ltb leb eqb].
  - intros a [F _]. exact F.
  - intros a b [Fa _] [Fb _]. rewrite X_ltb, !X_fin by auto using fin_nan. tauto.
  - intros a b [Fa _] [Fb _]. rewrite X_leb, !X_fin by auto using fin_nan. tauto.
  - intros a b [Fa _] [Fb _]. rewrite X_eqb, !X_fin by auto using fin_nan. tauto.
  - intros a b [Fa _] [Fb _] H. apply B_less in H; auto. apply B_greater; auto.
    eapply Rle_lt_trans; [|exact H]. apply R64_le. rewrite Rmax_comm. apply Rmult_le_compat_l; auto.
    pose proof (Rmax_l (Rabs (B2R a)) (Rabs (B2R b))). pose proof (Rabs_pos (B2R a)). lra.
  - intros a b c d Ma Mb Mc Md H1 H2. destruct (mod_sub a b Ma Mb) as [Fg Eg], (mod_sub c d Mc Md) as [Fm Em].
    apply B_less; auto. unfold tol.
    set (g := B2R (Bsub b a)) in * . set (m := B2R (Bsub d c)) in * .
    assert (Hg : (g <= 0)%R) by (rewrite Eg; apply R64_neg; lra).
    assert (Hm : (0 < m)%R) by (rewrite Em; apply sub_positive; lra).
    change (R64 (Rmax (Rabs g) (Rabs m) * B2R (default_eps (A := B64))) < R64 (m - g))%R.
    assert (Mx : exists z : double, B2R z = Rmax (Rabs g) (Rabs m)).
    { apply Rmax_case; [exists (Babs (Bsub b a))|exists (Babs (Bsub d c))]; now rewrite B2R_Babs. }
    destruct Mx as (z & Ez). rewrite <- Ez.
    assert (Kz : (0 < B2R z <= m - g)%R).
    { rewrite Ez, Rabs_left1, (Rabs_pos_eq m) by lra. split; [|apply Rmax_case; lra].
      pose proof (Rmax_r (- g) m). lra. }
    pose proof default_small as [_ Sm].
    apply Rlt_le_trans with (B2R z).
    + apply Rle_lt_trans with (B2R z / 4)%R; [|lra].
      apply Rle_trans with (R64 (B2R z / 8)); [apply R64_le; nra|].
      assert (K : (rnd (B2R z / 8) <= B2R z / 4)%R).
      { replace (B2R z / 4)%R with (2 * (B2R z / 8))%R by field. apply rnd_double. lra. }
      unfold R64. rewrite sat_in; auto. pose proof (B2R_lt_big z).
      assert (0 <= rnd (B2R z / 8))%R by (rewrite <- rnd_0; apply rnd_le; lra).
      rewrite Rabs_pos_eq in * by lra. lra.
    + rewrite <- (R64_B2R z). apply R64_le. lra.
  - intros bins bins' i F E. apply merge_choice_B64; auto. intros l b c r ->.
    apply Forall_app in F as [_ F]. inversion_clear F as [|? ? [_ Hb] F']. inversion_clear F' as [|? ? [_ Hc] _].
    apply (mod_sub _ _ Hb Hc).
Qed.

(** ** The statements *)
Lemma exact_RA N W (xs : list R) (h : hist RA) :
  update_all hist_update (hist_new (A := RA) N W true) xs = Ret h -> length xs <= W -> separated (A := RA) xs ->
  hist_size h <= N /\
  StronglySorted (fun b c : bin RA => (b_right b < b_left c)%R) (h_bins h) /\
  Forall (fun b : bin RA => In (b_left b) xs /\ In (b_right b) xs /\ (b_left b <= b_right b)%R /\
    b_count b = inside (b_left b) (b_right b) xs) (h_bins h) /\
  (forall x, In x xs -> exists b : bin RA, In b (h_bins h) /\ (b_left b <= x <= b_right b)%R) /\
  (hist_size h < N -> Forall (fun b : bin RA => b_left b = b_right b :> R) (h_bins h)).
Proof.
  intros E L S. destruct (exact_run ordered_RA valued_RA N W xs h) as (([Ie Is Iw Ic Ik] & Iz & Ip) & _); auto.
  { apply Forall_forall. intros. exact I. }
  split; auto. split; auto. split; [|split; auto]. rewrite Forall_forall in Ie, Iw, Ik |- * . intros b Hb.
  destruct (Ie b Hb). split; auto. split; auto. split; [exact (Iw b Hb)|].
  rewrite (Ik b Hb). now rewrite map_id.
Qed.

Lemma exact_B64 N W (xs : list double) : 1 <= N -> length xs <= W ->
  Forall (fun x => finite64 x = true /\ (Rabs (B2R x) <= bpow radix2 1022)%R) xs -> separated (A := B64) xs ->
  exists h, update_all hist_update (hist_new (A := B64) N W true) xs = Ret h /\
    hist_size h <= N /\
    StronglySorted (fun b c : bin B64 => (B2R (b_right b) < B2R (b_left c))%R) (h_bins h) /\
    Forall (fun b : bin B64 => In (b_left b) xs /\ In (b_right b) xs /\ (B2R (b_left b) <= B2R (b_right b))%R /\
      b_count b = inside (B2R (b_left b)) (B2R (b_right b)) (map B2R xs)) (h_bins h) /\
    (forall x, In x xs -> exists b : bin B64, In b (h_bins h) /\ (B2R (b_left b) <= B2R x <= B2R (b_right b))%R) /\
    (hist_size h < N -> Forall (fun b : bin B64 => B2R (b_left b) = B2R (b_right b)) (h_bins h)).
Proof.
  intros HN L F S. destruct (moderate_run N W xs) as (h & E); auto. exists h. split; auto.
  destruct (exact_run ordered_B64 valued_B64 N W xs h) as (([Ie Is Iw Ic Ik] & Iz & Ip) & _); auto.
  split; auto. split; auto. split; [|split; auto]. rewrite Forall_forall in Ie, Iw, Ik |- * . intros b Hb.
  destruct (Ie b Hb). split; auto. split; auto. split; [exact (Iw b Hb)|exact (Ik b Hb)].
Qed.

Lemma upto_RA N W (xs : list R) (h : hist RA) k b :
  update_all hist_update (hist_new (A := RA) N W true) xs = Ret h -> length xs <= W -> separated (A := RA) xs ->
  nth_error (h_bins h) k = Some b -> below (map b_count (h_bins h)) (S k) = upto (b_right b) xs.
Proof.
  intros E L S Ek. destruct (exact_run ordered_RA valued_RA N W xs h) as ((C & _) & _); auto.
  { apply Forall_forall. intros. exact I. }
  rewrite (counts_upto (val := fun x => x) xs _ _ _ C Ek). now rewrite map_id.
Qed.

Lemma upto_B64 N W (xs : list double) (h : hist B64) k b :
  update_all hist_update (hist_new (A := B64) N W true) xs = Ret h -> length xs <= W ->
  Forall (fun x => finite64 x = true /\ (Rabs (B2R x) <= bpow radix2 1022)%R) xs -> separated (A := B64) xs ->
  nth_error (h_bins h) k = Some b ->
  below (map b_count (h_bins h)) (S k) = upto (B2R (b_right b)) (map B2R xs).
Proof.
  intros E L F S Ek. destruct (exact_run ordered_B64 valued_B64 N W xs h) as ((C & _) & _); auto.
  exact (counts_upto xs _ _ _ C Ek).
Qed.
