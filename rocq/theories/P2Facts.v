(** Proofs about StreamingP2Quantile, WindowedP2Quantile and StreamingIQR. *)

From Coq Require Import List Reals ZArith Lra Lia Bool Arith Sorting.Sorted Sorting.Permutation.
From Flocq Require Import Core.Core IEEE754.BinarySingleNaN.
From Flocq Require Plus_error.
From Verif Require Import Outcome Arith P2 P2Spec Spec FloatSpec ListFacts FloatFacts UtilsFacts MeanFacts FameFacts.
Import ListNotations.
Open Scope Z_scope.

Lemma to_int_ok z : int_min <= z <= int_max -> to_int z = Ret z.
Proof. intros H. unfold to_int. destruct (Z.leb_spec int_min z), (Z.leb_spec z int_max); auto; lia. Qed.

Lemma to_int_over z : int_max < z -> to_int z = Undef IntOverflow.
Proof.
  intros H. unfold to_int. destruct (Z.leb_spec z int_max); [lia|]. now rewrite andb_false_r.
Qed.

(** Five increasing positions in int range. *)
Definition pos5 (n0 n1 n2 n3 n4 : Z) : Prop := 0 <= n0 < n1 /\ n1 < n2 < n3 /\ n3 < n4 <= int_max.

Ltac ints := unfold pos5, int_max, int_min in * ; lia.

Section Generic.
  Context {A : arith}.
  Context (Hpos : forall x : A, leb (of_Z 1) x = true -> ltb (of_Z 0) x = true).
  Context (Hneg : forall x : A, leb x (of_Z (-1)) = true -> ltb (of_Z 0) x = false /\ ltb x (of_Z 0) = true).

  (** The arithmetic of adjustHeights, without the vectors. *)
  Definition par (hm hi hp : A) (nm ni np : Z) (d : Z) : A :=
    (hi +. (of_Z d /. of_Z (np - nm)) *.
       (((of_Z (ni - nm) +. of_Z d) *. (hp -. hi)) /. of_Z (np - ni) +.
        ((of_Z (np - ni) -. of_Z d) *. (hi -. hm)) /. of_Z (ni - nm)))%num.
  Definition lin (hm hi hp : A) (nm ni np : Z) (d : Z) : A :=
    (if d =? 1 then hi +. (of_Z d *. (hp -. hi)) /. of_Z (np - ni)
     else hi +. (of_Z d *. (hm -. hi)) /. of_Z (nm - ni))%num.
  Definition mv (hm hi hp : A) (nm ni np : Z) (d : Z) : A :=
    (let q := par hm hi hp nm ni np d in
     if (hm <?. q) && (q <?. hp) then q else lin hm hi hp nm ni np d)%num.
  Definition dir (des : A) (nm ni np : Z) : Z :=
    (if (des -. of_Z ni >=?. of_Z 1) && (1 <? np - ni)%Z then 1%Z
     else if (des -. of_Z ni <=?. of_Z (-1)) && (nm - ni <? -1)%Z then (-1)%Z else 0%Z)%num.
  Definition core (des hm hi hp : A) (nm ni np : Z) : A * Z :=
    match dir des nm ni np with
    | 0 => (hi, ni)
    | d => (mv hm hi hp nm ni np d, ni + d)
    end.

  Lemma dir_cases des nm ni np :
    dir des nm ni np = 0 \/
    (dir des nm ni np = 1 /\ ni + 1 < np) \/
    (dir des nm ni np = -1 /\ nm < ni - 1).
  Proof.
    unfold dir. destruct (_ && (1 <? np - ni)) eqn:E1.
    - apply andb_true_iff in E1 as [_ E1]. apply Z.ltb_lt in E1. right; left. lia.
    - destruct (_ && (nm - ni <? -1)) eqn:E2; auto.
      apply andb_true_iff in E2 as [_ E2]. apply Z.ltb_lt in E2. right; right. lia.
  Qed.

  Lemma core_pos des hm hi hp nm ni np : nm < ni < np ->
    nm < snd (core des hm hi hp nm ni np) < np.
  Proof.
    intros H. unfold core. destruct (dir_cases des nm ni np) as [->|[[-> ?]|[-> ?]]]; simpl; lia.
  Qed.

  (** The condition of adjustHeights and its direction agree with [dir]. *)
  Lemma cond_dir (d_pos : A) (g1 g2 : bool) :
    ((leb (of_Z 1) d_pos && g1) || (leb d_pos (of_Z (-1)) && g2))%bool =
      negb ((if leb (of_Z 1) d_pos && g1 then 1 else if leb d_pos (of_Z (-1)) && g2 then -1 else 0) =? 0) /\
    (((leb (of_Z 1) d_pos && g1) || (leb d_pos (of_Z (-1)) && g2))%bool = true ->
       copysign d_pos = if leb (of_Z 1) d_pos && g1 then 1 else if leb d_pos (of_Z (-1)) && g2 then -1 else 0).
  Proof.
    unfold copysign. destruct (leb (of_Z 1) d_pos) eqn:E1, (leb d_pos (of_Z (-1))) eqn:E2; simpl.
    - apply Hpos in E1. apply Hneg in E2. destruct E2. congruence.
    - apply Hpos in E1. rewrite E1. destruct g1; simpl; split; auto; discriminate.
    - apply Hneg in E2 as [-> ->]. destruct g2; simpl; split; auto; discriminate.
    - split; auto; discriminate.
  Qed.

  Ltac adj :=
    unfold adjustHeights, core, dir, mv, par, lin;
    repeat match goal with H : at_ _ _ = Ret _ |- _ => rewrite H; clear H end;
    unfold parabolic, linear, idiff, at_, store;
    cbn [bind nth_error length Nat.ltb Nat.leb set_nth Nat.add Nat.sub];
    rewrite !to_int_ok by ints; cbn [bind];
    match goal with |- context [leb (of_Z 1) ?dp && (1 <? ?a - ?b)] =>
      match goal with |- context [leb dp (of_Z (-1)) && ?g2] =>
        generalize (cond_dir dp (1 <? a - b) g2)
      end
    end;
    let C1 := fresh "C1" in let C2 := fresh "C2" in
    intros [C1 C2];
    destruct (_ || _)%bool;
    [ rewrite C2 by reflexivity; symmetry in C1
    | symmetry in C1; apply negb_false_iff, Z.eqb_eq in C1; rewrite C1; reflexivity ].

  Ltac adj_fin :=
    cbn [bind Z.eqb Z.of_nat Z.add Pos.of_succ_nat Pos.succ Pos.add Z.pos_sub Pos.pred_double Z.to_nat]; cbn;
    change (Pos.to_nat 1) with 1%nat; change (Pos.to_nat 2) with 2%nat;
    change (Pos.to_nat 3) with 3%nat; change (Pos.to_nat 4) with 4%nat; cbn [nth_error bind];
    rewrite ?to_int_ok by ints; cbn [bind];
    destruct (_ && _)%bool; cbn [bind]; rewrite ?to_int_ok by ints; reflexivity.

  Lemma adjust1 desired des h0 h1 h2 h3 h4 n0 n1 n2 n3 n4 :
    pos5 n0 n1 n2 n3 n4 -> at_ desired 1 = Ret des ->
    adjustHeights desired ([h0; h1; h2; h3; h4], [n0; n1; n2; n3; n4]) 1 =
    let r := core des h0 h1 h2 n0 n1 n2 in
    Ret ([h0; fst r; h2; h3; h4], [n0; snd r; n2; n3; n4]).
  Proof.
    intros Hn Hd. adj.
    destruct (_ && (1 <? n2 - n1)); [|destruct (_ && (n0 - n1 <? -1)); [|discriminate]]; adj_fin.
  Qed.

  Lemma adjust2 desired des h0 h1 h2 h3 h4 n0 n1 n2 n3 n4 :
    pos5 n0 n1 n2 n3 n4 -> at_ desired 2 = Ret des ->
    adjustHeights desired ([h0; h1; h2; h3; h4], [n0; n1; n2; n3; n4]) 2 =
    let r := core des h1 h2 h3 n1 n2 n3 in
    Ret ([h0; h1; fst r; h3; h4], [n0; n1; snd r; n3; n4]).
  Proof.
    intros Hn Hd. adj.
    destruct (_ && (1 <? n3 - n2)); [|destruct (_ && (n1 - n2 <? -1)); [|discriminate]]; adj_fin.
  Qed.

  Lemma adjust3 desired des h0 h1 h2 h3 h4 n0 n1 n2 n3 n4 :
    pos5 n0 n1 n2 n3 n4 -> at_ desired 3 = Ret des ->
    adjustHeights desired ([h0; h1; h2; h3; h4], [n0; n1; n2; n3; n4]) 3 =
    let r := core des h2 h3 h4 n2 n3 n4 in
    Ret ([h0; h1; h2; fst r; h4], [n0; n1; n2; snd r; n4]).
  Proof.
    intros Hn Hd. adj.
    destruct (_ && (1 <? n4 - n3)); [|destruct (_ && (n2 - n3 <? -1)); [|discriminate]]; adj_fin.
  Qed.

  (** Result of findK: first height, last height, k. *)
  Definition fk (h0 h1 h2 h3 h4 x : A) : A * A * nat :=
    (if x <?. h0 then (x, h4, 0%nat)
     else if x <?. h1 then (h0, h4, 0%nat)
     else if x <?. h2 then (h0, h4, 1%nat)
     else if x <?. h3 then (h0, h4, 2%nat)
     else if x <?. h4 then (h0, h4, 3%nat) else (h0, x, 3%nat))%num.

  Lemma findK_eq h0 h1 h2 h3 h4 x :
    findK [h0; h1; h2; h3; h4] x =
    let '(a, b, k) := fk h0 h1 h2 h3 h4 x in Ret ([a; h1; h2; h3; b], k).
  Proof.
    unfold findK, fk, at_, store. cbn.
    repeat match goal with |- context [ltb ?a ?b] => destruct (ltb a b); [reflexivity|] end. reflexivity.
  Qed.

  Lemma fk_k h0 h1 h2 h3 h4 x : (snd (fk h0 h1 h2 h3 h4 x) <= 3)%nat.
  Proof.
    unfold fk. repeat match goal with |- context [ltb ?a ?b] => destruct (ltb a b); [simpl; lia|] end. simpl; lia.
  Qed.

  Definition bumped (k : nat) (n0 n1 n2 n3 n4 : Z) : list Z :=
    [n0; (if Nat.leb k 0 then n1 + 1 else n1); (if Nat.leb k 1 then n2 + 1 else n2);
     (if Nat.leb k 2 then n3 + 1 else n3); n4 + 1].

  Lemma bump_eq k n0 n1 n2 n3 n4 : (k <= 3)%nat -> pos5 n0 n1 n2 n3 n4 -> n4 < int_max ->
    bump_from (4 - k) (k + 1) [n0; n1; n2; n3; n4] = Ret (bumped k n0 n1 n2 n3 n4).
  Proof.
    intros Hk Hn H4. destruct k as [|[|[|[|]]]]; try lia;
      repeat (cbn [Nat.sub Nat.add bump_from at_ nth_error bind store length Nat.ltb Nat.leb set_nth];
              unfold at_, store; cbn [Nat.sub Nat.add bump_from nth_error bind length Nat.ltb Nat.leb set_nth];
              rewrite ?to_int_ok by ints); reflexivity.
  Qed.

  Lemma bump_over k n0 n1 n2 n3 n4 : (k <= 3)%nat -> pos5 n0 n1 n2 n3 n4 -> n4 = int_max ->
    bump_from (4 - k) (k + 1) [n0; n1; n2; n3; n4] = Undef IntOverflow.
  Proof.
    intros Hk Hn H4. destruct k as [|[|[|[|]]]]; try lia;
      repeat (cbn [Nat.sub Nat.add bump_from at_ nth_error bind store length Nat.ltb Nat.leb set_nth];
              unfold at_, store; cbn [Nat.sub Nat.add bump_from nth_error bind length Nat.ltb Nat.leb set_nth];
              rewrite ?to_int_ok by ints); rewrite to_int_over by ints; reflexivity.
  Qed.

  (** The shape of a state; [nd] is the number of desired positions. *)
  Definition shape (s : p2 A) (h : A * A * A * A * A) (n : Z * Z * Z * Z * Z) : Prop :=
    let '(h0, h1, h2, h3, h4) := h in
    let '(n0, n1, n2, n3, n4) := n in
    p_heights s = [h0; h1; h2; h3; h4] /\ p_pos s = [n0; n1; n2; n3; n4] /\
    pos5 n0 n1 n2 n3 n4 /\ length (p_desired s) = 5%nat.

  (** An observation after the fifth, for any predicate on the heights that the
      three adjustments preserve. *)
  Lemma update_big (Inv : A -> A -> A -> A -> A -> Prop) (s : p2 A) x h0 h1 h2 h3 h4 n0 n1 n2 n3 n4 :
    (forall des h0 h1 h2 h3 h4 nm ni np, nm < ni < np -> np <= int_max -> 0 <= nm -> Inv h0 h1 h2 h3 h4 ->
       Inv h0 (fst (core des h0 h1 h2 nm ni np)) h2 h3 h4 /\
       Inv h0 h1 (fst (core des h1 h2 h3 nm ni np)) h3 h4 /\
       Inv h0 h1 h2 (fst (core des h2 h3 h4 nm ni np)) h4) ->
    (5 <= p_history s)%nat -> shape s (h0, h1, h2, h3, h4) (n0, n1, n2, n3, n4) -> n4 < int_max ->
    (let '(a, b, _) := fk h0 h1 h2 h3 h4 x in Inv a h1 h2 h3 b) ->
    exists s' g1 g2 g3 m1 m2 m3,
      p2_update s x = Ret s' /\
      (let '(a, b, _) := fk h0 h1 h2 h3 h4 x in
       shape s' (a, g1, g2, g3, b) (n0, m1, m2, m3, n4 + 1) /\ Inv a g1 g2 g3 b) /\
      p_history s' = S (p_history s) /\ p_quantile s' = p_quantile s.
  Proof.
    intros HI Hh (Eh & En & Hn & Hd) H4 Hfk.
    unfold p2_update. destruct (Nat.ltb_spec (p_history s) 5); [lia|]. clear H.
    rewrite Eh, findK_eq. pose proof (fk_k h0 h1 h2 h3 h4 x) as Hk.
    destruct (fk h0 h1 h2 h3 h4 x) as [[a b] k]. cbn [bind snd] in * .
    rewrite En, bump_eq by auto. cbn [bind].
    destruct (p_desired s) as [|d0 ds]; [discriminate|].
    change (at_ (d0 :: ds) 0) with (Ret d0). cbn [bind].
    match goal with |- context [adjustHeights ?d] => set (des := d) end.
    unfold bumped.
    set (m1 := if Nat.leb k 0 then n1 + 1 else n1).
    set (m2 := if Nat.leb k 1 then n2 + 1 else n2).
    set (m3 := if Nat.leb k 2 then n3 + 1 else n3).
    assert (Hm : pos5 n0 m1 m2 m3 (n4 + 1)).
    { unfold m1, m2, m3. destruct k as [|[|[|[|]]]]; cbn [Nat.leb]; ints. }
    clearbody m1 m2 m3.
    destruct (leb (lit 1 2) (p_quantile s)).
    - rewrite (adjust1 des _ _ _ _ _ _ _ _ _ _ _ Hm eq_refl). cbv zeta. cbn [bind].
      set (r1 := core _ a h1 h2 n0 m1 m2).
      assert (P1 : n0 < snd r1 < m2) by (apply core_pos; ints).
      assert (I1 : Inv a (fst r1) h2 h3 b) by (apply HI; auto; ints).
      clearbody r1.
      assert (Hm1 : pos5 n0 (snd r1) m2 m3 (n4 + 1)) by ints.
      rewrite (adjust2 des _ _ _ _ _ _ _ _ _ _ _ Hm1 eq_refl). cbv zeta. cbn [bind].
      set (r2 := core _ (fst r1) h2 h3 (snd r1) m2 m3).
      assert (P2 : snd r1 < snd r2 < m3) by (apply core_pos; ints).
      assert (I2 : Inv a (fst r1) (fst r2) h3 b) by (apply HI; auto; ints).
      clearbody r2.
      assert (Hm2 : pos5 n0 (snd r1) (snd r2) m3 (n4 + 1)) by ints.
      rewrite (adjust3 des _ _ _ _ _ _ _ _ _ _ _ Hm2 eq_refl). cbv zeta. cbn [bind].
      set (r3 := core _ (fst r2) h3 b (snd r2) m3 (n4 + 1)).
      assert (P3 : snd r2 < snd r3 < n4 + 1) by (apply core_pos; ints).
      assert (I3 : Inv a (fst r1) (fst r2) (fst r3) b) by (apply HI; auto; ints).
      clearbody r3.
      eexists _, (fst r1), (fst r2), (fst r3), (snd r1), (snd r2), (snd r3).
      split; [reflexivity|]. cbn. repeat split; auto; ints.
    - rewrite (adjust3 des _ _ _ _ _ _ _ _ _ _ _ Hm eq_refl). cbv zeta. cbn [bind].
      set (r3 := core _ h2 h3 b m2 m3 (n4 + 1)).
      assert (P3 : m2 < snd r3 < n4 + 1) by (apply core_pos; ints).
      assert (I3 : Inv a h1 h2 (fst r3) b) by (apply HI; auto; ints).
      clearbody r3.
      assert (Hm3 : pos5 n0 m1 m2 (snd r3) (n4 + 1)) by ints.
      rewrite (adjust2 des _ _ _ _ _ _ _ _ _ _ _ Hm3 eq_refl). cbv zeta. cbn [bind].
      set (r2 := core _ h1 h2 (fst r3) m1 m2 (snd r3)).
      assert (P2 : m1 < snd r2 < snd r3) by (apply core_pos; ints).
      assert (I2 : Inv a h1 (fst r2) (fst r3) b) by (apply HI; auto; ints).
      clearbody r2.
      assert (Hm2 : pos5 n0 m1 (snd r2) (snd r3) (n4 + 1)) by ints.
      rewrite (adjust1 des _ _ _ _ _ _ _ _ _ _ _ Hm2 eq_refl). cbv zeta. cbn [bind].
      set (r1 := core _ a h1 (fst r2) n0 m1 (snd r2)).
      assert (P1 : n0 < snd r1 < snd r2) by (apply core_pos; ints).
      assert (I1 : Inv a (fst r1) (fst r2) (fst r3) b) by (apply HI; auto; ints).
      clearbody r1.
      eexists _, (fst r1), (fst r2), (fst r3), (snd r1), (snd r2), (snd r3).
      split; [reflexivity|]. cbn. repeat split; auto; ints.
  Qed.

  Lemma update_over (s : p2 A) x h n :
    (5 <= p_history s)%nat -> shape s h n -> snd n = int_max ->
    p2_update s x = Undef IntOverflow.
  Proof.
    destruct h as [[[[h0 h1] h2] h3] h4], n as [[[[n0 n1] n2] n3] n4].
    intros Hh (Eh & En & Hn & Hd) H4. cbn in H4.
    unfold p2_update. destruct (Nat.ltb_spec (p_history s) 5); [lia|]. clear H.
    rewrite Eh, findK_eq. pose proof (fk_k h0 h1 h2 h3 h4 x) as Hk.
    destruct (fk h0 h1 h2 h3 h4 x) as [[a b] k]. cbn [bind snd] in * .
    rewrite En, bump_over by auto. reflexivity.
  Qed.

  (** ** Sorting *)
  Lemma sort_insert_perm (x : A) l : Permutation (sort_insert x l) (x :: l).
  Proof.
    induction l as [|y l IH]; simpl; auto. destruct (ltb x y); auto.
    rewrite IH. apply perm_swap.
  Qed.

  Lemma sort_list_perm (l : list A) : Permutation (sort_list l) l.
  Proof.
    unfold sort_list. enough (G : forall acc, Permutation (fold_left (fun acc x => sort_insert x acc) l acc) (l ++ acc)).
    { rewrite G. now rewrite app_nil_r. }
    induction l as [|x l IH]; intros acc; simpl; auto. rewrite IH, sort_insert_perm.
    symmetry. apply Permutation_middle.
  Qed.

  Lemma sort_list_length (l : list A) : length (sort_list l) = length l.
  Proof. apply Permutation_length, sort_list_perm. Qed.

  Lemma sort_list_In (l : list A) x : In x (sort_list l) <-> In x l.
  Proof. split; apply Permutation_in; [|symmetry]; apply sort_list_perm. Qed.

  (** ** The first five observations *)
  Lemma set_nth_app (l1 : list A) x l2 y : set_nth (l1 ++ x :: l2) (length l1) y = l1 ++ y :: l2.
  Proof. induction l1; simpl; auto. now rewrite IHl1. Qed.

  Lemma run_small (s0 : p2 A) xs : p_history s0 = 0%nat -> length (p_heights s0) = 5%nat -> (length xs <= 4)%nat ->
    update_all p2_update s0 xs =
    Ret (P2 (p_quantile s0) (p_desired s0) (p_pos s0) (xs ++ skipn (length xs) (p_heights s0)) (length xs)).
  Proof.
    intros H0 H5. induction xs as [|x xs IH] using rev_ind; intros HL.
    - simpl. rewrite <- H0. now destruct s0.
    - rewrite app_length in HL |- * . simpl in HL |- * . rewrite update_all_snoc, IH by lia. simpl.
      unfold p2_update. cbn [p_history p_heights p_quantile p_desired p_pos].
      destruct (Nat.ltb_spec (length xs) 5); [|lia].
      rewrite store_Ret by (rewrite app_length, skipn_length; lia).
      cbn [bind]. destruct (Nat.eqb_spec (S (length xs)) 5); [lia|].
      do 2 f_equal; [|lia].
      assert (E : exists y, skipn (length xs) (p_heights s0) = y :: skipn (length xs + 1) (p_heights s0)).
      { assert (L : (length xs < length (p_heights s0))%nat) by lia. revert L. generalize (length xs) as k.
        generalize (p_heights s0). clear. induction l as [|a l IH]; simpl; intros k Hk; [lia|].
        destruct k; simpl; [eauto|]. apply IH. lia. }
      destruct E as [y E]. rewrite E, set_nth_app, <- app_assoc. reflexivity.
  Qed.

  Definition desired5 (q : A) : list A :=
    [of_Z 0; of_Z 2 *. q; of_Z 4 *. q; of_Z 2 +. of_Z 2 *. q; of_Z 4]%num.

  Lemma run_five (s0 : p2 A) xs : p_history s0 = 0%nat -> length (p_heights s0) = 5%nat -> length xs = 5%nat ->
    update_all p2_update s0 xs =
    if forallb not_nan xs
    then Ret (P2 (p_quantile s0) (desired5 (p_quantile s0)) (p_pos s0) (sort_list xs) 5)
    else Undef BadPrecondition.
  Proof.
    intros H0 H5 HL. destruct (rev xs) as [|x ys] eqn:E.
    { apply (f_equal (@length _)) in E. rewrite rev_length in E. simpl in E. lia. }
    apply (f_equal (@rev _)) in E. rewrite rev_involutive in E. simpl in E. subst xs.
    rewrite app_length in HL. simpl in HL. rewrite update_all_snoc, run_small by (auto; lia).
    cbn [bind]. unfold p2_update. cbn [p_history p_heights p_quantile p_desired p_pos].
    assert (H4 : length (rev ys) = 4%nat) by lia. rewrite H4. cbn [Nat.ltb Nat.leb].
    rewrite store_Ret by (rewrite app_length, skipn_length; lia). cbn [bind Nat.eqb].
    assert (E : set_nth (rev ys ++ skipn 4 (p_heights s0)) 4 x = rev ys ++ [x]).
    { destruct (skipn 4 (p_heights s0)) as [|a [|b l]] eqn:E;
        apply (f_equal (@length _)) in E; rewrite skipn_length in E; simpl in E; try lia.
      rewrite <- H4. apply set_nth_app. }
    rewrite E. unfold std_sort. destruct (forallb not_nan (rev ys ++ [x])); reflexivity.
  Qed.

  Lemma list5 {X} (l : list X) : length l = 5%nat -> exists a b c d e, l = [a; b; c; d; e].
  Proof. destruct l as [|a [|b [|c [|d [|e [|]]]]]]; try discriminate. repeat eexists. Qed.

  (** ** Any number of observations, positions only *)
  Lemma split5 {X} (xs : list X) : (5 <= length xs)%nat -> xs = firstn 5 xs ++ skipn 5 xs /\ length (firstn 5 xs) = 5%nat.
  Proof. intros H. split; [now rewrite firstn_skipn|rewrite firstn_length; lia]. Qed.

  Definition trivial_inv : A -> A -> A -> A -> A -> Prop := fun _ _ _ _ _ => True.

  Lemma run_more (s0 : p2 A) h n0 n1 n2 n3 n4 ys :
    shape s0 h (n0, n1, n2, n3, n4) -> (5 <= p_history s0)%nat ->
    n4 + Z.of_nat (length ys) <= int_max ->
    exists s h' m1 m2 m3, update_all p2_update s0 ys = Ret s /\
      shape s h' (n0, m1, m2, m3, n4 + Z.of_nat (length ys)) /\
      p_history s = (p_history s0 + length ys)%nat /\ p_quantile s = p_quantile s0.
  Proof.
    intros Hs Hh. induction ys as [|y ys IH] using rev_ind; intros HL.
    - exists s0, h, n1, n2, n3. simpl. rewrite Z.add_0_r. repeat split; auto; lia.
    - rewrite app_length in HL |- * . simpl (length [y]) in * .
      destruct IH as (s & [[[[g0 g1] g2] g3] g4] & m1 & m2 & m3 & E & Sh & Hy & Hq); [lia|].
      destruct (update_big trivial_inv s y g0 g1 g2 g3 g4 n0 m1 m2 m3 (n4 + Z.of_nat (length ys)))
        as (s' & k1 & k2 & k3 & l1 & l2 & l3 & E' & HS & Hy' & Hq'); auto; try lia.
      { destruct (fk g0 g1 g2 g3 g4 y) as [[? ?] ?]. exact I. }
      destruct (fk g0 g1 g2 g3 g4 y) as [[a b] k] eqn:Ef. destruct HS as [HS _].
      exists s', (a, k1, k2, k3, b), l1, l2, l3. rewrite update_all_snoc, E. cbn [bind].
      rewrite Nat2Z.inj_add. change (Z.of_nat 1) with 1. rewrite Z.add_assoc.
      repeat split; try apply HS; auto; try lia; try congruence.
  Qed.

  Lemma new_shape (q : A) s0 : p2_new q = Ret s0 ->
    s0 = P2 q (repeat (of_Z 0) 5) [0; 1; 2; 3; 4] (repeat (of_Z 0) 5) 0 /\
    shape s0 (of_Z 0, of_Z 0, of_Z 0, of_Z 0, of_Z 0) (0, 1, 2, 3, 4).
  Proof.
    unfold p2_new. destruct (_ || _)%bool; [discriminate|]. intros E. injection E as <-.
    split; auto. cbn. repeat split; ints.
  Qed.

  Lemma five_shape (s0 : p2 A) xs n : length xs = 5%nat ->
    (exists h, shape s0 h n) ->
    exists h, shape (P2 (p_quantile s0) (desired5 (p_quantile s0)) (p_pos s0) (sort_list xs) 5) h n.
  Proof.
    intros HL [h Hs]. destruct (list5 (sort_list xs)) as (a & b & c & d & e & E); [rewrite sort_list_length; auto|].
    exists (a, b, c, d, e). destruct h as [[[[h0 h1] h2] h3] h4], n as [[[[n0 n1] n2] n3] n4].
    cbn in Hs |- * . intuition auto.
  Qed.

  Lemma run_ok (q : A) s0 xs : p2_new q = Ret s0 -> (5 <= length xs)%nat ->
    forallb not_nan (firstn 5 xs) = true -> Z.of_nat (length xs) <= 2 ^ 31 ->
    exists s h m1 m2 m3, update_all p2_update s0 xs = Ret s /\
      shape s h (0, m1, m2, m3, Z.of_nat (length xs) - 1) /\
      p_history s = length xs /\ p_quantile s = q.
  Proof.
    intros E0 HL HN HM. apply new_shape in E0 as [E0 S0].
    destruct (split5 xs HL) as [Ex L5].
    replace (update_all p2_update s0 xs) with (update_all p2_update s0 (firstn 5 xs ++ skipn 5 xs)) by now rewrite <- Ex.
    rewrite update_all_app, run_five by (subst s0; auto).
    rewrite HN. cbn [bind].
    destruct (five_shape s0 (firstn 5 xs) (0, 1, 2, 3, 4) L5) as [h Sh]; [eauto|].
    assert (LS : length xs = (5 + length (skipn 5 xs))%nat) by (rewrite skipn_length; lia).
    destruct (run_more _ _ _ _ _ _ _ (skipn 5 xs) Sh) as (s & h' & m1 & m2 & m3 & E & Sh' & Hh & Hq);
      [cbn; lia|ints|].
    exists s, h', m1, m2, m3. split; [exact E|].
    replace (Z.of_nat (length xs) - 1) with (4 + Z.of_nat (length (skipn 5 xs))) by lia.
    split; [exact Sh'|]. split; [|rewrite Hq; subst s0; reflexivity].
    rewrite Hh. cbn [p_history]. lia.
  Qed.

  Lemma p2_total (q : A) s0 xs : p2_new q = Ret s0 ->
    (Z.of_nat (length xs) <= 2 ^ 31 -> (length xs < 5)%nat \/ forallb not_nan (firstn 5 xs) = true ->
       exists s, update_all p2_update s0 xs = Ret s) /\
    (2 ^ 31 < Z.of_nat (length xs) -> forallb not_nan (firstn 5 xs) = true ->
       update_all p2_update s0 xs = Undef IntOverflow) /\
    ((5 <= length xs)%nat -> forallb not_nan (firstn 5 xs) = false ->
       update_all p2_update s0 xs = Undef BadPrecondition).
  Proof.
    intros E0. pose proof (new_shape _ _ E0) as [E1 S0]. split; [|split].
    - intros HM [H|H].
      + rewrite run_small; [eauto|subst s0; reflexivity|subst s0; reflexivity|lia].
      + destruct (Nat.lt_ge_cases (length xs) 5).
        * rewrite run_small; [eauto|subst s0; reflexivity|subst s0; reflexivity|lia].
        * destruct (run_ok q s0 xs E0 H0 H HM) as (s & _ & _ & _ & _ & E & _). eauto.
    - intros HM HN.
      destruct (Z_of_nat_complete (2 ^ 31)) as [N EN]; [lia|].
      assert (HL : (N < length xs)%nat) by lia.
      assert (N5 : (5 <= N)%nat) by lia.
      assert (EF : firstn 5 (firstn N xs) = firstn 5 xs) by (rewrite firstn_firstn; f_equal; lia).
      assert (LN : length (firstn N xs) = N) by (rewrite firstn_length; lia).
      destruct (run_ok q s0 (firstn N xs) E0) as (s & h & m1 & m2 & m3 & E & Sh & Hh & Hq);
        [rewrite LN; auto|rewrite EF; auto|rewrite LN; lia|].
      rewrite <- (firstn_skipn N xs), update_all_app, E. cbn [bind].
      destruct (skipn N xs) as [|y ys] eqn:Es.
      { apply (f_equal (@length _)) in Es. rewrite skipn_length in Es. simpl in Es. lia. }
      simpl update_all. rewrite (update_over s y h (0, m1, m2, m3, Z.of_nat (length (firstn N xs)) - 1)); auto.
      + rewrite Hh, LN. auto.
      + cbn. rewrite LN. ints.
    - intros HL HN. destruct (split5 xs HL) as [Ex L5].
      replace (update_all p2_update s0 xs) with (update_all p2_update s0 (firstn 5 xs ++ skipn 5 xs)) by now rewrite <- Ex.
      rewrite update_all_app, run_five by (subst s0; auto).
      now rewrite HN.
  Qed.

  (** ** Any sequence of calls *)
  Lemma eval_fields (s s' : p2 A) v : p2_evaluate s = Ret (s', v) ->
    p_quantile s' = p_quantile s /\ p_desired s' = p_desired s /\ p_pos s' = p_pos s /\
    p_history s' = p_history s /\ length (p_heights s') = length (p_heights s).
  Proof.
    unfold p2_evaluate. destruct (Nat.leb _ _).
    - unfold std_sort. destruct (forallb _ _); [|discriminate]. cbn [bind].
      destruct (round_int _); [|discriminate]. destruct (_ && _)%bool; [|discriminate].
      intros H. apply bind_Ret in H as (w & _ & H). injection H as <- _. cbn.
      rewrite sort_list_length. auto.
    - intros H. apply bind_Ret in H as (w & _ & H). injection H as <- _. auto.
  Qed.

  Definition wf (s : p2 A) (last : Z) : Prop := exists h m1 m2 m3, shape s h (0, m1, m2, m3, last).

  Lemma wf_fields (s s' : p2 A) last : wf s last ->
    length (p_heights s') = 5%nat -> p_pos s' = p_pos s -> length (p_desired s') = 5%nat -> wf s' last.
  Proof.
    intros ([[[[h0 h1] h2] h3] h4] & m1 & m2 & m3 & Sh) H1 H2 H3.
    destruct (list5 _ H1) as (a & b & c & d & e & E). exists (a, b, c, d, e), m1, m2, m3.
    cbn in Sh |- * . intuition congruence.
  Qed.

  Lemma wf_len s last : wf s last -> length (p_heights s) = 5%nat /\ length (p_desired s) = 5%nat.
  Proof.
    intros ([[[[h0 h1] h2] h3] h4] & m1 & m2 & m3 & Sh). cbn in Sh. destruct Sh as (-> & _ & _ & H). auto.
  Qed.

  Lemma call_update (s s' : p2 A) last x : wf s last -> p2_update s x = Ret s' ->
    wf s' (if Nat.ltb (p_history s) 5 then last else last + 1) /\ p_history s' = S (p_history s).
  Proof.
    intros W E. pose proof (wf_len _ _ W) as [L5 D5].
    destruct (Nat.ltb_spec (p_history s) 5) as [H|H].
    - unfold p2_update in E. destruct (Nat.ltb_spec (p_history s) 5); [|lia].
      rewrite store_Ret in E by lia. cbn [bind] in E. destruct (Nat.eqb _ _).
      + unfold std_sort in E. destruct (forallb _ _); [|discriminate]. cbn [bind] in E. injection E as <-.
        split; auto. apply (wf_fields s); auto. cbn. rewrite sort_list_length, set_nth_length. auto.
      + injection E as <-. split; auto. apply (wf_fields s); auto. cbn. now rewrite set_nth_length.
    - destruct W as ([[[[h0 h1] h2] h3] h4] & m1 & m2 & m3 & Sh).
      assert (Hl : last < int_max).
      { destruct (Z_lt_ge_dec last int_max); auto. rewrite (update_over s x _ _ H Sh) in E; [discriminate|].
        cbn. cbn in Sh. ints. }
      destruct (update_big trivial_inv s x h0 h1 h2 h3 h4 0 m1 m2 m3 last)
        as (t & k1 & k2 & k3 & l1 & l2 & l3 & E' & HS & Hy' & Hq'); auto.
      { destruct (fk h0 h1 h2 h3 h4 x) as [[? ?] ?]. exact I. }
      rewrite E in E'. injection E' as <-. split; auto.
      destruct (fk h0 h1 h2 h3 h4 x) as [[a b] k]. exists (a, k1, k2, k3, b), l1, l2, l3. apply HS.
  Qed.

  Lemma p2_calls_snoc (s : p2 A) os o : p2_calls s (os ++ [o]) = bind (p2_calls s os) (fun t => p2_call t o).
  Proof.
    revert s. induction os as [|p os IH]; intros s; simpl.
    - destruct (p2_call s o); auto.
    - destruct (p2_call s p); simpl; auto.
  Qed.

  Lemma p2_calls_app (s : p2 A) os os' : p2_calls s (os ++ os') = bind (p2_calls s os) (fun t => p2_calls t os').
  Proof.
    revert s. induction os as [|p os IH]; intros s; simpl; auto. destruct (p2_call s p); simpl; auto.
  Qed.

  Lemma n_updates_app (os os' : list (p2_op A)) : n_updates (os ++ os') = (n_updates os + n_updates os')%nat.
  Proof. induction os as [|[x| |] os IH]; simpl; auto. Qed.

  Lemma calls_wf (q : A) s0 os s : p2_new q = Ret s0 -> p2_calls s0 os = Ret s ->
    (exists last, wf s last) /\
    (forallb (fun o => negb (is_clear o)) os = true ->
       p_history s = n_updates os /\ wf s (Z.max 4 (Z.of_nat (n_updates os) - 1))).
  Proof.
    intros E0. apply new_shape in E0 as [E0 S0]. revert s. induction os as [|o os IH] using rev_ind; intros s E.
    - injection E as <-. split.
      + exists 4, (of_Z 0, of_Z 0, of_Z 0, of_Z 0, of_Z 0), 1, 2, 3. auto.
      + intros _. split; [subst s0; reflexivity|].
        exists (of_Z 0, of_Z 0, of_Z 0, of_Z 0, of_Z 0), 1, 2, 3. auto.
    - rewrite p2_calls_snoc in E. apply bind_Ret in E as (t & Et & E). specialize (IH _ Et) as [[last W] IH].
      rewrite n_updates_app, forallb_app. destruct o as [x| |]; simpl in E.
      + split; [eexists; eapply call_update; eauto|].
        rewrite andb_true_r. intros H. destruct (IH H) as [Hh W']. clear W.
        destruct (call_update _ _ _ _ W' E) as [W'' Hh'].
        simpl (n_updates [PUpdate x]). split; [lia|]. rewrite Hh in W''.
        match type of W'' with wf s ?a => match goal with |- wf s ?b => replace b with a; auto end end.
        destruct (Nat.ltb_spec (n_updates os) 5); lia.
      + apply bind_Ret in E as ([t' v] & Ev & E). injection E as <-.
        destruct (eval_fields _ _ _ Ev) as (F1 & F2 & F3 & F4 & F5).
        assert (K : forall l, wf t l -> wf t' l).
        { intros l Wl. destruct (wf_len _ _ Wl). apply (wf_fields t); auto; congruence. }
        split; [eauto|]. rewrite andb_true_r. intros H. destruct (IH H). simpl. rewrite Nat.add_0_r.
        split; auto; congruence.
      + injection E as <-. split; [exists last; apply (wf_fields t); auto; now apply (wf_len _ last)|].
        simpl. rewrite andb_false_r. discriminate.
  Qed.
End Generic.
