(** Proofs about constructors that run out of memory. *)

From Coq Require Import List Bool Lia Permutation ZArith.
From Verif Require Import Outcome ListFacts Arith Histogram Mean P2 Fame Entropy Ownership OwnSpec OwnFacts
  FailMake FailMakeSpec.
Import ListNotations.

(** [f] is [g] with [req] requests. *)
Definition fmakes {X} (f : fmaking X) (g : making X) (ok : bool) (req : nat) (B : list kind)
  (L : nat -> list kind) : Prop :=
  forall m n, wf m -> exists m' n' r added,
    f m n = Ret (m', n', r) /\ wf m' /\ Permutation (m_live m') (added ++ m_live m) /\
    match r with
    | inl x => ok = true /\ req <= n /\ n' = n - req /\ Permutation (map snd added) B /\
               g m = Ret (m', inl x)
    | inr BadAlloc => n < req /\ Permutation (map snd added) (L n)
    | inr (OfCode e) => ok = false /\ req <= n /\ n' = n - req /\
                        Permutation (map snd added) (L n) /\ g m = Ret (m', inr e)
    end.

Lemma fmakes_made {X} (x : X) : fmakes (fmade x) (made x) true 0 [] (fun _ => []).
Proof.
  intros m n W. exists m, n, (inl x), []. repeat split; auto; try apply W; try lia.
Qed.

Lemma fmakes_check {Y} (o : outcome Y) ok : (forall u, o <> Undef u) ->
  ok = match o with Ret _ => true | _ => false end ->
  fmakes (fcheck o) (check o) ok 0 [] (fun _ => []).
Proof.
  intros NU -> m n W. unfold fcheck, check. destruct o as [y|e|u]; [| |destruct (NU u eq_refl)].
  - exists m, n, (inl y), []. repeat split; auto; try apply W; lia.
  - exists m, n, (inr (OfCode e)), []. repeat split; auto; try apply W; lia.
Qed.

Lemma fmakes_request {X} (f : unit -> fmaking X) g ok req B L :
  fmakes (f tt) g ok req B L ->
  fmakes (fthen frequest f) g ok (S req) B (fun n => match n with O => [] | S n' => L n' end).
Proof.
  intros F m n W. unfold fthen, frequest. destruct n as [|n]; cbn [bind].
  - exists m, 0, (inr BadAlloc), []. repeat split; auto; try apply W; lia.
  - destruct (F m n W) as (m' & n' & r & ad & E & W' & P & H).
    exists m', n', r, ad. split; [exact E|]. split; [exact W'|]. split; [exact P|].
    destruct r as [x|[|e]]; intuition lia.
Qed.

Lemma fmakes_then {X Y} (f : fmaking X) g (f' : X -> fmaking Y) g' ok req B L ok' req' B' L' :
  fmakes f g ok req B L -> (forall x, fmakes (f' x) (g' x) ok' req' B' L') ->
  fmakes (fthen f f') (and_then g g') (ok && ok') (if ok then req + req' else req) (B' ++ B)
    (fun n => if ok && Nat.leb req n then L' (n - req) ++ B else L n).
Proof.
  intros F G m n W. unfold fthen, and_then.
  destruct (F m n W) as (m1 & n1 & r1 & a1 & -> & W1 & P1 & H1). cbn [bind].
  destruct r1 as [x|[|e]].
  - destruct H1 as (-> & Hn & -> & PB & Eg).
    destruct (G x m1 (n - req) W1) as (m2 & n2 & r2 & a2 & -> & W2 & P2 & H2).
    assert (Q : Permutation (m_live m2) ((a2 ++ a1) ++ m_live m)).
    { eapply perm_trans; [exact P2|]. rewrite <- app_assoc. now apply Permutation_app_head. }
    rewrite Eg. cbn [bind].
    assert (Hle : Nat.leb req n = true) by (now apply Nat.leb_le).
    exists m2, n2, r2, (a2 ++ a1). split; [reflexivity|]. split; [exact W2|]. split; [exact Q|].
    cbn [andb]. rewrite Hle, map_app. destruct r2 as [y|[|e]].
    + destruct H2 as (-> & H2 & -> & PB' & E2). repeat split; auto; try lia. now apply Permutation_app.
    + destruct H2 as (H2 & PB'). split; [lia|]. now apply Permutation_app.
    + destruct H2 as (-> & H2 & -> & PB' & E2). repeat split; auto; try lia. now apply Permutation_app.
  - destruct H1 as (Hn & PL). exists m1, n1, (inr BadAlloc), a1.
    split; [reflexivity|]. split; [exact W1|]. split; [exact P1|].
    assert (Hle : Nat.leb req n = false) by (apply Nat.leb_gt; lia).
    rewrite Hle, andb_false_r. split; [destruct ok; lia|exact PL].
  - destruct H1 as (-> & Hn & -> & PL & Eg). exists m1, (n - req), (inr (OfCode e)), a1.
    split; [reflexivity|]. split; [exact W1|]. split; [exact P1|]. cbn [andb]. rewrite Eg. cbn [bind].
    repeat split; auto.
Qed.

Lemma fmakes_same {X} (f : fmaking X) g ok req B L ok' req' B' L' :
  fmakes f g ok req B L -> ok = ok' -> req = req' -> Permutation B B' ->
  (forall n, (ok = false \/ n < req) -> Permutation (L n) (L' n)) -> fmakes f g ok' req' B' L'.
Proof.
  intros F <- <- PB PL m n W. destruct (F m n W) as (m' & n' & r & ad & E & W' & P & H).
  exists m', n', r, ad. split; [exact E|]. split; [exact W'|]. split; [exact P|].
  destruct r as [x|[|e]].
  - destruct H as (a & b & c & d & e). repeat split; auto. eapply perm_trans; eauto.
  - destruct H as (a & b). split; auto. eapply perm_trans; [exact b|]. apply PL. now right.
  - destruct H as (a & b & c & d & e'). repeat split; auto. eapply perm_trans; [exact d|]. apply PL. now left.
Qed.

Definition wkinds (w : nat) : list kind := if Nat.eqb w 0 then [] else [KDeque].

Lemma fmakes_object {X} k w (body : fmaking X) g ok req B L :
  fmakes body g ok req B L ->
  fmakes (fobject k w body) (new_object k w g) ok (1 + window_requests w + req) (k :: wkinds w ++ B)
    (fun n => if Nat.leb (1 + window_requests w) n then L (n - (1 + window_requests w)) else []).
Proof.
  intros F m n W. unfold fobject, fthen, fnew, fguard, fbase, new_object, window_requests, wkinds.
  destruct n as [|n].
  { exists m, 0, (inr BadAlloc), []. repeat split; auto; try apply W; lia. }
  destruct (alloc k m) as [m1 a] eqn:Ea.
  assert (W1 : wf m1) by (change m1 with (fst (m1, a)); rewrite <- Ea; now apply wf_alloc).
  injection Ea as E1 Ea.
  assert (L1 : m_live m1 = (a, k) :: m_live m) by (now subst).
  destruct w as [|w]; [change (Nat.ltb 0 0) with false | change (Nat.ltb 0 (S w)) with true];
    cbn [Nat.eqb]; cbv iota.
  - unfold fmade at 1. cbn [bind].
    destruct (F m1 n W1) as (m2 & n2 & r & ad & -> & W2 & P2 & H). cbn [bind].
    destruct r as [x|[|e]].
    + destruct H as (Hok & Hn & Hn2 & PB & Eg). rewrite Eg. cbn [bind].
      exists m2, n2, (inl (Obj a None x)), ((a, k) :: ad). split; [reflexivity|]. split; [exact W2|].
      split. { eapply perm_trans; [exact P2|]. rewrite L1. apply Permutation_sym, Permutation_middle. }
      repeat split; auto; try lia. cbn [map snd app]. now constructor.
    + destruct H as (Hn & PL). cbn [delete_opt bind].
      destruct (delete_found a k m2 (ad ++ m_live m) W2) as (m3 & E3 & W3 & P3).
      { eapply perm_trans; [exact P2|]. rewrite L1. apply Permutation_sym, Permutation_middle. }
      rewrite E3. cbn [bind]. exists m3, n2, (inr BadAlloc), ad.
      split; [reflexivity|]. split; [exact W3|]. split; [exact P3|]. split; [lia|].
      replace (Nat.leb (1 + 0) (S n)) with true by (symmetry; apply Nat.leb_le; lia).
      replace (S n - (1 + 0)) with n by lia. exact PL.
    + destruct H as (Hok & Hn & Hn2 & PL & Eg). cbn [delete_opt bind]. rewrite Eg. cbn [bind].
      destruct (delete_found a k m2 (ad ++ m_live m) W2) as (m3 & E3 & W3 & P3).
      { eapply perm_trans; [exact P2|]. rewrite L1. apply Permutation_sym, Permutation_middle. }
      rewrite E3. cbn [bind]. exists m3, n2, (inr (OfCode e)), ad.
      split; [reflexivity|]. split; [exact W3|]. split; [exact P3|].
      replace (Nat.leb (1 + 0) (S n)) with true by (symmetry; apply Nat.leb_le; lia).
      replace (S n - (1 + 0)) with n by lia. repeat split; auto; lia.
  - unfold fthen, fnew. destruct n as [|n].
    { cbn [bind]. destruct (delete_found a k m1 (m_live m) W1) as (m3 & E3 & W3 & P3).
      { rewrite L1. apply Permutation_refl. }
      rewrite E3. cbn [bind]. exists m3, 0, (inr BadAlloc), [].
      split; [reflexivity|]. split; [exact W3|]. split; [exact P3|]. split; [lia|]. constructor. }
    destruct (alloc KDeque m1) as [m2 d] eqn:Ed.
    assert (W2 : wf m2) by (change m2 with (fst (m2, d)); rewrite <- Ed; now apply wf_alloc).
    injection Ed as E2 Ed.
    assert (L2 : m_live m2 = (d, KDeque) :: (a, k) :: m_live m) by (subst m2 d; cbn; now rewrite L1).
    unfold frequest at 1. destruct n as [|n].
    { cbn [bind]. destruct (delete_found d KDeque m2 ((a, k) :: m_live m) W2) as (m3 & E3 & W3 & P3).
      { rewrite L2. apply Permutation_refl. }
      rewrite E3. cbn [bind].
      destruct (delete_found a k m3 (m_live m) W3 P3) as (m4 & E4 & W4 & P4).
      rewrite E4. cbn [bind]. exists m4, 0, (inr BadAlloc), [].
      split; [reflexivity|]. split; [exact W4|]. split; [exact P4|]. split; [lia|]. constructor. }
    cbn [bind fst]. unfold fmade at 1. cbn [bind].
    destruct (F m2 n W2) as (m3 & n3 & r & ad & -> & W3 & P3 & H). cbn [bind].
    assert (PA : Permutation (ad ++ m_live m2) ((d, KDeque) :: (a, k) :: ad ++ m_live m)).
    { rewrite L2. eapply perm_trans; [apply Permutation_sym, Permutation_middle|].
      constructor. apply Permutation_sym, Permutation_middle. }
    destruct r as [x|[|e]].
    + destruct H as (Hok & Hn & Hn2 & PB & Eg). rewrite Eg. cbn [bind].
      exists m3, n3, (inl (Obj a (Some d) x)), ((d, KDeque) :: (a, k) :: ad).
      split; [reflexivity|]. split; [exact W3|]. split; [exact (perm_trans P3 PA)|].
      repeat split; auto; try lia. cbn [map snd app]. eapply perm_trans; [apply perm_swap|].
      now do 2 constructor.
    + destruct H as (Hn & PL). cbn [delete_opt bind].
      destruct (delete_found d KDeque m3 _ W3 (perm_trans P3 PA)) as (m4 & E4 & W4 & P4).
      rewrite E4. cbn [bind].
      destruct (delete_found a k m4 _ W4 P4) as (m5 & E5 & W5 & P5).
      rewrite E5. cbn [bind]. exists m5, n3, (inr BadAlloc), ad.
      split; [reflexivity|]. split; [exact W5|]. split; [exact P5|]. split; [lia|].
      replace (Nat.leb (1 + 2) (S (S (S n)))) with true by (symmetry; apply Nat.leb_le; lia).
      replace (S (S (S n)) - (1 + 2)) with n by lia. exact PL.
    + destruct H as (Hok & Hn & Hn2 & PL & Eg). cbn [delete_opt bind]. rewrite Eg. cbn [bind delete_opt].
      destruct (delete_found d KDeque m3 _ W3 (perm_trans P3 PA)) as (m4 & E4 & W4 & P4).
      rewrite E4. cbn [bind].
      destruct (delete_found a k m4 _ W4 P4) as (m5 & E5 & W5 & P5).
      rewrite E5. cbn [bind]. exists m5, n3, (inr (OfCode e)), ad.
      split; [reflexivity|]. split; [exact W5|]. split; [exact P5|].
      replace (Nat.leb (1 + 2) (S (S (S n)))) with true by (symmetry; apply Nat.leb_le; lia).
      replace (S (S (S n)) - (1 + 2)) with n by lia. repeat split; auto; lia.
Qed.

Lemma fmakes_hist (decay : bool) :
  fmakes (fnew_hist decay) (new_hist decay) true (if decay then 3 else 1)
    (KHist :: if decay then [KIndexDeque] else []) (fun _ => []).
Proof.
  intros m n W. unfold fnew_hist, fthen, fnew, new_hist.
  destruct n as [|n].
  { exists m, 0, (inr BadAlloc), []. repeat split; auto; try apply W; destruct decay; lia. }
  destruct (alloc KHist m) as [m1 a] eqn:Ea.
  assert (W1 : wf m1) by (change m1 with (fst (m1, a)); rewrite <- Ea; now apply wf_alloc).
  injection Ea as E1 Ea.
  assert (L1 : m_live m1 = (a, KHist) :: m_live m) by (now subst).
  destruct decay.
  - destruct n as [|n].
    { cbn [bind]. destruct (delete_found a KHist m1 (m_live m) W1) as (m3 & E3 & W3 & P3).
      { rewrite L1. apply Permutation_refl. }
      rewrite E3. cbn [bind]. exists m3, 0, (inr BadAlloc), [].
      split; [reflexivity|]. split; [exact W3|]. split; [exact P3|]. split; [lia|]. constructor. }
    destruct (alloc KIndexDeque m1) as [m2 d] eqn:Ed.
    assert (W2 : wf m2) by (change m2 with (fst (m2, d)); rewrite <- Ed; now apply wf_alloc).
    injection Ed as E2 Ed.
    assert (L2 : m_live m2 = (d, KIndexDeque) :: (a, KHist) :: m_live m) by (subst m2 d; cbn; now rewrite L1).
    unfold frequest. destruct n as [|n].
    { cbn [bind]. destruct (delete_found d KIndexDeque m2 ((a, KHist) :: m_live m) W2) as (m3 & E3 & W3 & P3).
      { rewrite L2. apply Permutation_refl. }
      rewrite E3. cbn [bind].
      destruct (delete_found a KHist m3 (m_live m) W3 P3) as (m4 & E4 & W4 & P4).
      rewrite E4. cbn [bind]. exists m4, 0, (inr BadAlloc), [].
      split; [reflexivity|]. split; [exact W4|]. split; [exact P4|]. split; [lia|]. constructor. }
    cbn [bind fst snd fmade]. exists m2, n, (inl (Obj a (Some d) tt)), [(d, KIndexDeque); (a, KHist)].
    split; [reflexivity|]. split; [exact W2|]. split; [rewrite L2; apply Permutation_refl|].
    repeat split; auto; try lia. apply perm_swap.
  - cbn [bind fmade fst snd]. exists m1, n, (inl (Obj a None tt)), [(a, KHist)].
    split; [reflexivity|]. split; [exact W1|]. split; [rewrite L1; apply Permutation_refl|].
    repeat split; auto; try lia.
Qed.

Section Classes.
  Context {A : arith}.

  Definition none (n : nat) : list kind := [].

  Lemma then_made {X Y} (f : fmaking X) g (h : X -> Y) ok req B L :
    fmakes f g ok req B L ->
    fmakes (fthen f (fun x => fmade (h x))) (and_then g (fun x => made (h x))) ok req B L.
  Proof.
    intros F. eapply fmakes_same; [apply fmakes_then; [exact F|intros x; apply fmakes_made]|..].
    - apply andb_true_r.
    - destruct ok; lia.
    - apply Permutation_refl.
    - intros n Hn. destruct ok; cbn [andb] in * ; [|apply Permutation_refl].
      destruct Hn as [Hn|Hn]; [discriminate Hn|].
      replace (Nat.leb req n) with false by (symmetry; apply Nat.leb_gt; lia).
      apply Permutation_refl.
  Qed.

  Lemma fmakes_mean w :
    fmakes (fnew_mean w) (new_mean w) true (1 + window_requests w) (KMean :: wkinds w) none.
  Proof.
    eapply fmakes_same; [apply fmakes_object, fmakes_made|reflexivity|lia|rewrite app_nil_r; apply Permutation_refl|].
    intros n _. unfold none. destruct (Nat.leb _ _); apply Permutation_refl.
  Qed.

  Lemma request_none {X} (f : fmaking X) g ok req B :
    fmakes f g ok req B none -> fmakes (fthen frequest (fun _ => f)) g ok (S req) B none.
  Proof.
    intros F. eapply fmakes_same; [apply (fmakes_request (fun _ => f)); exact F|reflexivity|reflexivity|
      apply Permutation_refl|]. intros [|n] _; apply Permutation_refl.
  Qed.

  Lemma p2_ok (q : A) : negb (rejected q) = match p2_new q with Ret _ => true | _ => false end.
  Proof. unfold p2_new, rejected. now destruct (_ || _). Qed.

  Lemma p2_defined (q : A) u : p2_new q <> Undef u.
  Proof. unfold p2_new. destruct (_ || _); discriminate. Qed.

  Lemma fmakes_p2 (q : A) :
    fmakes (fnew_p2 q) (new_p2 q) (negb (rejected q)) (p2_requests q) [KP2] none.
  Proof.
    assert (F : fmakes (fthen (fcheck (p2_new q)) (fun p =>
       fthen frequest (fun _ => fthen frequest (fun _ => fthen frequest (fun _ => fmade p)))))
       (check (p2_new q)) (negb (rejected q)) (if negb (rejected q) then 3 else 0) [] none).
    { intros m n W.
      destruct (fmakes_then _ _ _ (fun p => made p) _ _ _ _ _ _ _ _
                  (fmakes_check (p2_new q) (negb (rejected q)) (p2_defined q) (p2_ok q))
                  (fun p => request_none _ _ _ _ _ (request_none _ _ _ _ _
                              (request_none _ _ _ _ _ (fmakes_made p)))) m n W)
        as (m' & n' & r & ad & E & W' & P & H).
      exists m', n', r, ad. split; [exact E|]. split; [exact W'|]. split; [exact P|].
      assert (G : and_then (check (p2_new q)) (fun p => made p) m = check (p2_new q) m).
      { unfold and_then, made, check. destruct (p2_new q); reflexivity. }
      unfold none in * . destruct r as [x|[|e]].
      - destruct H as (a & b & c & d & f). rewrite G in f. rewrite andb_true_r in a.
        repeat split; auto; destruct (rejected q); cbn in *; auto; lia.
      - destruct H as (a & b). split; [destruct (rejected q); cbn in *; lia|].
        destruct (_ && _); exact b.
      - destruct H as (a & b & c & d & f). rewrite G in f. rewrite andb_true_r in a.
        destruct (_ && _); repeat split; auto; destruct (rejected q); cbn in *; auto; lia. }
    eapply fmakes_same; [apply fmakes_object; exact F|reflexivity|..].
    - unfold p2_requests, window_requests. destruct (rejected q); cbn; lia.
    - apply Permutation_refl.
    - intros n _. unfold none. destruct (Nat.leb _ _); apply Permutation_refl.
  Qed.

  Lemma fmakes_wp2 (q : A) w :
    fmakes (fnew_wp2 q w) (new_wp2 q w) (negb (rejected q)) (1 + window_requests w + p2_requests q)
      (KWP2 :: KP2 :: wkinds w) none.
  Proof.
    eapply fmakes_same; [apply fmakes_object, fmakes_p2|reflexivity|reflexivity|..].
    - constructor. apply Permutation_app_comm.
    - intros n _. unfold none. destruct (Nat.leb _ _); apply Permutation_refl.
  Qed.

  Lemma fame_defined (s e : A) u : fame_new s e <> Undef u.
  Proof. unfold fame_new. destruct (_ || _); discriminate. Qed.

  Lemma fmakes_fame (s e : A) :
    fmakes (fnew_fame s e) (new_fame s e) (negb (epsilon_rejected e)) 1 [KFame] none.
  Proof.
    eapply fmakes_same; [apply fmakes_object, fmakes_check; [apply fame_defined|reflexivity]|..].
    - unfold fame_new, epsilon_rejected. now destruct (_ || _).
    - reflexivity.
    - apply Permutation_refl.
    - intros n _. unfold none. destruct (Nat.leb _ _); apply Permutation_refl.
  Qed.

  (** Two members after each other. *)
  Lemma fmakes_pair {X} (f1 f2 : fmaking X) g1 g2 ok1 req1 B1 ok2 req2 B2 :
    fmakes f1 g1 ok1 req1 B1 none -> fmakes f2 g2 ok2 req2 B2 none ->
    fmakes (fthen f1 (fun a => fthen f2 (fun b => fmade (a, b))))
      (and_then g1 (fun a => and_then g2 (fun b => made (a, b))))
      (ok1 && ok2) (req1 + if ok1 then req2 else 0) (B1 ++ B2)
      (fun n => if ok1 && Nat.leb req1 n then B1 else []).
  Proof.
    intros F1 F2. eapply fmakes_same;
      [apply fmakes_then; [exact F1|intros a; apply (then_made _ _ (fun b => (a, b))); exact F2]|..].
    - reflexivity.
    - destruct ok1; lia.
    - apply Permutation_app_comm.
    - intros n _. unfold none. destruct (ok1 && Nat.leb req1 n); apply Permutation_refl.
  Qed.

  Lemma fmakes_construct (c : class A) :
    rejected (lit 1 4 : A) = false -> rejected (lit 3 4 : A) = false ->
    epsilon_rejected (of_Z 0 : A) = false ->
    (forall w n, c = MkEntropy w n -> exists e : entropy A, entropy_new w n = Ret e) ->
    fmakes (fconstruct c) (construct c) (accepted c) (requests c) (footprint c) (left_behind c).
  Proof.
    intros Q1 Q3 E0 D. destruct c as [w|w|q|q w|w|l h w|s e| |n w d|w n]; cbn [fconstruct construct];
      unfold footprint, accepted, requests, left_behind; apply then_made.
    - apply fmakes_mean.
    - eapply fmakes_same; [apply fmakes_object, fmakes_pair; apply fmakes_mean|reflexivity|cbv beta iota; lia|apply Permutation_refl|].
      intros k _. cbn [andb]. destruct (Nat.leb_spec (1 + window_requests w) k) as [H|H].
      + destruct (Nat.leb_spec (1 + window_requests w) (k - (1 + window_requests w)));
          destruct (Nat.leb_spec (1 + window_requests w + (1 + window_requests w)) k); try lia; apply Permutation_refl.
      + destruct (Nat.leb_spec (1 + window_requests w + (1 + window_requests w)) k); try lia; apply Permutation_refl.
    - apply fmakes_p2.
    - apply fmakes_wp2.
    - unfold fnew_iqr, fnew_iqr_range, new_iqr, new_iqr_range.
      pose proof (fmakes_object KIQR 0 _ _ _ _ _ _
        (fmakes_pair _ _ _ _ _ _ _ _ _ _ (fmakes_wp2 (lit 1 4) w) (fmakes_wp2 (lit 3 4) w))) as F.
      rewrite Q1, Q3 in F. cbn [negb andb] in F.
      eapply fmakes_same; [exact F|reflexivity| | |].
      + unfold p2_requests. rewrite Q1, Q3. cbn [window_requests Nat.eqb]. lia.
      + apply Permutation_refl.
      + intros k _. unfold p2_requests. rewrite Q1. change (window_requests 0) with 0.
        destruct (Nat.leb_spec (1 + 0) k); destruct (Nat.leb_spec (1 + window_requests w + 4) (k - (1 + 0)));
          destruct (Nat.leb_spec (1 + (1 + window_requests w + 4)) k); try lia; apply Permutation_refl.
    - unfold fnew_iqr_range, new_iqr_range.
      eapply fmakes_same; [apply (fmakes_object KIQR 0), fmakes_pair; apply fmakes_wp2|reflexivity| | |].
      + change (window_requests 0) with 0. destruct (rejected l); cbn [negb]; lia.
      + apply Permutation_refl.
      + intros k _. change (window_requests 0) with 0. unfold p2_requests. destruct (rejected l); cbn [negb andb].
        * destruct (Nat.leb _ _); apply Permutation_refl.
        * destruct (Nat.leb_spec (1 + 0) k); destruct (Nat.leb_spec (1 + window_requests w + 4) (k - (1 + 0)));
            destruct (Nat.leb_spec (1 + (1 + window_requests w + 4)) k); try lia; apply Permutation_refl.
    - apply fmakes_fame.
    - pose proof (fmakes_object KMad 0 _ _ _ _ _ _
        (fmakes_pair _ _ _ _ _ _ _ _ _ _ (fmakes_fame (lit 1 10) (of_Z 0)) (fmakes_fame (lit 1 10) (of_Z 0)))) as F.
      rewrite E0 in F. cbn [negb andb] in F.
      eapply fmakes_same; [exact F|reflexivity|reflexivity|apply Permutation_refl|].
      intros [|[|k]] _; apply Permutation_refl.
    - apply fmakes_hist.
    - destruct (D w n eq_refl) as (e & Ee).
      eapply fmakes_same;
        [apply fmakes_object, fmakes_then;
          [apply fmakes_check; [intros u; rewrite Ee; discriminate|reflexivity]|
           intros e'; apply (then_made _ _ (fun h => (h, e'))), fmakes_hist]|..].
      + rewrite Ee. reflexivity.
      + rewrite Ee. lia.
      + rewrite app_nil_r. constructor. apply (Permutation_app_comm _ [KHist; KIndexDeque]).
      + intros k _. cbv beta. rewrite Ee. cbn [andb Nat.leb].
        destruct (Nat.leb (1 + window_requests w) k); apply Permutation_refl.
  Qed.
End Classes.

Lemma half_ok : rejected (lit 1 4 : B64) = false.
Proof. vm_compute. reflexivity. Qed.
Lemma zero_ok : epsilon_rejected (of_Z 0 : B64) = false.
Proof. vm_compute. reflexivity. Qed.

Lemma out_of_memory : forall (c : class B64) (m : mem) (n : nat),
  sound m -> (forall w k, c = MkEntropy w k -> exists e : entropy B64, entropy_new w k = Ret e) ->
  exists m' n' r, fconstruct c m n = Ret (m', n', r) /\ sound m' /\
    match r with
    | inl o => accepted c = true /\ requests c <= n /\ n' = n - requests c /\
        construct c m = Ret (m', inl o) /\
        Permutation (map snd (m_live m')) (footprint c ++ map snd (m_live m))
    | inr BadAlloc => n < requests c /\
        Permutation (map snd (m_live m')) (left_behind c n ++ map snd (m_live m))
    | inr (OfCode e) => accepted c = false /\ requests c <= n /\
        construct c m = Ret (m', inr e) /\
        Permutation (map snd (m_live m')) (left_behind c n ++ map snd (m_live m))
    end.
Proof.
  intros c m n W D.
  destruct (fmakes_construct c half_ok quarter_ok zero_ok D m n W)
    as (m' & n' & r & ad & E & W' & P & H).
  exists m', n', r. split; [exact E|]. split; [exact W'|].
  assert (PP : forall l, Permutation (map snd ad) l ->
    Permutation (map snd (m_live m')) (l ++ map snd (m_live m))).
  { intros l Q. eapply perm_trans; [apply Permutation_map; exact P|]. rewrite map_app.
    now apply Permutation_app_tail. }
  destruct r as [o|[|e]].
  - destruct H as (a & b & d & e & f). repeat split; auto.
  - destruct H as (a & b). split; auto.
  - destruct H as (a & b & d & e' & f). repeat split; auto.
Qed.

Lemma attempts_lose : forall (c : class B64) (m : mem) (n k : nat),
  sound m -> (forall w j, c = MkEntropy w j -> exists e : entropy B64, entropy_new w j = Ret e) ->
  n < requests c ->
  sound (attempts c n k m) /\
  Permutation (map snd (m_live (attempts c n k m)))
    (concat (repeat (left_behind c n) k) ++ map snd (m_live m)).
Proof.
  intros c m n k W D Hn. induction k as [|k (IW & IP)].
  - split; [exact W|apply Permutation_refl].
  - cbn [attempts repeat concat].
    destruct (out_of_memory c _ n IW D) as (m' & n' & r & E & W' & H). rewrite E.
    split; [exact W'|]. rewrite <- app_assoc.
    destruct r as [o|[|e]].
    + destruct H as (_ & H & _). lia.
    + destruct H as (_ & P). eapply perm_trans; [exact P|]. now apply Permutation_app_head.
    + destruct H as (_ & H & _). lia.
Qed.

Lemma constructors_leak :
  heap_of (fconstruct (MkVariance 9 : class B64) mem_empty 6) = Some ([KDeque; KMean], false) /\
  heap_of (fconstruct (MkIQR 9 : class B64) mem_empty 10) = Some ([KP2; KDeque; KWP2], false) /\
  heap_of (fconstruct (MkMad : class B64) mem_empty 2) = Some ([KFame], false).
Proof. split; [|split]; vm_compute; reflexivity. Qed.
