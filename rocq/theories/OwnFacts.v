(** Proofs about object ownership. *)

From Coq Require Import List Bool Lia Permutation ZArith.
From Verif Require Import Outcome ListFacts Arith Utils IBin Histogram Mean P2 Fame Entropy HistSpec HistFacts Ownership OwnSpec.
Import ListNotations.

(** The heap invariant. *)
Definition wf (m : mem) : Prop :=
  NoDup (map fst (m_live m)) /\ Forall (fun p => fst p < m_next m) (m_live m).

Lemma wf_alloc k m : wf m -> wf (fst (alloc k m)).
Proof.
  intros [N F]. split; cbn [alloc fst m_live m_next map].
  - constructor; auto. intros I. apply in_map_iff in I as (p & E & I). rewrite Forall_forall in F. specialize (F _ I). cbn in E, F. unfold addr in * . lia.
  - constructor; cbn [fst]; [unfold addr; lia|]. eapply Forall_impl; [|exact F]. cbn. unfold addr. intros; lia.
Qed.

Lemma remove_found a k l r : NoDup (map fst l) -> Permutation l ((a, k) :: r) ->
  exists l', remove_addr a l = Some l' /\ Permutation l' r.
Proof.
  revert r. induction l as [|(b, k') l IH]; intros r N P.
  - apply Permutation_nil in P. discriminate.
  - cbn [remove_addr]. destruct (Nat.eqb_spec a b) as [->|D].
    + exists l. split; auto. assert (E : (b, k') = (b, k)).
      { assert (I : In (b, k) ((b, k') :: l)) by (eapply Permutation_in; [apply Permutation_sym, P|now left]).
        destruct I as [I|I]; auto. inversion N as [|? ? N1 N2]; subst. destruct N1. apply (in_map fst) in I. exact I. }
      rewrite E in P. now apply Permutation_cons_inv in P.
    + inversion N as [|? ? N1 N2]; subst.
      assert (I : In (b, k') ((a, k) :: r)) by (eapply Permutation_in; [exact P|now left]).
      destruct I as [I|I]; [injection I as -> _; congruence|].
      apply in_split in I as (r1 & r2 & ->).
      destruct (IH (r1 ++ r2) N2) as (l' & -> & P').
      { apply (Permutation_cons_inv (a := (b, k'))). eapply perm_trans; [exact P|].
        eapply perm_trans; [apply perm_skip, Permutation_sym, Permutation_middle|]. apply perm_swap. }
      eexists. split; [reflexivity|]. eapply perm_trans; [apply perm_skip, P'|]. apply Permutation_middle.
Qed.

Lemma wf_perm n l l' : wf (Mem n l) -> Permutation l l' -> wf (Mem n l').
Proof.
  intros [N F] P. split; cbn in * .
  - eapply Permutation_NoDup; [apply Permutation_map, P|auto].
  - rewrite Forall_forall in * . intros x I. apply F. eapply Permutation_in; [apply Permutation_sym, P|auto].
Qed.

Lemma delete_found a k m r : wf m -> Permutation (m_live m) ((a, k) :: r) ->
  exists m', delete_ a m = Ret m' /\ wf m' /\ Permutation (m_live m') r.
Proof.
  intros W P. destruct (remove_found a k (m_live m) r (proj1 W) P) as (l' & E & P'). unfold delete_. rewrite E.
  eexists. split; [reflexivity|]. split; [|exact P']. cbn [m_live].
  destruct m as [n l]. cbn [m_live m_next] in * .
  assert (W' := wf_perm _ _ _ W (perm_trans P (perm_skip _ (Permutation_sym P')))).
  destruct W' as [N F]. split; cbn [m_live m_next map fst] in * .
  - now inversion N.
  - now inversion F.
Qed.

(** Blocks of objects, with addresses. *)
Definition window_blocks (k : kind) (w : option addr) : list (addr * kind) :=
  match w with Some a => [(a, k)] | None => [] end.

Lemma delete_opt_found w k m r : wf m -> Permutation (m_live m) (window_blocks k w ++ r) ->
  exists m', delete_opt w m = Ret m' /\ wf m' /\ Permutation (m_live m') r.
Proof.
  destruct w as [a|]; cbn [window_blocks app delete_opt].
  - apply delete_found.
  - intros W P. exists m. auto.
Qed.

Definition obj_blocks {X} (k kw : kind) (o : obj X) : list (addr * kind) :=
  (o_addr o, k) :: window_blocks kw (o_window o).

(** Deleting an object releases [inner] and its own blocks. *)
Lemma delete_object_found {X} (body : X -> mem -> outcome mem) k kw (o : obj X) inner m r :
  wf m -> Permutation (m_live m) (obj_blocks k kw o ++ inner ++ r) ->
  (forall m r, wf m -> Permutation (m_live m) (inner ++ r) ->
     exists m', body (o_members o) m = Ret m' /\ wf m' /\ Permutation (m_live m') r) ->
  exists m', delete_object body o m = Ret m' /\ wf m' /\ Permutation (m_live m') r.
Proof.
  intros W P B. unfold delete_object.
  destruct (B m (obj_blocks k kw o ++ r) W) as (m1 & -> & W1 & P1).
  { eapply perm_trans; [exact P|]. rewrite !app_assoc. apply Permutation_app_tail, Permutation_app_comm. }
  cbn [bind]. destruct (delete_opt_found (o_window o) kw m1 ((o_addr o, k) :: r) W1) as (m2 & -> & W2 & P2).
  { eapply perm_trans; [exact P1|]. unfold obj_blocks. cbn [app]. apply Permutation_middle. }
  cbn [bind]. exact (delete_found _ k _ _ W2 P2).
Qed.

Lemma nothing_found {X} (x : X) m r : wf m -> Permutation (m_live m) ([] ++ r) ->
  exists m', nothing x m = Ret m' /\ wf m' /\ Permutation (m_live m') r.
Proof. intros W P. exists m. auto. Qed.

(** What a constructor does to the heap: on success it adds [blocks], on an
    exception the blocks in [loss]. *)
Definition makes {X} (f : making X) (blocks : X -> list (addr * kind) -> Prop) (loss : exn -> list (addr * kind) -> Prop) : Prop :=
  forall m, wf m -> exists m' r added, f m = Ret (m', r) /\ wf m' /\
    Permutation (m_live m') (added ++ m_live m) /\
    match r with inl x => blocks x added | inr e => loss e added end.

Lemma makes_made {X} (x : X) : makes (made x) (fun y l => y = x /\ l = []) (fun _ _ => False).
Proof. intros m W. exists m, (inl x), []. cbn. auto. Qed.

Lemma makes_check {Y} (o : outcome Y) : (forall u, o <> Undef u) ->
  makes (check o) (fun y l => o = Ret y /\ l = []) (fun e l => o = Throw e /\ l = []).
Proof.
  intros H m W. unfold check. destruct o as [y|e|u]; [| |destruct (H u); auto].
  - exists m, (inl y), []. auto.
  - exists m, (inr e), []. auto.
Qed.

Lemma makes_then {X Y} (f : making X) (g : X -> making Y) B L B' L' :
  makes f B L -> (forall x, makes (g x) (B' x) (L' x)) ->
  makes (and_then f g) (fun y l => exists x l1 l2, B x l1 /\ B' x y l2 /\ l = l2 ++ l1)
    (fun e l => L e l \/ exists x l1 l2, B x l1 /\ L' x e l2 /\ l = l2 ++ l1).
Proof.
  intros F G m W. destruct (F m W) as (m1 & r1 & a1 & E1 & W1 & P1 & H1). unfold and_then. rewrite E1. cbn [bind].
  destruct r1 as [x|e].
  - destruct (G x m1 W1) as (m2 & r2 & a2 & E2 & W2 & P2 & H2). exists m2, r2, (a2 ++ a1).
    split; [exact E2|]. split; [exact W2|]. split.
    + eapply perm_trans; [exact P2|]. rewrite <- app_assoc. apply Permutation_app_head, P1.
    + destruct r2; [exists x, a1, a2; auto|right; exists x, a1, a2; auto].
  - exists m1, (inr e), a1. repeat split; auto; apply W1.
Qed.

Lemma makes_weaken {X} (f : making X) (B B' : X -> _ -> Prop) (L L' : exn -> _ -> Prop) :
  makes f B L -> (forall x l, B x l -> B' x l) -> (forall e l, L e l -> L' e l) -> makes f B' L'.
Proof.
  intros F HB HL m W. destruct (F m W) as (m1 & r & a & E & W1 & P & H). exists m1, r, a.
  repeat split; auto; try apply W1. destruct r; auto.
Qed.

Lemma makes_object {X} k w (body : making X) B L : makes body B L ->
  makes (new_object k w body)
    (fun o l => (o_window o = None <-> w = 0) /\ exists inner, B (o_members o) inner /\ Permutation l (obj_blocks k KDeque o ++ inner))
    (fun e l => exists l', L e l' /\ Permutation l l').
Proof.
  intros F m W. unfold new_object. destruct (alloc k m) as [m1 a] eqn:Ea.
  assert (W1 : wf m1) by (change m1 with (fst (m1, a)); rewrite <- Ea; now apply wf_alloc).
  injection Ea as E1 Ea. 
  assert (exists m2 b, (if Nat.ltb 0 w then let '(m', d) := alloc KDeque m1 in (m', Some d) else (m1, None)) = (m2, b) /\
      (b = None <-> w = 0) /\ wf m2 /\ m_live m2 = window_blocks KDeque b ++ m_live m1) as (m2 & b & -> & Hb & W2 & L2).
  { destruct (Nat.ltb_spec 0 w).
    - destruct (alloc KDeque m1) as [m' d] eqn:Ed. exists m', (Some d). split; auto. split; [split; [discriminate|lia]|].
      split; [change m' with (fst (m', d)); rewrite <- Ed; now apply wf_alloc|]. injection Ed as <- <-. reflexivity.
    - exists m1, None. split; auto. split; [split; [lia|auto]|]. auto. }
  destruct (F m2 W2) as (m3 & r & inner & -> & W3 & P3 & H). cbn [bind].
  assert (L1 : m_live m1 = (a, k) :: m_live m) by (now subst).
  destruct r as [x|e].
  - exists m3, (inl (Obj a b x)), (window_blocks KDeque b ++ [(a, k)] ++ inner). split; auto. split; auto. split.
    + eapply perm_trans; [exact P3|]. rewrite L2, L1.
      eapply perm_trans; [apply Permutation_app_swap_app|]. rewrite <- !app_assoc. apply Permutation_app_head.
      cbn [app]. apply Permutation_sym, Permutation_middle.
    + cbn [o_window o_members]. split; auto. exists inner. split; auto. unfold obj_blocks. cbn [o_addr o_window app].
      apply Permutation_sym, Permutation_middle.
  - destruct (delete_opt_found b KDeque m3 ((a, k) :: inner ++ m_live m) W3) as (m4 & -> & W4 & P4).
    { eapply perm_trans; [exact P3|]. rewrite L2, L1. eapply perm_trans; [apply Permutation_app_swap_app|].
      apply Permutation_app_head, Permutation_sym, Permutation_middle. }
    cbn [bind]. destruct (delete_found a k m4 (inner ++ m_live m) W4 P4) as (m5 & -> & W5 & P5). cbn [bind].
    exists m5, (inr e), inner. repeat split; auto; try apply W5. exists inner. auto.
Qed.

Section OwnFacts.
  Context {A : arith} (log2 : A -> A).

  Definition mean_blocks (o : mean_obj) := obj_blocks KMean KDeque o.
  Definition p2_blocks (o : p2_obj (A := A)) := obj_blocks KP2 KDeque o.
  Definition wp2_blocks (o : wp2_obj (A := A)) := obj_blocks KWP2 KDeque o ++ p2_blocks (o_members o).
  Definition fame_blocks (o : fame_obj (A := A)) := obj_blocks KFame KDeque o.
  Definition hist_blocks (o : hist_obj) := obj_blocks KHist KIndexDeque o.

  Definition blocks (o : object A) : list (addr * kind) :=
    match o with
    | OMean o => mean_blocks o
    | OVariance o => obj_blocks KVariance KDeque o ++ mean_blocks (fst (o_members o)) ++ mean_blocks (snd (o_members o))
    | OP2 o => p2_blocks o
    | OWP2 o => wp2_blocks o
    | OIQR o => obj_blocks KIQR KDeque o ++ wp2_blocks (fst (o_members o)) ++ wp2_blocks (snd (o_members o))
    | OFame o => fame_blocks o
    | OMad o => obj_blocks KMad KDeque o ++ fame_blocks (fst (o_members o)) ++ fame_blocks (snd (o_members o))
    | OHist o _ => hist_blocks o
    | OEntropy o => obj_blocks KEntropy KDeque o ++ hist_blocks (fst (o_members o))
    end.

  Lemma window_kinds k w : map snd (window_blocks k w) = window_kind k w.
  Proof. now destruct w. Qed.

  Lemma blocks_parts o : map snd (blocks o) = parts o.
  Proof.
    destruct o; unfold blocks, parts, wp2_blocks, mean_blocks, p2_blocks, fame_blocks, hist_blocks, obj_blocks,
      wp2_parts, mean_parts, p2_parts, fame_parts, hist_parts;
    repeat (rewrite ?map_app, ?window_kinds || cbn [map app snd]); auto.
    all: rewrite ?app_comm_cons; auto.
  Qed.

  Definition no_loss : exn -> list (addr * kind) -> Prop := fun _ _ => False.

  Lemma makes_mean w : makes (new_mean w) (fun o l => Permutation l (mean_blocks o)) no_loss.
  Proof.
    eapply makes_weaken; [apply makes_object, makes_made| |].
    - cbn beta. intros o l (_ & inner & (_ & ->) & P). now rewrite app_nil_r in P.
    - intros e l (l' & [] & _).
  Qed.

  Lemma makes_pair {X} (f g : making X) (bl : X -> list (addr * kind)) :
    makes f (fun o l => Permutation l (bl o)) no_loss -> makes g (fun o l => Permutation l (bl o)) no_loss ->
    makes (and_then f (fun a => and_then g (fun b => made (a, b))))
      (fun o l => Permutation l (bl (fst o) ++ bl (snd o))) no_loss.
  Proof.
    intros F G. eapply makes_weaken;
      [apply (makes_then _ _ _ _ (fun (a : X) o l => exists b, o = (a, b) /\ Permutation l (bl b)) (fun _ => no_loss) F); intros a|..].
    - eapply makes_weaken; [apply (makes_then _ _ _ _ (fun (b : X) o l => o = (a, b) /\ l = []) (fun _ => no_loss) G); intros b|..].
      + eapply makes_weaken; [apply makes_made|..]; auto.
      + cbn beta. intros o l (b & l1 & l2 & P & (-> & ->) & ->). exists b. auto.
      + intros e l [[]|(b & l1 & l2 & _ & [] & _)].
    - cbn beta. intros o l (a & l1 & l2 & P & (b & -> & P2) & ->). cbn [fst snd].
      eapply perm_trans; [apply Permutation_app_comm|]. now apply Permutation_app.
    - intros e l [[]|(b & l1 & l2 & _ & [] & _)].
  Qed.

  Lemma p2_new_cases (q : A) : p2_new q = if rejected q then Throw InvalidArgument else p2_new q.
  Proof. unfold p2_new, rejected. now destruct (_ || _). Qed.

  Lemma makes_p2 q : makes (new_p2 q) (fun o l => rejected q = false /\ Permutation l (p2_blocks o))
    (fun e l => rejected q = true /\ l = []).
  Proof.
    eapply makes_weaken; [apply makes_object, makes_check| |].
    - unfold p2_new. intros u. destruct (_ || _); discriminate.
    - cbn beta. intros o l (_ & inner & (E & ->) & P). rewrite app_nil_r in P. split; auto.
      rewrite p2_new_cases in E. destruct (rejected q); auto; discriminate.
    - cbn beta. intros e l (l' & (E & ->) & P). apply Permutation_sym, Permutation_nil in P. split; auto.
      unfold p2_new in E. unfold rejected. destruct (_ || _); auto; discriminate.
  Qed.

  Lemma makes_wp2 q w : makes (new_wp2 q w)
    (fun o l => rejected q = false /\ (o_window o = None <-> w = 0) /\ o_window (o_members o) = None /\ Permutation l (wp2_blocks o))
    (fun e l => rejected q = true /\ l = []).
  Proof.
    eapply makes_weaken; [apply makes_object, (makes_object KP2 0), makes_check| |].
    - unfold p2_new. intros u. destruct (_ || _); discriminate.
    - cbn beta. intros o l (Hw & inner & (Hw' & inner' & (E & ->) & P') & P). rewrite app_nil_r in P'.
      split; [rewrite p2_new_cases in E; destruct (rejected q); auto; discriminate|]. split; auto. split; [now apply Hw'|].
      eapply perm_trans; [exact P|]. apply Permutation_app_head, P'.
    - cbn beta. intros e l (l' & (l'' & (E & ->) & P') & P). apply Permutation_sym, Permutation_nil in P'. subst l'.
      apply Permutation_sym, Permutation_nil in P. split; auto.
      unfold p2_new in E. unfold rejected. destruct (_ || _); auto; discriminate.
  Qed.

  Definition range_loss (l h : A) (w : nat) : list kind :=
    if negb (rejected l) && rejected h then KWP2 :: (if Nat.ltb 0 w then [KDeque] else []) ++ [KP2] else [].

  Lemma wp2_kinds (o : wp2_obj (A := A)) w : (o_window o = None <-> w = 0) -> o_window (o_members o) = None ->
    map snd (wp2_blocks o) = KWP2 :: (if Nat.ltb 0 w then [KDeque] else []) ++ [KP2].
  Proof.
    intros Hw Hp. unfold wp2_blocks, p2_blocks, obj_blocks. rewrite Hp, map_app. cbn [map snd window_blocks app].
    rewrite window_kinds. f_equal. f_equal. destruct (o_window o) eqn:E; destruct (Nat.ltb_spec 0 w); auto.
    - assert (w = 0) by lia. apply Hw in H0. discriminate.
    - assert (w = 0) by (now apply Hw). lia.
  Qed.

  Lemma makes_iqr_range l h w : makes (new_iqr_range l h w)
    (fun o bl => range_loss l h w = [] /\ Permutation bl (blocks (OIQR o)))
    (fun e bl => Permutation (map snd bl) (range_loss l h w)).
  Proof.
    unfold range_loss.
    eapply makes_weaken; [apply makes_object|..].
    - apply (makes_then _ _ _ _ (fun (a : wp2_obj) o bl => rejected h = false /\ exists b, o = (a, b) /\ Permutation bl (wp2_blocks b))
               (fun _ e bl => rejected h = true /\ bl = []) (makes_wp2 l w)). intros a.
      eapply makes_weaken; [apply (makes_then _ _ _ _ (fun (b : wp2_obj) o bl => o = (a, b) /\ bl = []) (fun _ => no_loss) (makes_wp2 h w)); intros b|..].
      + eapply makes_weaken; [apply makes_made|..]; auto.
      + cbn beta. intros o bl (b & l1 & l2 & (R & _ & _ & P) & (-> & ->) & ->). split; auto. exists b. auto.
      + cbn beta. intros e bl [(R & ->)|(b & l1 & l2 & _ & [] & _)]. auto.
    - cbn beta. intros o bl (_ & inner & (a & l1 & l2 & (Rl & _ & _ & Pl) & (Rh & b & E & Ph) & ->) & P).
      rewrite Rl, Rh. split; auto. cbn [blocks]. eapply perm_trans; [exact P|]. apply Permutation_app_head. rewrite E. cbn [fst snd].
      eapply perm_trans; [apply Permutation_app_comm|]. now apply Permutation_app.
    - cbn beta. intros e bl (l' & [(Rl & ->)|(a & l1 & l2 & (Rl & Hw & Hp & Pl) & (Rh & ->) & ->)] & P).
      + apply Permutation_sym, Permutation_nil in P. subst. rewrite Rl. auto.
      + rewrite Rl, Rh. cbn [negb andb]. rewrite <- (wp2_kinds a w Hw Hp). apply Permutation_map.
        eapply perm_trans; [exact P|]. exact Pl.
  Qed.

  Lemma makes_fame s e : makes (new_fame s e)
    (fun o l => (exists f, fame_new s e = Ret f) /\ Permutation l (fame_blocks o))
    (fun x l => fame_new s e = Throw x /\ l = []).
  Proof.
    eapply makes_weaken; [apply makes_object, makes_check| |].
    - unfold fame_new. intros u. destruct (_ || _); discriminate.
    - cbn beta. intros o l (_ & inner & (E & ->) & P). rewrite app_nil_r in P. split; eauto.
    - cbn beta. intros e' l (l' & (E & ->) & P). split; auto. now apply Permutation_sym, Permutation_nil in P.
  Qed.

  Lemma makes_hist d : makes (new_hist d) (fun o l => Permutation l (hist_blocks o) /\ (d = true -> o_window o <> None)) no_loss.
  Proof.
    intros m W. unfold new_hist. destruct (alloc KHist m) as [m1 a] eqn:Ea.
    assert (W1 : wf m1) by (change m1 with (fst (m1, a)); rewrite <- Ea; now apply wf_alloc).
    assert (L1 : m_live m1 = (a, KHist) :: m_live m) by (now injection Ea as <- <-). destruct d.
    - destruct (alloc KIndexDeque m1) as [m2 d] eqn:Ed.
      assert (W2 : wf m2) by (change m2 with (fst (m2, d)); rewrite <- Ed; now apply wf_alloc).
      eexists m2, (inl _), [(d, KIndexDeque); (a, KHist)]. split; [reflexivity|]. split; auto. split.
      + injection Ed as <- <-. cbn [m_live]. rewrite L1. apply Permutation_refl.
      + unfold hist_blocks, obj_blocks. cbn [o_addr o_window window_blocks]. split; [apply perm_swap|discriminate].
    - eexists m1, (inl _), [(a, KHist)]. split; [reflexivity|]. split; auto. split; [rewrite L1; apply Permutation_refl|].
      split; [apply Permutation_refl|discriminate].
  Qed.

  Lemma makes_mad : makes (new_mad (A := A)) (fun o l => Permutation l (blocks (OMad o))) (fun _ l => l = []).
  Proof.
    eapply makes_weaken; [apply makes_object|..].
    - apply (makes_then _ _ _ _ (fun (a : fame_obj) o bl => exists b, o = (a, b) /\ Permutation bl (fame_blocks b))
               (fun _ e bl => fame_new (A := A) (lit 1 10) (of_Z 0) = Throw e) (makes_fame _ _)). intros a.
      eapply makes_weaken; [apply (makes_then _ _ _ _ (fun (b : fame_obj) o bl => o = (a, b) /\ bl = []) (fun _ => no_loss) (makes_fame _ _)); intros b|..].
      + eapply makes_weaken; [apply makes_made|..]; auto.
      + cbn beta. intros o bl (b & l1 & l2 & (_ & P) & (-> & ->) & ->). exists b. auto.
      + cbn beta. intros e bl [(R & ->)|(b & l1 & l2 & _ & [] & _)]. auto.
    - cbn beta. intros o bl (_ & inner & (a & l1 & l2 & (_ & Pl) & (b & E & Ph) & ->) & P).
      cbn [blocks]. eapply perm_trans; [exact P|]. apply Permutation_app_head. rewrite E. cbn [fst snd].
      eapply perm_trans; [apply Permutation_app_comm|]. now apply Permutation_app.
    - cbn beta. intros e bl (l' & [(_ & ->)|(a & l1 & l2 & ((f & E) & _) & E' & _)] & P).
      + now apply Permutation_sym, Permutation_nil in P.
      + rewrite E in E'. discriminate.
  Qed.

  Lemma makes_entropy w n : (w = 0 -> n <> 0) ->
    makes (new_entropy (A := A) w n)
      (fun o l => entropy_new w n = Ret (snd (o_members o)) /\ Permutation l (blocks (OEntropy o)) /\
                  o_window (fst (o_members o)) <> None) (fun _ l => False).
  Proof.
    intros Hn. assert (E : exists e : entropy A, entropy_new w n = Ret e).
    { unfold entropy_new, entropy_bins. destruct (Nat.eqb_spec n 0), (Nat.eqb_spec w 0); cbn [bind]; eauto. destruct (Hn e0 e). }
    destruct E as (e & E). eapply makes_weaken; [apply makes_object|..].
    - apply (makes_then _ _ _ _ (fun x o bl => (Permutation bl (hist_blocks (fst o)) /\ o_window (fst o) <> None) /\ snd o = x) (fun _ => no_loss) (makes_check (entropy_new w n) ltac:(now rewrite E))).
      intros x. eapply makes_weaken; [apply (makes_then _ _ _ _ (fun (h : hist_obj) o bl => o = (h, x) /\ bl = []) (fun _ => no_loss) (makes_hist true)); intros h|..].
      + eapply makes_weaken; [apply makes_made|..]; auto.
      + cbn beta. intros o bl (h & l1 & l2 & (P & Hw) & (-> & ->) & ->). auto.
      + cbn beta. intros x' bl [[]|(b & l1 & l2 & _ & [] & _)].
    - cbn beta. intros o bl (_ & inner & (x & l1 & l2 & (Ex & ->) & ((Ph & Hw) & <-) & ->) & P). split; auto. split; auto.
      cbn [blocks]. eapply perm_trans; [exact P|]. apply Permutation_app_head. rewrite app_nil_r. exact Ph.
    - cbn beta. intros x bl (l' & [(Ex & ->)|(a & l1 & l2 & _ & [] & _)] & P). rewrite E in Ex. discriminate.
  Qed.

  (** What the histogram inside an object has been through. *)
  Definition used (h : hist A) : Prop :=
    h_window h = None \/ exists N W os, hist_calls (hist_new N W true) os = Ret h.
  Definition sound (o : object A) : Prop :=
    match o with
    | OHist _ h => used h
    | OEntropy o => used (e_hist (snd (o_members o)))
    | _ => True
    end.

  Lemma makes_wrap {X} (f : making X) (g : X -> object A) B L : makes f B L ->
    makes (and_then f (fun o => made (g o))) (fun o l => exists x, o = g x /\ B x l) L.
  Proof.
    intros F. eapply makes_weaken; [apply (makes_then _ _ _ _ (fun x o l => o = g x /\ l = []) (fun _ => no_loss) F); intros x|..].
    - eapply makes_weaken; [apply makes_made|..]; auto.
    - cbn beta. intros o l (x & l1 & l2 & H & (-> & ->) & ->). exists x. auto.
    - intros e l [H|(x & l1 & l2 & _ & [] & _)]. exact H.
  Qed.

  Lemma makes_construct c s : rejected (lit 3 4 : A) = false -> c <> MkEntropy 0 0 ->
    makes (construct (A := A) c) (fun o l => lost s (Create c) = [] /\ Permutation l (blocks o) /\ sound o)
      (fun _ l => Permutation (map snd l) (lost s (Create c))).
  Proof.
    intros Hd He. destruct c as [w|w|q|q w|w|l h w|t e| |n w d|w n]; cbn [construct lost].
    - eapply makes_weaken; [apply makes_wrap, makes_mean|..].
      + intros o l (x & -> & P). cbn [sound]. auto.
      + intros e l [].
    - eapply makes_weaken; [apply makes_wrap, makes_object, (makes_pair _ _ mean_blocks); apply makes_mean|..].
      + cbn beta. intros o l (x & -> & _ & inner & P & Q). cbn [sound]. split; auto. split; auto. cbn [blocks].
        eapply perm_trans; [exact Q|]. now apply Permutation_app_head.
      + intros e l (l' & [] & _).
    - eapply makes_weaken; [apply makes_wrap, makes_p2|..].
      + intros o l (x & -> & _ & P). cbn [sound]. auto.
      + cbn beta. intros e l (_ & ->). auto.
    - eapply makes_weaken; [apply makes_wrap, makes_wp2|..].
      + intros o l (x & -> & _ & _ & _ & P). cbn [sound]. auto.
      + cbn beta. intros e l (_ & ->). auto.
    - eapply makes_weaken; [apply makes_wrap, (makes_iqr_range _ _ w)|..].
      + cbn beta. intros o l (x & -> & _ & P). cbn [sound]. auto.
      + cbn beta. intros e l. unfold range_loss. rewrite Hd. destruct (rejected (lit 1 4)); auto.
    - eapply makes_weaken; [apply makes_wrap, makes_iqr_range|..].
      + cbn beta. intros o bl (x & -> & R & P). cbn [sound]. auto.
      + cbn beta. auto.
    - eapply makes_weaken; [apply makes_wrap, makes_fame|..].
      + cbn beta. intros o l (x & -> & _ & P). cbn [sound]. auto.
      + cbn beta. intros x l (_ & ->). auto.
    - eapply makes_weaken; [apply makes_wrap, makes_mad|..].
      + cbn beta. intros o l (x & -> & P). cbn [sound]. auto.
      + cbn beta. intros x l ->. auto.
    - eapply makes_weaken; [apply makes_wrap, makes_hist|..].
      + cbn beta. intros o l (x & -> & P & _). split; auto. split; auto. cbn [sound]. unfold used.
        destruct d; [right; exists n, w, []; reflexivity|left; reflexivity].
      + intros e l [].
    - eapply makes_weaken; [apply makes_wrap, makes_entropy|..].
      + intros ->. intros ->. congruence.
      + cbn beta. intros o l (x & -> & E & P & _). split; auto. split; auto. cbn [sound].
        unfold entropy_new in E. apply bind_Ret in E as (b & _ & E). injection E as <-. cbn [e_hist].
        right. exists b, w, []. reflexivity.
      + cbn beta. intros x l [].
  Qed.

  Definition frees (f : mem -> outcome mem) (l : list (addr * kind)) : Prop :=
    forall m r, wf m -> Permutation (m_live m) (l ++ r) -> exists m', f m = Ret m' /\ wf m' /\ Permutation (m_live m') r.

  Lemma frees_object {X} (body : X -> mem -> outcome mem) k kw (o : obj X) inner :
    frees (body (o_members o)) inner -> frees (delete_object body o) (obj_blocks k kw o ++ inner).
  Proof. intros B m r W P. rewrite <- app_assoc in P. exact (delete_object_found body k kw o inner m r W P B). Qed.

  Lemma frees_nothing {X} (x : X) : frees (nothing x) [].
  Proof. intros m r. apply nothing_found. Qed.

  Lemma frees_plain {X} k kw (o : obj X) : frees (delete_object nothing o) (obj_blocks k kw o).
  Proof. rewrite <- (app_nil_r (obj_blocks k kw o)). apply frees_object, frees_nothing. Qed.

  Lemma frees_seq f g l l' : frees f l -> frees g l' -> frees (fun m => let* m1 := f m in g m1) (l ++ l').
  Proof.
    intros F G m r W P. rewrite <- app_assoc in P. destruct (F m _ W P) as (m1 & -> & W1 & P1). cbn [bind]. exact (G m1 r W1 P1).
  Qed.

  (** What deleting an object leaves behind. *)
  Definition orphans (o : object A) : list (addr * kind) :=
    match o with OEntropy o => hist_blocks (fst (o_members o)) | _ => [] end.

  Lemma destroy_frees o m r : wf m -> Permutation (m_live m) (blocks o ++ r) ->
    exists m', destroy o m = Ret m' /\ wf m' /\ Permutation (m_live m') (orphans o ++ r).
  Proof.
    destruct o as [o|o|o|o|o|o|o|o h|o]; cbn [destroy blocks orphans app].
    - apply (frees_plain KMean KDeque o).
    - apply (frees_object _ KVariance KDeque o). destruct (o_members o) as [a b]. cbn [fst snd]. apply frees_seq; apply frees_plain.
    - apply (frees_plain KP2 KDeque o).
    - apply (frees_object _ KWP2 KDeque o), frees_plain.
    - apply (frees_object _ KIQR KDeque o). destruct (o_members o) as [a b]. cbn [fst snd].
      apply frees_seq; apply frees_object, frees_plain.
    - apply (frees_plain KFame KDeque o).
    - apply (frees_object _ KMad KDeque o). destruct (o_members o) as [a b]. cbn [fst snd]. apply frees_seq; apply frees_plain.
    - apply (frees_plain KHist KIndexDeque o).
    - intros W P. rewrite <- app_assoc in P. exact (frees_plain KEntropy KDeque o m _ W P).
  Qed.

  Lemma update_no_window (h : hist A) x : h_window h = None -> forall h', hist_update h x <> Ret h'.
  Proof.
    intros Hw h' E. unfold hist_update, hist_add in E. apply bind_Ret in E as (h1 & E & _).
    apply bind_Ret in E as (i & _ & E). apply bind_Ret in E as ((bins & freed) & _ & E). rewrite Hw in E. discriminate.
  Qed.

  Lemma used_update h x h' : used h -> hist_update h x = Ret h' ->
    used h' /\ h_deletes h' = h_deletes h + if falls_in h x then 1 else 0.
  Proof.
    intros [Hw|(N & W & os & E)] U; [destruct (update_no_window h x Hw h' U)|].
    split; [right; exists N, W, (os ++ [HUpdate x])|exact (proj2 (update_memory N W os h x h' E U))].
    rewrite hist_calls_snoc, E. cbn [bind hist_call]. exact U.
  Qed.

  Lemma bin_memory_spec (h h' : hist A) x m : wf m -> used h -> hist_update h x = Ret h' ->
    exists m' l, bin_memory h h' m = Ret m' /\ wf m' /\ Permutation (m_live m') (l ++ m_live m) /\
      map snd l = if falls_in h x then [] else [KBin].
  Proof.
    intros W U E. destruct (used_update h x h' U E) as [_ Hd]. unfold bin_memory. destruct (alloc KBin m) as [m1 a] eqn:Ea.
    assert (W1 : wf m1) by (change m1 with (fst (m1, a)); rewrite <- Ea; now apply wf_alloc).
    assert (L1 : m_live m1 = (a, KBin) :: m_live m) by (now injection Ea as <- <-).
    destruct (falls_in h x); destruct (Nat.ltb_spec (h_deletes h) (h_deletes h')); try lia.
    - destruct (delete_found a KBin m1 (m_live m) W1) as (m2 & -> & W2 & P2); [now rewrite L1|].
      exists m2, []. auto.
    - exists m1, [(a, KBin)]. rewrite L1. auto.
  Qed.

  Lemma entropy_update_hist (e e' : entropy A) x : entropy_update log2 e x = Ret e' -> hist_update (e_hist e) x = Ret (e_hist e').
  Proof.
    unfold entropy_update. intros E. apply bind_Ret in E as (i & _ & E). destruct (e_window e) as [w|]; [|discriminate].
    apply bind_Ret in E as ((w2 & e1) & _ & E). apply bind_Ret in E as (h' & Eh & E). apply bind_Ret in E as (e2 & _ & E).
    injection E as <-. exact Eh.
  Qed.

  Lemma touch_spec o x m m' o' os i : wf m -> sound o -> nth_error os i = Some o -> touch log2 o x m = Ret (m', o') ->
    wf m' /\ sound o' /\ blocks o' = blocks o /\
    exists l, Permutation (m_live m') (l ++ m_live m) /\ map snd l = lost (m, os) (Touch i x).
  Proof.
    intros W S N E. cbn [lost snd]. rewrite N.
    destruct o as [o|o|o|o|o|o|o|o h|[a b (ho, e)]]; cbn [touch] in E;
      try (injection E as <- <-; split; [exact W|]; split; [exact S|]; split; [reflexivity|]; exists []; auto; fail).
    - apply bind_Ret in E as (h' & Eh & E). destruct (bin_memory_spec h h' x m W S Eh) as (m1 & l & Em & W1 & P & K).
      rewrite Em in E. injection E as <- <-. split; [exact W1|]. split; [exact (proj1 (used_update h x h' S Eh))|]. split; auto. exists l. auto.
    - apply bind_Ret in E as (e' & Ee & E). apply entropy_update_hist in Ee. cbn [sound o_members snd] in S.
      destruct (bin_memory_spec _ _ x m W S Ee) as (m1 & l & Em & W1 & P & K).
      rewrite Em in E. injection E as <- <-. split; [exact W1|]. split; [exact (proj1 (used_update _ x _ S Ee))|]. split; auto. exists l. auto.
  Qed.

  Definition inv (s : mem * list (object A)) (ks : list kind) : Prop :=
    wf (fst s) /\ Forall sound (snd s) /\
    exists l, Permutation (m_live (fst s)) (flat_map blocks (snd s) ++ l) /\ Permutation (map snd l) ks.

  Lemma nth_split_blocks (os : list (object A)) i o : nth_error os i = Some o ->
    Permutation (flat_map blocks os) (blocks o ++ flat_map blocks (erase_nth os i)).
  Proof.
    revert i. induction os as [|y os IH]; intros [|i] E; try discriminate.
    - injection E as ->. apply Permutation_refl.
    - cbn [nth_error] in E. cbn [flat_map erase_nth]. eapply perm_trans; [apply Permutation_app_head, (IH _ E)|].
      rewrite !app_assoc. apply Permutation_app_tail, Permutation_app_comm.
  Qed.

  Lemma set_blocks (os : list (object A)) i o o' : nth_error os i = Some o -> blocks o' = blocks o ->
    flat_map blocks (set_nth os i o') = flat_map blocks os.
  Proof.
    revert i. induction os as [|y os IH]; intros [|i] E B; try discriminate; cbn [set_nth flat_map].
    - injection E as ->. now rewrite B.
    - now rewrite (IH _ E B).
  Qed.

  Lemma sound_set (os : list (object A)) i o' : Forall sound os -> sound o' -> Forall sound (set_nth os i o').
  Proof.
    intros F H. revert i. induction F as [|y os Hy F IH]; intros [|i]; cbn [set_nth]; constructor; auto.
  Qed.
  Lemma sound_erase (os : list (object A)) i : Forall sound os -> Forall sound (erase_nth os i).
  Proof.
    intros F. revert i. induction F as [|y os Hy F IH]; intros [|i]; cbn [erase_nth]; auto.
  Qed.

  Lemma entropy_undefined m : exists u, construct (A := A) (MkEntropy 0 0) m = Undef u /\ u <> BadPointer.
  Proof. exists BadCast. split; [reflexivity|discriminate]. Qed.

  Lemma step_inv s ks c s' : rejected (lit 3 4 : A) = false -> inv s ks -> command_step log2 s c = Ret s' -> inv s' (lost s c ++ ks).
  Proof.
    intros Hd (W & S & l & P & K) E. destruct s as [m os]. cbn [fst snd] in * . destruct c as [c|i x|i]; cbn [command_step] in E.
    - assert (Hc : c <> MkEntropy 0 0).
      { intros ->. destruct (entropy_undefined m) as (u & Eu & _). rewrite Eu in E. discriminate. }
      destruct (makes_construct c (m, os) Hd Hc m W) as (m1 & r & bl & Em & W1 & P1 & H). rewrite Em in E. cbn [bind] in E.
      injection E as <-. split; [exact W1|]. destruct r as [o|e]; cbn [fst snd].
      + destruct H as (-> & Pb & So). split; [now apply Forall_app; auto|]. exists l. split; [|exact K].
        eapply perm_trans; [exact P1|]. rewrite flat_map_app. cbn [flat_map]. rewrite app_nil_r.
        eapply perm_trans; [apply Permutation_app; [exact Pb|exact P]|]. rewrite !app_assoc. apply Permutation_app_tail, Permutation_app_comm.
      + split; [exact S|]. exists (bl ++ l). split; [|rewrite map_app; now apply Permutation_app].
        eapply perm_trans; [exact P1|]. eapply perm_trans; [apply Permutation_app_head, P|]. apply Permutation_app_swap_app.
    - destruct (nth_error os i) as [o|] eqn:N.
      + apply bind_Ret in E as ((m1 & o') & Et & E). injection E as <-.
        destruct (touch_spec o x m m1 o' os i W) as (W1 & So & B & bl & P1 & K1); auto.
        { rewrite Forall_forall in S. apply S, (nth_error_In _ _ N). }
        split; [exact W1|]. split; [now apply sound_set|]. exists (bl ++ l). cbn [fst snd]. rewrite (set_blocks os i o o' N B). split.
        * eapply perm_trans; [exact P1|]. eapply perm_trans; [apply Permutation_app_head, P|]. apply Permutation_app_swap_app.
        * rewrite map_app, K1. now apply Permutation_app_head.
      + injection E as <-. cbn [lost snd]. rewrite N. split; [exact W|]. split; [exact S|]. exists l. auto.
    - destruct (nth_error os i) as [o|] eqn:N.
      + apply bind_Ret in E as (m1 & Ed & E). injection E as <-.
        destruct (destroy_frees o m (flat_map blocks (erase_nth os i) ++ l) W) as (m2 & E2 & W2 & P2).
        { eapply perm_trans; [exact P|]. rewrite app_assoc. apply Permutation_app_tail, nth_split_blocks, N. }
        rewrite Ed in E2. injection E2 as <-. split; [exact W2|]. split; [now apply sound_erase|]. exists (orphans o ++ l). cbn [fst snd]. split.
        * eapply perm_trans; [exact P2|]. apply Permutation_app_swap_app.
        * rewrite map_app. apply Permutation_app; [|exact K]. cbn [lost snd]. rewrite N. destruct o; cbn [orphans]; auto.
          unfold hist_blocks, obj_blocks, hist_parts. cbn [map snd]. now rewrite window_kinds.
      + injection E as <-. cbn [lost snd]. rewrite N. split; [exact W|]. split; [exact S|]. exists l. auto.
  Qed.

  Lemma run_inv cs : rejected (lit 3 4 : A) = false -> forall s ks s', inv s ks -> commands log2 s cs = Ret s' ->
    inv s' (all_lost log2 s cs ++ ks).
  Proof.
    intros Hd. induction cs as [|c cs IH]; intros s ks s' I E; cbn [commands all_lost] in * .
    - injection E as <-. exact I.
    - apply bind_Ret in E as (s1 & E1 & E). rewrite E1. specialize (IH s1 _ s' (step_inv s ks c s1 Hd I E1) E).
      destruct IH as (W & S & l & P & K). split; [exact W|]. split; [exact S|]. exists l. split; [exact P|].
      eapply perm_trans; [exact K|]. rewrite app_assoc. apply Permutation_app_tail, Permutation_app_comm.
  Qed.

  Lemma inv_start : inv (mem_empty, []) [].
  Proof. split; [split; constructor|]. split; [constructor|]. exists []. split; constructor. Qed.

  Lemma live_blocks cs m os : rejected (lit 3 4 : A) = false -> commands log2 (mem_empty, []) cs = Ret (m, os) ->
    Permutation (map snd (m_live m)) (flat_map parts os ++ all_lost log2 (mem_empty, []) cs).
  Proof.
    intros Hd E. destruct (run_inv cs Hd _ _ _ inv_start E) as (_ & _ & l & P & K). cbn [fst snd] in P.
    eapply perm_trans; [apply Permutation_map, P|]. rewrite map_app, app_nil_r in * . apply Permutation_app; [|exact K].
    clear. induction os as [|o os IH]; cbn [flat_map map]; auto. rewrite map_app, blocks_parts. now apply Permutation_app_head.
  Qed.

  (** ** No bad delete *)

  Definition clean {X} (o : outcome X) : Prop := o <> Undef BadPointer.

  Lemma clean_bind {X Y} (o : outcome X) (f : X -> outcome Y) : clean o -> (forall x, clean (f x)) -> clean (bind o f).
  Proof.
    destruct o as [x|e|u]; cbn [bind]; unfold clean; [auto|discriminate|]. intros H _ E. apply H. injection E as ->. reflexivity.
  Qed.
  Lemma clean_undef {X Y} u : clean (Undef u : outcome X) -> clean (Undef u : outcome Y).
  Proof. intros C E. apply C. injection E as ->. reflexivity. Qed.
  Lemma clean_ret {X} (x : X) : clean (Ret x). Proof. discriminate. Qed.
  Lemma clean_at {X} (l : list X) i : clean (at_ l i).
  Proof. unfold at_. destruct (nth_error l i); discriminate. Qed.

  Ltac clean := repeat first [apply clean_ret | apply clean_at | discriminate | progress intros
    | match goal with
      | |- clean (bind _ _) => apply clean_bind
      | |- clean (if ?b then _ else _) => destruct b
      | |- clean (match ?x with _ => _ end) => destruct x
      | |- clean (let '(_, _) := ?x in _) => destruct x
      end ].

  Lemma clean_bsearch fuel (bins : list (bin A)) b : forall low high i, clean (bsearch fuel bins b low high i).
  Proof.
    induction fuel as [|f IH]; intros low high i; cbn [bsearch]; [clean|]. destruct (Nat.ltb low high); [|clean].
    apply clean_bind; [clean|]. intros bi. apply IH.
  Qed.
  Lemma clean_search (h : hist A) b : clean (hist_binSearch_bin h b).
  Proof. apply clean_bsearch. Qed.

  Lemma clean_update (h : hist A) x : clean (hist_update h x).
  Proof.
    unfold hist_update. apply clean_bind.
    - unfold hist_add. apply clean_bind; [apply clean_search|]. intros i. apply clean_bind; [clean|]. intros [bins fr].
      destruct (h_window h); [|clean]. unfold hist_decayCounts. clean.
    - intros h1. destruct (Nat.ltb _ _); [|clean]. apply clean_bind; [|clean].
      unfold hist_merge. destruct (min_gap _ _ _ _) as [g i]. apply clean_bind; [|clean]. unfold mergeBins. clean.
  Qed.

  Lemma clean_entropy (e : entropy A) x : clean (entropy_update log2 e x).
  Proof.
    assert (X : forall y : A, clean (xlogx log2 y)) by (intros y; unfold xlogx; clean).
    assert (G : forall (h : hist A) i, clean (hist_getBin h i)) by (intros; unfold hist_getBin; clean).
    unfold entropy_update. apply clean_bind; [apply clean_search|]. intros i. destruct (e_window e) as [w|]; [|clean].
    apply clean_bind.
    - destruct (Nat.ltb _ _); [|clean]. destruct (w ++ [i]); [clean|]. apply clean_bind; [|clean].
      unfold entropy_decrement. apply clean_bind; [apply G|]. intros b. apply clean_bind; [apply X|]. intros x1. apply clean_bind; [apply X|]. clean.
    - intros [w2 e1]. apply clean_bind; [apply clean_update|]. intros h'. apply clean_bind; [|clean].
      unfold entropy_increment. apply clean_bind; [apply G|]. intros b. apply clean_bind; [apply X|]. intros x1. apply clean_bind; [apply X|]. clean.
  Qed.

  Lemma step_clean s ks c : rejected (lit 3 4 : A) = false -> inv s ks -> clean (command_step log2 s c).
  Proof.
    intros Hd (W & S & l & P & K). destruct s as [m os]. cbn [fst snd] in * . destruct c as [c|i x|i]; cbn [command_step].
    - destruct c as [w|w|q|q w|w|lo h w|t e| |n w d|[|w] [|n]]; [..|discriminate| | |];
        match goal with |- context [construct ?c m] =>
          destruct (makes_construct c (m, os) Hd ltac:(discriminate) m W) as (m1 & r & bl & Em & _) end;
        rewrite Em; cbn [bind]; apply clean_ret.
    - destruct (nth_error os i) as [o|] eqn:N; [|clean]. apply clean_bind; [|clean].
      assert (So : sound o) by (rewrite Forall_forall in S; apply S, (nth_error_In _ _ N)).
      destruct o as [o|o|o|o|o|o|o|o h|[a b (ho, e)]]; cbn [touch]; try apply clean_ret.
      + pose proof (clean_update h x) as C. destruct (hist_update h x) as [h'|ex|u] eqn:Eh; [|discriminate|exact (clean_undef u C)]. cbn [bind].
        destruct (bin_memory_spec h h' x m W So Eh) as (m1 & bl & -> & _). apply clean_ret.
      + pose proof (clean_entropy e x) as C. destruct (entropy_update log2 e x) as [e'|ex|u] eqn:Ee; [|discriminate|].
        2:{ exact (clean_undef u C). }
        cbn [bind].
        cbn [sound o_members snd] in So.
        destruct (bin_memory_spec _ _ x m W So (entropy_update_hist e e' x Ee)) as (m1 & bl & -> & _). apply clean_ret.
    - destruct (nth_error os i) as [o|] eqn:N; [|clean].
      destruct (destroy_frees o m (flat_map blocks (erase_nth os i) ++ l) W) as (m2 & -> & _); [|apply clean_ret].
      eapply perm_trans; [exact P|]. rewrite app_assoc. apply Permutation_app_tail, nth_split_blocks, N.
  Qed.

  Lemma run_clean cs : rejected (lit 3 4 : A) = false -> forall s ks, inv s ks -> clean (commands log2 s cs).
  Proof.
    intros Hd. induction cs as [|c cs IH]; intros s ks I; cbn [commands]; [clean|].
    pose proof (step_clean s ks c Hd I) as C. destruct (command_step log2 s c) as [s1|e|u] eqn:E; cbn [bind]; [|discriminate|].
    - exact (IH s1 _ (step_inv s ks c s1 Hd I E)).
    - intros X. apply C. injection X as ->. reflexivity.
  Qed.

  (** ** Programs without histograms and bad ranges *)

  Definition plain (o : object A) : bool := match o with OHist _ _ | OEntropy _ => false | _ => true end.

  Lemma construct_plain c m m' o : careful (Create c) = true -> construct (A := A) c m = Ret (m', inl o) -> plain o = true.
  Proof.
    destruct c; cbn [careful construct]; try discriminate; intros _ E; unfold and_then at 1 in E;
      apply bind_Ret in E as ((m1 & r) & _ & E); destruct r; try discriminate; injection E as <- <-; reflexivity.
  Qed.

  Lemma careful_run cs : rejected (lit 3 4 : A) = false -> Forall (fun c => careful (A := A) c = true) cs -> forall s,
    inv s [] -> forallb plain (snd s) = true ->
    exists s', commands log2 s cs = Ret s' /\ all_lost log2 s cs = [].
  Proof.
    intros Hd F. induction F as [|c cs Hc F IH]; intros s I H; cbn [commands all_lost]; [eauto|].
    assert (exists s1, command_step log2 s c = Ret s1 /\ lost s c = [] /\ forallb plain (snd s1) = true) as (s1 & E & L & H1).
    { destruct s as [m os]. destruct I as (W & S & l & P & K). cbn [fst snd] in * . destruct c as [c|i x|i]; cbn [command_step lost snd].
      - assert (Hn : c <> MkEntropy 0 0) by (intros ->; discriminate).
        destruct (makes_construct c (m, os) Hd Hn m W) as (m1 & r & bl & Em & _). rewrite Em. cbn [bind]. eexists. split; [reflexivity|]. split.
        + destruct c; auto. cbn [careful] in Hc. destruct (rejected low), (rejected high); auto; discriminate.
        + cbn [snd]. destruct r as [o|e]; auto. rewrite forallb_app, H. cbn [forallb]. now rewrite (construct_plain c m m1 o Hc Em).
      - destruct (nth_error os i) as [o|] eqn:N; [|eauto].
        assert (Po : plain o = true) by (rewrite forallb_forall in H; apply H, (nth_error_In _ _ N)).
        destruct o; try discriminate; cbn [touch bind]; (eexists; split; [reflexivity|]; split; [reflexivity|]; cbn [snd];
          clear - H Po; revert i; induction os as [|y os IHo]; intros [|i]; cbn [set_nth forallb] in * ; auto;
          apply andb_true_iff in H as [H1 H2]; rewrite ?H1, ?IHo, ?H2; auto).
      - destruct (nth_error os i) as [o|] eqn:N; [|eauto].
        destruct (destroy_frees o m (flat_map blocks (erase_nth os i) ++ l) W) as (m2 & -> & _).
        { eapply perm_trans; [exact P|]. rewrite app_assoc. apply Permutation_app_tail, nth_split_blocks, N. }
        assert (Po : plain o = true) by (rewrite forallb_forall in H; apply H, (nth_error_In _ _ N)).
        cbn [bind]. eexists. split; [reflexivity|]. split; [destruct o; auto; discriminate|]. cbn [snd].
        clear - H. revert i. induction os as [|y os IHo]; intros [|i]; cbn [erase_nth forallb] in * ; auto;
          apply andb_true_iff in H as [H1 H2]; rewrite ?H1, ?IHo, ?H2; auto. }
    pose proof (step_inv s [] c s1 Hd I E) as I1. rewrite L in I1. cbn [app] in I1.
    destruct (IH s1 I1 H1) as (s' & E' & L'). exists s'. rewrite E, L. auto.
  Qed.

  Lemma careful_balanced cs : rejected (lit 3 4 : A) = false -> Forall (fun c => careful (A := A) c = true) cs ->
    exists m os, commands log2 (mem_empty, []) cs = Ret (m, os) /\ Permutation (map snd (m_live m)) (flat_map parts os).
  Proof.
    intros Hd F. destruct (careful_run cs Hd F _ inv_start eq_refl) as ([m os] & E & L). exists m, os. split; auto.
    pose proof (live_blocks cs m os Hd E) as P. now rewrite L, app_nil_r in P.
  Qed.

  Lemma entropy_cycle w n m ks : rejected (lit 3 4 : A) = false -> (w = 0 -> n <> 0) -> inv (m, []) ks ->
    exists m', commands log2 (m, []) [Create (MkEntropy w n); Delete 0] = Ret (m', []) /\
      inv (m', []) ([KHist; KIndexDeque] ++ ks).
  Proof.
    intros Hd Hn I. destruct (makes_wrap _ OEntropy _ _ (makes_entropy w n Hn) m (proj1 I)) as (m1 & r & bl & Em & W1 & P1 & H).
    destruct r as [o|e]; [|destruct H]. destruct H as (eo & -> & _ & _ & Hw).
    assert (E : command_step log2 (m, []) (Create (MkEntropy w n)) = Ret (m1, [OEntropy eo])).
    { cbn [command_step construct]. rewrite Em. reflexivity. }
    pose proof (step_inv _ _ _ _ Hd I E) as I1. pose proof I1 as (_ & _ & l & P & _).
    destruct (destroy_frees (OEntropy eo) m1 l W1) as (m2 & Ed & _).
    { cbn [fst snd flat_map] in P. now rewrite app_nil_r in P. }
    assert (E2 : command_step log2 (m1, [OEntropy eo]) (Delete 0) = Ret (m2, [])).
    { cbn [command_step nth_error]. rewrite Ed. reflexivity. }
    exists m2. split.
    - unfold commands. rewrite E. cbn [bind]. rewrite E2. reflexivity.
    - pose proof (step_inv _ _ _ _ Hd I1 E2) as I2. cbn [lost snd nth_error app] in I2. unfold hist_parts in I2.
      destruct (o_window (fst (o_members eo))); [exact I2|congruence].
  Qed.

  Lemma commands_app cs cs' : forall s, commands log2 s (cs ++ cs') = bind (commands log2 s cs) (fun s' => commands log2 s' cs').
  Proof. induction cs as [|c cs IH]; intros s; cbn [commands app bind]; auto. destruct (command_step log2 s c); cbn [bind]; auto. Qed.

  Lemma entropy_cycles w n k : rejected (lit 3 4 : A) = false -> (w = 0 -> n <> 0) ->
    exists m, commands log2 (mem_empty, []) (concat (repeat [Create (MkEntropy w n); Delete 0] k)) = Ret (m, []) /\
      Permutation (map snd (m_live m)) (concat (repeat [KHist; KIndexDeque] k)).
  Proof.
    intros Hd Hn. assert (G : forall m ks, inv (m, []) ks -> exists m', commands log2 (m, []) (concat (repeat [Create (MkEntropy w n); Delete 0] k)) = Ret (m', []) /\
      inv (m', []) (concat (repeat [KHist; KIndexDeque] k) ++ ks)).
    { induction k as [|k IH]; intros m ks I; [exists m; auto|]. cbn [repeat concat]. rewrite commands_app.
      destruct (entropy_cycle w n m ks Hd Hn I) as (m1 & -> & I1). cbn [bind]. destruct (IH m1 _ I1) as (m2 & -> & I2). exists m2. split; auto.
      destruct I2 as (W & S & l & P & K). split; [exact W|]. split; [exact S|]. exists l. split; [exact P|].
      eapply perm_trans; [exact K|]. rewrite app_assoc. apply Permutation_app_tail, Permutation_app_comm. }
    destruct (G mem_empty [] inv_start) as (m & E & _ & _ & l & P & K). exists m. split; auto.
    rewrite app_nil_r in K. cbn [fst snd flat_map app] in P. eapply perm_trans; [apply Permutation_map, P|exact K].
  Qed.
End OwnFacts.

Lemma quarter_ok : rejected (lit 3 4 : B64) = false.
Proof. vm_compute. reflexivity. Qed.

Definition kind_dec (k k' : kind) : {k = k'} + {k <> k'}.
Proof. decide equality. Defined.

Definition half_valid : list (command B64) := [Create (MkIQRRange (lit 1 4) (Bz 2) 10)].
Lemma half_valid_test log2 :
  match commands log2 (mem_empty, []) half_valid with
  | Ret (m, os) => Nat.eqb (length os) 0 &&
      if list_eq_dec kind_dec (map snd (m_live m)) [KP2; KDeque; KWP2] then true else false
  | _ => false
  end = true.
Proof. vm_compute. reflexivity. Qed.

Lemma iqr_half_valid : forall log2 : B64 -> B64, exists (cs : list (command B64)) (m : mem),
  commands log2 (mem_empty, []) cs = Ret (m, []) /\
  Permutation (map snd (m_live m)) [KWP2; KDeque; KP2].
Proof.
  intros log2. exists half_valid. pose proof (half_valid_test log2) as T.
  destruct (commands log2 (mem_empty, []) half_valid) as [(m & os)|e|u]; try discriminate.
  apply andb_true_iff in T as [T1 T2]. destruct os; [|discriminate]. exists m. split; auto.
  destruct (list_eq_dec kind_dec (map snd (m_live m)) [KP2; KDeque; KWP2]) as [->|]; [|discriminate].
  apply (Permutation_rev [KP2; KDeque; KWP2]).
Qed.

(** ** What a constructor allocates *)

Ltac same_kinds :=
  apply (Permutation_count_occ kind_dec); intros x; rewrite ?count_occ_app; destruct x; cbn; rewrite ?count_occ_app; cbn; reflexivity.

Lemma construct_footprint (A : arith) (c : class A) (m m' : mem) (o : object A) :
  construct c m = Ret (m', inl o) ->
  Permutation (map snd (m_live m')) (footprint c ++ map snd (m_live m)) /\
  Permutation (parts o) (footprint c).
Proof.
  intros E. destruct c as [w|w|q|q w|w|l h w|s e| |n w d|w n]; cbn [construct] in E;
    unfold new_entropy, new_hist, new_mad, new_fame, new_iqr, new_iqr_range, new_wp2, new_p2, new_variance, new_mean, and_then,
      new_object, check, made in E; try (destruct w as [|w]); cbn in E;
    repeat match type of E with
    | context [delete_ ?a ?m] => destruct (delete_ a m); cbn in E; try discriminate E
    | context [p2_new ?q] => destruct (p2_new q); cbn in E; try discriminate E
    | context [fame_new ?s ?e] => destruct (fame_new s e); cbn in E; try discriminate E
    | context [entropy_new ?s ?e] => destruct (entropy_new s e); cbn in E; try discriminate E
    | context [if ?b then _ else _] => destruct b eqn:?; cbn in E; try discriminate E
    end;
    try (injection E as <- <-; cbn; split; same_kinds).
Qed.
