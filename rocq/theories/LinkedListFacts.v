(** Proofs about LinkedList: representation invariant over the node heap. *)

From Coq Require Import List.
From stdpp Require Import gmap.
From Verif Require Import Outcome Calls RingBuffer LinkedList LinkedListSpec Spec ListFacts.
Import ListNotations.

Section Facts.
  Context {T : Type} (dflt : T).

  (** [ls] are the addresses of linked nodes holding [q]. *)
  Fixpoint chain (h : gmap loc (node T)) (ls : list loc) (q : list T) : Prop :=
    match ls, q with
    | [], [] => True
    | l :: ls', x :: q' =>
        (exists p, h !! l = Some (Node x (hd_error ls') p)) /\ chain h ls' q'
    | _, _ => False
    end.

  (** The linked structure alone. *)
  Record ll_core (s : llist T) (q leaked : list T) : Prop := {
    lr_heap : heap_values (ll_heap s) ≡ₚ q ++ leaked;
    lr_fresh : forall l, ll_fresh s <= l -> ll_heap s !! l = None;
    lr_chain : exists ls, chain (ll_heap s) ls q /\ NoDup ls /\
                 ll_head s = hd_error ls /\
                 (ls <> [] -> ll_tail s = last ls)
  }.

  Record ll_rep (W : nat) (s : llist T) (q leaked : list T) : Prop := {
    lr_W : ll_window s = W;
    lr_size : ll_size s = length q;
    lr_le : 1 <= W -> length q <= W;
    lr_core : ll_core s q leaked
  }.

  Lemma hv_insert_fresh (h : gmap loc (node T)) l n : h !! l = None ->
    heap_values (<[l := n]> h) ≡ₚ n_value n :: heap_values h.
  Proof. intros H. unfold heap_values. now rewrite map_to_list_insert. Qed.

  Lemma hv_delete (h : gmap loc (node T)) l n : h !! l = Some n ->
    heap_values h ≡ₚ n_value n :: heap_values (delete l h).
  Proof. intros H. unfold heap_values. now rewrite <- (map_to_list_delete h l n H). Qed.

  Lemma hv_insert_same (h : gmap loc (node T)) l n n' : h !! l = Some n -> n_value n = n_value n' ->
    heap_values (<[l := n']> h) ≡ₚ heap_values h.
  Proof.
    intros H E. rewrite (hv_delete h l n H).
    rewrite (hv_delete (<[l:=n']> h) l n') by apply lookup_insert.
    rewrite delete_insert_delete, E. auto.
  Qed.

  Lemma chain_length h ls q : chain h ls q -> length ls = length q.
  Proof. revert q; induction ls; intros [|x q]; simpl; try tauto. intros [_ H]. f_equal; auto. Qed.

  Lemma chain_in h ls q l : chain h ls q -> In l ls -> exists n, h !! l = Some n.
  Proof.
    revert q; induction ls; intros [|x q]; simpl; try tauto.
    intros [[p Hp] H] [->|Hin]; eauto.
  Qed.

  Lemma chain_insert_out h ls q l n : chain h ls q -> ~ In l ls -> chain (<[l:=n]> h) ls q.
  Proof.
    revert q; induction ls; intros [|x q]; simpl; try tauto.
    intros [[p Hp] H] Hn. split.
    - exists p. rewrite lookup_insert_ne by (intros ->; tauto). auto.
    - apply IHls; auto.
  Qed.

  Lemma chain_delete_out h ls q l : chain h ls q -> ~ In l ls -> chain (delete l h) ls q.
  Proof.
    revert q; induction ls; intros [|x q]; simpl; try tauto.
    intros [[p Hp] H] Hn. split.
    - exists p. rewrite lookup_delete_ne by (intros ->; tauto). auto.
    - apply IHls; auto.
  Qed.

  Lemma last_some (ls : list loc) : ls <> [] -> exists t, last ls = Some t /\ In t ls.
  Proof.
    induction ls as [|a ls IH]; intros H; [congruence|].
    destruct ls; [simpl; eauto|]. destruct IH as (t & H1 & H2); [congruence|].
    exists t. simpl in *. auto.
  Qed.

  (** Link a fresh node behind the tail. *)
  Lemma chain_snoc h ls q l t tn x pv :
    chain h ls q -> NoDup ls -> ~ In l ls -> last ls = Some t -> h !! t = Some tn ->
    chain (<[l := Node x None pv]> (<[t := Node (n_value tn) (Some l) (n_prev tn)]> h))
          (ls ++ [l]) (q ++ [x]).
  Proof.
    revert q; induction ls as [|a ls IH]; intros [|y q] H Hnd Hl Ht Htn; simpl in H; try tauto.
    { simpl in Ht. congruence. }
    destruct H as [[p Hp] H]. inversion Hnd as [|? ? Ha Hnd']; subst.
    rewrite elem_of_list_In in Ha. simpl in Hl.
    destruct ls as [|b ls].
    - simpl in Ht. injection Ht as <-. destruct q; simpl in H; [|tauto]. simpl.
      rewrite Hp in Htn. injection Htn as <-. simpl. split.
      + exists p. rewrite lookup_insert_ne by (intros ->; tauto). now rewrite lookup_insert.
      + split; auto. exists pv. now rewrite lookup_insert.
    - cbn [app chain]. split.
      + exists p. destruct (last_some (b :: ls)) as (t' & Ht' & Hin); [congruence|].
        assert (t' = t) by (simpl in *; congruence). subst t'.
        rewrite lookup_insert_ne by (intros ->; tauto).
        rewrite lookup_insert_ne by (intros ->; tauto). auto.
      + apply (IH q); auto; try tauto.
  Qed.

  Lemma hd_error_app_ne {X} (l : list X) k : l <> [] -> hd_error (l ++ k) = hd_error l.
  Proof. destruct l; simpl; congruence. Qed.

  Lemma last_snoc_loc (ls : list loc) l : last (ls ++ [l]) = Some l.
  Proof. induction ls as [|a [|b ls] IH]; simpl in *; auto. Qed.

  Lemma ll_new_rep W : ll_rep W (ll_new W) [] [].
  Proof.
    constructor; simpl; auto; try lia. constructor; simpl; auto.
    exists []. simpl. split; [auto|]. split; [constructor|]. split; auto.
  Qed.

  Lemma ll_empty_core s q lk : ll_core s q lk -> ll_empty s = Nat.eqb (length q) 0.
  Proof.
    intros [? ? (ls & Hc & _ & Hh & _)]. unfold ll_empty. rewrite Hh.
    apply chain_length in Hc. rewrite <- Hc. destruct ls; auto.
  Qed.

  Lemma ll_full_core s q lk : ll_core s q lk -> ll_full s = negb (Nat.eqb (length q) 0).
  Proof. intros H. rewrite <- (ll_empty_core _ _ _ H). unfold ll_full, ll_empty.
    destruct (ll_head s); auto. Qed.

  Lemma ll_pop_core s q lk : ll_core s q lk ->
    exists s', ll_pop dflt s = Ret (s', hd dflt q) /\ ll_core s' (tl q) lk /\
               ll_window s' = ll_window s /\
               ll_size s' = (match q with [] => ll_size s | _ => Nat.pred (ll_size s) end) /\
               ll_history s' = ll_history s /\ ll_fresh s' = ll_fresh s.
  Proof.
    intros H. unfold ll_pop. rewrite (ll_empty_core _ _ _ H).
    destruct q as [|x q]; simpl; [exists s; auto 10|].
    destruct H as [Hhv Hf (ls & Hc & Hnd & Hh & Ht)].
    destruct ls as [|l ls]; simpl in Hc; [tauto|]. destruct Hc as [[p Hp] Hc].
    rewrite Hh. simpl. rewrite Hp. simpl.
    eexists; split; [reflexivity|]. split; [|auto].
    inversion Hnd as [|? ? Hni Hnd']; subst. rewrite elem_of_list_In in Hni.
    constructor; simpl; auto.
    - apply (Permutation_cons_inv (a := x)). rewrite (hv_delete _ l _ Hp) in Hhv.
      simpl in Hhv. exact Hhv.
    - intros l' Hl'. destruct (decide (l = l')) as [->|].
      + apply lookup_delete.
      + rewrite lookup_delete_ne by auto. auto.
    - exists ls. repeat split; auto.
      + apply chain_delete_out; auto.
      + intros Hne. rewrite Ht by congruence. destruct ls; [congruence|auto].
  Qed.

  Lemma ll_pop_rep W s q lk : ll_rep W s q lk ->
    exists s', ll_pop dflt s = Ret (s', hd dflt q) /\ ll_rep W s' (tl q) lk /\
               ll_history s' = ll_history s /\ ll_fresh s' = ll_fresh s.
  Proof.
    intros [HW Hs Hle Hc]. destruct (ll_pop_core _ _ _ Hc) as (s' & E & Hc' & H1 & H2 & H3 & H4).
    exists s'. repeat split; auto; try apply Hc'.
    - congruence.
    - rewrite H2, Hs. destruct q; auto.
    - destruct q; simpl in *; auto. intros H. specialize (Hle H). lia.
  Qed.

  (** The queue after an update: evict first when the window is exactly full. *)
  Lemma ll_update_rep W s q lk x : ll_rep W s q lk ->
    exists s', ll_update dflt s x = Ret s' /\
      ll_rep W s' (match W with O => q ++ [x] | S _ => lastn W (q ++ [x]) end) lk /\
      ll_history s' = S (ll_history s) /\ ll_fresh s' = S (ll_fresh s).
  Proof.
    intros [HW Hs Hle H]. unfold ll_update. rewrite (ll_empty_core _ _ _ H).
    destruct H as [Hhv Hf (ls & Hc & Hnd & Hh & Ht)].
    pose proof (chain_length _ _ _ Hc) as Hlen.
    assert (Hout : ~ In (ll_fresh s) ls).
    { intros Hin. destruct (chain_in _ _ _ _ Hc Hin) as [n Hn].
      rewrite Hf in Hn by auto. discriminate. }
    destruct q as [|y q].
    - (* empty list *)
      simpl. eexists; split; [reflexivity|]. split; [|auto].
      assert (Hq : match W with O => [x] | S _ => lastn W [x] end = [x]).
      { destruct W; auto. }
      simpl. rewrite Hq.
      constructor; simpl; auto. constructor; simpl; auto.
      + rewrite hv_insert_fresh by auto. simpl. now rewrite Hhv.
      + intros l' Hl'. rewrite lookup_insert_ne by lia. apply Hf. lia.
      + exists [ll_fresh s]. simpl. repeat split; auto.
        * exists None. now rewrite lookup_insert.
        * constructor; [apply not_elem_of_nil|constructor].
    - (* non-empty list *)
      cbn [length Nat.eqb].
      destruct (last_some ls) as (t & Hlt & Hin).
      { intros ->. simpl in Hlen. discriminate. }
      destruct (chain_in _ _ _ _ Hc Hin) as [tn Htn].
      assert (Hne : ll_fresh s <> t) by (intros <-; tauto).
      rewrite Ht by (intros ->; simpl in Hlen; discriminate). rewrite Hlt.
      unfold deref at 1. rewrite lookup_insert_ne by auto. rewrite Htn. cbn [bind].
      rewrite (insert_commute _ t (ll_fresh s)) by auto.
      rewrite insert_insert.
      set (h2 := <[ll_fresh s := Node x None (Some t)]> _).
      assert (Hrep : ll_core (LList (ll_window s) (ll_head s) (Some (ll_fresh s)) (ll_size s)
                                (ll_history s) h2 (S (ll_fresh s))) ((y :: q) ++ [x]) lk).
      { constructor; cbn [ll_heap ll_fresh ll_head ll_tail]; auto.
        - unfold h2. rewrite hv_insert_fresh.
          + rewrite (hv_insert_same _ t tn) by auto. rewrite Hhv. simpl.
            rewrite <- app_assoc. simpl. rewrite <- (Permutation_middle q lk x).
            apply perm_swap.
          + rewrite lookup_insert_ne by auto. apply Hf; lia.
        - intros l' Hl'. unfold h2. rewrite !lookup_insert_ne; [apply Hf; lia| |lia].
          intros ->. rewrite Hf in Htn by lia. discriminate.
        - exists (ls ++ [ll_fresh s]). split; [|split; [|split]].
          + apply chain_snoc; auto.
          + apply NoDup_app. repeat split; auto.
            * intros l' Hl' Hl2. rewrite elem_of_list_In in Hl'. apply elem_of_list_singleton in Hl2.
              subst; tauto.
            * constructor; [apply not_elem_of_nil|constructor].
          + rewrite Hh. rewrite hd_error_app_ne; auto. intros ->. simpl in Hlen; discriminate.
          + intros _. now rewrite last_snoc_loc. }
      rewrite Hs, HW. destruct (Nat.eqb_spec (length (y :: q)) W) as [E|E].
      + (* window exactly full: evict *)
        rewrite Hs, HW in Hrep.
        destruct (ll_pop_core _ _ _ Hrep) as (s' & E' & Hc' & H1 & H2 & H3 & H4).
        rewrite E'. cbn [bind]. cbn [app ll_window ll_size ll_history ll_fresh tl] in *.
        eexists; split; [reflexivity|]. cbn [ll_history ll_fresh].
        split; [|split; congruence].
        assert (Hq : match W with O => y :: q ++ [x] | S _ => lastn W (y :: q ++ [x]) end = q ++ [x]).
        { destruct W; [simpl in E; lia|]. change (y :: q ++ [x]) with ((y :: q) ++ [x]).
          rewrite lastn_snoc_full by (auto; lia). auto. }
        rewrite Hq. constructor; cbn [ll_window ll_size].
        * congruence.
        * rewrite H2, app_length. simpl. lia.
        * intros _. rewrite app_length. simpl in *. lia.
        * destruct Hc' as [A1 A2 A3]. constructor; auto.
      + (* room left, or no window *)
        cbn [bind]. eexists; split; [reflexivity|].
        cbn [ll_history ll_fresh ll_window ll_size ll_head ll_tail ll_heap]. split; [|auto].
        assert (Hq : match W with O => (y :: q) ++ [x] | S _ => lastn W ((y :: q) ++ [x]) end = (y :: q) ++ [x]).
        { destruct W; auto. apply lastn_snoc_short. specialize (Hle ltac:(lia)). lia. }
        rewrite Hq. constructor; cbn [ll_window ll_size]; auto.
        * rewrite app_length. simpl. lia.
        * intros HW1. specialize (Hle HW1). rewrite app_length. simpl in *. lia.
        * destruct Hrep as [A1 A2 A3]. constructor; auto.
  Qed.

  Lemma heap_size_values (h : gmap loc (node T)) : size h = length (heap_values h).
  Proof. unfold heap_values. rewrite map_length. unfold size, map_size. auto. Qed.

  Lemma ll_walk_chain h ls q fuel : chain h ls q -> length ls <= fuel ->
    ll_walk fuel h (hd_error ls) = Ret h.
  Proof.
    revert q fuel; induction ls as [|l ls IH]; intros [|x q] fuel H Hf; simpl in H; try tauto.
    - destruct fuel; auto.
    - destruct H as [[p Hp] H]. simpl in Hf. destruct fuel as [|fuel]; [lia|].
      cbn [hd_error ll_walk deref]. rewrite Hp. cbn [bind n_prev n_next].
      replace (match p with Some _ => h | None => h end) with h by (destruct p; auto).
      apply (IH q); auto; lia.
  Qed.

  Lemma ll_values_chain h ls q fuel : chain h ls q -> length ls <= fuel ->
    ll_values fuel h (hd_error ls) = Ret q.
  Proof.
    revert q fuel; induction ls as [|l ls IH]; intros [|x q] fuel H Hf; simpl in H; try tauto.
    - destruct fuel; auto.
    - destruct H as [[p Hp] H]. simpl in Hf. destruct fuel as [|fuel]; [lia|].
      cbn [hd_error ll_values deref]. rewrite Hp. cbn [bind n_next n_value].
      rewrite (IH q fuel) by (auto; lia). auto.
  Qed.

  Lemma core_fuel s q lk : ll_core s q lk -> length q <= size (ll_heap s).
  Proof.
    intros [H _ _]. rewrite heap_size_values, H, app_length. lia.
  Qed.

  Lemma ll_display_core s q lk : ll_core s q lk -> ll_display s = Ret q.
  Proof.
    intros H. pose proof (core_fuel _ _ _ H) as Hf.
    destruct H as [_ _ (ls & Hc & _ & Hh & _)]. unfold ll_display. rewrite Hh.
    apply ll_values_chain; auto. rewrite (chain_length _ _ _ Hc). lia.
  Qed.

  Lemma ll_free_loop_core s q lk : ll_core s q lk -> q <> [] -> ll_free_loop s = Ret (ll_heap s).
  Proof.
    intros H Hq. pose proof (core_fuel _ _ _ H) as Hf.
    destruct H as [_ _ (ls & Hc & _ & Hh & _)]. unfold ll_free_loop. rewrite Hh.
    destruct ls as [|l ls], q as [|x q]; simpl in Hc; try tauto.
    destruct Hc as [[p Hp] Hc]. simpl hd_error. unfold deref. rewrite Hp. cbn [bind n_next].
    apply (ll_walk_chain _ _ q); auto. apply chain_length in Hc. simpl in Hf. lia.
  Qed.

  Lemma ll_free_loop_empty s lk : ll_core s [] lk -> ll_free_loop s = Undef NullDeref.
  Proof.
    intros [_ _ (ls & Hc & _ & Hh & _)]. unfold ll_free_loop. rewrite Hh.
    destruct ls; simpl in Hc; [auto|tauto].
  Qed.

  Lemma ll_reset_rep W s q lk : ll_rep W s q lk -> q <> [] ->
    exists s', ll_reset s = Ret s' /\ ll_rep W s' [] (q ++ lk) /\
               ll_history s' = ll_history s /\ ll_fresh s' = ll_fresh s.
  Proof.
    intros [HW Hs Hle Hc] Hq. unfold ll_reset. rewrite (ll_free_loop_core _ _ _ Hc Hq). simpl.
    eexists; split; [reflexivity|]. split; [|auto].
    destruct Hc as [H1 H2 H3]. constructor; simpl; auto; try lia.
    constructor; simpl; auto. exists []. simpl. split; [auto|]. split; [constructor|]. split; auto.
  Qed.

  Lemma ll_reset_empty W s lk : ll_rep W s [] lk -> ll_reset s = Undef NullDeref.
  Proof. intros [_ _ _ Hc]. unfold ll_reset. now rewrite (ll_free_loop_empty _ _ Hc). Qed.

  Lemma ll_call_rep W s q lk c : ll_rep W s q lk ->
    (match c with CReset => q <> [] | _ => True end) ->
    exists s', ll_call dflt s c = Ret (s', snd (q0_call W dflt q c)) /\
      ll_rep W s' (fst (q0_call W dflt q c)) (match c with CReset => q | _ => [] end ++ lk) /\
      ll_history s' = ll_history s + match c with CUpdate _ => 1 | _ => 0 end /\
      ll_fresh s' = ll_fresh s + match c with CUpdate _ => 1 | _ => 0 end.
  Proof.
    intros H Hok. pose proof (lr_core _ _ _ _ H) as Hc. destruct c; simpl.
    - destruct (ll_update_rep W s q lk x H) as (s' & E & H' & Hh & Hf). rewrite E. simpl.
      exists s'. split; [auto|]. split; [auto|]. lia.
    - destruct (ll_pop_rep W s q lk H) as (s' & E & H' & Hh & Hf). rewrite E.
      exists s'. destruct q; simpl in *; (split; [auto|]); (split; [auto|]); lia.
    - destruct (ll_reset_rep W s q lk H Hok) as (s' & E & H' & Hh & Hf). rewrite E. simpl.
      exists s'. split; [auto|]. split; [auto|]. lia.
    - exists s. unfold ll_getsize. rewrite (lr_size _ _ _ _ H). split; [auto|]. split; [auto|]. lia.
    - exists s. rewrite (ll_empty_core _ _ _ Hc). split; [auto|]. split; [auto|]. lia.
    - exists s. rewrite (ll_full_core _ _ _ Hc). split; [auto|]. split; [auto|]. lia.
  Qed.

  Lemma ll_rep_perm W s q lk lk' : ll_rep W s q lk -> lk ≡ₚ lk' -> ll_rep W s q lk'.
  Proof. intros [? ? ? [? ? ?]] P. constructor; auto. constructor; auto. now rewrite <- P. Qed.

  Lemma ll_run_rep W s q lk cs : ll_rep W s q lk -> resets_ok W dflt q cs ->
    exists s', ll_run dflt s cs = Ret (s', snd (q0_run W dflt q cs)) /\
      ll_rep W s' (fst (q0_run W dflt q cs)) (reset_items W dflt q cs ++ lk) /\
      ll_history s' = ll_history s + updates cs /\
      ll_fresh s' = ll_fresh s + updates cs.
  Proof.
    revert s q lk. induction cs as [|c cs IH]; intros s q lk H Hok.
    - exists s. unfold updates. simpl. split; [auto|]. split; [auto|]. lia.
    - cbn [resets_ok] in Hok. destruct Hok as [Hok1 Hok2].
      destruct (ll_call_rep W s q lk c H Hok1) as (s1 & E1 & H1 & Hh1 & Hf1).
      cbn [ll_run q0_run reset_items]. rewrite E1. cbn [bind].
      destruct (q0_call W dflt q c) as [q1 o]. cbn [fst snd] in *.
      destruct (IH s1 q1 _ H1 Hok2) as (s2 & E2 & H2 & Hh2 & Hf2). rewrite E2. cbn [bind].
      destruct (q0_run W dflt q1 cs) as [q2 os]. cbn [fst snd] in *.
      exists s2. split; [auto|]. split.
      + eapply ll_rep_perm; [exact H2|]. rewrite !app_assoc. apply Permutation_app_tail.
        apply Permutation_app_comm.
      + rewrite Hh2, Hf2, Hh1, Hf1. unfold updates. destruct c; simpl; lia.
  Qed.

  (** A reset of an empty list stops the program, wherever it occurs. *)
  Lemma ll_run_app s cs ds :
    ll_run dflt s (cs ++ ds) =
    bind (ll_run dflt s cs) (fun '(s1, o1) =>
      bind (ll_run dflt s1 ds) (fun '(s2, o2) => Ret (s2, o1 ++ o2))).
  Proof.
    revert s; induction cs as [|c cs IH]; intros s; simpl.
    - destruct (ll_run dflt s ds) as [[]| |]; auto.
    - destruct (ll_call dflt s c) as [[s1 o]| |]; simpl; auto.
      rewrite IH. destruct (ll_run dflt s1 cs) as [[s2 os]| |]; simpl; auto.
      destruct (ll_run dflt s2 ds) as [[s3 os']| |]; simpl; auto.
  Qed.

  Lemma ll_history_facts W cs : resets_ok W dflt [] cs ->
    exists s, ll_run dflt (ll_new W) cs = Ret (s, snd (q0_run W dflt [] cs)) /\
      ll_rep W s (fst (q0_run W dflt [] cs)) (reset_items W dflt [] cs) /\
      ll_history s = updates cs /\ ll_fresh s = updates cs.
  Proof.
    intros H. destruct (ll_run_rep W _ _ _ cs (ll_new_rep W) H) as (s & E & Hr & Hh & Hf).
    rewrite app_nil_r in Hr. exists s. split; [exact E|]. split; [exact Hr|]. auto.
  Qed.

  Lemma ll_fifo W cs : resets_ok W dflt [] cs ->
    exists s, ll_run dflt (ll_new W) cs = Ret (s, snd (q0_run W dflt [] cs)) /\
      ll_display s = Ret (fst (q0_run W dflt [] cs)) /\
      ll_getsize s = length (fst (q0_run W dflt [] cs)) /\
      (1 <= W -> ll_getsize s <= W).
  Proof.
    intros H. destruct (ll_history_facts W cs H) as (s & E & Hr & _ & _).
    exists s. split; [exact E|]. split; [eapply ll_display_core, lr_core, Hr|].
    unfold ll_getsize. rewrite (lr_size _ _ _ _ Hr). split; auto. apply (lr_le _ _ _ _ Hr).
  Qed.

  Lemma q0_q_run W q cs : 1 <= W -> no_full cs = true ->
    q0_run W dflt q cs = q_run W dflt q cs.
  Proof.
    intros HW. revert q. induction cs as [|c cs IH]; intros q Hn; simpl; auto.
    simpl in Hn. apply andb_prop in Hn as [Hc Hn].
    assert (E : q0_call W dflt q c = q_call W dflt q c).
    { destruct c; simpl; auto; try discriminate. destruct W; [lia|auto]. }
    rewrite E. destruct (q_call W dflt q c) as [q1 o]. rewrite IH by auto. auto.
  Qed.

  Lemma ll_reset_undef W cs s os : resets_ok W dflt [] cs ->
    ll_run dflt (ll_new W) cs = Ret (s, os) ->
    fst (q0_run W dflt [] cs) = [] ->
    ll_reset s = Undef NullDeref /\ ll_destroy s = Undef NullDeref /\
    forall ds, ll_run dflt (ll_new W) (cs ++ CReset :: ds) = Undef NullDeref.
  Proof.
    intros H E Hq. destruct (ll_history_facts W cs H) as (s' & E' & Hr & _).
    rewrite E in E'. injection E' as <- _. rewrite Hq in Hr.
    pose proof (ll_reset_empty _ _ _ Hr) as Hres. split; [exact Hres|]. split.
    - unfold ll_destroy. eapply ll_free_loop_empty, lr_core, Hr.
    - intros ds. rewrite ll_run_app, E. cbn [bind ll_run ll_call]. rewrite Hres. auto.
  Qed.

  Lemma ll_reset_fresh W cs s os : resets_ok W dflt [] cs ->
    ll_run dflt (ll_new W) cs = Ret (s, os) ->
    fst (q0_run W dflt [] cs) <> [] ->
    exists s', ll_reset s = Ret s' /\ ll_display s' = Ret [] /\
      forall ds, resets_ok W dflt [] ds ->
        exists t1 t2 outs, ll_run dflt s' ds = Ret (t1, outs) /\
                           ll_run dflt (ll_new W) ds = Ret (t2, outs).
  Proof.
    intros H E Hq. destruct (ll_history_facts W cs H) as (s' & E' & Hr & _).
    rewrite E in E'. injection E' as <- _.
    destruct (ll_reset_rep _ _ _ _ Hr Hq) as (s1 & E1 & Hr1 & _).
    exists s1. split; [exact E1|]. split; [eapply ll_display_core, lr_core, Hr1|].
    intros ds Hds. destruct (ll_run_rep W _ _ _ ds Hr1 Hds) as (t1 & F1 & _).
    destruct (ll_run_rep W _ _ _ ds (ll_new_rep W) Hds) as (t2 & F2 & _).
    exists t1, t2, (snd (q0_run W dflt [] ds)). auto.
  Qed.

  Lemma ll_accounting W cs s os : resets_ok W dflt [] cs ->
    ll_run dflt (ll_new W) cs = Ret (s, os) ->
    heap_values (ll_heap s) ≡ₚ fst (q0_run W dflt [] cs) ++ reset_items W dflt [] cs /\
    ll_fresh s = updates cs /\
    (fst (q0_run W dflt [] cs) <> [] ->
     ll_destroy s = Ret (ll_heap s) /\
     exists s', ll_reset s = Ret s' /\ ll_heap s' = ll_heap s).
  Proof.
    intros H E. destruct (ll_history_facts W cs H) as (s' & E' & Hr & _ & Hf).
    rewrite E in E'. injection E' as <- _.
    split; [apply lr_heap, (lr_core _ _ _ _ Hr)|]. split; [exact Hf|]. intros Hq.
    pose proof (ll_free_loop_core _ _ _ (lr_core _ _ _ _ Hr) Hq) as F.
    split; [exact F|]. unfold ll_reset. rewrite F. cbn [bind]. eexists. split; [reflexivity|]. auto.
  Qed.

  Lemma ll_full_meaning W cs s os : resets_ok W dflt [] cs ->
    ll_run dflt (ll_new W) cs = Ret (s, os) ->
    (ll_full s = true <-> fst (q0_run W dflt [] cs) <> []) /\
    (ll_empty s = true <-> fst (q0_run W dflt [] cs) = []).
  Proof.
    intros H E. destruct (ll_history_facts W cs H) as (s' & E' & Hr & _).
    rewrite E in E'. injection E' as <- _.
    rewrite (ll_full_core _ _ _ (lr_core _ _ _ _ Hr)), (ll_empty_core _ _ _ (lr_core _ _ _ _ Hr)).
    destruct (fst (q0_run W dflt [] cs)); simpl; split; split; congruence.
  Qed.

  Lemma ll_full_single W x : exists s,
    ll_run dflt (ll_new W) [CUpdate x; CSize; CFull] = Ret (s, [OUnit; ONum 1%N; OBool true]).
  Proof. eexists. cbn [ll_run ll_call]. unfold ll_update. cbn. reflexivity. Qed.

  (** The lookups of the concurrent model's side conditions. *)
  Lemma ll_rep_tail W s q lk : ll_rep W s q lk -> q <> [] ->
    exists t, ll_tail s = Some t /\ t < ll_fresh s.
  Proof.
    intros [_ _ _ [_ Hf (ls & Hc & _ & _ & Ht)]] Hq.
    assert (ls <> []) by (intros ->; destruct q; simpl in Hc; tauto).
    destruct (last_some ls H) as (t & Hl & Hin). exists t. rewrite Ht by auto. split; auto.
    destruct (chain_in _ _ _ _ Hc Hin) as [n Hn].
    destruct (Nat.lt_ge_cases t (ll_fresh s)) as [|Hge]; auto. rewrite Hf in Hn by auto. discriminate.
  Qed.
End Facts.
