(** Concurrent model of LinkedList: update, pop, size, empty and full take no lock
    (LinkedList.tcc:31-54, 73-89, 103-117), so their individual accesses to data
    members and nodes interleave freely; reset holds the mutex (:59), which only
    excludes another reset. Sequentially consistent memory; [new] and [delete] are
    single steps. *)

From Coq Require Import List.
From stdpp Require Import gmap.
From Verif Require Import Outcome Calls LinkedList.
Import ListNotations.

Section Conc.
  Context {T : Type} (dflt : T).

  Inductive lprog : Type :=
  | LDone (o : rout T)
  | LReadHead (k : ptr -> lprog)
  | LReadTail (k : ptr -> lprog)
  | LReadSize (k : nat -> lprog)
  | LReadHist (k : nat -> lprog)
  | LWriteHead (p : ptr) (k : lprog)
  | LWriteTail (p : ptr) (k : lprog)
  | LWriteSize (n : nat) (k : lprog)
  | LWriteHist (n : nat) (k : lprog)
  | LAlloc (x : T) (k : loc -> lprog)               (* new Node<T>(item) *)
  | LFree (p : ptr) (k : lprog)                     (* delete p *)
  | LLoad (p : ptr) (k : node T -> lprog)           (* read a member of *p *)
  | LSetNext (p : ptr) (q : ptr) (k : lprog)        (* p->m_next = q *)
  | LSetPrev (p : ptr) (q : ptr) (k : lprog)        (* p->m_previous = q *)
  | LWalk (p : ptr) (k : lprog).                    (* the loop of reset, l_next = p *)

  (** LinkedList.tcc:107-116. *)
  Definition l_pop (k : T -> lprog) : lprog :=
    LReadHead (fun h =>
      match h with
      | None => k dflt
      | Some _ =>
          LReadHead (fun h1 => LLoad h1 (fun n1 =>
          LReadHead (fun h2 => LLoad h2 (fun n2 =>
          LReadHead (fun h3 => LFree h3
          (LWriteHead (n_next n1)
          (LReadSize (fun s => LWriteSize (Nat.pred s) (k (n_value n2))))))))))
      end).

  (** LinkedList.tcc:64-65, the body of the loop of reset. *)
  Definition l_walk_body (p : ptr) (k : lprog) : lprog :=
    LLoad p (fun n =>
      match n_prev n with
      | None => LLoad p (fun n2 => LFree (n_prev n2) (LLoad p (fun n3 => LWalk (n_next n3) k)))
      | Some _ => LLoad p (fun n3 => LWalk (n_next n3) k)
      end).

  (** LinkedList.tcc:60-70 (inside the lock). *)
  Definition l_reset : lprog :=
    LReadHead (fun h => LLoad h (fun n =>
    LWalk (n_next n) (LWriteSize 0 (LWriteHead None (LWriteTail None (LDone OUnit)))))).

  (** LinkedList.tcc:52-53. *)
  Definition l_update_tail : lprog :=
    LReadSize (fun s => LWriteSize (S s)
      (LReadHist (fun c => LWriteHist (S c) (LDone OUnit)))).

  Section WithWindow.
    Context (W : nat).

    (** LinkedList.tcc:31-54. *)
    Definition l_update (x : T) : lprog :=
      LAlloc x (fun l =>
      LReadHead (fun h =>
        match h with
        | None => LWriteHead (Some l) (LWriteTail (Some l) l_update_tail)
        | Some _ =>
            LReadTail (fun t => LSetNext t (Some l)
            (LReadTail (fun t2 => LSetPrev (Some l) t2
            (LWriteTail (Some l)
            (LReadSize (fun s =>
               if Nat.eqb s W then l_pop (fun _ => l_update_tail)
               else l_update_tail))))))
        end)).

    Definition lbody (c : rcall T) : lprog :=
      match c with
      | CUpdate x => l_update x
      | CPop => l_pop (fun v => LDone (OVal v))
      | CSize => LReadSize (fun s => LDone (ONum (N.of_nat s)))
      | CEmpty => LReadHead (fun h => LDone (OBool (match h with None => true | _ => false end)))
      | CFull => LReadHead (fun h => LDone (OBool (match h with None => false | _ => true end)))
      | CReset => l_reset
      end.
  End WithWindow.

  (** Calls whose body runs under the mutex. *)
  Definition llocked (c : rcall T) : bool := match c with CReset => true | _ => false end.

  Definition with_heap (m : llist T) (h : gmap loc (node T)) : llist T :=
    LList (ll_window m) (ll_head m) (ll_tail m) (ll_size m) (ll_history m) h (ll_fresh m).

  (** One access. *)
  Definition laccess (m : llist T) (p : lprog) : outcome (llist T * lprog) :=
    match p with
    | LDone o => Ret (m, LDone o)
    | LReadHead k => Ret (m, k (ll_head m))
    | LReadTail k => Ret (m, k (ll_tail m))
    | LReadSize k => Ret (m, k (ll_size m))
    | LReadHist k => Ret (m, k (ll_history m))
    | LWriteHead p k => Ret (LList (ll_window m) p (ll_tail m) (ll_size m) (ll_history m)
                                   (ll_heap m) (ll_fresh m), k)
    | LWriteTail p k => Ret (LList (ll_window m) (ll_head m) p (ll_size m) (ll_history m)
                                   (ll_heap m) (ll_fresh m), k)
    | LWriteSize n k => Ret (LList (ll_window m) (ll_head m) (ll_tail m) n (ll_history m)
                                   (ll_heap m) (ll_fresh m), k)
    | LWriteHist n k => Ret (LList (ll_window m) (ll_head m) (ll_tail m) (ll_size m) n
                                   (ll_heap m) (ll_fresh m), k)
    | LAlloc x k =>
        Ret (LList (ll_window m) (ll_head m) (ll_tail m) (ll_size m) (ll_history m)
                   (<[ ll_fresh m := Node x None None ]> (ll_heap m)) (S (ll_fresh m)),
             k (ll_fresh m))
    | LFree p k =>
        match p with
        | None => Ret (m, k)
        | Some _ => let* (l, _) := deref (ll_heap m) p in
                    Ret (with_heap m (delete l (ll_heap m)), k)
        end
    | LLoad p k => let* (_, n) := deref (ll_heap m) p in Ret (m, k n)
    | LSetNext p q k =>
        let* (l, n) := deref (ll_heap m) p in
        Ret (with_heap m (<[ l := Node (n_value n) q (n_prev n) ]> (ll_heap m)), k)
    | LSetPrev p q k =>
        let* (l, n) := deref (ll_heap m) p in
        Ret (with_heap m (<[ l := Node (n_value n) (n_next n) q ]> (ll_heap m)), k)
    | LWalk p k => Ret (m, match p with None => k | Some _ => l_walk_body p k end)
    end.

  Record lthread : Type := LThread {
    lt_cur : option (rcall T * lprog);
    lt_todo : list (rcall T);
    lt_done : list (rcall T * rout T)
  }.

  Record lconfig : Type := LConfig {
    lc_mem : llist T;
    lc_lock : option nat;
    lc_threads : list lthread
  }.

  (** One step of thread [i]: begin the next call, perform one access of the
      current one, or return from it; [None] if it has nothing to do or is
      blocked on the mutex. *)
  Definition lstep (c : lconfig) (i : nat) : option (outcome lconfig) :=
    match nth_error (lc_threads c) i with
    | None => None
    | Some th =>
        match lt_cur th with
        | None =>
            match lt_todo th with
            | [] => None
            | call :: rest =>
                let th' := LThread (Some (call, lbody (ll_window (lc_mem c)) call)) rest (lt_done th) in
                if llocked call then
                  match lc_lock c with
                  | Some _ => None
                  | None => Some (Ret (LConfig (lc_mem c) (Some i) (set_nth (lc_threads c) i th')))
                  end
                else Some (Ret (LConfig (lc_mem c) (lc_lock c) (set_nth (lc_threads c) i th')))
            end
        | Some (call, LDone o) =>
            Some (Ret (LConfig (lc_mem c) (if llocked call then None else lc_lock c)
              (set_nth (lc_threads c) i (LThread None (lt_todo th) (lt_done th ++ [(call, o)])))))
        | Some (call, p) =>
            Some (let* (m', p') := laccess (lc_mem c) p in
                  Ret (LConfig m' (lc_lock c) (set_nth (lc_threads c) i
                    (LThread (Some (call, p')) (lt_todo th) (lt_done th)))))
        end
    end.

  Fixpoint lexec (c : lconfig) (sched : list nat) : outcome lconfig :=
    match sched with
    | [] => Ret c
    | i :: sched' =>
        match lstep c i with
        | None => lexec c sched'
        | Some oc => let* c' := oc in lexec c' sched'
        end
    end.

  Definition lstart (W : nat) (programs : list (list (rcall T))) : lconfig :=
    LConfig (ll_new W) None (map (fun p => LThread None p []) programs).
End Conc.
Arguments lprog : clear implicits.
Arguments lthread : clear implicits.
Arguments lconfig : clear implicits.
