(** RingBuffer on weak memory. The threads, calls and accesses are those of
    [RingBufferConc]; the memory is not sequentially consistent. Every data member
    and cell keeps all accesses made to it. Of each of them a thread knows whether
    it happened before ([intro.races]): its own accesses, what the thread that
    created it had done, and what threads that released the mutex before had known
    at that time. A plain read may return any write that no known write has
    overwritten. Two accesses to the same place, one of them a write, of which the
    second does not know the first, are a data race. C++ leaves such an execution
    undefined; here it is marked and goes on. *)

From Coq Require Import List NArith Bool.
From Verif Require Import Outcome Calls RingBuffer RingBufferConc RingBufferConcSpec.
Import ListNotations.

Section WeakMem.
  Context {T : Type} (dflt : T).

  (** Contents of m_head, m_tail; of m_full; of a cell; of m_historyCount. *)
  Inductive value : Type := VN (n : N) | VB (b : bool) | VC (c : option T) | VH (n : nat).

  Inductive event : Type := EvRead | EvWrite (v : value).

  (** The accesses to a place, newest first; the number of an access is the number
      of accesses before it. *)
  Definition memory : Type := place -> list event.
  (** The accesses a thread knows. *)
  Definition view : Type := place -> nat -> bool.

  Definition place_eqb (a b : place) : bool :=
    match a, b with
    | AtHead, AtHead | AtTail, AtTail | AtFull, AtFull | AtHistory, AtHistory => true
    | AtCell i, AtCell j => N.eqb i j
    | _, _ => false
    end.

  Definition record_access (m : memory) (l : place) (e : event) : memory :=
    fun l' => if place_eqb l l' then e :: m l else m l'.
  Definition learn (vw : view) (l : place) (n : nat) : view :=
    fun l' n' => (place_eqb l l' && Nat.eqb n n') || vw l' n'.
  Definition join (a b : view) : view := fun l n => a l n || b l n.

  (** The value written [back] writes before the newest one, unless a newer write
      is known. *)
  Fixpoint visible (known : nat -> bool) (evs : list event) (back : nat) : option value :=
    match evs with
    | [] => None
    | EvRead :: evs' => visible known evs' back
    | EvWrite v :: evs' =>
        match back with
        | O => Some v
        | S b => if known (length evs') then None else visible known evs' b
        end
    end.

  Definition is_write (e : event) : bool := match e with EvWrite _ => true | EvRead => false end.

  (** An access that is not known and conflicts with a read, or with a write. *)
  Fixpoint conflict (write : bool) (known : nat -> bool) (evs : list event) : bool :=
    match evs with
    | [] => false
    | e :: evs' => ((write || is_write e) && negb (known (length evs'))) || conflict write known evs'
    end.

  Definition the_N (v : value) : outcome N :=
    match v with VN n => Ret n | _ => Undef BadPrecondition end.
  Definition the_bool (v : value) : outcome bool :=
    match v with VB b => Ret b | _ => Undef BadPrecondition end.
  Definition the_item (v : value) : outcome T :=
    match v with
    | VC (Some x) => Ret x
    | VC None => Undef UninitRead
    | _ => Undef BadPrecondition
    end.
  Definition the_count (v : value) : outcome nat :=
    match v with VH n => Ret n | _ => Undef BadPrecondition end.

  (** The memory, the view of the accessing thread, whether the access raced, and
      the rest of the program. [None]: there is no such write to read. *)
  Definition effect : Type := option (outcome (memory * view * bool * prog T)).

  Definition read {X} (m : memory) (vw : view) (back : nat) (l : place) (the : value -> outcome X)
             (k : X -> prog T) : effect :=
    match visible (vw l) (m l) back with
    | None => None
    | Some v => Some (let* x := the v in
                      Ret (record_access m l EvRead, learn vw l (length (m l)),
                           conflict false (vw l) (m l), k x))
    end.

  Definition write (m : memory) (vw : view) (l : place) (v : value) (k : prog T) : effect :=
    Some (Ret (record_access m l (EvWrite v), learn vw l (length (m l)),
               conflict true (vw l) (m l), k)).

  (** One access of a program; the cells are those below the window size. *)
  Definition waccess (W : N) (m : memory) (vw : view) (back : nat) (p : prog T) : effect :=
    match p with
    | Done o => Some (Ret (m, vw, false, Done o))
    | Fail u => Some (Undef u)
    | ReadHead k => read m vw back AtHead the_N k
    | ReadTail k => read m vw back AtTail the_N k
    | ReadFull k => read m vw back AtFull the_bool k
    | ReadCell i k =>
        if N.ltb i W then read m vw back (AtCell i) the_item k else Some (Undef OutOfBounds)
    | ReadHist k => read m vw back AtHistory the_count k
    | WriteHead v k => write m vw AtHead (VN v) k
    | WriteTail v k => write m vw AtTail (VN v) k
    | WriteFull v k => write m vw AtFull (VB v) k
    | WriteCell i v k =>
        if N.ltb i W then write m vw (AtCell i) (VC (Some v)) k else Some (Undef OutOfBounds)
    | WriteHist v k => write m vw AtHistory (VH v) k
    end.

  Record wconfig : Type := WConfig {
    w_window : N;
    w_mem : memory;
    w_views : nat -> view;          (* of the threads *)
    w_released : view;              (* what the releasers of the mutex knew *)
    w_lock : option nat;
    w_threads : list (thread T);
    w_log : list (nat * rcall T);
    w_race : bool                   (* a data race has happened *)
  }.

  Definition set_view (vs : nat -> view) (i : nat) (vw : view) : nat -> view :=
    fun j => if Nat.eqb j i then vw else vs j.

  (** One step of thread [i], as in [RingBufferConc.step]; a read takes the write
      [back] before the newest one. *)
  Definition wstep (c : wconfig) (i back : nat) : option (outcome wconfig) :=
    match nth_error (w_threads c) i with
    | None => None
    | Some th =>
        match t_cur th with
        | None =>
            match t_todo th with
            | [] => None
            | call :: rest =>
                let th' := Thread (Some (call, body dflt (w_window c) call)) rest (t_done th) in
                if locked call then
                  match w_lock c with
                  | Some _ => None
                  | None =>                                     (* acquire *)
                      Some (Ret (WConfig (w_window c) (w_mem c)
                                         (set_view (w_views c) i (join (w_views c i) (w_released c)))
                                         (w_released c) (Some i)
                                         (set_nth (w_threads c) i th')
                                         (w_log c ++ [(i, call)]) (w_race c)))
                  end
                else Some (Ret (WConfig (w_window c) (w_mem c) (w_views c) (w_released c) (w_lock c)
                                        (set_nth (w_threads c) i th') (w_log c) (w_race c)))
            end
        | Some (call, Done o) =>
            let th' := Thread None (t_todo th) (t_done th ++ [(call, o)]) in
            if locked call then                                 (* release *)
              Some (Ret (WConfig (w_window c) (w_mem c) (w_views c)
                                 (join (w_released c) (w_views c i)) None
                                 (set_nth (w_threads c) i th') (w_log c) (w_race c)))
            else Some (Ret (WConfig (w_window c) (w_mem c) (w_views c) (w_released c) (w_lock c)
                                    (set_nth (w_threads c) i th') (w_log c) (w_race c)))
        | Some (call, p) =>
            match waccess (w_window c) (w_mem c) (w_views c i) back p with
            | None => None
            | Some oe =>
                Some (let* (mvr, p') := oe in
                      let '(m', vw', raced) := mvr in
                      Ret (WConfig (w_window c) m' (set_view (w_views c) i vw') (w_released c)
                                   (w_lock c)
                                   (set_nth (w_threads c) i
                                      (Thread (Some (call, p')) (t_todo th) (t_done th)))
                                   (w_log c) (w_race c || raced)))
            end
        end
    end.

  (** A schedule: who moves next, and which write a read takes. *)
  Fixpoint wexec (c : wconfig) (sched : list (nat * nat)) : outcome wconfig :=
    match sched with
    | [] => Ret c
    | (i, back) :: sched' =>
        match wstep c i back with
        | None => wexec c sched'
        | Some oc => let* c' := oc in wexec c' sched'
        end
    end.

  (** The constructor (RingBuffer.tcc:11-17) writes the members, not the cells; that
      is known to all threads, which start afterwards. An unwritten cell reads as
      indeterminate. *)
  Definition initial (l : place) : value :=
    match l with
    | AtHead | AtTail => VN 0
    | AtFull => VB false
    | AtCell _ => VC None
    | AtHistory => VH 0
    end.
  Definition wstart (W : N) (programs : list (list (rcall T))) : wconfig :=
    WConfig W (fun l => [EvWrite (initial l)]) (fun _ _ n => Nat.eqb n 0) (fun _ n => Nat.eqb n 0)
            None (map (fun p => Thread None p []) programs) [] false.
End WeakMem.
Arguments value : clear implicits.
Arguments event : clear implicits.
Arguments memory : clear implicits.
Arguments wconfig : clear implicits.
