(** What the weak memory holds, to compare it with the sequentially consistent one. *)

From Coq Require Import List NArith Bool.
From Verif Require Import Outcome Calls RingBuffer RingBufferConc RingBufferConcSpec WeakMem.
Import ListNotations.

(** The newest write among the accesses to a place. *)
Fixpoint newest {T} (evs : list (event T)) : option (value T) :=
  match evs with
  | [] => None
  | EvWrite v :: _ => Some v
  | EvRead :: evs' => newest evs'
  end.

(** The contents of a place of a RingBuffer. *)
Definition content {T} (m : ring T) (l : place) : value T :=
  match l with
  | AtHead => VN (rb_head m)
  | AtTail => VN (rb_tail m)
  | AtFull => VB (rb_full m)
  | AtCell i => VC (nth (N.to_nat i) (rb_buf m) None)
  | AtHistory => VH (rb_history m)
  end.

(** The places of a RingBuffer of the given size. *)
Definition inside (W : N) (l : place) : Prop := match l with AtCell i => (i < W)%N | _ => True end.

(** The weak memory holds the same as the RingBuffer [m]. *)
Definition holds {T} (W : N) (wm : memory T) (m : ring T) : Prop :=
  forall l, inside W l -> newest (wm l) = Some (content m l).
