(** Vocabulary for stating what a LinkedList leaves on the heap. *)

From Coq Require Import List.
From stdpp Require Import gmap.
From Verif Require Import Outcome Calls LinkedList.
Import ListNotations.

(** Values of all live nodes. *)
Definition heap_values {T} (h : gmap loc (node T)) : list T :=
  map (fun p => n_value (snd p)) (map_to_list h).
