(** Vocabulary for the statements about the Python classes. *)

From Coq Require Import List.
From Verif Require Import Cython.
Import ListNotations.

Definition is_none (v : pyval) : Prop := v = PyNone.

(** How many objects of a class were constructed and collected. *)
Definition constructed (c : pyclass) (es : list event) : nat :=
  length (filter (fun e => match e with Construct d => class_eqb c d | _ => false end) es).
Definition collected (c : pyclass) (es : list event) : nat :=
  length (filter (fun e => match e with Collect d => class_eqb c d | _ => false end) es).
