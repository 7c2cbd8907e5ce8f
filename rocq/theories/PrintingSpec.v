(** The format of printed objects, read off the documentation rather than the loops. *)

From Coq Require Import List String Ascii.
From Verif Require Import Arith IBin.
Import ListNotations.
Local Open Scope string_scope.

(** A line break. *)
Definition newline : string := String (Ascii.ascii_of_nat 10) "".

(** [[left, right] -> count] with the number already written out. *)
Definition bin_text (l r c : string) : string := "[" ++ l ++ ", " ++ r ++ "] -> " ++ c.

(** A text of digits, read as a number. *)
Definition digit (c : ascii) : option nat :=
  match nat_of_ascii c - 48 with
  | d => if Nat.leb 48 (nat_of_ascii c) then if Nat.leb d 9 then Some d else None else None
  end.
Fixpoint read_digits (acc : nat) (s : string) : option nat :=
  match s with
  | "" => Some acc
  | String c s' => match digit c with Some d => read_digits (10 * acc + d) s' | None => None end
  end.
Definition read_nat (s : string) : option nat :=
  match s with "" => None | _ => read_digits 0 s end.

(** None of the characters of [cs] occurs in [s]. *)
Definition avoids (cs : list ascii) (s : string) : Prop :=
  forall c, In c (list_ascii_of_string s) -> ~ In c cs.
