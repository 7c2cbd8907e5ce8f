(** What the print operators write: IBin.tcc:102-107, IStreamingHistogram.tcc:91-102
    and LinkedList.tcc:91-101. A stream is the text written to it so far. How the
    stream formats a floating-point value depends on its flags and precision and is
    the parameter [show]; size_t values are written in decimal. *)

From Coq Require Import List String Decimal DecimalString.
From Verif Require Import Outcome Arith IBin Histogram LinkedList.
Import ListNotations.
Local Open Scope string_scope.

(** [os << n] for a size_t. *)
Definition show_size (n : nat) : string := NilZero.string_of_uint (Nat.to_uint n).

Section Printing.
  Context {A : arith}.
  Context (show : A -> string).

  (** IBin.tcc:102-107. *)
  Definition bin_print (os : string) (b : bin A) : string :=
    let os := os ++ "[" in
    let os := os ++ show (b_left b) in
    let os := os ++ ", " in
    let os := os ++ show (b_right b) in
    let os := os ++ "] -> " in
    os ++ show_size (b_count b).

  (** IStreamingHistogram.tcc:95-99: iterations [i], [i+1], ..., [fuel] of them. *)
  Fixpoint hist_print_loop (fuel i : nat) (bins : list (bin A)) (os : string) : outcome string :=
    match fuel with
    | O => Ret os
    | S f =>
        let* b := at_ bins i in
        let os := bin_print os b in
        let os := if negb (Nat.eqb i (Datatypes.length bins - 1)) then os ++ ", " else os in
        hist_print_loop f (S i) bins os
    end.

  (** IStreamingHistogram.tcc:91-102. *)
  Definition hist_print (os : string) (h : hist A) : outcome string :=
    let os := os ++ "(" in
    let* os := hist_print_loop (Datatypes.length (h_bins h)) 0 (h_bins h) os in
    Ret (os ++ ")" ++ String (Ascii.ascii_of_nat 10) "").
End Printing.

(** LinkedList.tcc:91-101: the values [ll_display] visits, each followed by a
    space, and a new line. *)
Definition ll_print {T} (show : T -> string) (os : string) (s : llist T) : outcome string :=
  let* vs := ll_display s in
  Ret (fold_left (fun os v => (os ++ show v) ++ " ") vs os ++ "" ++
       String (Ascii.ascii_of_nat 10) "").
