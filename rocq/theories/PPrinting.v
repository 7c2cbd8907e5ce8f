(** C107: what is printed. *)

From Coq Require Import List String Ascii Reals.
From Verif Require Import Outcome Calls Arith IBin Histogram LinkedList Spec LinkedListSpec
  Printing PrintingSpec PrintingFacts.
Import ListNotations.
Local Open Scope string_scope.

(** C107: [os << hist] writes the bins in order, separated by ", ", in parentheses,
    and ends the line; whatever the format of floating-point values. *)
Theorem C107_histogram_text :
  forall (A : arith) (show : A -> string) (os : string) (h : hist A),
    hist_print show os h =
    Ret (os ++ "(" ++ String.concat ", "
           (map (fun b => bin_text (show (b_left b)) (show (b_right b)) (show_size (b_count b)))
                (h_bins h)) ++ ")" ++ newline).
Proof. exact hist_print_shape. Qed.
Print Assumptions C107_histogram_text.

(** Counts are written in decimal. *)
Theorem C107_counts_decimal : forall n : nat, read_nat (show_size n) = Some n.
Proof. exact read_size. Qed.
Print Assumptions C107_counts_decimal.

(** If the format of floating-point values loses nothing and avoids the
    punctuation, the text determines the bins. *)
Theorem C107_text_determines_bins :
  forall (A : arith) (show : A -> string) (os t : string) (h1 h2 : hist A),
    (forall x, avoids [","; "]"; ")"]%char (show x)) ->
    (forall x y, show x = show y -> x = y) ->
    hist_print show os h1 = Ret t -> hist_print show os h2 = Ret t ->
    h_bins h1 = h_bins h2.
Proof. exact hist_print_determines. Qed.
Print Assumptions C107_text_determines_bins.

(** After any calls LinkedList::display writes the queue, oldest item first, with a
    space after every item; the text determines the items. *)
Theorem C107_list_text :
  forall (T : Type) (show : T -> string) (dflt : T) (W : nat) (cs : list (rcall T)),
    resets_ok W dflt [] cs ->
    exists s, ll_run dflt (ll_new W) cs = Ret (s, snd (q0_run W dflt [] cs)) /\
      forall os, ll_print show os s =
        Ret (os ++ fold_right (fun v t => show v ++ " " ++ t) newline
                     (fst (q0_run W dflt [] cs))).
Proof. exact ll_print_shape. Qed.
Print Assumptions C107_list_text.

Theorem C107_list_text_determines_items :
  forall (T : Type) (show : T -> string),
    (forall x, avoids [" "%char; Ascii.ascii_of_nat 10] (show x)) ->
    (forall x, show x <> "") ->
    (forall x y, show x = show y -> x = y) ->
    forall vs1 vs2,
    fold_right (fun v t => show v ++ " " ++ t) newline vs1 =
    fold_right (fun v t => show v ++ " " ++ t) newline vs2 -> vs1 = vs2.
Proof. exact values_text_inj. Qed.
Print Assumptions C107_list_text_determines_items.

(** The characters of a decimal avoid the punctuation, and decimals differ. *)
Example C107_show_exists :
  (forall n, avoids [","; "]"; ")"]%char (show_size n)) /\
  (forall n, avoids [" "%char; Ascii.ascii_of_nat 10] (show_size n)) /\
  (forall n m, show_size n = show_size m -> n = m) /\ (forall n, show_size n <> "").
Proof.
  split; [|split; [|split]].
  - intros n. apply size_avoids. intros c [<-|[<-|[<-|[]]]]; reflexivity.
  - intros n. apply size_avoids. intros c [<-|[<-|[]]]; reflexivity.
  - intros n m H. pose proof (read_size n) as E. rewrite H, read_size in E. now injection E.
  - intros n H. pose proof (read_size n) as E. rewrite H in E. discriminate E.
Qed.

Example C107_example :
  bin_text "1" "2.5" (show_size 30) = "[1, 2.5] -> 30" /\
  hist_print (A := RA) (fun _ => "x") ""
    (Hist (A := RA) 5 9 true [Bin (A := RA) 1%R 1%R 4; Bin (A := RA) 2%R 3%R 10] (Some []) 0 0 0 0)
  = Ret ("([x, x] -> 4, [x, x] -> 10)" ++ newline) /\
  hist_print (A := RA) (fun _ => "x") "" (hist_new 5 9 true) = Ret ("()" ++ newline).
Proof. repeat split. Qed.
