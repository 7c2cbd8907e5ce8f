From Coq Require Import List String Ascii Decimal DecimalString DecimalNat Lia PeanoNat.
From Verif Require Import Outcome Arith IBin Histogram LinkedList ListFacts Spec LinkedListSpec LinkedListFacts
  Printing PrintingSpec.
Import ListNotations.
Local Open Scope string_scope.

Lemma sapp_cons : forall c (a b : string), String c a ++ b = String c (a ++ b).
Proof. reflexivity. Qed.

Lemma sapp_assoc : forall a b c : string, (a ++ b) ++ c = a ++ b ++ c.
Proof.
  induction a as [|x a IH]; intros; [reflexivity|]. rewrite !sapp_cons. now rewrite IH.
Qed.

Lemma sapp_nil : forall a : string, a ++ "" = a.
Proof. induction a as [|x a IH]; [reflexivity|]. rewrite sapp_cons. now rewrite IH. Qed.

Lemma sapp_head : forall p a b : string, p ++ a = p ++ b -> a = b.
Proof.
  induction p as [|x p IH]; intros a b H; [exact H|]. rewrite !sapp_cons in H.
  injection H as H. auto.
Qed.

Lemma read_uint : forall d acc,
  read_digits acc (NilEmpty.string_of_uint d) = Some (Nat.of_uint_acc d acc).
Proof.
  induction d as [|d IH|d IH|d IH|d IH|d IH|d IH|d IH|d IH|d IH|d IH]; intros acc; [reflexivity|..];
    cbn [NilEmpty.string_of_uint read_digits Nat.of_uint_acc];
    match goal with |- context [digit ?c] =>
      let v := eval vm_compute in (digit c) in change (digit c) with v end;
    cbv iota beta; rewrite IH, Nat.tail_mul_spec; f_equal; f_equal;
    lia.
Qed.

Lemma to_uint_nonnil : forall n, Nat.to_uint n <> Nil.
Proof.
  intros n H. pose proof (Unsigned.of_to n) as E. rewrite H in E.
  change (Nat.of_uint Nil) with 0 in E. subst n. discriminate H.
Qed.

Lemma read_size : forall n, read_nat (show_size n) = Some n.
Proof.
  intros n. unfold show_size. pose proof (to_uint_nonnil n) as NN.
  assert (E : NilZero.string_of_uint (Nat.to_uint n) = NilEmpty.string_of_uint (Nat.to_uint n)).
  { destruct (Nat.to_uint n); [contradiction|reflexivity..]. }
  rewrite E. transitivity (read_digits 0 (NilEmpty.string_of_uint (Nat.to_uint n))).
  - destruct (Nat.to_uint n); [contradiction|reflexivity..].
  - rewrite read_uint. f_equal. exact (Unsigned.of_to n).
Qed.

(** Digits. *)
Lemma digits_of_uint : forall d c,
  In c (list_ascii_of_string (NilEmpty.string_of_uint d)) -> digit c <> None.
Proof.
  induction d as [|d IH|d IH|d IH|d IH|d IH|d IH|d IH|d IH|d IH|d IH]; intros c H;
    cbn [NilEmpty.string_of_uint list_ascii_of_string In] in H;
    [contradiction|..]; (destruct H as [H|H]; [subst c; vm_compute; discriminate|exact (IH c H)]).
Qed.

Lemma size_digits : forall n c, In c (list_ascii_of_string (show_size n)) -> digit c <> None.
Proof.
  intros n c H. unfold show_size in H. pose proof (to_uint_nonnil n) as NN.
  apply (digits_of_uint (Nat.to_uint n)).
  destruct (Nat.to_uint n); [contradiction|exact H..].
Qed.

Lemma size_avoids : forall cs n, (forall c, In c cs -> digit c = None) -> avoids cs (show_size n).
Proof. intros cs n H c Hc Hin. exact (size_digits n c Hc (H c Hin)). Qed.

Lemma avoids_cons : forall cs x s, avoids cs (String x s) -> ~ In x cs /\ avoids cs s.
Proof.
  intros cs x s H; split.
  - apply H. now left.
  - intros c Hc. apply H. now right.
Qed.

(** The text up to the first separator is determined. *)
Lemma split_at : forall cs (c1 c2 : ascii) s1 s2 t1 t2,
  avoids cs s1 -> avoids cs s2 -> In c1 cs -> In c2 cs ->
  s1 ++ String c1 t1 = s2 ++ String c2 t2 -> s1 = s2 /\ c1 = c2 /\ t1 = t2.
Proof.
  intros cs c1 c2. induction s1 as [|x s1 IH]; intros s2 t1 t2 A1 A2 I1 I2 E.
  - destruct s2 as [|y s2].
    + change (String c1 t1 = String c2 t2) in E. injection E as E1 E2. auto.
    + rewrite sapp_cons in E. change (String c1 t1 = String y (s2 ++ String c2 t2)) in E.
      injection E as E1 E2. subst y. apply avoids_cons in A2. tauto.
  - destruct s2 as [|y s2].
    + rewrite sapp_cons in E. change (String x (s1 ++ String c1 t1) = String c2 t2) in E.
      injection E as E1 E2. subst x. apply avoids_cons in A1. tauto.
    + rewrite !sapp_cons in E. injection E as E1 E2. subst y.
      apply avoids_cons in A1. apply avoids_cons in A2.
      destruct (IH s2 t1 t2 (proj2 A1) (proj2 A2) I1 I2 E2) as (-> & -> & ->). auto.
Qed.

Section Facts.
  Context {A : arith} (show : A -> string).

  Definition btext (b : bin A) : string :=
    bin_text (show (b_left b)) (show (b_right b)) (show_size (b_count b)).

  Lemma bin_print_text : forall os b, bin_print show os b = os ++ btext b.
  Proof. intros. unfold bin_print, btext, bin_text. cbv zeta. now rewrite !sapp_assoc. Qed.

  Lemma concat_cons : forall x y l,
    String.concat ", " (x :: y :: l) = x ++ ", " ++ String.concat ", " (y :: l).
  Proof. reflexivity. Qed.

  Lemma loop_text : forall rest done os,
    hist_print_loop show (List.length rest) (List.length done) (done ++ rest)%list os =
    Ret (os ++ String.concat ", " (map btext rest)).
  Proof.
    induction rest as [|b rest IH]; intros done os.
    - cbn. now rewrite sapp_nil.
    - cbn [List.length hist_print_loop].
      unfold at_. rewrite nth_error_app2, Nat.sub_diag by lia. cbn [nth_error bind].
      rewrite bin_print_text.
      replace (S (List.length done)) with (List.length (done ++ [b])%list)
        by (rewrite app_length; cbn; lia).
      replace (done ++ b :: rest)%list with ((done ++ [b]) ++ rest)%list
        by (rewrite <- app_assoc; reflexivity).
      rewrite IH. f_equal. rewrite !app_length. cbn [List.length].
      destruct rest as [|b' rest].
      + replace (Nat.eqb (List.length done) (List.length done + 1 + List.length (@nil (bin A)) - 1)) with true
          by (symmetry; apply Nat.eqb_eq; cbn; lia).
        cbn [negb map String.concat]. now rewrite sapp_nil.
      + replace (Nat.eqb (List.length done) (List.length done + 1 + List.length (b' :: rest) - 1)) with false
          by (symmetry; apply Nat.eqb_neq; cbn; lia).
        cbn [negb map]. rewrite concat_cons. now rewrite !sapp_assoc.
  Qed.

  Lemma hist_print_text : forall os h,
    hist_print show os h =
    Ret (os ++ "(" ++ String.concat ", " (map btext (h_bins h)) ++ ")" ++ newline).
  Proof.
    intros. unfold hist_print. cbv zeta.
    pose proof (loop_text (h_bins h) nil (os ++ "(")) as E. cbn [List.length] in E.
    change ([] ++ h_bins h)%list with (h_bins h) in E.
    rewrite E. cbn [bind]. now rewrite !sapp_assoc.
  Qed.

  Definition seps : list ascii := [","; "]"; ")"]%char.

  Lemma bin_text_split : forall b1 b2 c1 c2 t1 t2,
    (forall x, avoids seps (show x)) ->
    In c1 seps -> In c2 seps ->
    btext b1 ++ String c1 t1 = btext b2 ++ String c2 t2 ->
    (show (b_left b1) = show (b_left b2) /\ show (b_right b1) = show (b_right b2) /\
     b_count b1 = b_count b2) /\ c1 = c2 /\ t1 = t2.
  Proof.
    intros b1 b2 c1 c2 t1 t2 P I1 I2 E. unfold btext, bin_text in E.
    rewrite !sapp_assoc in E. apply sapp_head in E.
    apply (split_at seps) in E; [|apply P|apply P|now left|now left].
    destruct E as (EL & _ & E).
    apply (sapp_head " ") in E.
    apply (split_at seps) in E; [|apply P|apply P|now right; left|now right; left].
    destruct E as (ER & _ & E).
    apply (sapp_head " -> ") in E.
    apply (split_at seps) in E;
      [|apply size_avoids; intros c [<-|[<-|[<-|[]]]]; reflexivity
       |apply size_avoids; intros c [<-|[<-|[<-|[]]]]; reflexivity|exact I1|exact I2].
    destruct E as (EC & E1 & E2).
    assert (b_count b1 = b_count b2).
    { pose proof (read_size (b_count b1)) as R. rewrite EC, read_size in R. now injection R. }
    auto.
  Qed.

  Definition same_shown (b1 b2 : bin A) : Prop :=
    show (b_left b1) = show (b_left b2) /\ show (b_right b1) = show (b_right b2) /\
    b_count b1 = b_count b2.

  (** The rest of the text after the bins starts with a closing parenthesis. *)
  Lemma bins_text_split : (forall x, avoids seps (show x)) ->
    forall l1 l2 t1 t2,
    l1 <> nil -> l2 <> nil ->
    String.concat ", " (map btext l1) ++ String ")" t1 =
    String.concat ", " (map btext l2) ++ String ")" t2 ->
    Forall2 same_shown l1 l2 /\ t1 = t2.
  Proof.
    intros P. induction l1 as [|b1 l1 IH]; intros l2 t1 t2 N1 N2 E; [contradiction|].
    destruct l2 as [|b2 l2]; [contradiction|].
    assert (Last : forall b t, String.concat ", " (map btext [b]) ++ String ")" t =
                               btext b ++ String ")" t) by reflexivity.
    assert (More : forall b b' l t, String.concat ", " (map btext (b :: b' :: l)) ++ String ")" t =
        btext b ++ String "," (" " ++ String.concat ", " (map btext (b' :: l)) ++ String ")" t)).
    { intros. cbn [map]. rewrite concat_cons, !sapp_assoc. reflexivity. }
    destruct l1 as [|b1' l1]; destruct l2 as [|b2' l2];
      rewrite ?Last, ?More in E;
      apply bin_text_split in E;
      (first [exact P | (now left) | (now right; right; left) | idtac]);
      destruct E as (EB & EC & ET).
    - split; [constructor; [exact EB|constructor]|exact ET].
    - discriminate EC.
    - discriminate EC.
    - apply (sapp_head " ") in ET. apply IH in ET; [|discriminate|discriminate].
      destruct ET as (EF & ET). split; [constructor; [exact EB|exact EF]|exact ET].
  Qed.

  Lemma concat_open : forall b l t, exists u,
    String.concat ", " (map btext (b :: l)) ++ t = String "[" u.
  Proof.
    intros b l t. destruct l as [|b' l].
    - eexists. reflexivity.
    - eexists. cbn [map]. rewrite concat_cons. reflexivity.
  Qed.

  Lemma hist_text_split : forall h1 h2 os t1 t2,
    (forall x, avoids seps (show x)) ->
    hist_print show os h1 = Ret t1 -> hist_print show os h2 = Ret t2 -> t1 = t2 ->
    Forall2 same_shown (h_bins h1) (h_bins h2).
  Proof.
    intros h1 h2 os t1 t2 P E1 E2 E. rewrite hist_print_text in E1, E2.
    injection E1 as E1. injection E2 as E2. subst t1 t2.
    apply sapp_head in E. apply sapp_head in E.
    destruct (h_bins h1) as [|b1 l1]; destruct (h_bins h2) as [|b2 l2].
    - constructor.
    - destruct (concat_open b2 l2 (")" ++ newline)) as (u & U). rewrite U in E. discriminate E.
    - destruct (concat_open b1 l1 (")" ++ newline)) as (u & U). rewrite U in E. discriminate E.
    - exact (proj1 (bins_text_split P (b1 :: l1) (b2 :: l2) newline newline ltac:(discriminate) ltac:(discriminate) E)).
  Qed.
End Facts.

Lemma hist_print_shape : forall (A : arith) (show : A -> string) (os : string) (h : hist A),
  hist_print show os h =
  Ret (os ++ "(" ++ String.concat ", "
         (map (fun b => bin_text (show (b_left b)) (show (b_right b)) (show_size (b_count b)))
              (h_bins h)) ++ ")" ++ newline).
Proof. intros A show. exact (hist_print_text show). Qed.

Lemma hist_print_determines : forall (A : arith) (show : A -> string) (os t : string) (h1 h2 : hist A),
  (forall x, avoids [","; "]"; ")"]%char (show x)) ->
  (forall x y, show x = show y -> x = y) ->
  hist_print show os h1 = Ret t -> hist_print show os h2 = Ret t ->
  h_bins h1 = h_bins h2.
Proof.
  intros A show os t h1 h2 P I E1 E2.
  pose proof (hist_text_split show h1 h2 os t t P E1 E2 eq_refl) as F.
  induction F as [|b1 b2 l1 l2 S1 F IH]; [reflexivity|].
  destruct b1 as [x1 y1 c1], b2 as [x2 y2 c2]. destruct S1 as (EL & ER & EC).
  cbn in EL, ER, EC. apply I in EL. apply I in ER. subst. f_equal.
Qed.

(** LinkedList::display. *)
Lemma fold_show : forall T (show : T -> string) vs os,
  fold_left (fun os v => (os ++ show v) ++ " ") vs os =
  os ++ fold_right (fun v t => show v ++ " " ++ t) "" vs.
Proof.
  intros T show. induction vs as [|v vs IH]; intros os.
  - cbn. now rewrite sapp_nil.
  - cbn [fold_left fold_right]. rewrite IH. now rewrite !sapp_assoc.
Qed.

Lemma ll_print_shape : forall T (show : T -> string) (dflt : T) (W : nat) cs,
  resets_ok W dflt [] cs ->
  exists s, ll_run dflt (ll_new W) cs = Ret (s, snd (q0_run W dflt [] cs)) /\
    forall os, ll_print show os s =
      Ret (os ++ fold_right (fun v t => show v ++ " " ++ t) newline
                   (fst (q0_run W dflt [] cs))).
Proof.
  intros T show dflt W cs H.
  destruct (ll_fifo dflt W cs H) as (s & E & D & _).
  exists s. split; [exact E|]. intros os. unfold ll_print. rewrite D. cbn [bind].
  rewrite fold_show. f_equal. rewrite sapp_assoc. f_equal.
  generalize (fst (q0_run W dflt [] cs)). intros vs.
  induction vs as [|v vs IH]; [reflexivity|].
  cbn [fold_right]. rewrite !sapp_assoc. now rewrite IH.
Qed.

Lemma values_text_inj : forall T (show : T -> string),
  (forall x, avoids [" "%char; Ascii.ascii_of_nat 10] (show x)) ->
  (forall x, show x <> "") ->
  (forall x y, show x = show y -> x = y) ->
  forall vs1 vs2,
  fold_right (fun v t => show v ++ " " ++ t) newline vs1 =
  fold_right (fun v t => show v ++ " " ++ t) newline vs2 -> vs1 = vs2.
Proof.
  intros T show P NE I.
  assert (Bad : forall v t, show v ++ " " ++ t = newline -> False).
  { intros v t E.
    pose proof (P v) as Pv. destruct (show v) as [|c s] eqn:Es; [now apply (NE v)|].
    apply avoids_cons in Pv. rewrite sapp_cons in E. injection E as E1 E2.
    apply (proj1 Pv). right; left. symmetry. exact E1. }
  induction vs1 as [|v1 vs1 IH]; intros [|v2 vs2] E; cbn [fold_right] in E.
  - reflexivity.
  - exfalso. exact (Bad _ _ (eq_sym E)).
  - exfalso. exact (Bad _ _ E).
  - apply (split_at [" "%char; Ascii.ascii_of_nat 10]) in E; [|apply P|apply P|now left|now left].
    destruct E as (E1 & _ & E2). apply I in E1. subst v2. f_equal. apply IH. exact E2.
Qed.
