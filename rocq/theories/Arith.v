(** Arithmetic the numeric code is written over.

    All numeric classes of the library compute with C++ [double]. The model is
    written once over the record [arith] and instantiated with
    - [B64]: IEEE-754 binary64 with round to nearest, ties to even, i.e. what
      the code computes (no contraction, no extended precision);
    - [RA]: the real numbers, i.e. what the code would compute without
      rounding. *)

From Coq Require Import ZArith Reals Lra Lia Bool.
From Flocq Require Import Core.Core IEEE754.BinarySingleNaN.

Record arith : Type := {
  num :> Type;
  of_Z : Z -> num;               (* int / size_t -> double conversion *)
  add : num -> num -> num;
  sub : num -> num -> num;
  mul : num -> num -> num;
  div : num -> num -> num;
  fabs : num -> num;             (* std::fabs, std::abs(double) *)
  ltb : num -> num -> bool;      (* < *)
  leb : num -> num -> bool;      (* <= *)
  eqb : num -> num -> bool;      (* == *)
  dbl_max : num;                 (* std::numeric_limits<double>::max() *)
  round_int : num -> option Z    (* std::round, then conversion to an integer;
                                    None for NaN and infinities *)
}.

Arguments of_Z {a}.
Arguments add {a}.
Arguments sub {a}.
Arguments mul {a}.
Arguments div {a}.
Arguments fabs {a}.
Arguments ltb {a}.
Arguments leb {a}.
Arguments eqb {a}.
Arguments dbl_max {a}.
Arguments round_int {a}.

Declare Scope num_scope.
Delimit Scope num_scope with num.
Infix "+." := add (at level 50, left associativity) : num_scope.
Infix "-." := sub (at level 50, left associativity) : num_scope.
Infix "*." := mul (at level 40, left associativity) : num_scope.
Infix "/." := div (at level 40, left associativity) : num_scope.
Infix "<?." := ltb (at level 70) : num_scope.
Infix "<=?." := leb (at level 70) : num_scope.
Infix "=?." := eqb (at level 70) : num_scope.
Notation "x >?. y" := (ltb y x) (at level 70, only parsing) : num_scope.
Notation "x >=?. y" := (leb y x) (at level 70, only parsing) : num_scope.
Open Scope num_scope.

Section Derived.
  Context {A : arith}.

  (** Conversion of a counter to double. *)
  Definition of_nat (n : nat) : A := of_Z (Z.of_nat n).

  (** The double nearest to the decimal literal [m / d]; [m] and [d] are exactly
      representable, so the correctly rounded quotient is the literal's value. *)
  Definition lit (m d : Z) : A := of_Z m /. of_Z d.

  Definition zero : A := of_Z 0.
  Definition one : A := of_Z 1.

  (** [x == x], false exactly for NaN. *)
  Definition not_nan (x : A) : bool := x =?. x.

  (** std::max(a, b): [(a < b) ? b : a]. *)
  Definition max_ (a b : A) : A := if a <?. b then b else a.
End Derived.

(** ** Real arithmetic *)

Definition Rltb (x y : R) : bool := if Rlt_dec x y then true else false.
Definition Rleb (x y : R) : bool := if Rle_dec x y then true else false.
Definition Reqb (x y : R) : bool := if Req_EM_T x y then true else false.

(** std::round rounds halves away from zero. *)
Definition Rround_away (x : R) : Z := Znearest (Z.leb 0) x.

Definition RA : arith := {|
  num := R;
  of_Z := IZR;
  add := Rplus; sub := Rminus; mul := Rmult; div := Rdiv;
  fabs := Rabs;
  ltb := Rltb; leb := Rleb; eqb := Reqb;
  dbl_max := ((1 - bpow radix2 (-53)) * bpow radix2 1024)%R;
  round_int := fun x => Some (Rround_away x)
|}.

(** ** IEEE-754 binary64 *)

Definition double := binary_float 53 1024.

Definition prec_gt_0_53 : Prec_gt_0 53 := eq_refl.
Definition prec_lt_emax_53 : Prec_lt_emax 53 1024 := eq_refl.

Definition Bz (z : Z) : double :=
  binary_normalize 53 1024 prec_gt_0_53 prec_lt_emax_53 mode_NE z 0 false.
Definition Badd : double -> double -> double :=
  @Bplus 53 1024 prec_gt_0_53 prec_lt_emax_53 mode_NE.
Definition Bsub : double -> double -> double :=
  @Bminus 53 1024 prec_gt_0_53 prec_lt_emax_53 mode_NE.
Definition Bmul : double -> double -> double :=
  @Bmult 53 1024 prec_gt_0_53 prec_lt_emax_53 mode_NE.
Definition Bquot : double -> double -> double :=
  @Bdiv 53 1024 prec_gt_0_53 prec_lt_emax_53 mode_NE.
Definition Bdblmax : double := @Bmax_float 53 1024 prec_gt_0_53 prec_lt_emax_53.

(** Round half away from zero of [(-1)^s * m * 2^e], as an integer. *)
Definition round_away_parts (s : bool) (m : positive) (e : Z) : Z :=
  let a := match e with
           | Z0 => Zpos m
           | Zpos p => Zpos m * 2 ^ Zpos p
           | Zneg p => (2 * Zpos m + 2 ^ Zpos p) / 2 ^ (Zpos p + 1)
           end%Z in
  if s then (- a)%Z else a.

Definition Bround_int (x : double) : option Z :=
  match x with
  | B754_zero _ => Some 0%Z
  | B754_finite s m e _ => Some (round_away_parts s m e)
  | _ => None
  end.

Definition B64 : arith := {|
  num := double;
  of_Z := Bz;
  add := Badd; sub := Bsub; mul := Bmul; div := Bquot;
  fabs := @Babs 53 1024;
  ltb := @Bltb 53 1024; leb := @Bleb 53 1024; eqb := @Beqb 53 1024;
  dbl_max := Bdblmax;
  round_int := Bround_int
|}.

Definition B2R64 : double -> R := @B2R 53 1024.
Definition finite64 (x : double) : bool := @is_finite 53 1024 x.

Canonical Structure RA.
Canonical Structure B64.
