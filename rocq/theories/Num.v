(** Arithmetic used by the model.

    The C++ code computes with [double] and <cmath>.  All model functions are
    written once over the record [Num]; theorems then choose an instance:
    - every [Num] (hence IEEE doubles with NaN),
    - [B64 lm]: IEEE-754 binary64 of Flocq, round to nearest even, with an
      arbitrary record [lm] of <cmath> functions,
    - [RNum]: exact real arithmetic. *)

From Coq Require Import ZArith Reals Lra Lia Bool List.
From Flocq Require Import Core.Core IEEE754.BinarySingleNaN.

(** ** Outcomes of a call.  [Throw] is the std::out_of_range exception of
    [std::vector::at]; [UB] is undefined behaviour (null or dangling
    dereference, front()/back() of an empty container, std::next beyond the
    container, operator[] out of range). *)
Inductive outcome (A : Type) : Type :=
| Ok (a : A)
| Throw
| UB.
Arguments Ok {A} a.
Arguments Throw {A}.
Arguments UB {A}.

Definition obind {A B : Type} (x : outcome A) (f : A -> outcome B) : outcome B :=
  match x with
  | Ok a => f a
  | Throw => Throw
  | UB => UB
  end.

Definition omap {A B : Type} (f : A -> B) (x : outcome A) : outcome B :=
  obind x (fun a => Ok (f a)).

Definition is_ok {A : Type} (x : outcome A) : bool :=
  match x with Ok _ => true | _ => false end.

Definition is_ub {A : Type} (x : outcome A) : bool :=
  match x with UB => true | _ => false end.

Notation "'do' x <- a ; b" := (obind a (fun x => b))
  (at level 200, x pattern, a at level 100, b at level 200, right associativity).

(** ** The arithmetic interface: the operations on [double] and the <cmath>
    functions that occur in /repo/src. [flit m e] is the literal m * 10^e;
    [fpow] is std::pow with both arguments converted to double. *)
Record Num : Type := mkNum {
  F :> Type;
  fadd : F -> F -> F;
  fsub : F -> F -> F;
  fmul : F -> F -> F;
  fdiv : F -> F -> F;
  fopp : F -> F;
  fabs : F -> F;
  fsqrt : F -> F;
  fltb : F -> F -> bool;
  fleb : F -> F -> bool;
  feqb : F -> F -> bool;
  flit : Z -> Z -> F;
  fpow : F -> F -> F;
  fsin : F -> F;
  fcos : F -> F;
  ftan : F -> F;
  fasin : F -> F;
  facos : F -> F;
  fatan : F -> F;
  fsinh : F -> F;
  fcosh : F -> F;
  fasinh : F -> F;
  fround : F -> F
}.

Arguments fadd {_}. Arguments fsub {_}. Arguments fmul {_}. Arguments fdiv {_}.
Arguments fopp {_}. Arguments fabs {_}. Arguments fsqrt {_}.
Arguments fltb {_}. Arguments fleb {_}. Arguments feqb {_}.
Arguments flit {_}. Arguments fpow {_}.
Arguments fsin {_}. Arguments fcos {_}. Arguments ftan {_}. Arguments fasin {_}.
Arguments facos {_}. Arguments fatan {_}. Arguments fsinh {_}. Arguments fcosh {_}.
Arguments fasinh {_}. Arguments fround {_}.

Declare Scope num_scope.
Delimit Scope num_scope with num.
Infix "+" := fadd : num_scope.
Infix "-" := fsub : num_scope.
Infix "*" := fmul : num_scope.
Infix "/" := fdiv : num_scope.
Infix "<?" := fltb : num_scope.
Infix "<=?" := fleb : num_scope.
Infix "=?" := feqb : num_scope.

(** Conversion of an [int] to [double], and integer literals. *)
Definition fofZ {N : Num} (z : Z) : N := flit z 0.
Notation "# z" := (fofZ z) (at level 1, format "# z") : num_scope.

(** The value -999999 that the code uses to mark "not set" and errors. *)
Definition ferr {N : Num} : N := fofZ (-999999).

(** ** Order laws on a subset of values (all reals; all doubles but NaN). *)
Record OrdLaws (N : Num) (ok : N -> Prop) : Prop := mkOrdLaws {
  ol_irrefl : forall x, ok x -> fltb x x = false;
  ol_trans : forall x y z, ok x -> ok y -> ok z ->
      fltb x y = true -> fltb y z = true -> fltb x z = true;
  ol_eq : forall x y, ok x -> ok y ->
      feqb x y = negb (fltb x y) && negb (fltb y x);
  ol_le : forall x y, ok x -> ok y -> fleb x y = negb (fltb y x);
  ol_cotrans : forall x y z, ok x -> ok y -> ok z ->
      fltb x z = true -> fltb x y = true \/ fltb y z = true
}.

(** ** Real arithmetic *)
Open Scope R_scope.

Definition Rltb (x y : R) : bool := if Rlt_dec x y then true else false.
Definition Rleb (x y : R) : bool := if Rle_dec x y then true else false.
Definition Reqb (x y : R) : bool := if Req_EM_T x y then true else false.

(** std::pow: for an integral exponent the integer power, for a positive base
    exp (y ln x), and 0 for base 0 and positive exponent.  The remaining case
    (negative base, fractional exponent) is NaN in C++; the value 0 here is
    excluded by the hypotheses of every theorem that uses it. *)
Definition Rpow_c (x y : R) : R :=
  if Req_EM_T (IZR (Int_part y)) y then powerRZ x (Int_part y)
  else if Rlt_dec 0 x then Rpower x y else 0.

(** std::round: to the nearest integer, halfway cases away from zero. *)
Definition Rround_c (x : R) : R :=
  if Rle_dec 0 x then IZR (Int_part (x + /2)) else - IZR (Int_part (- x + /2)).

Definition RNum : Num := {|
  F := R;
  fadd := Rplus; fsub := Rminus; fmul := Rmult; fdiv := Rdiv;
  fopp := Ropp; fabs := Rabs; fsqrt := R_sqrt.sqrt;
  fltb := Rltb; fleb := Rleb; feqb := Reqb;
  flit := fun m e => IZR m * powerRZ 10 e;
  fpow := Rpow_c;
  fsin := sin; fcos := cos; ftan := tan; fasin := asin; facos := acos;
  fatan := atan; fsinh := sinh; fcosh := cosh; fasinh := arcsinh;
  fround := Rround_c
|}.

(** ** IEEE-754 binary64.  The <cmath> functions whose result is not fixed by
    the standard are an arbitrary record. *)
Definition b64 : Type := binary_float 53 1024.

Record Libm : Type := mkLibm {
  lm_pow : b64 -> b64 -> b64;
  lm_sin : b64 -> b64; lm_cos : b64 -> b64; lm_tan : b64 -> b64;
  lm_asin : b64 -> b64; lm_acos : b64 -> b64; lm_atan : b64 -> b64;
  lm_sinh : b64 -> b64; lm_cosh : b64 -> b64; lm_asinh : b64 -> b64
}.

Lemma Hprec64 : (0 < 53)%Z. Proof. reflexivity. Qed.
Lemma Hemax64 : (53 < 1024)%Z. Proof. reflexivity. Qed.

Definition b64_ofZ (z : Z) : b64 :=
  binary_normalize 53 1024 Hprec64 Hemax64 mode_NE z 0 false.

(** A decimal literal m * 10^e. For |m| < 2^53 and |e| <= 22 (all literals of
    the code) numerator and denominator are exact and the single division or
    multiplication rounds correctly, as a C++ compiler does. *)
Definition b64_lit (m e : Z) : b64 :=
  match e with
  | Zneg p => @Bdiv 53 1024 Hprec64 Hemax64 mode_NE (b64_ofZ m) (b64_ofZ (10 ^ Zpos p))
  | _ => b64_ofZ (m * 10 ^ e)
  end.

Definition B64 (lm : Libm) : Num := {|
  F := b64;
  fadd := @Bplus 53 1024 Hprec64 Hemax64 mode_NE;
  fsub := @Bminus 53 1024 Hprec64 Hemax64 mode_NE;
  fmul := @Bmult 53 1024 Hprec64 Hemax64 mode_NE;
  fdiv := @Bdiv 53 1024 Hprec64 Hemax64 mode_NE;
  fopp := @Bopp 53 1024; fabs := @Babs 53 1024;
  fsqrt := @Bsqrt 53 1024 Hprec64 Hemax64 mode_NE;
  fltb := @Bltb 53 1024; fleb := @Bleb 53 1024; feqb := @Beqb 53 1024;
  flit := b64_lit;
  fpow := lm_pow lm;
  fsin := lm_sin lm; fcos := lm_cos lm; ftan := lm_tan lm;
  fasin := lm_asin lm; facos := lm_acos lm; fatan := lm_atan lm;
  fsinh := lm_sinh lm; fcosh := lm_cosh lm; fasinh := lm_asinh lm;
  fround := @Bnearbyint 53 1024 Hemax64 mode_NA
|}.

(** Not a NaN. *)
Definition num64 (x : b64) : Prop := is_nan x = false.
