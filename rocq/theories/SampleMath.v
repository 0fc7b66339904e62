(** A <cmath> for binary64 that computes its functions with 44 binary places and rounds the
    result: an instance for the samples that is quickly computed.  Nothing is proved of its
    accuracy, and no theorem but those with concrete witnesses uses it. *)
From Coq Require Import ZArith Bool List.
From Flocq Require Import IEEE754.BinarySingleNaN.
From Verif Require Import Num SampleElong.
Import ListNotations.
Local Open Scope Z_scope.

(** Numbers with 44 binary places. *)
Definition one44 : Z := Z.shiftl 1 44.
Definition mul44 (x y : Z) : Z := Z.shiftr (x * y) 44.
Definition div44 (x y : Z) : Z := Z.shiftl x 44 / y.
Definition sqrt44 (x : Z) : Z := Z.sqrt (Z.shiftl x 44).
Definition pi44 : Z := 55267482437722.
Definition ln44 : Z := 12193974156572.

(** The conversions; the values at infinity are given. *)
Definition of64 (x : b64) : Z :=
  match x with
  | B754_finite s m e _ => Z.shiftl (if s then Zneg m else Zpos m) (e + 44)
  | _ => 0
  end.
Definition to64 (z : Z) : b64 := binary_normalize 53 1024 Hprec64 Hemax64 mode_NE z (-44) false.
Definition via44 (f : Z -> Z) (inf : bool -> b64) (x : b64) : b64 :=
  match x with B754_nan => B754_nan | B754_infinity s => inf s | _ => to64 (f (of64 x)) end.

(** term + term * y / ((k + 1) (k + 2)) + ...: [n] terms *)
Fixpoint taylor (n : nat) (k term y : Z) : Z :=
  match n with
  | O => 0
  | S n => term + taylor n (k + 2) (mul44 term y / ((k + 1) * (k + 2))) y
  end.
Definition sin_small (x : Z) : Z := taylor 9 1 x (- mul44 x x).
Definition cos_small (x : Z) : Z := taylor 9 0 one44 (- mul44 x x).
Definition quarter (x : Z) : Z := (2 * x + pi44 / 2) / pi44.
Definition rest (x : Z) : Z := x - quarter x * pi44 / 2.
Definition sin44 (x : Z) : Z :=
  match quarter x mod 4 with 0 => sin_small (rest x) | 1 => cos_small (rest x) | 2 => - sin_small (rest x) | _ => - cos_small (rest x) end.
Definition cos44 (x : Z) : Z :=
  match quarter x mod 4 with 0 => cos_small (rest x) | 1 => - sin_small (rest x) | 2 => - cos_small (rest x) | _ => sin_small (rest x) end.
Definition tan44 (x : Z) : Z := div44 (sin44 x) (cos44 x).

(** term / k + term * y / (k + 2) + ... *)
Fixpoint odds (n : nat) (k term y : Z) : Z :=
  match n with O => 0 | S n => term / k + odds n (k + 2) (mul44 term y) y end.
Definition halve (x : Z) : Z := div44 x (one44 + sqrt44 (one44 + mul44 x x)).
Definition atan_small (x : Z) : Z := let y := halve (halve x) in 4 * odds 9 1 y (- mul44 y y).
Definition atan44 (x : Z) : Z :=
  if one44 <? Z.abs x then Z.sgn x * (pi44 / 2) - atan_small (div44 one44 x) else atan_small x.
Definition asin44 (x : Z) : Z :=
  if one44 <=? Z.abs x then Z.sgn x * (pi44 / 2) else atan44 (div44 x (sqrt44 (one44 - mul44 x x))).
Definition acos44 (x : Z) : Z := pi44 / 2 - asin44 x.

Definition exp_small (x : Z) : Z := taylor 9 0 one44 (mul44 x x) + taylor 9 1 x (mul44 x x).
Definition exp44 (x : Z) : Z := let n := x / ln44 in
  if 1100 <? n then Z.shiftl one44 1100 else if n <? -200 then 0 else Z.shiftl (exp_small (x - n * ln44)) n.
Definition sinh44 (x : Z) : Z :=
  if Z.abs x <? one44 then taylor 9 1 x (mul44 x x) else (exp44 x - exp44 (- x)) / 2.
Definition cosh44 (x : Z) : Z := (exp44 x + exp44 (- x)) / 2.
Definition log44 (x : Z) : Z :=
  let n := Z.log2 x - 44 in
  let y := Z.shiftl x (- n) in
  let t := div44 (y - one44) (y + one44) in
  2 * odds 16 1 t (mul44 t t) + n * ln44.
Definition asinh44 (x : Z) : Z :=
  let a := Z.abs x in Z.sgn x * log44 (a + sqrt44 (one44 + mul44 a a)).

Definition no_value (s : bool) : b64 := B754_nan.
Definition math64 : Libm :=
  mkLibm pow64 (via44 sin44 no_value) (via44 cos44 no_value) (via44 tan44 no_value) (via44 asin44 no_value) (via44 acos44 no_value)
    (via44 atan44 (fun s => to64 (if s then - pi44 / 2 else pi44 / 2)))
    (via44 sinh44 B754_infinity) (via44 cosh44 (fun _ => B754_infinity false)) (via44 asinh44 B754_infinity).
Definition M64 : Num := B64 math64.
Definition m64 (z : Z) : M64 := b64_ofZ z.
