(** Properties of helper::IsNumeric and helper::DoubleToString. *)
From Coq Require Import ZArith Reals List Ascii String.
From Flocq Require Import Core IEEE754.BinarySingleNaN.
From Verif Require Import Num ModelHelper ModelText SpecText ProofTextRead ProofTextWrite
  ProofTextFigures ProofTextTrip.
Import ListNotations.
Open Scope Z_scope.

(** C149: IsNumeric accepts exactly the decimal numerals, between blanks, whose nearest
    double is finite. *)
Theorem numeric_numerals : forall s, IsNumeric s = true <->
  exists a t b v, s = a ++ t ++ b /\ blank a /\ blank b /\ numeral t v /\ fits v.
Proof. exact numeric_exact. Qed.
Print Assumptions numeric_numerals.

Example numeric_case :
  map (fun s => IsNumeric (list_ascii_of_string s))
    [" -0012.50e+3 "; ".5"; "5."; "1E-400"; "1.7976931348623158e308"]%string = [true; true; true; true; true] /\
  map (fun s => IsNumeric (list_ascii_of_string s))
    [""; "."; "1e"; "1e400"; "0x10"; "1 2"; "inf"; "1,5"; "1e5.3"; "--1"; "1.7976931348623159e308"]%string =
  [false; false; false; false; false; false; false; false; false; false; false].
Proof. split; vm_compute; reflexivity. Qed.

(** C150: the text of a finite double is a numeral next to its value: with a fixed number
    of decimals, or with [precision] significant digits, where [d] is the decade of the
    value.  A precision of 0 counts as 1 significant digit. *)
Theorem text_fixed_nearest : forall ns (x : b64) precision, is_finite x = true -> 0 <= precision ->
  exists v, numeral (DoubleToString ns x precision true) v /\
    rounded (powerRZ 10 (- precision)) (B2R x) v /\
    decimals (DoubleToString ns x precision true) = Z.to_nat precision.
Proof. exact text_fixed. Qed.
Print Assumptions text_fixed_nearest.

Theorem text_significant_nearest : forall ns (x : b64) precision d, is_finite x = true ->
  0 <= precision -> (powerRZ 10 d <= Rabs (B2R x) < powerRZ 10 (d + 1))%R ->
  exists v, numeral (DoubleToString ns x precision false) v /\
    rounded (powerRZ 10 (d + 1 - Z.max 1 precision)) (B2R x) v.
Proof. exact text_general. Qed.
Print Assumptions text_significant_nearest.

Theorem text_significant_figures : forall ns (x : b64) precision, is_finite x = true -> 0 <= precision ->
  Z.of_nat (figures (DoubleToString ns x precision false)) <= Z.max 1 precision.
Proof. exact text_figures. Qed.
Print Assumptions text_significant_figures.

Theorem text_of_zero : forall ns (x : b64) precision, is_finite x = true -> 0 <= precision ->
  B2R x = 0%R -> numeral (DoubleToString ns x precision false) 0.
Proof. exact text_zero. Qed.
Print Assumptions text_of_zero.

(** 0.5, -3.5, 12345678, 2^-20, 0 *)
Example text_case :
  let d m e := binary_normalize 53 1024 Hprec64 Hemax64 mode_NE m e false in
  map (fun x => string_of_list_ascii (DoubleToString false x 6 false))
    [d 1 (-1); d (-7) (-1); d 12345678 0; d 1 (-20); d 0 0] =
    ["0.5"; "-3.5"; "1.23457e+07"; "9.53674e-07"; "0"]%string /\
  map (fun x => string_of_list_ascii (DoubleToString false x 2 true))
    [d 1 (-1); d (-7) (-1); d 12345678 0; d 1 (-20); d 0 0] =
    ["0.50"; "-3.50"; "12345678.00"; "0.00"; "0.00"]%string.
Proof. split; vm_compute; reflexivity. Qed.

(** 999999.5 with six figures *)
Example text_figures_case :
  let x := binary_normalize 53 1024 Hprec64 Hemax64 mode_NE 1999999 (-1) false in
  string_of_list_ascii (DoubleToString false x 6 false) = "1e+06"%string /\
  figures (DoubleToString false x 6 false) = 1%nat /\ figures (DoubleToString false x 7 false) = 7%nat.
Proof. vm_compute. repeat split. Qed.

(** C151, the true part: texts of finite doubles are numeric with a fixed number of decimals,
    with 17 significant digits and more, and with the 6 digits used for messages; texts
    of infinities and NaNs are not. *)
Theorem text_numeric_partial : forall ns (x : b64) precision is_fixed, 0 <= precision ->
  is_fixed = true \/ 17 <= precision \/ precision = 6 ->
  IsNumeric (DoubleToString ns x precision is_fixed) = is_finite x.
Proof. exact text_numeric. Qed.
Print Assumptions text_numeric_partial.

Example text_numeric_case : is_finite above_one = true /\ is_finite largest = true /\
  IsNumeric (DoubleToString false above_one 17 false) = true /\
  IsNumeric (DoubleToString false largest 6 false) = true.
Proof. vm_compute. repeat split. Qed.

(** C151 is false: the largest double with five digits is 1.7977e+308, which is not numeric. *)
Theorem text_numeric_refuted : exists x : b64, forall ns, is_finite x = true /\
  IsNumeric (DoubleToString ns x 5 false) = false.
Proof. exact (ex_intro _ largest largest_text). Qed.
Print Assumptions text_numeric_refuted.

(** C152: with 17 significant digits and more, the double nearest to the text is the one
    written. *)
Theorem text_round_trip : forall ns (x : b64) precision, is_finite x = true -> 17 <= precision ->
  exists v, numeral (DoubleToString ns x precision false) v /\
    round radix2 (FLT_exp (-1074) 53) ZnearestE v = B2R x.
Proof. exact text_trip. Qed.
Print Assumptions text_round_trip.

(** 17 digits tell 1 and its successor apart, 15 do not *)
Example text_round_trip_case : is_finite above_one = true /\
  string_of_list_ascii (DoubleToString false above_one 17 false) = "1.0000000000000002"%string /\
  DoubleToString false above_one 15 false = DoubleToString false one64 15 false.
Proof. vm_compute. repeat split. Qed.
