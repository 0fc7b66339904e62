(** Model of helper::DoubleToString and helper::IsNumeric, /repo/src/base/helper.cc 28-50.

    Both functions leave the work to the iostreams of the C++ library.  The library is
    modelled as libstdc++ on glibc works in the "C" locale: operator<< formats with
    printf ("%.*f" or "%.*g", exact decimal conversion, ties to even), operator>> collects
    the characters of a decimal number and converts them with strtod (correctly rounded).
    The sign of a NaN is not in the model of doubles: it is an argument. *)
From Coq Require Import ZArith Bool List Ascii.
From Flocq Require Import IEEE754.BinarySingleNaN.
From Verif Require Import Num ModelHelper.
Import ListNotations.
Open Scope Z_scope.

(** ** Digits *)

(** ISO C 7.21.6.1 (printf, as used at helper.cc 38): a decimal digit *)
Definition digit_char (d : Z) : ascii := ascii_of_nat (Z.to_nat (48 + d)).

(** as above: the last [k] decimal digits of [n] *)
Fixpoint last_digits (k : nat) (n : Z) : str :=
  match k with
  | O => []
  | S k => last_digits k (n / 10) ++ [digit_char (n mod 10)]
  end.

(** as above: the number of decimal digits of [n], one for 0; [fuel] bounds it *)
Fixpoint count_digits (fuel : nat) (n : Z) : nat :=
  match fuel with
  | O => 1%nat
  | S fuel => if n <? 10 then 1%nat else S (count_digits fuel (n / 10))
  end.

(** as above: a binary digit is not more than a decimal digit *)
Definition digits_of (n : Z) : nat := count_digits (Z.to_nat (Z.log2 n)) n.

(** as above: an integer in decimal *)
Definition integer_text (n : Z) : str := last_digits (digits_of n) n.

(** ** DoubleToString *)

(** as above: the integer next to [a / b], ties to even *)
Definition nearest_even (a b : Z) : Z :=
  let q := a / b in
  let r := a mod b in
  if 2 * r <? b then q
  else if b <? 2 * r then q + 1
  else if Z.even q then q else q + 1.

(** as above: the integer next to [num / den * 10^x] *)
Definition scaled (num den x : Z) : Z :=
  nearest_even (num * 10 ^ Z.max x 0) (den * 10 ^ Z.max (- x) 0).

(** as above: the exponent [x] with [10^x <= num / den < 10^(x + 1)] *)
Definition decade (num den : Z) : Z :=
  let x := Z.of_nat (digits_of num) - Z.of_nat (digits_of den) in
  if den * 10 ^ Z.max x 0 <=? num * 10 ^ Z.max (- x) 0 then x else x - 1.

(** as above, "%f": [q] in units of the decimal [p] *)
Definition fixed_text (p q : Z) : str :=
  integer_text (q / 10 ^ p) ++
  (if p =? 0 then [] else "."%char :: last_digits (Z.to_nat p) (q mod 10 ^ p)).

(** as above, "%g" without flag: trailing zeros are removed, and the point with them *)
Fixpoint strip (s : str) : str :=
  match s with
  | [] => []
  | c :: r =>
      match strip r with
      | [] => if Ascii.eqb c "0" then [] else [c]
      | r => c :: r
      end
  end.

(** as above: the point and the decimals left *)
Definition fraction_text (p n : Z) : str :=
  match strip (last_digits (Z.to_nat p) n) with
  | [] => []
  | s => "."%char :: s
  end.

(** as above, "%e": at least two digits of the exponent *)
Definition exponent_text (x : Z) : str :=
  "e"%char :: (if x <? 0 then "-"%char else "+"%char) ::
  (if Z.abs x <? 10 then last_digits 2 (Z.abs x) else integer_text (Z.abs x)).

(** as above, "%g": the digits [q] of precision [p] of [num / den] and its exponent *)
Definition significant (p num den : Z) : Z * Z :=
  if num =? 0 then (0, 0)
  else
    let x := decade num den in
    let q := scaled num den (p - 1 - x) in
    if q =? 10 ^ p then (10 ^ (p - 1), x + 1) else (q, x).

(** as above, "%g": style f or e by the exponent *)
Definition general_text (p num den : Z) : str :=
  let p := if p =? 0 then 1 else p in
  let '(q, x) := significant p num den in
  if (-4 <=? x) && (x <? p) then
    let d := p - 1 - x in
    integer_text (q / 10 ^ d) ++ fraction_text d (q mod 10 ^ d)
  else
    integer_text (q / 10 ^ (p - 1)) ++ fraction_text (p - 1) (q mod 10 ^ (p - 1)) ++
    exponent_text x.

(** as above: the digits of a number without its sign *)
Definition unsigned_text (precision : Z) (is_fixed : bool) (num den : Z) : str :=
  if is_fixed then fixed_text precision (scaled num den precision)
  else general_text precision num den.

(** as above: the sign *)
Definition sign_text (s : bool) : str := if s then ["-"%char] else [].

(** helper.cc 28-40.  A negative precision counts as 6 in the library. *)
Definition DoubleToString (nan_sign : bool) (value : b64) (precision : Z)
    (is_fixed_decimal : bool) : str :=
  let p := if precision <? 0 then 6 else precision in
  match value with
  | B754_nan => sign_text nan_sign ++ ["n"; "a"; "n"]%char
  | B754_infinity s => sign_text s ++ ["i"; "n"; "f"]%char
  | B754_zero s => sign_text s ++ unsigned_text p is_fixed_decimal 0 1
  | B754_finite s m e _ =>
      sign_text s ++
      unsigned_text p is_fixed_decimal (Zpos m * 2 ^ Z.max e 0) (2 ^ Z.max (- e) 0)
  end.

(** ** IsNumeric *)

(** isspace in the "C" locale, used by the sentry of operator>> (helper.cc 49) *)
Definition is_space (c : ascii) : bool :=
  let n := Z.of_nat (nat_of_ascii c) in (n =? 32) || ((9 <=? n) && (n <=? 13)).

(** skipws of the sentry (helper.cc 49) *)
Fixpoint skip_spaces (s : str) : str :=
  match s with
  | [] => []
  | c :: r => if is_space c then skip_spaces r else s
  end.

(** num_get of libstdc++ and strtod (helper.cc 49): a decimal digit *)
Definition digit_value (c : ascii) : option Z :=
  let n := Z.of_nat (nat_of_ascii c) - 48 in
  if (0 <=? n) && (n <=? 9) then Some n else None.

(** num_get::_M_extract_float of libstdc++ (helper.cc 49): the zeros in front of a
    number; one zero is kept.  Results: kept characters, unread ones. *)
Fixpoint collect_zeros (found : bool) (s : str) : str * str :=
  match s with
  | [] => ([], [])
  | c :: r =>
      if Ascii.eqb c "0" then
        let '(k, u) := collect_zeros true r in ((if found then k else c :: k), u)
      else ([], s)
  end.

(** as above: the loop over digits, point and exponent; [mantissa], [dec], [sci] are
    __found_mantissa, __found_dec, __found_sci *)
Fixpoint collect (mantissa dec sci : bool) (s : str) : str * str :=
  match s with
  | [] => ([], [])
  | c :: r =>
      match digit_value c with
      | Some _ => let '(k, u) := collect true dec sci r in (c :: k, u)
      | None =>
          if Ascii.eqb c "." && negb dec && negb sci then
            let '(k, u) := collect mantissa true sci r in (c :: k, u)
          else if (Ascii.eqb c "e" || Ascii.eqb c "E") && negb sci && mantissa then
            match r with
            | d :: r' =>
                if Ascii.eqb d "+" || Ascii.eqb d "-" then
                  let '(k, u) := collect mantissa dec true r' in ("e"%char :: d :: k, u)
                else let '(k, u) := collect mantissa dec true r in ("e"%char :: k, u)
            | [] => (["e"%char], [])
            end
          else ([], s)
      end
  end.

(** as above: the sign, the zeros, the rest *)
Definition extract_float (s : str) : str * str :=
  let '(sign, s) :=
    match s with
    | c :: r => if Ascii.eqb c "+" || Ascii.eqb c "-" then ([c], r) else ([], s)
    | [] => ([], [])
    end in
  let '(zeros, s) := collect_zeros false s in
  let '(k, u) := collect (match zeros with [] => false | _ => true end) false false s in
  (sign ++ zeros ++ k, u).

(** ISO C 7.22.1.3 (strtod, called with the characters collected): leading digits *)
Fixpoint scan_digits (s : str) : list Z * str :=
  match s with
  | [] => ([], [])
  | c :: r =>
      match digit_value c with
      | Some d => let '(ds, u) := scan_digits r in (d :: ds, u)
      | None => ([], s)
      end
  end.

(** as above *)
Definition scan_sign (s : str) : bool * str :=
  match s with
  | c :: r =>
      if Ascii.eqb c "-" then (true, r) else if Ascii.eqb c "+" then (false, r) else (false, s)
  | [] => (false, [])
  end.

(** as above: the integer with these digits *)
Definition digits_value (ds : list Z) : Z := fold_left (fun a d => 10 * a + d) ds 0.

(** as above: sign, mantissa and decimal exponent of a text that is a decimal number as a
    whole; [None] if strtod stops before its end *)
Definition strtod_whole (s : str) : option (bool * Z * Z) :=
  let '(neg, s) := scan_sign s in
  let '(ip, s) := scan_digits s in
  let '(fp, s) :=
    match s with
    | c :: r => if Ascii.eqb c "." then scan_digits r else ([], s)
    | [] => ([], [])
    end in
  match ip ++ fp with
  | [] => None
  | ds =>
      let x := - Z.of_nat (List.length fp) in
      match s with
      | [] => Some (neg, digits_value ds, x)
      | c :: r =>
          if Ascii.eqb c "e" then
            let '(xneg, r) := scan_sign r in
            let '(xs, r) := scan_digits r in
            match xs, r with
            | _ :: _, [] =>
                Some (neg, digits_value ds,
                      x + (if xneg then - digits_value xs else digits_value xs))
            | _, _ => None
            end
          else None
      end
  end.

(** strtod answers HUGE_VAL when [m * 10^x] rounds to 2^1024 or more, and operator>> sets
    failbit (std::__convert_to_v) *)
Definition overflows (m x : Z) : bool :=
  (2 ^ 54 - 1) * 2 ^ 970 * 10 ^ Z.max (- x) 0 <=? m * 10 ^ Z.max x 0.

(** helper.cc 49, [stream >> d]: the unread characters, or [None] for failbit *)
Definition read_double (s : str) : option str :=
  let '(k, u) := extract_float (skip_spaces s) in
  match strtod_whole k with
  | Some (_, m, x) => if overflows m x then None else Some u
  | None => None
  end.

(** helper.cc 49, [stream >> c] *)
Definition read_char (s : str) : bool :=
  match skip_spaces s with [] => false | _ => true end.

(** helper.cc 42-50 *)
Definition IsNumeric (s : str) : bool :=
  match read_double s with
  | Some u => negb (read_char u)
  | None => false
  end.
