(** What decimal numerals are and mean, independent of the functions that write and read
    them. *)
From Coq Require Import ZArith Reals Bool List Ascii.
From Flocq Require Import Core.
Import ListNotations.
Open Scope R_scope.

(** The ten digits in order. *)
Definition ten : list ascii := ["0"; "1"; "2"; "3"; "4"; "5"; "6"; "7"; "8"; "9"]%char.

(** A character is the digit [d]. *)
Definition digit (c : ascii) (d : Z) : Prop := (0 <= d)%Z /\ nth_error ten (Z.to_nat d) = Some c.

(** A string of digits and the integer it denotes; the empty string denotes 0. *)
Inductive digits : list ascii -> Z -> Prop :=
| digits_none : digits [] 0
| digits_more : forall s n c d, digits s n -> digit c d -> digits (s ++ [c]) (10 * n + d).

(** A sign, which may be absent. *)
Inductive sign : list ascii -> Z -> Prop :=
| sign_none : sign [] 1
| sign_plus : sign ["+"%char] 1
| sign_minus : sign ["-"%char] (-1).

(** A decimal exponent, which may be absent. *)
Inductive exponent : list ascii -> Z -> Prop :=
| exponent_none : exponent [] 0
| exponent_some : forall c sg k s n, c = "e"%char \/ c = "E"%char -> sign sg k -> digits s n ->
    s <> [] -> exponent (c :: sg ++ s) (k * n).

(** A decimal numeral: at least one digit, at most one point. *)
Inductive numeral : list ascii -> R -> Prop :=
| numeral_of : forall sg k i point f n ex x, sign sg k -> digits (i ++ f) n -> i ++ f <> [] ->
    point = [] /\ f = [] \/ point = ["."%char] -> exponent ex x ->
    numeral (sg ++ i ++ point ++ f ++ ex)
      (IZR k * IZR n * powerRZ 10 (x - Z.of_nat (length f))).

(** White space of the "C" locale. *)
Definition blank (s : list ascii) : Prop :=
  Forall (fun c => In c (" "%char :: map ascii_of_nat [9; 10; 11; 12; 13]%nat)) s.

(** The double nearest to [v] is finite. *)
Definition fits (v : R) : Prop :=
  Rabs (round radix2 (FLT_exp (-1074) 53) ZnearestE v) < bpow radix2 1024.

(** The number of characters behind the point. *)
Fixpoint decimals (s : list ascii) : nat :=
  match s with
  | [] => 0
  | c :: r => if Ascii.eqb c "."%char then length r else decimals r
  end.

(** [v] is [x] rounded to a multiple of [unit], ties to even. *)
Definition rounded (unit x v : R) : Prop := exists k : Z, v = IZR k * unit /\
  Rabs (v - x) <= unit / 2 /\ (Rabs (v - x) = unit / 2 -> Z.even k = true).

(** The significant figures of a numeral: its digits in front of an exponent, without the
    zeros it begins with. *)
Fixpoint mantissa_digits (s : list ascii) : list ascii :=
  match s with
  | [] => []
  | c :: r =>
      if Ascii.eqb c "e"%char || Ascii.eqb c "E"%char then []
      else if existsb (Ascii.eqb c) ten then c :: mantissa_digits r else mantissa_digits r
  end.
Fixpoint without_zeros (s : list ascii) : list ascii :=
  match s with
  | [] => []
  | c :: r => if Ascii.eqb c "0"%char then without_zeros r else s
  end.
Definition figures (s : list ascii) : nat := length (without_zeros (mantissa_digits s)).
