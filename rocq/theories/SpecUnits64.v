(** Specification of unit conversions in double precision. *)
From Coq Require Import ZArith Reals.
From Flocq Require Import Core.Core IEEE754.BinarySingleNaN.
From Verif Require Import Num ModelBase SpecUnits.
Open Scope R_scope.

(** What is asked of std::pow: small integer powers of doubles near 1, with a
    relative error of a few units in the last place. *)
Definition accurate_pow (lm : Libm) : Prop :=
  forall (x : b64) (z : Z), is_finite x = true -> bpow radix2 (-21) <= B2R x <= bpow radix2 21 -> (-4 <= z <= 4)%Z ->
    is_finite (lm_pow lm x (b64_ofZ z)) = true /\
    Rabs (B2R (lm_pow lm x (b64_ofZ z)) - powerRZ (B2R x) z) <= bpow radix2 (-51) * powerRZ (B2R x) z.

(** Doubles far from overflow and underflow. *)
Definition ordinary (v : b64) : Prop :=
  is_finite v = true /\ (B2R v = 0 \/ bpow radix2 (-800) <= Rabs (B2R v) <= bpow radix2 800).

(** The double [v'] in units of size [b] is the quantity [v] in units of size [a]
    up to a relative error. *)
Definition nearly_same_quantity (err : R) (a b : R) (exponent : Z) (is_numerator : bool) (v v' : b64) : Prop :=
  is_finite v' = true /\
  exists m : R, Rabs (m - 1) <= err /\ same_quantity a b exponent is_numerator (B2R v * m) (B2R v').

(** The double [w] is the double [v] up to a relative error. *)
Definition nearly (err : R) (w v : b64) : Prop :=
  is_finite w = true /\ Rabs (B2R w - B2R v) <= err * Rabs (B2R v).

(** Readings of a thermometer. *)
Definition reading (v : b64) : Prop := is_finite v = true /\ Rabs (B2R v) <= 1000000.
