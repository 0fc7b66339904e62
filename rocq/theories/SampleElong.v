(** Sample cables for the elongation models in IEEE binary64, with a <cmath> whose pow
    multiplies for the exponents 0 to 4. *)
From Coq Require Import ZArith Bool List.
From Flocq Require Import IEEE754.BinarySingleNaN.
From Verif Require Import Num ModelBase ModelCable ModelElongation.
Import ListNotations.

Definition mul64 (x y : b64) : b64 := @Bmult 53 1024 Hprec64 Hemax64 mode_NE x y.

(** std::pow for the exponents 0 to 4; NaN for others *)
Definition pow64 (x y : b64) : b64 :=
  if Beqb y (b64_ofZ 0) then b64_ofZ 1
  else if Beqb y (b64_ofZ 1) then x
  else if Beqb y (b64_ofZ 2) then mul64 x x
  else if Beqb y (b64_ofZ 3) then mul64 (mul64 x x) x
  else if Beqb y (b64_ofZ 4) then mul64 (mul64 x x) (mul64 x x)
  else B754_nan.

Definition id64 (x : b64) : b64 := x.

(** A <cmath>; no function but pow is used by the elongation models. *)
Definition libm64 : Libm := mkLibm pow64 id64 id64 id64 id64 id64 id64 id64 id64 id64.

Definition E64 : Num := B64 libm64.
Definition z64 (z : Z) : E64 := b64_ofZ z.

(** A component with the two polynomials, the load limits, the moduli and the scale of
    the load; no thermal expansion. *)
Definition s_comp (creep loadstrain : list Z) (limit_creep limit_loadstrain compression tension scale_y : Z)
    : CableComponent E64 :=
  mkCableComponent (z64 0) (z64 0) (map z64 creep) (map z64 loadstrain) (z64 limit_creep) (z64 limit_loadstrain)
    (z64 compression) (z64 tension) (z64 1) (z64 scale_y).

(** A component with no coefficients: it is not enabled. *)
Definition s_none : CableComponent E64 := s_comp [] [] 0 0 0 0 1.

(** A cable of a core and a shell. *)
Definition s_cable (core shell : CableComponent E64) (strength : Z) : StCable E64 :=
  sg_set_base (Some (mkCable (z64 0) (z64 1) core shell (z64 1) (z64 0) [] (z64 strength) (z64 64) (z64 1))).

(** States at the reference temperature. *)
Definition s_state (t : PolynomialType) : CableState E64 := mkCableState (z64 64) t.
Definition s_stretch (t : PolynomialType) (load : Z) : StretchState E64 := mkStretchState (z64 64) t (z64 load).

(** Linear polynomials: the load at the polynomial strain x is [slope] x. *)
Definition line (slope : Z) : list Z := [0; slope; 0; 0; 0]%Z.
Definition s_linear (slope_creep slope_loadstrain tension : Z) : CableComponent E64 :=
  s_comp (line slope_creep) (line slope_loadstrain) 32768 65536 0 tension 1.
