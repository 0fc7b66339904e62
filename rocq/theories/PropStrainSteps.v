(** C201: straining a cable in two steps. *)
From Coq Require Import ZArith Bool List Reals Lra.
From Verif Require Import Num ModelBase ModelElongation SpecElong SampleReload ProofStrainSteps.
Open Scope R_scope.

(** Two steps end within the length times the product of the changes of strain of one step,
    and are longer by exactly that if the strain grows in both.  Missing: equality. *)
Theorem straining_steps_partial :
  forall (mem m1 m2 m3 : Models RNum) (l y0 y1 y2 v1 v2 v3 x0 x1 x2 : R) a b c, tidy_models mem ->
  LengthFinish mem (mkStrainer (N := RNum) l y1 y0 (Some b) (Some a)) = Ok (v1, m1) ->
  LengthFinish m1 (mkStrainer (N := RNum) v1 y2 y1 (Some c) (Some b)) = Ok (v2, m2) ->
  LengthFinish mem (mkStrainer (N := RNum) l y2 y0 (Some c) (Some a)) = Ok (v3, m3) ->
  cable_strain (mem a) (y0 : F RNum) = Ok (x0 : F RNum) -> cable_strain (mem b) (y1 : F RNum) = Ok (x1 : F RNum) ->
  cable_strain (mem c) (y2 : F RNum) = Ok (x2 : F RNum) -> 0 <= l ->
  Rabs (v2 - v3) <= l * (Rabs (x1 - x0) * Rabs (x2 - x1)) /\
  (x0 <= x1 <= x2 -> v2 = v3 + l * ((x1 - x0) * (x2 - x1))).
Proof. exact two_steps. Qed.
Print Assumptions straining_steps_partial.

(** A cable of 1000 ft whose strain grows by 1/100 in each step. *)
Example straining_steps_case : exists (mem m1 m2 m3 : Models RNum), tidy_models mem /\
  (let load (k : R) : R := k * 131072 / 100 in
   LengthFinish mem (mkStrainer (N := RNum) (1000 : R) (load 2) (load 1) (Some 0%Z) (Some 0%Z)) = Ok (1010 : R, m1) /\
   LengthFinish m1 (mkStrainer (N := RNum) (1010 : R) (load 3) (load 2) (Some 0%Z) (Some 0%Z)) = Ok (10201 / 10 : R, m2) /\
   LengthFinish mem (mkStrainer (N := RNum) (1000 : R) (load 3) (load 1) (Some 0%Z) (Some 0%Z)) = Ok (1020 : R, m3) /\
   forall k, 0 < k < 10 -> cable_strain (mem 0%Z) (load k : F RNum) = Ok (k / 100 + l_thermal 70 : F RNum)).
Proof. exact steps_case. Qed.

(** C201 is false: the length depends on the load at which the straining is interrupted. *)
Theorem straining_steps_refuted :
  exists (mem m1 m2 m3 : Models RNum) (l y0 y1 y2 v1 v2 v3 : R) a, tidy_models mem /\
  LengthFinish mem (mkStrainer (N := RNum) l y1 y0 (Some a) (Some a)) = Ok (v1, m1) /\
  LengthFinish m1 (mkStrainer (N := RNum) v1 y2 y1 (Some a) (Some a)) = Ok (v2, m2) /\
  LengthFinish mem (mkStrainer (N := RNum) l y2 y0 (Some a) (Some a)) = Ok (v3, m3) /\
  0 < l /\ 0 < y0 < y1 /\ y1 < y2 /\ v3 + 1 / 10 = v2.
Proof.
  destruct steps_case as (mem & m1 & m2 & m3 & D & A & B & C & _).
  exists mem, m1, m2, m3, 1000, (1 * 131072 / 100), (2 * 131072 / 100), (3 * 131072 / 100), 1010, (10201 / 10), 1020, 0%Z.
  split; [exact D|]. split; [exact A|]. split; [exact B|]. split; [exact C|]. lra.
Qed.
Print Assumptions straining_steps_refuted.
