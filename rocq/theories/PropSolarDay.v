(** C191: the course of the sun over a day. *)
From Coq Require Import ZArith Bool List Reals Lra Lia.
From Verif Require Import Num ModelBase ModelSolar SpecVector SpecSolar ProofSolar ProofSolarRad ProofSolarCases ProofSolarDay.
Import ListNotations.
Open Scope R_scope.

(** C191: at equal latitude and day, whatever else is set, the sun is lower the further the
    hour is from noon, and equally high at hours equally far from it; there it is equally far
    east and west of the meridian, if it is not exactly in the east or west. *)
Theorem sun_over_the_day : forall ks ks' (i := inputs_after (N := RNum) ks) (j := inputs_after (N := RNum) ks'),
  in_range i -> in_range j -> in_latitude i = in_latitude j -> in_day i = in_day j ->
  ((in_hour i + in_hour j = 24)%Z ->
    (fst (sr_AltitudeSun (sr_run (N := RNum) SolarSolver_default ks)) : R) = fst (sr_AltitudeSun (sr_run (N := RNum) SolarSolver_default ks')) /\
    ((forall phi dec omega, sun_angles (in_latitude i) (in_day i) (in_hour i) phi dec omega -> sun_north phi dec omega <> 0) ->
     in_hour i <> 12%Z ->
     (fst (sr_AzimuthSun (sr_run (N := RNum) SolarSolver_default ks)) : R) + fst (sr_AzimuthSun (sr_run (N := RNum) SolarSolver_default ks')) = 360)) /\
  ((Z.abs (in_hour i - 12) < Z.abs (in_hour j - 12))%Z ->
    fst (sr_AltitudeSun (sr_run (N := RNum) SolarSolver_default ks')) < fst (sr_AltitudeSun (sr_run (N := RNum) SolarSolver_default ks))).
Proof. exact day_api. Qed.
Print Assumptions sun_over_the_day.

(** One hour before and after noon at 60 degrees of latitude. *)
Example sun_over_the_day_case :
  in_range (inputs_after (oslo_at 11)) /\ in_range (inputs_after (oslo_at 13)) /\
  (fst (sr_AltitudeSun (sr_run (N := RNum) SolarSolver_default (oslo_at 11))) : R) = fst (sr_AltitudeSun (sr_run (N := RNum) SolarSolver_default (oslo_at 13))) /\
  (fst (sr_AzimuthSun (sr_run (N := RNum) SolarSolver_default (oslo_at 11))) : R) + fst (sr_AzimuthSun (sr_run (N := RNum) SolarSolver_default (oslo_at 13))) = 360.
Proof.
  assert (A := oslo_at_range 11 ltac:(lia)). assert (B := oslo_at_range 13 ltac:(lia)).
  destruct (sun_over_the_day (oslo_at 11) (oslo_at 13) A B eq_refl eq_refl) as [S _]. destruct (S eq_refl) as [S1 S2].
  split; [exact A|]. split; [exact B|]. split; [exact S1|]. apply S2; [|discriminate].
  intros phi dec omega G. apply Rlt_not_eq. exact (oslo_morning 172 phi dec omega G).
Qed.
