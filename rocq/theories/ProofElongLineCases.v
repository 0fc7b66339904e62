(** A cable for the straight parts of load curves. *)
From Coq Require Import ZArith Bool List Sorted Reals Lra.
From Verif Require Import Num NumFacts ModelBase ModelCable ModelPolynomial ModelThermal ModelElongation SpecElong SpecElongLine
  ProofReal ProofThermalCases ProofElong ProofElongModel ProofElongReal SampleElongReal SampleReload ProofElongLine.
Import ListNotations.
Open Scope R_scope.

Definition c_model : ElongModel RNum := l_model 50.
Definition c_points : list (Point2d RNum) := em_points (l_updated 50).

Lemma c_loads : forall e : R, l_thermal 50 <= e -> em_Load c_model CTCombined e = Ok ((e - l_thermal 50) * 131072 : F RNum, l_updated 50).
Proof.
  intros e H. unfold em_Load, c_model. rewrite l_Update. cbn [obind]. apply l_Combined; [reflexivity|reflexivity|exact H].
Qed.

Lemma c_straight : forall b, straight_between c_model (l_thermal 50) b.
Proof.
  intros b. exists (- l_thermal 50 * 131072), 131072. split; [lra|]. intros e (H & _). unfold cable_load. rewrite (c_loads e H).
  change (Ok (A := R) ((e - l_thermal 50) * 131072) = Ok (- l_thermal 50 * 131072 + 131072 * e)). f_equal. ring.
Qed.

Lemma c_on_line : on_line c_model c_points 3000.
Proof.
  left. split.
  - unfold loads_rise, c_points. cbn [l_updated em_points]. repeat constructor; cbn [p2y]; lra.
  - exists (mkPoint2d (N := RNum) (l_thermal 50) 0), (mkPoint2d (N := RNum) (1 / 2 + l_thermal 50) 65536).
    split; [exists [mkPoint2d (N := RNum) (l_thermal 50) 0], []; reflexivity|]. cbn [p2x p2y]. split; [lra|]. apply c_straight.
Qed.

Lemma c_on_line_top : on_line c_model c_points 100000.
Proof.
  right. eexists _, _, _. split; [reflexivity|]. split; [reflexivity|]. cbn [last p2x p2y]. split; [lra|]. split; [lra|].
  exists (- l_thermal 50 * 131072), 131072. split; [lra|]. intros e H. unfold cable_load. rewrite (c_loads e ltac:(lra)).
  change (Ok (A := R) ((e - l_thermal 50) * 131072) = Ok (- l_thermal 50 * 131072 + 131072 * e)). f_equal. ring.
Qed.

Lemma c_order : in_order (l_shell 50).
Proof.
  exists (rg_unloaded (l_regions 50)), (rg_start (l_regions 50)), (rg_end (l_regions 50)), (l_shell 50), (r_state PTLoadStrain 50).
  split; [reflexivity|]. split; [reflexivity|]. split; [discriminate|]. cbn [l_regions rg_unloaded rg_start rg_end p2x]. lra.
Qed.

Lemma c_slope : exists q, em_Slope c_model CTCombined (1 : F RNum) = Ok (131072 : F RNum, q).
Proof.
  unfold em_Slope, c_model. rewrite l_Update. cbn [obind]. unfold SlopeCombined, SlopeCore, SlopeShell, core_value, shell_value.
  rewrite (l_core_on (l_updated 50)) by reflexivity. cbn [obind]. rewrite (l_shell_on (l_updated 50)) by reflexivity. cbn [obind].
  change (em_shell (l_updated 50)) with (l_shell 50).
  assert (S : cm_Slope (l_shell 50) (1 : F RNum) = Ok (131072 : F RNum, l_shell 50)).
  { unfold cm_Slope, cm_query, cm_Update. change (cm_upd_stretch (l_shell 50)) with true. cbn [obind].
    change (cm_upd_state (l_shell 50)) with true. cbn [obind].
    change (cm_state (l_shell 50)) with (Some (r_state PTLoadStrain 50)). cbn [deref obind].
    change (cm_base (l_shell 50)) with (Ok (A := CableComponent RNum) l_comp). cbn [obind].
    change (cm_points (l_shell 50)) with (Some (l_regions 50)). cbn [obind]. repeat f_equal.
    change (cm_mod_creep (l_shell 50)) with (131072 : RNum). change (cm_mod_loadstrain (l_shell 50)) with (131072 : RNum).
    unfold SlopeAt, l_regions. cbn [rg_unloaded rg_start rg_end p2x st_type r_state]. unfold l_thermal. rn.
    rewrite (proj2 (Rltb_false 1 _)) by lra. rewrite (proj2 (Rleb_true _ 1)) by lra.
    rewrite (proj2 (Rleb_false 1 _)) by lra. cbn [andb].
    rewrite (proj2 (Rltb_true _ 1)) by lra. rewrite (proj2 (Rltb_false 1 _)) by lra. cbn [andb].
    rewrite (proj2 (Rleb_true _ 1)) by lra. reflexivity. }
  rewrite S. cbn [obind]. eexists. f_equal. f_equal. rn. rring.
Qed.
