(** C165: where the load curve is straight, Strain of a cable finds the strain of a load.
    What the two theorems leave out are the curved parts between the region points. *)
From Coq Require Import ZArith Bool List Sorted Reals Lra.
From Verif Require Import Num NumFacts ModelBase ModelCable ModelElongation SpecElong SpecElongLine SampleElongReal SampleReload
  ProofElongLine ProofElongLineCases.
Import ListNotations.
Open Scope R_scope.

(** Between two region points, or beyond the last, along a line: the load at the strain
    returned is the requested one, exactly. *)
Theorem elongation_strain_on_line : forall (cs : list (EmCall RNum)) m v e p (y : R), tidy true PTNull cs = true ->
  em_run ElongModel_new cs = Ok m -> em_Load m CTCombined e = Ok (v, p) ->
  1 / 100 < Rabs (y + 999999) -> on_line m (em_points p) y ->
  exists x, cable_strain m y = Ok x /\ cable_load m x = Ok y.
Proof. exact strain_on_line. Qed.
Print Assumptions elongation_strain_on_line.

Example elongation_strain_on_line_case : exists v p, tidy true PTNull (l_setters 50) = true /\
  em_run ElongModel_new (l_setters 50) = Ok c_model /\ em_Load c_model CTCombined (1 : F RNum) = Ok (v, p) /\
  on_line c_model (em_points p) 3000 /\ on_line c_model (em_points p) 100000.
Proof.
  eexists _, _. split; [reflexivity|]. split; [apply l_run|]. split; [apply c_loads; unfold l_thermal; lra|].
  split; [exact c_on_line|exact c_on_line_top].
Qed.

(** Every load above those of the region points is found if the points of each component
    lie in order and the slope beyond them is positive. *)
Theorem elongation_strain_beyond : forall (cs : list (EmCall RNum)) m v e p q (y e1 k : R), tidy true PTNull cs = true ->
  em_run ElongModel_new cs = Ok m -> em_Load m CTCombined e = Ok (v, p) -> em_points p <> [] ->
  (em_core_on p = Ok true -> in_order (em_core p)) -> (em_shell_on p = Ok true -> in_order (em_shell p)) ->
  (forall z, In z (em_points p) -> p2x z <= e1) -> em_Slope m CTCombined e1 = Ok (k : F RNum, q) -> 0 < k ->
  0 <= y -> (forall z, In z (em_points p) -> p2y z < y) ->
  exists x, cable_strain m y = Ok x /\ cable_load m x = Ok y.
Proof. exact strain_beyond. Qed.
Print Assumptions elongation_strain_beyond.

Example elongation_strain_beyond_case : exists v p q, tidy true PTNull (l_setters 50) = true /\
  em_run ElongModel_new (l_setters 50) = Ok c_model /\ em_Load c_model CTCombined (1 : F RNum) = Ok (v, p) /\ em_points p <> [] /\
  (em_core_on p = Ok true -> in_order (em_core p)) /\ (em_shell_on p = Ok true -> in_order (em_shell p)) /\
  (forall z, In z (em_points p) -> p2x z <= 1) /\ em_Slope c_model CTCombined (1 : F RNum) = Ok (131072 : F RNum, q) /\
  (forall z, In z (em_points p) -> p2y z < 100000).
Proof.
  destruct c_slope as (q & Q). eexists _, _, q. split; [reflexivity|]. split; [apply l_run|].
  split; [apply c_loads; unfold l_thermal; lra|]. split; [discriminate|].
  split; [rewrite l_core_on by reflexivity; discriminate|]. split; [intros _; exact c_order|].
  split; [|split; [exact Q|]]; intros z [<-|[<-|[<-|[]]]]; cbn [p2x p2y]; unfold l_thermal; lra.
Qed.
