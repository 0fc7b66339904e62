(** C167: the unit loads follow the pointers set last and the doubles they point to. *)
From Coq Require Import ZArith Bool List Reals Lra.
From Verif Require Import Num NumFacts ModelBase ModelLoad ProofReal ProofLoad SpecUnitLoadRun ProofUnitLoadRun.
Import ListNotations.
Open Scope R_scope.

(** The calls are defined exactly if no load is asked for before both pointers are set,
    in any arithmetic. *)
Theorem unit_load_calls_defined : forall (N : Num) (mem : Doubles N) cs,
  (asked_too_soon cs -> ul_run (mem, UnitLoadSolver_new) cs = UB) /\
  (~ asked_too_soon cs -> exists st, ul_run (mem, UnitLoadSolver_new) cs = Ok st).
Proof. exact @ul_run_defined. Qed.
Print Assumptions unit_load_calls_defined.

Theorem unit_load_valid_after : forall (mem : Doubles RNum) cs st, ul_run (mem, UnitLoadSolver_new) cs = Ok st ->
  (ul_Validate (fst st) (snd st) = true <->
   exists a b, diameter_set cs = Some a /\ weight_set cs = Some b /\ 0 < double_after mem cs a /\ 0 < double_after mem cs b).
Proof. exact ul_run_valid. Qed.
Print Assumptions unit_load_valid_after.

Theorem unit_load_after : forall (mem : Doubles RNum) cs st (w : WeatherLoadCase RNum) a b,
  ul_run (mem, UnitLoadSolver_new) cs = Ok st -> WeatherLoadCase_Validate w = true ->
  diameter_set cs = Some a -> weight_set cs = Some b ->
  0 < double_after mem cs a -> 0 < double_after mem cs b ->
  exists v, UnitCableLoad (fst st) (snd st) w = Ok v /\
    let d := double_after mem cs a in let t := wl_thickness_ice w in
    let ice := wl_density_ice w * (PI * ((d / 2 + t) * (d / 2 + t)) - PI * (d / 2 * (d / 2))) in
    v3x v = 0 /\ v3y v = wl_pressure_wind w * (d + 2 * t) /\
    v3z v <= double_after mem cs b + ice <= v3z v + 4 / 1000000000000000 * (wl_density_ice w * t * (d + t)).
Proof. exact ul_run_load. Qed.
Print Assumptions unit_load_after.

(** The diameter is written after it was set, and the pointer to the weight replaced: the
    load is that of the new values. *)
Example unit_load_after_case :
  let mem : Doubles RNum := fun _ => 5 in
  let w := mkWeatherLoadCase (N := RNum) 57 4 32 0 in
  let cs := [UlSetWeight (Some 1%Z); UlSetDiameter (Some 2%Z); UlUnitCableLoad w; UlWrite 2%Z (1 : RNum); UlSetWeight (Some 3%Z);
             UlWrite 3%Z (3 : RNum); UlValidate] in
  ~ asked_too_soon cs /\
  exists st, ul_run (mem, UnitLoadSolver_new) cs = Ok st /\ WeatherLoadCase_Validate w = true /\
    diameter_set cs = Some 2%Z /\ weight_set cs = Some 3%Z /\ double_after mem cs 2 = 1 /\ double_after mem cs 3 = 3.
Proof.
  intros mem w cs. split.
  { intros (b & k & a & E & H). subst cs.
    do 2 (destruct b as [|? b]; [discriminate E|injection E as <- E]).
    destruct b as [|? b].
    - cbn in H. destruct H as [H|H]; discriminate H.
    - do 5 (injection E as <- E; destruct b as [|? b]; [discriminate E|]). discriminate E. }
  eexists. split; [reflexivity|]. split.
  { unfold WeatherLoadCase_Validate. subst w. cbn [wl_density_ice wl_pressure_wind wl_temperature_cable wl_thickness_ice].
    rewrite !andb_true_iff, !negb_true_iff. repeat split; apply Rltb_false; rn; lra. }
  repeat split.
Qed.

(** A load is asked for after the diameter was set to null. *)
Example unit_load_too_soon_case : asked_too_soon (N := RNum)
  [UlSetWeight (Some 1%Z); UlSetDiameter (Some 2%Z); UlSetDiameter None; UlUnitCableLoad (mkWeatherLoadCase (N := RNum) 57 4 32 0)].
Proof. do 3 eexists. split; [apply (app_assoc [_; _; _] [] [_])|]. left. reflexivity. Qed.
