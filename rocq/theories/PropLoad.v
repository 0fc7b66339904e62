(** Theorems about the unit load of an iced cable. *)
From Coq Require Import ZArith Bool List Reals Lra.
From Verif Require Import Num NumFacts ModelBase ModelLoad ProofReal ProofLoad.
Open Scope R_scope.

(** C50: the transverse load is the wind on the iced diameter; the vertical load is the
    weight of the cable and of the ring of ice (pi has 15 digits in the code); with ice of
    some density it is the bare weight exactly if there is no ice. *)
Theorem unit_cable_load : forall (mem : Doubles RNum) s (w : WeatherLoadCase RNum),
  ul_Validate (N := RNum) mem s = true -> WeatherLoadCase_Validate w = true ->
  exists a b v, ul_diameter s = Some a /\ ul_weight s = Some b /\ UnitCableLoad (N := RNum) mem s w = Ok v /\
    let d := mem a in let t := wl_thickness_ice w in
    let ice := wl_density_ice w * (PI * ((d / 2 + t) * (d / 2 + t)) - PI * (d / 2 * (d / 2))) in
    v3x v = 0 /\
    v3y v = wl_pressure_wind w * (d + 2 * t) /\
    0 <= v3y v /\
    v3z v <= mem b + ice <= v3z v + 4 / 1000000000000000 * (wl_density_ice w * t * (d + t)) /\
    mem b <= v3z v /\ 0 < v3z v /\ (0 < wl_density_ice w -> (v3z v = mem b <-> t = 0)).
Proof. exact unit_load. Qed.
Print Assumptions unit_cable_load.

(** C50: both loads increase with the thickness of the ice. *)
Theorem unit_cable_load_ice : forall (mem : Doubles RNum) s (w w' : WeatherLoadCase RNum) v v',
  ul_Validate (N := RNum) mem s = true -> WeatherLoadCase_Validate w = true -> WeatherLoadCase_Validate w' = true ->
  wl_density_ice w = wl_density_ice w' -> wl_pressure_wind w = wl_pressure_wind w' ->
  wl_thickness_ice w <= wl_thickness_ice w' ->
  UnitCableLoad (N := RNum) mem s w = Ok v -> UnitCableLoad (N := RNum) mem s w' = Ok v' ->
  v3y v <= v3y v' /\ v3z v <= v3z v' /\
  (wl_thickness_ice w = 0 -> forall a b, ul_diameter s = Some a -> ul_weight s = Some b ->
     v3y v = wl_pressure_wind w * mem a /\ v3z v = mem b).
Proof. exact unit_load_ice. Qed.
Print Assumptions unit_cable_load_ice.

Example unit_cable_load_case : exists (mem : Doubles RNum) s (w w' : WeatherLoadCase RNum) v v',
  ul_Validate (N := RNum) mem s = true /\ WeatherLoadCase_Validate w = true /\ WeatherLoadCase_Validate w' = true /\
  wl_thickness_ice w < wl_thickness_ice w' /\ 0 < wl_density_ice w /\
  UnitCableLoad (N := RNum) mem s w = Ok v /\ UnitCableLoad (N := RNum) mem s w' = Ok v' /\ v3y v' = 7 / 3.
Proof.
  exists (fun a => if Z.eqb a 1 then 1 / 12 else 3 / 2), (mkUnitLoadSolver (Some 1%Z) (Some 2%Z)).
  exists (mkWeatherLoadCase (N := RNum) 57 4 32 (1 / 12)), (mkWeatherLoadCase (N := RNum) 57 4 32 (1 / 4)).
  do 2 eexists.
  assert (Hr : forall x y : R, y <= x -> negb (fltb (n := RNum) x y) = true).
  { intros x y H. apply negb_true_iff. apply Rltb_false. lra. }
  assert (Hl : forall x y : R, y < x -> negb (fleb (n := RNum) x y) = true).
  { intros x y H. apply negb_true_iff. apply Rleb_false. lra. }
  split. { unfold ul_Validate, bad_double. cbn [ul_diameter ul_weight]. rewrite !Hl; [reflexivity|rn; simpl; lra|rn; simpl; lra]. }
  split. { unfold WeatherLoadCase_Validate. cbn [wl_density_ice wl_pressure_wind wl_temperature_cable wl_thickness_ice].
           rewrite !Hr; [reflexivity|..]; rn; lra. }
  split. { unfold WeatherLoadCase_Validate. cbn [wl_density_ice wl_pressure_wind wl_temperature_cable wl_thickness_ice].
           rewrite !Hr; [reflexivity|..]; rn; lra. }
  split; [cbn; lra|]. split; [cbn; lra|]. split; [reflexivity|]. split; [reflexivity|]. cbn [v3y cy_diameter wl_pressure_wind wl_thickness_ice].
  rn. simpl. lra.
Qed.
