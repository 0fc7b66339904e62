(** Specification of validation: what a Validate function may do with the list of error
    messages it is given, and what a validated line offers. *)
From Coq Require Import ZArith Bool List String.
From Verif Require Import Num ModelBase ModelAlignment ModelLine ModelCable ModelLoad ModelSagtension ModelValidate.
Import ListNotations.
Open Scope num_scope.

(** The list of messages with some more at its end; a null pointer stays null. *)
Definition with_more (extra : list Message) (m : Messages) : Messages :=
  match m with None => None | Some l => Some (l ++ extra)%list end.

(** A Validate function answers [ok] and appends [extra], whatever list it is given. *)
Definition answers (v : Messages -> Check) (ok : bool) (extra : list Message) : Prop :=
  forall m, v m = (ok, with_more extra m).

(** The same for a function that may also throw or have undefined behaviour: either it
    returns for every list, or ends in the same way for every list. *)
Definition answers_or_fails (v : Messages -> outcome Check)
    (r : outcome (bool * list Message)) : Prop :=
  forall m, v m = match r with Ok (ok, extra) => Ok (ok, with_more extra m) | Throw => Throw | UB => UB end.

(** Every rejection comes with a message. *)
Definition rejections_explained (ok : bool) (extra : list Message) : Prop := ok = false -> extra <> [].

(** Every message comes with a rejection. *)
Definition messages_are_rejections (ok : bool) (extra : list Message) : Prop := extra <> [] -> ok = false.

(** ** What an accepted object promises *)
Section Range.
Context {N : Num}.

Definition hardware_in_range (h : Hardware N) : Prop :=
  (#0 <=? hw_area_cross_section h) = true /\ (#0 <=? hw_length h) = true /\ hw_type h <> HTNull /\ (#0 <=? hw_weight h) = true.

(** Between the top of the structure and its foot. *)
Definition attachment_in_range (height : N) (a : StructureAttachment N) : Prop :=
  (#0 <=? sa_offset_vertical_top a) = true /\ (sa_offset_vertical_top a <=? height) = true.

Definition structure_in_range (s : Structure N) : Prop :=
  st_attachments s <> [] /\ (#0 <? st_height s) = true /\
  forall a, In a (st_attachments s) -> attachment_in_range (st_height s) a.

Definition line_structure_in_range (s : LineStructure N) : Prop :=
  (forall h, In (Some h) (ls_hardwares s) -> hardware_in_range h) /\
  (#0 <=? ls_height_adjustment s) = true /\ (fabs (ls_rotation s) <=? #360) = true /\ (#0 <=? ls_station s) = true /\
  exists st, ls_structure s = Some st /\ structure_in_range st.

Definition alignment_point_in_range (p : AlignmentPoint N) : Prop :=
  (#0 <=? ap_elevation p) = true /\ (fabs (ap_rotation p) <=? #360) = true /\ (#0 <=? ap_station p) = true.

Definition weather_in_range (w : WeatherLoadCase N) : Prop :=
  (#0 <=? wl_density_ice w) = true /\ (#0 <=? wl_pressure_wind w) = true /\
  (#(-50) <=? wl_temperature_cable w) = true /\ (#0 <=? wl_thickness_ice w) = true.

Definition cable_in_range (c : Cable N) : Prop :=
  (#0 <=? cb_area c) = true /\ (#0 <? cb_diameter c) = true /\ (#0 <? cb_weight c) = true.

Definition constraint_in_range (k : Constraint N) : Prop :=
  (exists w, co_weather k = Some w /\ weather_in_range w) /\ co_condition k <> CdNull /\
  (#0 <=? co_limit k) = true /\ co_type k <> LmNull.

(** The checked values are numbers. *)
Variable num : N -> Prop.
Definition hardware_numbers (h : Hardware N) : Prop := num (hw_area_cross_section h) /\ num (hw_length h) /\ num (hw_weight h).
Definition structure_numbers (s : Structure N) : Prop :=
  num (st_height s) /\ forall a, In a (st_attachments s) -> num (sa_offset_vertical_top a).
Definition line_structure_numbers (s : LineStructure N) : Prop :=
  (forall h, In (Some h) (ls_hardwares s) -> hardware_numbers h) /\
  num (ls_height_adjustment s) /\ num (ls_rotation s) /\ num (ls_station s) /\
  (forall st, ls_structure s = Some st -> structure_numbers st).
Definition alignment_point_numbers (p : AlignmentPoint N) : Prop := num (ap_elevation p) /\ num (ap_rotation p) /\ num (ap_station p).
Definition weather_numbers (w : WeatherLoadCase N) : Prop :=
  num (wl_density_ice w) /\ num (wl_pressure_wind w) /\ num (wl_temperature_cable w) /\ num (wl_thickness_ice w).
Definition cable_numbers (c : Cable N) : Prop := num (cb_area c) /\ num (cb_diameter c) /\ num (cb_weight c).
Definition constraint_numbers (k : Constraint N) : Prop := num (co_limit k) /\ forall w, co_weather k = Some w -> weather_numbers w.

(** No attachment of the structure is above its top. *)
Definition no_negative_offset (s : Structure N) : Prop := forall a, In a (st_attachments s) -> (#0 <=? sa_offset_vertical_top a) = true.
End Range.
