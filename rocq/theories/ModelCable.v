(** Model of /repo/src/transmissionline/cable.cc (CableComponent, Cable).

    Error messages and the name of the cable are not modelled. *)
From Coq Require Import ZArith Bool List.
From Verif Require Import Num.
Import ListNotations.
Open Scope num_scope.

Section Cable.
Context {N : Num}.

(** cable.h 18-86: the members of CableComponent *)
Record CableComponent : Type := mkCableComponent {
  cc_capacity_heat : N;
  cc_expansion : N;
  cc_creep : list N;
  cc_loadstrain : list N;
  cc_limit_creep : N;
  cc_limit_loadstrain : N;
  cc_modulus_compression : N;
  cc_modulus_tension : N;
  cc_scale_x : N;
  cc_scale_y : N
}.

(** cable.cc 6-15 *)
Definition CableComponent_default : CableComponent :=
  mkCableComponent ferr ferr [] [] ferr ferr ferr ferr ferr ferr.

(** cable.cc 19-33: always true *)
Definition CableComponent_Validate (c : CableComponent) : bool := true.

(** cable.h 97-105 *)
Record ResistancePoint : Type := mkResistancePoint { rp_resistance : N; rp_temperature : N }.

(** cable.h 92-174: the members of Cable *)
Record Cable : Type := mkCable {
  cb_absorptivity : N;
  cb_area : N;
  cb_core : CableComponent;
  cb_shell : CableComponent;
  cb_diameter : N;
  cb_emissivity : N;
  cb_resistances : list ResistancePoint;
  cb_strength : N;
  cb_temperature : N;
  cb_weight : N
}.

(** cable.cc 35-44 *)
Definition Cable_default : Cable :=
  mkCable ferr ferr CableComponent_default CableComponent_default ferr ferr [] ferr ferr ferr.

(** cable.cc 48-89: the results of the components (65, 68) are not used *)
Definition Cable_Validate (c : Cable) : bool :=
  negb (cb_area c <? #0) && negb (cb_diameter c <=? #0) && negb (cb_weight c <=? #0).

End Cable.

Arguments CableComponent : clear implicits.
Arguments ResistancePoint : clear implicits.
Arguments Cable : clear implicits.
