(** What a CableUnitLoadSolver should know after some calls, read off the list of calls. *)
From Coq Require Import ZArith List.
From Verif Require Import Num ModelLoad.
Import ListNotations.

(** The last value that a call of the list gives, or the one known before. *)
Definition latest {C A : Type} (gives : C -> option A) (before : A) (cs : list C) : A :=
  fold_left (fun a c => match gives c with Some x => x | None => a end) cs before.

(** The pointers passed to the setters. *)
Definition gives_diameter {N : Num} (c : UlCall N) : option (option Z) :=
  match c with UlSetDiameter p => Some p | _ => None end.
Definition gives_weight {N : Num} (c : UlCall N) : option (option Z) :=
  match c with UlSetWeight p => Some p | _ => None end.
(** What the client writes to the double at [a]. *)
Definition gives_double {N : Num} (a : Z) (c : UlCall N) : option N :=
  match c with UlWrite b x => if Z.eqb b a then Some x else None | _ => None end.

Definition diameter_set {N : Num} (cs : list (UlCall N)) : option Z := latest gives_diameter None cs.
Definition weight_set {N : Num} (cs : list (UlCall N)) : option Z := latest gives_weight None cs.
Definition double_after {N : Num} (mem : Doubles N) (cs : list (UlCall N)) (a : Z) : N := latest (gives_double a) (mem a) cs.

(** Some call asks for a load before both pointers are set. *)
Definition asked_too_soon {N : Num} (cs : list (UlCall N)) : Prop :=
  exists before w after, cs = before ++ UlUnitCableLoad w :: after /\ (diameter_set before = None \/ weight_set before = None).
