(** Model of /repo/src/sagtension/cable_elongation_model.cc with its pointers: the objects
    of CableElongationModel in memory, their copies and destruction.

    The two component models of an object keep pointers to states.  They point to a member
    of an elongation model, of the object itself or of another one, or to a local variable.
    ModelElongation keeps the states themselves instead; this file says when each pointer
    is set and reads it when it is used.  Between two settings of pointers the functions of
    ModelElongation run on the states the pointers refer to: they set no pointer and write
    no state.

    The polynomials of the component models are not in this memory: a copy has its own
    polynomials here.  In the code it shares their derivatives with the object it was
    copied from (ModelHeap).  An exception ends the history. *)
From Coq Require Import ZArith Bool List.
From Verif Require Import Num ModelBase ModelCable ModelPolynomial ModelThermal ModelElongation.
Import ListNotations.
Open Scope num_scope.

Section Pointed.
Context {N : Num}.

(** cable_component_elongation_model.h 432-434: state_ is null, points to an object that is
    gone, to a local variable that exists, or to the member state_ of an elongation model. *)
Inductive StatePtr : Type := SpNull | SpGone | SpLocal (s : CableState N) | SpMember (i : Z).

(** cable_component_elongation_model.h 436-438: the same for state_stretch_, which may point to
    the members state_stretch_, state_stretch_core_ and state_stretch_shell_. *)
Inductive StretchPtr : Type :=
| TpNull | TpGone | TpLocal (s : StretchState N) | TpCable (i : Z) | TpCore (i : Z) | TpShell (i : Z).

(** cable_elongation_model.h 258-300: the members.  The states in the component models of
    [eo_model] are not used, the pointers are. *)
Record EObject : Type := mkEObject {
  eo_model : ElongModel N;
  eo_stretch_core : StretchState N;
  eo_stretch_shell : StretchState N;
  eo_core_state : StatePtr;
  eo_core_stretch : StretchPtr;
  eo_shell_state : StatePtr;
  eo_shell_stretch : StretchPtr
}.

(** cable_elongation_model.cc 27-32, cable_component_elongation_model.cc 10-24 *)
Definition EObject_new : EObject :=
  mkEObject ElongModel_new StretchState_default StretchState_default SpNull TpNull SpNull TpNull.

(** The object with another model. *)
Definition eo_with (o : EObject) (m : ElongModel N) : EObject :=
  mkEObject m (eo_stretch_core o) (eo_stretch_shell o) (eo_core_state o) (eo_core_stretch o)
    (eo_shell_state o) (eo_shell_stretch o).

(** The objects by address. *)
Definition EObjects : Type := Z -> option EObject.

(** A call on the object [o] at the address [self]; the other objects are in [mem]. *)
Section Call.
Variable mem : EObjects.
Variable self : Z.

(** The object at an address. *)
Definition eo_at (o : EObject) (i : Z) : option EObject := if Z.eqb i self then Some o else mem i.

(** What a pointer refers to; None if it is null or nothing is there. *)
Definition read_state (o : EObject) (p : StatePtr) : option (CableState N) :=
  match p with
  | SpNull | SpGone => None
  | SpLocal s => Some s
  | SpMember i => option_map (fun o => em_state (eo_model o)) (eo_at o i)
  end.
Definition read_stretch (o : EObject) (p : StretchPtr) : option (StretchState N) :=
  match p with
  | TpNull | TpGone => None
  | TpLocal s => Some s
  | TpCable i => option_map (fun o => em_stretch (eo_model o)) (eo_at o i)
  | TpCore i => option_map eo_stretch_core (eo_at o i)
  | TpShell i => option_map eo_stretch_shell (eo_at o i)
  end.

(** A component model with the states its pointers refer to. *)
Definition cm_refer (m : CompModel N) (s : option (CableState N)) (t : option (StretchState N)) : CompModel N :=
  mkCompModel (cm_component m) s t (cm_tref m) (cm_load_stretch m) (cm_mod_creep m) (cm_mod_loadstrain m)
    (cm_thermal_state m) (cm_thermal_stretch m) (cm_points m) (cm_upd_state m) (cm_upd_stretch m).

(** The elongation model with the states the pointers refer to. *)
Definition eo_refer (o : EObject) : ElongModel N :=
  let m := eo_model o in
  em_with_shell
    (em_with_core m (cm_refer (em_core m) (read_state o (eo_core_state o)) (read_stretch o (eo_core_stretch o))))
    (cm_refer (em_shell m) (read_state o (eo_shell_state o)) (read_stretch o (eo_shell_stretch o))).

(** A function that sets no pointer and no state. *)
Definition eo_ask {A : Type} (o : EObject) (f : ElongModel N -> outcome (A * ElongModel N)) : outcome (A * EObject) :=
  do (a, m) <- f (eo_refer o); Ok (a, eo_with o m).

(** cable_component_elongation_model.cc 218-222 and 224-230 on the core or on the shell *)
Definition core_state_to (o : EObject) (p : StatePtr) : EObject :=
  let m := eo_model o in
  mkEObject (em_with_core m (cm_set_state (em_core m) None)) (eo_stretch_core o) (eo_stretch_shell o) p
    (eo_core_stretch o) (eo_shell_state o) (eo_shell_stretch o).
Definition shell_state_to (o : EObject) (p : StatePtr) : EObject :=
  let m := eo_model o in
  mkEObject (em_with_shell m (cm_set_state (em_shell m) None)) (eo_stretch_core o) (eo_stretch_shell o)
    (eo_core_state o) (eo_core_stretch o) p (eo_shell_stretch o).
Definition core_stretch_to (o : EObject) (p : StretchPtr) : EObject :=
  let m := eo_model o in
  mkEObject (em_with_core m (cm_set_stretch (em_core m) None)) (eo_stretch_core o) (eo_stretch_shell o)
    (eo_core_state o) p (eo_shell_state o) (eo_shell_stretch o).
Definition shell_stretch_to (o : EObject) (p : StretchPtr) : EObject :=
  let m := eo_model o in
  mkEObject (em_with_shell m (cm_set_stretch (em_shell m) None)) (eo_stretch_core o) (eo_stretch_shell o)
    (eo_core_state o) (eo_core_stretch o) (eo_shell_state o) p.

(** A write of state_stretch_core_ or of state_stretch_shell_. *)
Definition set_stretch_core (o : EObject) (s : StretchState N) : EObject :=
  mkEObject (eo_model o) s (eo_stretch_shell o) (eo_core_state o) (eo_core_stretch o) (eo_shell_state o)
    (eo_shell_stretch o).
Definition set_stretch_shell (o : EObject) (s : StretchState N) : EObject :=
  mkEObject (eo_model o) (eo_stretch_core o) s (eo_core_state o) (eo_core_stretch o) (eo_shell_state o)
    (eo_shell_stretch o).

(** The local variables of a function go away when it returns. *)
Definition sp_return (p : StatePtr) : StatePtr := match p with SpLocal _ => SpGone | _ => p end.
Definition tp_return (p : StretchPtr) : StretchPtr := match p with TpLocal _ => TpGone | _ => p end.
Definition eo_return (o : EObject) : EObject :=
  mkEObject (eo_model o) (eo_stretch_core o) (eo_stretch_shell o) (sp_return (eo_core_state o))
    (tp_return (eo_core_stretch o)) (sp_return (eo_shell_state o)) (tp_return (eo_shell_stretch o)).

(** cable_elongation_model.cc 186-211: a component that is not enabled is replaced by a new one *)
Definition eo_set_cable (o : EObject) (c : option (StCable N)) : outcome EObject :=
  do m <- em_set_cable (eo_model o) c;
  match c with
  | None => Ok (eo_with o m)
  | Some k =>
      do a <- sg_core_on k;
      do s <- sg_shell_on k;
      Ok (mkEObject m (eo_stretch_core o) (eo_stretch_shell o)
            (if a then eo_core_state o else SpNull) (if a then eo_core_stretch o else TpNull)
            (if s then eo_shell_state o else SpNull) (if s then eo_shell_stretch o else TpNull))
  end.

(** cable_elongation_model.cc 213-217, 219-225 *)
Definition eo_set_state (o : EObject) (s : CableState N) : EObject := eo_with o (em_set_state (eo_model o) s).
Definition eo_set_stretch (o : EObject) (s : StretchState N) : EObject := eo_with o (em_set_stretch (eo_model o) s).

(** cable_elongation_model.cc 428-444; [p] is the address of the argument *)
Definition eo_UpdateComponentsState (o : EObject) (p : StatePtr) : outcome EObject :=
  do a <- em_core_on (eo_model o);
  let o := if a then core_state_to o p else o in
  do s <- em_shell_on (eo_model o);
  let o := if s then shell_state_to o p else o in
  omap snd (eo_ask o (fun m => do m <- UpdatePointsRegions m; Ok (tt, m))).

(** cable_elongation_model.cc 450-493 *)
Definition eo_UpdateComponentsStretch (o : EObject) : outcome EObject :=
  do a <- em_core_on (eo_model o);
  let o := if a then
             core_stretch_to (set_stretch_core o (ss_with_load (em_stretch (eo_model o)) #0)) (TpCore self)
           else o in
  do s <- em_shell_on (eo_model o);
  let o := if s then
             shell_stretch_to (set_stretch_shell o (ss_with_load (em_stretch (eo_model o)) #0)) (TpShell self)
           else o in
  let stretch := em_stretch (eo_model o) in
  if ss_load stretch =? #0 then Ok o
  else
    do o <- eo_UpdateComponentsState o (SpLocal (mkCableState (ss_temperature stretch) (ss_type stretch)));
    do (x, o) <- eo_ask o (fun m => StrainCombined m (ss_load stretch));
    do o <-
      (if a then
         do (y, o) <- eo_ask o (fun m => LoadCore m x);
         Ok (core_stretch_to (set_stretch_core o (ss_with_load (eo_stretch_core o) y)) (TpCore self))
       else Ok o);
    do o <-
      (if s then
         do (y, o) <- eo_ask o (fun m => LoadShell m x);
         Ok (shell_stretch_to (set_stretch_shell o (ss_with_load (eo_stretch_shell o) y)) (TpShell self))
       else Ok o);
    Ok (eo_return o).

(** The object with other flags. *)
Definition eo_with_flags (o : EObject) (state stretch : bool) : EObject :=
  eo_with o (em_with_flags (eo_model o) state stretch).

(** cable_elongation_model.cc 407-426 *)
Definition eo_Update (o : EObject) : outcome EObject :=
  do o <-
    (if em_upd_stretch (eo_model o) then Ok o
     else do o <- eo_UpdateComponentsStretch o; Ok (eo_with_flags o (em_upd_state (eo_model o)) true));
  if em_upd_state (eo_model o) then Ok o
  else do o <- eo_UpdateComponentsState o (SpMember self);
       Ok (eo_with_flags o true (em_upd_stretch (eo_model o))).

(** cable_elongation_model.cc 37-55 *)
Definition eo_Load (o : EObject) (t : ComponentType) (strain : N) : outcome (N * EObject) :=
  do o <- eo_Update o;
  match t with
  | CTCombined => eo_ask o (fun m => LoadCombined m strain)
  | CTCore => eo_ask o (fun m => LoadCore m strain)
  | CTShell => eo_ask o (fun m => LoadShell m strain)
  | CTNull => Ok (ferr, o)
  end.
(** cable_elongation_model.cc 57-75 *)
Definition eo_Slope (o : EObject) (t : ComponentType) (strain : N) : outcome (N * EObject) :=
  do o <- eo_Update o;
  match t with
  | CTCombined => eo_ask o (fun m => SlopeCombined m strain)
  | CTCore => eo_ask o (fun m => SlopeCore m strain)
  | CTShell => eo_ask o (fun m => SlopeShell m strain)
  | CTNull => Ok (ferr, o)
  end.
(** cable_elongation_model.cc 77-95 *)
Definition eo_Strain (o : EObject) (t : ComponentType) (load : N) : outcome (N * EObject) :=
  do o <- eo_Update o;
  match t with
  | CTCombined => eo_ask o (fun m => StrainCombined m load)
  | CTCore => eo_ask o (fun m => StrainCore m load)
  | CTShell => eo_ask o (fun m => StrainShell m load)
  | CTNull => Ok (ferr, o)
  end.

(** cable_elongation_model.cc 556-572 and 575-591 for one component *)
Definition eo_limit_valid (on : bool) (b : outcome (CableComponent N)) (strain_max : N)
    (q : ElongModel N -> N -> outcome (N * ElongModel N)) (o : EObject) : outcome (bool * EObject) :=
  if on then
    do b <- b;
    do limit <- limit_of b (st_type (em_state (eo_model o)));
    do (x, o) <- eo_ask o (fun m => q m limit);
    Ok (negb (x <? strain_max), o)
  else Ok (true, o).

(** cable_elongation_model.cc 532-597 *)
Definition eo_ValidateLimit (warn : bool) (o : EObject) : outcome (bool * EObject) :=
  if warn then
    do c <- deref (em_cable (eo_model o));
    do b <- deref (sg_base c);
    do o <- eo_UpdateComponentsState o (SpLocal (mkCableState (cb_temperature b) PTLoadStrain));
    do (strain_max, o) <- eo_ask o (fun m => StrainCombined m (cb_strength b));
    do a <- em_core_on (eo_model o);
    do (v1, o) <- eo_limit_valid a (cm_base (em_core (eo_model o))) strain_max StrainCore o;
    do s <- em_shell_on (eo_model o);
    do (v2, o) <- eo_limit_valid s (cm_base (em_shell (eo_model o))) strain_max StrainShell o;
    do o <- eo_UpdateComponentsState o (SpMember self);
    Ok (v1 && v2, eo_return o)
  else Ok (true, o).

(** cable_elongation_model.cc 632-636 and 659-663: the four pointers *)
Definition eo_point (o : EObject) (p : StatePtr) (q : StretchPtr) : EObject :=
  shell_stretch_to (shell_state_to (core_stretch_to (core_state_to o p) q) p) q.

(** cable_elongation_model.cc 599-666 *)
Definition eo_ValidateUnloaded (warn : bool) (o : EObject) : outcome (bool * EObject) :=
  if warn then
    do a <- em_core_on (eo_model o);
    if a then
      do c <- deref (em_cable (eo_model o));
      do b <- deref (sg_base c);
      let o := eo_point o (SpLocal (mkCableState (cb_temperature b) PTLoadStrain))
                 (TpLocal (mkStretchState (cb_temperature b) PTLoadStrain #0)) in
      do (x1, o) <- eo_ask o (fun m => StrainCore m #0);
      do (x2, o) <- eo_ask o (fun m => StrainShell m #0);
      let d := x1 - x2 in
      let o := eo_point o (SpMember self) (TpCable self) in
      Ok (negb ((flit 5 (-4) <? fabs d) || (flit 1 (-4) <? fabs d)), eo_return o)
    else Ok (true, o)
  else Ok (true, o).

(** Pointers that are null or refer to something: Validate of a component model compares them
    with null and then dereferences them. *)
Definition pointers_defined (o : EObject) (p : StatePtr) (q : StretchPtr) : bool :=
  match p, read_state o p with SpNull, _ | _, Some _ => true | _, None => false end
  && match q, read_stretch o q with TpNull, _ | _, Some _ => true | _, None => false end.

(** cable_elongation_model.cc 155-158 and 161-164: Validate of the enabled components *)
Definition eo_core_valid (warn on : bool) (o : EObject) : outcome (bool * EObject) :=
  if on && negb (pointers_defined o (eo_core_state o) (eo_core_stretch o)) then UB
  else eo_ask o (fun m => do (v, c) <- component_model_valid warn on (em_core m); Ok (v, em_with_core m c)).
Definition eo_shell_valid (warn on : bool) (o : EObject) : outcome (bool * EObject) :=
  if on && negb (pointers_defined o (eo_shell_state o) (eo_shell_stretch o)) then UB
  else eo_ask o (fun m => do (v, c) <- component_model_valid warn on (em_shell m); Ok (v, em_with_shell m c)).

(** cable_elongation_model.cc 97-180 *)
Definition eo_Validate (warn : bool) (o : EObject) : outcome (bool * EObject) :=
  let m := eo_model o in
  do v <- match em_cable m with Some c => sg_Validate c | None => Ok false end;
  if v && CableState_Validate (em_state m) && StretchState_Validate (em_stretch m) then
    do o <- eo_Update o;
    do c <- deref (em_cable (eo_model o));
    do on <- sg_on c;
    if on then
      do a <- em_core_on (eo_model o);
      do (v1, o) <- eo_core_valid warn a o;
      do s <- em_shell_on (eo_model o);
      do (v2, o) <- eo_shell_valid warn s o;
      do (v3, o) <- eo_ValidateLimit warn o;
      do (v4, o) <- eo_ValidateUnloaded warn o;
      Ok (v1 && v2 && v3 && v4, o)
    else Ok (false, o)
  else Ok (false, o).

End Call.

(** ** Programs *)

(** What a call returns. *)
Inductive EmAnswer : Type := EmNothing | EmNumber (v : N) | EmTruth (b : bool).

(** A call on one object. *)
Definition eo_call (mem : EObjects) (i : Z) (o : EObject) (c : EmCall N) : outcome (EmAnswer * EObject) :=
  match c with
  | EmSetCable k => do o <- eo_set_cable o k; Ok (EmNothing, o)
  | EmSetState s => Ok (EmNothing, eo_set_state o s)
  | EmSetStretch s => Ok (EmNothing, eo_set_stretch o s)
  | EmLoad t x => do (v, o) <- eo_Load mem i o t x; Ok (EmNumber v, o)
  | EmSlope t x => do (v, o) <- eo_Slope mem i o t x; Ok (EmNumber v, o)
  | EmStrain t y => do (v, o) <- eo_Strain mem i o t y; Ok (EmNumber v, o)
  | EmValidate w => do (v, o) <- eo_Validate mem i w o; Ok (EmTruth v, o)
  end.

(** The steps of a client: create, copy, assign (to the first from the second), destroy, call. *)
Inductive ECall : Type :=
| ENew
| ECopy (i : Z)
| EAssign (i j : Z)
| EDestroy (i : Z)
| EDo (i : Z) (c : EmCall N).

(** The objects and the next address. *)
Record EMemory : Type := mkEMemory { ey_objects : EObjects; ey_next : Z }.

(** Nothing; addresses count from 0. *)
Definition EMemory_empty : EMemory := mkEMemory (fun _ => None) 0.

(** A write of an object. *)
Definition eput (m : EObjects) (i : Z) (o : option EObject) : EObjects := fun j => if Z.eqb i j then o else m j.

(** cable_elongation_model.h has no copy constructor and no assignment: the implicit ones copy
    every member, pointers included.  A step on an object that does not exist is undefined. *)
Definition e_step (m : EMemory) (c : ECall) : outcome (EmAnswer * EMemory) :=
  match c with
  | ENew => Ok (EmNothing, mkEMemory (eput (ey_objects m) (ey_next m) (Some EObject_new)) (ey_next m + 1))
  | ECopy i =>
      do o <- deref (ey_objects m i);
      Ok (EmNothing, mkEMemory (eput (ey_objects m) (ey_next m) (Some o)) (ey_next m + 1))
  | EAssign i j =>
      do _ <- deref (ey_objects m i);
      do o <- deref (ey_objects m j);
      Ok (EmNothing, mkEMemory (eput (ey_objects m) i (Some o)) (ey_next m))
  | EDestroy i =>
      do _ <- deref (ey_objects m i);
      Ok (EmNothing, mkEMemory (eput (ey_objects m) i None) (ey_next m))
  | EDo i c =>
      do o <- deref (ey_objects m i);
      do (a, o) <- eo_call (ey_objects m) i o c;
      Ok (a, mkEMemory (eput (ey_objects m) i (Some o)) (ey_next m))
  end.

(** The answers of some steps. *)
Fixpoint e_run (m : EMemory) (cs : list ECall) : outcome (list EmAnswer * EMemory) :=
  match cs with
  | [] => Ok ([], m)
  | c :: cs => do (a, m) <- e_step m c; do (l, m) <- e_run m cs; Ok (a :: l, m)
  end.

End Pointed.

Arguments StatePtr : clear implicits.
Arguments StretchPtr : clear implicits.
Arguments EObject : clear implicits.
Arguments EObjects : clear implicits.
Arguments EmAnswer : clear implicits.
Arguments ECall : clear implicits.
Arguments EMemory : clear implicits.
