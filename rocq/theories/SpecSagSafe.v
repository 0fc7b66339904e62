(** Specification of the calls on the line cable reloader, unloader and sagger that have all
    they need. *)
From Coq Require Import ZArith Bool List.
From Verif Require Import Num ModelBase ModelAlignment ModelLine ModelCable ModelLoad ModelElongation SpecElong ModelReload ModelSagtension.
Import ListNotations.
Open Scope num_scope.

Section Spec.
Context {N : Num}.

(** The line cable has a cable with a polynomial for each curve of the core or of the shell,
    and no pointer to a weather case is null. *)
Definition whole (l : Strung N) : Prop :=
  (exists b, sr_cable (lc_payload l) = Some b /\ (has_curves (cb_core b) \/ has_curves (cb_shell b))) /\
  co_weather (sr_constraint (lc_payload l)) <> None /\ sr_creep (lc_payload l) <> None /\ sr_load (lc_payload l) <> None.

(** The line cable has fewer than two connections, or each leads to a hardware. *)
Definition leads_to_hardware (env : Env N) (c : Connection N) : Prop :=
  exists s h, ModelLine.deref env (cn_line_structure c) = Ok s /\ vec_at (ls_hardwares s) (cn_index_attachment c) = Ok (Some h).
Definition fastened (env : Env N) (l : Strung N) : Prop :=
  (length (lc_connections l) < 2)%nat \/ Forall (leads_to_hardware env) (lc_connections l).

(** A pointer to such a line cable. *)
Definition fit_line (env : Env N) (p : option (Strung N)) : Prop := exists l, p = Some l /\ whole l /\ fastened env l.

(** The queries and Validate of a reloader come after such a line cable ([l]) and a weather
    case ([w]) are set. *)
Fixpoint lr_careful (env : Env N) (l w : Prop) (ks : list (LrCall N)) : Prop :=
  match ks with
  | [] => True
  | LrSetLine p :: ks => lr_careful env (fit_line env p) w ks
  | LrSetWeather p :: ks => lr_careful env l (p <> None) ks
  | LrSetCondition _ :: ks => lr_careful env l w ks
  | _ :: ks => l /\ w /\ lr_careful env l w ks
  end.

(** Those of an unloader come after such a line cable is set. *)
Fixpoint lu_careful (env : Env N) (l : Prop) (ks : list (LuCall N)) : Prop :=
  match ks with
  | [] => True
  | LuSetLine p :: ks => lu_careful env (fit_line env p) ks
  | LuSetCondition _ :: ks | LuSetSpacing _ :: ks | LuSetTemperature _ :: ks => lu_careful env l ks
  | _ :: ks => l /\ lu_careful env l ks
  end.

(** A pointer to a list of constraints with weather cases. *)
Definition fit_constraints (p : option (list (Constraint N))) : Prop :=
  exists cs, p = Some cs /\ Forall (fun c => co_weather c <> None) cs.

(** Those of a sagger come after such a line cable ([l]) and such a list ([c]) are set. *)
Fixpoint sa_careful (env : Env N) (l c : Prop) (ks : list (SaCall N)) : Prop :=
  match ks with
  | [] => True
  | SaSetLine p :: ks => sa_careful env (fit_line env p) c ks
  | SaSetConstraints p :: ks => sa_careful env l (fit_constraints p) ks
  | _ :: ks => l /\ c /\ sa_careful env l c ks
  end.

(** The index a query of a sagger has. *)
Definition sa_index_of (k : SaCall N) : option Z :=
  match k with
  | SaCatenaryConstantActual i | SaTensionHorizontalActual i | SaTensionSupportActual i | SaCapacityAllowable i => Some i
  | _ => None
  end.

(** All lists have one constraint, and all indices are 0. *)
Definition sa_single (k : SaCall N) : Prop :=
  match k with
  | SaSetConstraints (Some cs) => length cs = 1%nat
  | _ => forall i, sa_index_of k = Some i -> i = 0%Z
  end.

End Spec.
