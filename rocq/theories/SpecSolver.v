(** Specification of CatenarySolver, independent of catenary_solver.cc. *)
From Coq Require Import ZArith Bool List Reals.
From Verif Require Import Num ModelBase ModelCatenary SpecCatenary ModelSolver.
Import ListNotations.
Open Scope R_scope.

(** A new solver whose setters were called. *)
Definition cs_fresh {N : Num} (p : N) (sp : Vector3d N) (t : TargetType) (v : N) (w : Vector3d N) : CatenarySolver N :=
  cs_set_weight (cs_set_value (cs_set_type (cs_set_spacing (cs_set_position CatenarySolver_default p) sp) t) v) w.

(** A new solver with the inputs of another one. *)
Definition cs_renew {N : Num} (s : CatenarySolver N) : CatenarySolver N :=
  cs_fresh (cs_position s) (c3_spacing (cs_catenary s)) (cs_type s) (cs_value s) (c3_weight (cs_catenary s)).

Definition pickS_position {N : Num} (k : SolverCall N) := match k with ScSetPosition p => Some p | _ => None end.
Definition pickS_spacing {N : Num} (k : SolverCall N) := match k with ScSetSpacing v => Some v | _ => None end.
Definition pickS_type {N : Num} (k : SolverCall N) := match k with ScSetType t => Some t | _ => None end.
Definition pickS_value {N : Num} (k : SolverCall N) := match k with ScSetValue v => Some v | _ => None end.
Definition pickS_weight {N : Num} (k : SolverCall N) := match k with ScSetWeight v => Some v | _ => None end.

(** The catenary for a horizontal tension, as a new object. *)
Definition hung (s : CatenarySolver RNum) (h : R) : Catenary3d RNum :=
  c3_fresh ADPositive (c3_spacing (cs_catenary s)) h (c3_weight (cs_catenary s)).

(** The quantity a target is about: for position -1 the maximum along the span. *)
Definition quantity (t : TargetType) (position : R) (c : Catenary3d RNum) : R :=
  match t with
  | TgConstant => c3_Constant c
  | TgLength => c3_Length c
  | TgSag => if Req_EM_T position (-1) then c3_Sag c else c3_SagAt c position
  | TgTension => if Req_EM_T position (-1) then c3_TensionMax c else c3_Tension c position
  | TgNull => 0
  end.

(** The positions that mean an end of the span or the larger value of both. *)
Definition at_end (position : R) : Prop := position = -1 \/ position = 0 \/ position = 1.

(** [x] is where the line through (a, f a) and (b, f b) has the value [target] and it is
    at most [tol] away from a. *)
Definition secant_close (f : R -> R) (target tol x : R) : Prop :=
  exists a b, a <> b /\ f a <> f b /\ (f b - f a) * (x - a) = (target - f a) * (b - a) /\ Rabs (x - a) <= tol.

(** Every answer of a solver: the tension, and all questions to the catenary. *)
Definition same_answers {N : Num} (s s' : CatenarySolver N) : Prop :=
  fst (cs_TensionHorizontal s) = fst (cs_TensionHorizontal s') /\
  forall q, c3_answer (fst (cs_Catenary s)) q = c3_answer (fst (cs_Catenary s')) q.
