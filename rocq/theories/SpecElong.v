(** What a history of calls on an elongation model asks for. *)
From Coq Require Import ZArith Bool List.
From Verif Require Import Num ModelBase ModelCable ModelElongation.
Import ListNotations.

Section Spec.
Context {N : Num}.

(** The cable, the state and the stretch state set last; the values of a new object if
    they were never set. *)
Fixpoint last_cable (c : option (StCable N)) (cs : list (EmCall N)) : option (StCable N) :=
  match cs with
  | [] => c
  | EmSetCable c :: cs => last_cable c cs
  | _ :: cs => last_cable c cs
  end.
Fixpoint last_state (s : CableState N) (cs : list (EmCall N)) : CableState N :=
  match cs with
  | [] => s
  | EmSetState s :: cs => last_state s cs
  | _ :: cs => last_state s cs
  end.
Fixpoint last_stretch (s : StretchState N) (cs : list (EmCall N)) : StretchState N :=
  match cs with
  | [] => s
  | EmSetStretch s :: cs => last_stretch s cs
  | _ :: cs => last_stretch s cs
  end.

(** The setters alone, with the last values. *)
Definition last_setters (cs : list (EmCall N)) : list (EmCall N) :=
  [EmSetCable (last_cable None cs); EmSetState (last_state CableState_default cs);
   EmSetStretch (last_stretch StretchState_default cs)].

(** A history with no Validate that includes warnings, in which a state of another
    polynomial type is set only when no query followed the last change of the cable or of
    the stretch state.  [pending] is true while no query followed; [t] is the type of the
    state in force. *)
Fixpoint tidy (pending : bool) (t : PolynomialType) (cs : list (EmCall N)) : bool :=
  match cs with
  | [] => true
  | EmSetCable _ :: cs => tidy true t cs
  | EmSetState s :: cs => (pending || ptype_eqb (st_type s) t) && tidy pending (st_type s) cs
  | EmSetStretch _ :: cs => tidy true t cs
  | EmValidate true :: _ => false
  | _ :: cs => tidy false t cs
  end.

(** A query or a Validate without warnings. *)
Definition quiet (c : EmCall N) : bool :=
  match c with
  | EmSetCable _ | EmSetState _ | EmSetStretch _ | EmValidate true => false
  | _ => true
  end.

(** Two models answer alike. *)
Definition answers_alike (a b : ElongModel N) : Prop :=
  (forall t x, omap fst (em_Load a t x) = omap fst (em_Load b t x)) /\
  (forall t x, omap fst (em_Slope a t x) = omap fst (em_Slope b t x)) /\
  (forall t y, omap fst (em_Strain a t y) = omap fst (em_Strain b t y)) /\
  omap fst (em_Validate false a) = omap fst (em_Validate false b).

(** Load, Slope and Strain come only after the cable ([k]), the state ([s]) and the
    stretch state ([t]) were set. *)
Fixpoint prepared (k s t : bool) (cs : list (EmCall N)) : bool :=
  match cs with
  | [] => true
  | EmSetCable _ :: cs => prepared true s t cs
  | EmSetState _ :: cs => prepared k true t cs
  | EmSetStretch _ :: cs => prepared k s true cs
  | EmValidate _ :: cs => prepared k s t cs
  | _ :: cs => k && s && t && prepared k s t cs
  end.

(** Arguments of the setters: a sag-tension cable made from a base cable of which a
    component has a coefficient that is not 0 in both polynomials; a state with a
    polynomial type; a stretch state with a polynomial type or without load. *)
Definition has_curves (b : CableComponent N) : Prop :=
  (exists x, In x (cc_creep b) /\ (x =? #0)%num = false) /\ (exists x, In x (cc_loadstrain b) /\ (x =? #0)%num = false).
Definition usable_call (c : EmCall N) : Prop :=
  match c with
  | EmSetCable k => exists b, k = Some (sg_set_base (Some b)) /\ (has_curves (cb_core b) \/ has_curves (cb_shell b))
  | EmSetState s => st_type s <> PTNull
  | EmSetStretch s => ss_type s <> PTNull \/ ss_load s = #0
  | _ => True
  end.

(** Every model of the memory has such a history. *)
Definition tidy_models (mem : Models N) : Prop :=
  forall a, exists cs, tidy true PTNull cs = true /\ em_run ElongModel_new cs = Ok (mem a).

(** The strain a model gives for a load on the whole cable. *)
Definition cable_strain (m : ElongModel N) (load : N) : outcome N := omap fst (em_Strain m CTCombined load).

(** The load it gives for a strain of the whole cable. *)
Definition cable_load (m : ElongModel N) (strain : N) : outcome N := omap fst (em_Load m CTCombined strain).

(** The way back of a strainer that ended with the length [v]. *)
Definition way_back (s : Strainer N) (v : N) : Strainer N :=
  mkStrainer v (cr_load_start s) (cr_load_finish s) (cr_start s) (cr_finish s).

End Spec.
