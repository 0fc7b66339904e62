(** Specification of the reloader and the unloader, independent of their code: the two
    lengths that have to agree. *)
From Coq Require Import ZArith Bool List Reals.
From Verif Require Import Num ModelBase ModelCatenary SpecCatenary ModelElongation SpecElong ModelReload.
Import ListNotations.
Open Scope num_scope.

Section Spec.
Context {N : Num}.

(** A new catenary between the supports of [c] with the weight [w] and the horizontal
    tension [h]. *)
Definition rehung (c : Catenary3d N) (w : Vector3d N) (h : N) : Catenary3d N := c3_fresh ADPositive (c3_spacing c) h w.

(** The length of a cable of length [l] when its strain goes from [x0] to [x1]. *)
Definition strained (l x0 x1 : N) : N :=
  if x1 - x0 <? #0 then l / (#1 + fabs (x1 - x0)) else l * (#1 + (x1 - x0)).

(** The length of the cable of the catenary [c] after it is brought from the model [start]
    with the average tension of [c] to the model [finish] with the load [y]. *)
Definition cable_length (start finish : N -> outcome N) (c : Catenary3d N) (y : N) : outcome N :=
  do x0 <- start (c3_TensionAverage c 100);
  do x1 <- finish y;
  Ok (strained (c3_Length c) x0 x1).

(** The length of the catenary with the tension [h] less the length of the cable there. *)
Definition length_gap (start finish : N -> outcome N) (c : Catenary3d N) (w : Vector3d N) (h : N) : outcome N :=
  do l <- cable_length start finish c (c3_TensionAverage (rehung c w h) 100);
  Ok (c3_Length (rehung c w h) - l).

(** Catenaries that result from any calls on new ones. *)
Definition used_cats (cats : Cats N) : Prop := forall a, exists ks, cats a = c3_run Catenary3d_default ks.

(** The arguments of the last setters. *)
Definition pickR_catenary (k : RlCall) : option (option Z) := match k with RlSetCatenary p => Some p | _ => None end.
Definition pickR_reference (k : RlCall) : option (option Z) := match k with RlSetReference p => Some p | _ => None end.
Definition pickR_reloaded (k : RlCall) : option (option Z) := match k with RlSetReloaded p => Some p | _ => None end.
Definition pickR_weight (k : RlCall) : option (option Z) := match k with RlSetWeight p => Some p | _ => None end.

(** A new reloader with the four setters called. *)
Definition rl_fresh (c e0 e1 w : option Z) : CatReloader N :=
  rl_set_weight (rl_set_reloaded (rl_set_reference (rl_set_catenary CatReloader_new c) e0) e1) w.

(** No Validate with warnings: it changes the elongation models. *)
Definition rl_quiet (k : RlCall) : bool := match k with RlValidate true => false | _ => true end.

(** Two states answer alike: the status of Validate, the tension, the unloaded length and
    all questions to the reloaded catenary. *)
Definition rl_alike (cats : Cats N) (weights : Weights N) (s t : Models N * CatReloader N) : Prop :=
  omap fst (rl_Validate cats weights false (fst s) (snd s)) = omap fst (rl_Validate cats weights false (fst t) (snd t)) /\
  omap fst (rl_TensionHorizontal cats weights (fst s) (snd s)) = omap fst (rl_TensionHorizontal cats weights (fst t) (snd t)) /\
  omap fst (rl_LengthUnloaded cats weights (fst s) (snd s)) = omap fst (rl_LengthUnloaded cats weights (fst t) (snd t)) /\
  forall q, omap (fun p => c3_answer (fst p) q) (rl_CatenaryReloaded cats weights (fst s) (snd s)) =
            omap (fun p => c3_answer (fst p) q) (rl_CatenaryReloaded cats weights (fst t) (snd t)).

(** Queries come only after the four setters were called with pointers that are not null:
    of the catenary ([c]), the models ([e0] and [e1]) and the weight ([w]). *)
Definition there (p : option Z) : bool := match p with Some _ => true | None => false end.
Fixpoint rl_prepared (c e0 e1 w : bool) (ks : list RlCall) : bool :=
  match ks with
  | [] => true
  | RlSetCatenary p :: ks => rl_prepared (there p) e0 e1 w ks
  | RlSetReference p :: ks => rl_prepared c (there p) e1 w ks
  | RlSetReloaded p :: ks => rl_prepared c e0 (there p) w ks
  | RlSetWeight p :: ks => rl_prepared c e0 e1 (there p) ks
  | RlValidate _ :: ks => rl_prepared c e0 e1 w ks
  | _ :: ks => c && e0 && e1 && w && rl_prepared c e0 e1 w ks
  end.

(** Every model of the memory had usable arguments and could answer. *)
Definition ready_models (mem : Models N) : Prop :=
  forall a, exists cs, Forall usable_call cs /\ prepared false false false (cs ++ [EmStrain CTCombined #0]) = true /\
    em_run ElongModel_new cs = Ok (mem a).

(** Setters of an unloader. *)
Inductive UnCall : Type := UnSetCatenary (p : option Z) | UnSetReference (p : option Z) | UnSetUnloaded (p : option Z).
Definition un_call (cats : Cats N) (u : CatUnloader N) (k : UnCall) : outcome (CatUnloader N) :=
  match k with
  | UnSetCatenary p => un_set_catenary cats u p
  | UnSetReference p => Ok (un_set_reference u p)
  | UnSetUnloaded p => Ok (un_set_unloaded u p)
  end.
Fixpoint un_run (cats : Cats N) (u : CatUnloader N) (ks : list UnCall) : outcome (CatUnloader N) :=
  match ks with [] => Ok u | k :: ks => do u <- un_call cats u k; un_run cats u ks end.
Definition pickU_catenary (k : UnCall) : option (option Z) := match k with UnSetCatenary p => Some p | _ => None end.
Definition pickU_reference (k : UnCall) : option (option Z) := match k with UnSetReference p => Some p | _ => None end.
Definition pickU_unloaded (k : UnCall) : option (option Z) := match k with UnSetUnloaded p => Some p | _ => None end.

(** No null catenary. *)
Definition un_there (k : UnCall) : bool := match k with UnSetCatenary None => false | _ => true end.

End Spec.

(** A tension [h] with the gap [y] is near a balance of the lengths: there is a gap of the
    other sign within 1/100, or [h] is where the line through two points of the graph of the
    gap meets 0, within 1/100 of one of them. *)
Definition near_balance (g : R -> outcome R) (h y : R) : Prop :=
  (exists h' y', (Rabs (h - h') <= 1 / 100 /\ g h' = Ok y' /\ y * y' < 0)%R) \/
  (exists a b ya yb, (a <> b /\ g a = Ok ya /\ g b = Ok yb /\ ya <> yb /\ (yb - ya) * (h - a) = (0 - ya) * (b - a) /\
     Rabs (h - a) <= 1 / 100)%R).
