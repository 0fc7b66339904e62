(** Theorems about the unloaded length that CatenaryCableReloader reports. *)
From Coq Require Import ZArith Bool List Reals Lra.
From Verif Require Import Num ModelBase ModelCatenary SpecCatenary ModelSolver ModelThermal ModelElongation SpecElong ModelReload SpecReload
  ProofReloadLength.
Import ListNotations.

(** C202: after any calls, LengthUnloaded is the length of the given catenary strained in
    the reference model from its average tension to no load, if the search succeeds, and
    -999999 if it fails.  The reloaded model and the new weight do not enter. *)
Theorem reload_length_unloaded : forall (N : Num) (cats : Cats N) (weights : Weights N) ks mem m r a e0 b st, tidy_models mem ->
  forallb rl_quiet ks = true -> rl_run cats weights (mem, CatReloader_new) ks = Ok (m, r) ->
  last_of pickR_catenary ks None = Some a -> last_of pickR_reference ks None = Some e0 ->
  rl_Update cats weights m r = Ok (b, st) ->
  omap fst (rl_LengthUnloaded cats weights m r) =
  (if b then cable_length (cable_strain (mem e0)) (cable_strain (mem e0)) (cats a) (fofZ 0) else Ok (fofZ (-999999))).
Proof. exact reload_unloaded. Qed.
Print Assumptions reload_length_unloaded.

Open Scope R_scope.

(** C202 in exact arithmetic: if the reference cable is not longer without load, the
    unloaded length is positive and at most the length of the given catenary. *)
Theorem reload_length_shorter : forall (cats : Cats RNum) weights ks mem m r a e0 st x0 x1, tidy_models mem ->
  forallb rl_quiet ks = true -> rl_run cats weights (mem, CatReloader_new) ks = Ok (m, r) ->
  last_of pickR_catenary ks None = Some a -> last_of pickR_reference ks None = Some e0 ->
  rl_Update cats weights m r = Ok (true, st) ->
  cable_strain (mem e0) (c3_TensionAverage (cats a) 100) = Ok x0 -> cable_strain (mem e0) (0 : R) = Ok x1 ->
  x1 <= x0 -> 0 < c3_Length (cats a) ->
  exists l, omap fst (rl_LengthUnloaded cats weights m r) = Ok l /\ 0 < l <= c3_Length (cats a).
Proof. exact reload_shorter. Qed.
Print Assumptions reload_length_shorter.

Example reload_length_case : exists (cats : Cats RNum) weights mem ks m r st x0 x1, tidy_models mem /\ forallb rl_quiet ks = true /\
  rl_run cats weights (mem, CatReloader_new) ks = Ok (m, r) /\
  last_of pickR_catenary ks None = Some 0%Z /\ last_of pickR_reference ks None = Some 0%Z /\
  last_of pickR_reloaded ks None = Some 1%Z /\ mem 0%Z <> mem 1%Z /\
  rl_Update cats weights m r = Ok (true, st) /\
  cable_strain (mem 0%Z) (c3_TensionAverage (cats 0%Z) 100) = Ok x0 /\ cable_strain (mem 0%Z) (0 : R) = Ok x1 /\
  x1 < x0 /\ 0 < c3_Length (cats 0%Z).
Proof. exact reload_unloaded_case. Qed.
