(** Theorems about the stretch states of line cable reloaders and unloaders. *)
From Coq Require Import ZArith Bool List Reals.
From Verif Require Import Num NumFacts ModelBase ModelLine ModelElongation ModelReload ModelSagtension SpecCatenary SpecSagtension SampleSag
  SpecStretch ProofStretchCases.
Import ListNotations.
Open Scope num_scope.

(** C159: unless both stretch states are the default ones, with which a failed update is
    reported, they are those of the stretch weather cases of the last line cable; the load
    of the stretch state of the condition of the constraint is, up to 0.01, the average
    tension of the constraint catenary reloaded by new objects to that case from a cable
    with this stretch; the load of any other stretch state is exactly the average tension
    at its case.  In any arithmetic in which 0.01 is below 999999. *)
Theorem reloader_stretch_states : forall (N : Num) env (ks : list (LrCall N)) r creep r1 load r2,
  (flit (n := N) 1 (-2) <? fabs (ferr - #0)) = true -> lr_run env Reloader_new ks = Ok r ->
  lr_StretchStateCreep r = Ok (creep, r1) -> lr_StretchStateLoad r = Ok (load, r2) ->
  creep = StretchState_default /\ load = StretchState_default \/
  exists line, last_of pickLr_line ks None = Some line /\ stretches line creep load.
Proof. exact reloader_stretch_N. Qed.
Print Assumptions reloader_stretch_states.

Theorem unloader_stretch_states : forall (N : Num) env (ks : list (LuCall N)) u creep u1 load u2,
  (flit (n := N) 1 (-2) <? fabs (ferr - #0)) = true -> lu_run env Unloader_new ks = Ok u ->
  lu_StretchStateCreep u = Ok (creep, u1) -> lu_StretchStateLoad u = Ok (load, u2) ->
  creep = StretchState_default /\ load = StretchState_default \/
  exists line, last_of pickLu_line ks None = Some line /\ stretches line creep load.
Proof. exact unloader_stretch_N. Qed.
Print Assumptions unloader_stretch_states.

(** The hypothesis holds in the reals and in doubles; in the reals the distance is 0.01. *)
Theorem stretch_states_arithmetics : (flit (n := RNum) 1 (-2) <? fabs (ferr - #0)) = true /\
  (forall lm, (flit (n := B64 lm) 1 (-2) <? fabs (ferr - #0)) = true) /\
  forall t x : R, matches (N := RNum) t x <-> (Rabs (t - x) <= 1 / 100)%R.
Proof. exact start_hypothesis. Qed.
Print Assumptions stretch_states_arithmetics.

(** A line whose cable creeps, strung after load: both states are found and differ. *)
Example reloader_stretch_case : (flit (n := X20) 1 (-2) <? fabs (ferr - #0)) = true /\
  exists r creep r1 load r2, lr_run [] Reloader_new h_calls = Ok r /\ lr_StretchStateCreep r = Ok (creep, r1) /\
    lr_StretchStateLoad r = Ok (load, r2) /\ ss_load creep = 364428%Z /\ ss_load load = 656385%Z.
Proof. exact h_case. Qed.
Example unloader_stretch_case : exists u creep u1 load u2, lu_run [] Unloader_new h_unload = Ok u /\
    lu_StretchStateCreep u = Ok (creep, u1) /\ lu_StretchStateLoad u = Ok (load, u2) /\
    ss_load creep = 364428%Z /\ ss_load load = 656385%Z.
Proof. exact h_case_u. Qed.
