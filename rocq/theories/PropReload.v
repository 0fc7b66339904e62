(** Theorems about CatenaryCableReloader and CatenaryCableUnloader. *)
From Coq Require Import ZArith Bool List Reals Lra.
From Verif Require Import Num ModelBase ModelCatenary SpecCatenary ModelSolver ModelThermal ModelElongation SpecElong ModelReload SpecReload
  ProofReload ProofReloadSafe SampleReload ProofReloadRefuted ProofReloadCases.
Import ListNotations.
Open Scope R_scope.

(** C87: the answers after any calls are those of a new reloader with the pointers last set,
    and the elongation models answer as before. *)
Theorem reload_answers_history : forall (N : Num) (cats : Cats N) (weights : Weights N) ks mem st, tidy_models mem ->
  forallb rl_quiet ks = true -> rl_run cats weights (mem, CatReloader_new) ks = Ok st ->
  rl_alike cats weights st (mem, rl_fresh (last_of pickR_catenary ks None) (last_of pickR_reference ks None)
                                   (last_of pickR_reloaded ks None) (last_of pickR_weight ks None)) /\
  forall a, answers_alike (mem a) (fst st a).
Proof. exact reload_history. Qed.
Print Assumptions reload_answers_history.

Example reload_answers_case : exists (cats : Cats RNum) weights mem ks st, tidy_models mem /\ forallb rl_quiet ks = true /\
  In RlTensionHorizontal ks /\ rl_run cats weights (mem, CatReloader_new) ks = Ok st.
Proof. exact history_case. Qed.

(** C88, the part that holds: if Update succeeds and the lowest tension is above 1/100,
    the result is the catenary with the new weight between the same supports, the length of
    the catenary exceeds the length of the cable by less than 1/10, and the tension is near
    a tension at which the lengths balance.  Missing: a lower bound for the difference of
    the lengths, which does not hold. *)
Theorem reload_balance_partial : forall (cats : Cats RNum) weights ks mem m r a e0 e1 w m' r', tidy_models mem ->
  forallb rl_quiet ks = true -> rl_run cats weights (mem, CatReloader_new) ks = Ok (m, r) ->
  last_of pickR_catenary ks None = Some a -> last_of pickR_reference ks None = Some e0 ->
  last_of pickR_reloaded ks None = Some e1 -> last_of pickR_weight ks None = Some w ->
  1 / 100 < tension_minimum (rehung (cats a) (weights w) (c3_tension_horizontal (cats a))) ->
  rl_Update cats weights m r = Ok (true, (m', r')) ->
  let h := c3_tension_horizontal (rl_result r') in
  (forall q, c3_answer (rl_result r') q = c3_answer (rehung (cats a) (weights w) h) q) /\
  exists y, length_gap (cable_strain (mem e0)) (cable_strain (mem e1)) (cats a) (weights w) h = Ok y /\ y < 1 / 10 /\
    near_balance (length_gap (cable_strain (mem e0)) (cable_strain (mem e1)) (cats a) (weights w)) h y.
Proof. exact history_balance. Qed.
Print Assumptions reload_balance_partial.

Example reload_balance_case : exists (cats : Cats RNum) weights mem ks m r m' r', tidy_models mem /\ forallb rl_quiet ks = true /\
  rl_run cats weights (mem, CatReloader_new) ks = Ok (m, r) /\
  last_of pickR_catenary ks None = Some 0%Z /\ last_of pickR_reference ks None = Some 0%Z /\
  last_of pickR_reloaded ks None = Some 1%Z /\ last_of pickR_weight ks None = Some 0%Z /\
  1 / 100 < tension_minimum (rehung (cats 0%Z) (weights 0%Z) (c3_tension_horizontal (cats 0%Z))) /\
  rl_Update cats weights m r = Ok (true, (m', r')).
Proof. exact balance_case. Qed.

(** C88 is false: Validate accepts a light span, and the reported tension leaves the
    catenary 5 ft too short, although the lengths balance at the tension it had before. *)
Theorem reload_balance_refuted : exists (cats : Cats RNum) weights (mem : Models RNum) m r h y st,
  let g := length_gap (cable_strain (mem 0%Z)) (cable_strain (mem 1%Z)) (cats 0%Z) (weights 0%Z) in
  tidy_models mem /\ rl_Validate cats weights false mem (rl_fresh (Some 0%Z) (Some 0%Z) (Some 1%Z) (Some 0%Z)) = Ok (true, (m, r)) /\
  rl_TensionHorizontal cats weights m r = Ok (h, st) /\ g h = Ok y /\ y < -5 /\
  g (c3_tension_horizontal (cats 0%Z)) = Ok (0 : F RNum).
Proof. exact balance_refuted. Qed.
Print Assumptions reload_balance_refuted.

(** C88 is false: if the lowest tension is at most 1/100 the reported tension is twice the
    lowest one, whatever the elongation models say. *)
Theorem reload_light_refuted : forall (cats : Cats RNum) weights (mem : Models RNum) a e0 e1 w yl yr, tidy_models mem ->
  let low := tension_minimum (rehung (cats a) (weights w) (c3_tension_horizontal (cats a))) in
  let g := length_gap (cable_strain (mem e0)) (cable_strain (mem e1)) (cats a) (weights w) in
  0 <= low <= 1 / 100 -> g low = Ok yl -> g (2 * low) = Ok yr ->
  exists st, rl_TensionHorizontal cats weights mem (rl_fresh (Some a) (Some e0) (Some e1) (Some w)) = Ok (2 * low, st).
Proof. exact light_span. Qed.
Print Assumptions reload_light_refuted.

Example reload_light_case : exists (cats : Cats RNum) weights (mem : Models RNum) yl yr, tidy_models mem /\
  let low := tension_minimum (rehung (cats 0%Z) (weights 0%Z) (c3_tension_horizontal (cats 0%Z))) in
  let g := length_gap (cable_strain (mem 0%Z)) (cable_strain (mem 1%Z)) (cats 0%Z) (weights 0%Z) in
  0 < low /\ 0 <= low <= 1 / 100 /\ g low = Ok yl /\ g (2 * low) = Ok yr.
Proof. exact light_case. Qed.

(** C89 is false: a valid catenary is reloaded with its own weight and its own elongation
    model, the lengths balance at its tension, and the reloader fails. *)
Theorem reload_own_state_refuted : exists (cats : Cats RNum) weights (mem : Models RNum) st st',
  tidy_models mem /\ c3_Validate (cats 0%Z) = true /\ mem 0%Z = mem 1%Z /\ c3_weight (cats 0%Z) = weights 0%Z /\
  length_gap (cable_strain (mem 0%Z)) (cable_strain (mem 1%Z)) (cats 0%Z) (weights 0%Z) (c3_tension_horizontal (cats 0%Z)) = Ok (0 : F RNum) /\
  rl_Validate cats weights false mem (rl_fresh (Some 0%Z) (Some 0%Z) (Some 1%Z) (Some 0%Z)) = Ok (false, st) /\
  rl_TensionHorizontal cats weights mem (rl_fresh (Some 0%Z) (Some 0%Z) (Some 1%Z) (Some 0%Z)) = Ok (ferr, st').
Proof. exact own_state_refuted. Qed.
Print Assumptions reload_own_state_refuted.

(** C90 is false: Validate of the reloader succeeds and Validate of the reloaded catenary
    fails. *)
Theorem reload_result_valid_refuted : exists (cats : Cats RNum) weights (mem : Models RNum) m r c st,
  tidy_models mem /\ c3_Validate (cats 0%Z) = true /\
  rl_Validate cats weights false mem (rl_fresh (Some 0%Z) (Some 0%Z) (Some 1%Z) (Some 0%Z)) = Ok (true, (m, r)) /\
  rl_CatenaryReloaded cats weights m r = Ok (c, st) /\ c3_Validate c = false.
Proof. exact result_valid_refuted. Qed.
Print Assumptions reload_result_valid_refuted.

(** C91: the unloaded length is the length of the catenary strained from its average
    tension in the reference model to no load in the unloaded model. *)
Theorem unload_length_law : forall (N : Num) (cats : Cats N) ks mem u a e0 e1, tidy_models mem ->
  un_run cats CatUnloader_new ks = Ok u ->
  last_of pickU_catenary ks None = Some a -> last_of pickU_reference ks None = Some e0 -> last_of pickU_unloaded ks None = Some e1 ->
  omap fst (un_LengthUnloaded mem u) = cable_length (cable_strain (mem e0)) (cable_strain (mem e1)) (cats a) (fofZ 0).
Proof. exact @unload_length. Qed.
Print Assumptions unload_length_law.

Example unload_length_case : exists (cats : Cats RNum) mem u v mem', tidy_models mem /\ un_run cats CatUnloader_new l_unload_calls = Ok u /\
  un_LengthUnloaded mem u = Ok (v, mem').
Proof. exact unload_case. Qed.

(** C92 for elongation models that can answer: calls on the reloader whose queries come
    after the four setters, and all calls on an unloader with a catenary and two models,
    neither throw nor run into undefined behaviour. *)
Theorem reload_safe_partial : forall (cats : Cats RNum) weights mem ks, ready_models mem -> rl_prepared false false false false ks = true ->
  exists st, rl_run cats weights (mem, CatReloader_new) ks = Ok st.
Proof. exact reload_runs. Qed.
Print Assumptions reload_safe_partial.

Theorem unload_safe_partial : forall (cats : Cats RNum) same warn mem ks, ready_models mem -> forallb un_there ks = true ->
  last_of pickU_reference ks None <> None -> last_of pickU_unloaded ks None <> None ->
  exists u, un_run cats CatUnloader_new ks = Ok u /\ is_ok (un_LengthUnloaded mem u) = true /\ is_ok (un_Validate cats same warn mem u) = true.
Proof. exact unload_answers. Qed.
Print Assumptions unload_safe_partial.

Example reload_safe_case : ready_models (fun _ => l_model 70) /\
  rl_prepared false false false false (RlValidate true :: l_reload_calls ++ [RlTensionHorizontal; RlSetWeight (Some 1%Z); RlLengthUnloaded]) = true.
Proof. split; [apply l_ready|reflexivity]. Qed.
Example unload_safe_case : ready_models (fun _ => l_model 70) /\ forallb un_there l_unload_calls = true /\
  last_of pickU_reference l_unload_calls None <> None /\ last_of pickU_unloaded l_unload_calls None <> None.
Proof. split; [apply l_ready|]. split; [reflexivity|]. split; discriminate. Qed.

(** C92 is false: the setter of the unloader dereferences a null catenary, its Validate
    dereferences null models once a catenary is set, and a query on a new reloader is
    undefined. *)
Theorem reload_safe_refuted :
  (forall (N : Num) (cats : Cats N) u, un_set_catenary cats u None = UB) /\
  (exists (cats : Cats RNum) u, c3_Validate (cats 0%Z) = true /\ un_run cats CatUnloader_new [UnSetCatenary (Some 0%Z)] = Ok u /\
     forall same warn mem, un_Validate cats same warn mem u = UB) /\
  (forall (N : Num) (cats : Cats N) weights mem, rl_TensionHorizontal cats weights mem CatReloader_new = UB).
Proof. exact unload_refuted. Qed.
Print Assumptions reload_safe_refuted.
