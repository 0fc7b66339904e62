(** Theorems about CableStrainer, CableComponentElongationModel and CableElongationModel. *)
From Coq Require Import ZArith Bool List Reals Lra.
From Verif Require Import Num NumFacts ModelBase ModelCable ModelElongation SpecElong ProofReal ProofElongHistory ProofElongQuery
  ProofElongStrain ProofElongReal ProofStrainer ProofElongSafe ProofElongRefuted SampleElong SampleElongReal.
Import ListNotations.
Open Scope R_scope.

(** ** Straining a cable *)

(** C47: the length after straining follows from the two strains, is positive, is longer
    exactly if the strain increases, and the way back restores the length. *)
Theorem straining_length : forall (mem mem' : Models RNum) s v, tidy_models mem -> LengthFinish mem s = Ok (v, mem') ->
  exists a b x0 x1, cr_start s = Some a /\ cr_finish s = Some b /\
    cable_strain (mem a) (cr_load_start s) = Ok x0 /\ cable_strain (mem b) (cr_load_finish s) = Ok x1 /\
    (x0 <= x1 -> v = cr_length s * (1 + (x1 - x0))) /\ (x1 < x0 -> v * (1 + (x0 - x1)) = cr_length s) /\
    (0 < cr_length s -> 0 < v /\ (cr_length s < v <-> x0 < x1)) /\
    exists mem'', LengthFinish mem' (way_back s v) = Ok (cr_length s, mem'').
Proof. exact strainer_length. Qed.
Print Assumptions straining_length.

(** C47: a larger strain at the end gives a longer cable. *)
Theorem straining_longer : forall (mem mem1 mem2 : Models RNum) L y0 y1 y2 a b v1 v2 x1 x2, tidy_models mem -> 0 < L ->
  LengthFinish mem (mkStrainer (N := RNum) L y1 y0 (Some b) (Some a)) = Ok (v1, mem1) ->
  LengthFinish mem (mkStrainer (N := RNum) L y2 y0 (Some b) (Some a)) = Ok (v2, mem2) ->
  cable_strain (mem b) y1 = Ok x1 -> cable_strain (mem b) y2 = Ok x2 ->
  (v1 < v2 <-> x1 < x2).
Proof. exact strainer_longer. Qed.
Print Assumptions straining_longer.

Example straining_case : exists mem : Models RNum, tidy_models mem /\
  exists v mem', LengthFinish mem (mkStrainer (N := RNum) 1000 5000 100 (Some 2%Z) (Some 1%Z)) = Ok (v, mem').
Proof. destruct r_memory as (mem & T & H). exists mem. split; [exact T|]. apply (H (100 : R) (5000 : R) (1000 : R)). Qed.

(** ** One component *)

(** C48, the part outside the polynomial region: below the stretched point and above the
    limit of the polynomial the load is linear and Strain inverts Load.  Missing: the
    polynomial region, where Strain is the answer of an iterative solver, and continuity at
    its two ends. *)
Theorem component_inverse_partial : forall (cs : list (CmCall RNum)) m m1 b s pu ps pe,
  cm_run CompModel_new cs = Ok m -> cm_base m = Ok b -> cm_state m = Some s -> st_type s <> PTNull ->
  cc_creep b <> [] -> cc_loadstrain b <> [] ->
  0 < cc_modulus_compression b -> 0 < cc_modulus_tension b ->
  cm_PointsRegions m = Ok ([pu; ps; pe], m1) -> 0 <= p2y ps < p2y pe ->
  (forall e, e <= p2x ps \/ (p2x ps < e /\ p2x pe <= e) ->
     exists v m2 m3, cm_Load m e = Ok (v, m2) /\ cm_Strain m2 v = Ok (e, m3)) /\
  (exists modulus : R, 100000 <= modulus /\ forall e, exists v m2, cm_Load m e = Ok (v, m2) /\
     (e <= p2x pu -> v = (e - p2x pu) * cc_modulus_compression b) /\
     (p2x pu <= e <= p2x ps -> v = (e - p2x pu) * cc_modulus_tension b) /\
     (p2x ps < p2x pe -> p2x pe <= e -> v = p2y pe + (e - p2x pe) * modulus)).
Proof. exact component_straight. Qed.
Print Assumptions component_inverse_partial.

Example component_inverse_case : exists m m1 pu ps pe,
  cm_run CompModel_new r_calls = Ok m /\ cm_base m = Ok r_comp /\
  cm_state m = Some (r_state PTLoadStrain 50) /\ st_type (r_state PTLoadStrain 50) <> PTNull /\
  cc_creep r_comp <> [] /\ cc_loadstrain r_comp <> [] /\
  0 < cc_modulus_compression r_comp /\ 0 < cc_modulus_tension r_comp /\
  cm_PointsRegions m = Ok ([pu; ps; pe], m1) /\ 0 <= p2y ps < p2y pe.
Proof.
  destruct r_points as (m & m1 & pu & ps & pe & R & B & S & P & Y1 & Y2). exists m, m1, pu, ps, pe.
  do 3 (split; [assumption|]). split; [discriminate|]. split; [discriminate|]. split; [discriminate|].
  split; [cbn; lra|]. split; [cbn; lra|]. split; [exact P|]. rewrite Y1, Y2. lra.
Qed.

(** C48 is false with the load scale 2, which Validate accepts: in the polynomial region
    Strain of the load at 0.01 is larger. *)
Theorem component_inverse_refuted : exists lm (cs : list (CmCall (B64 lm))) m n e y p x q,
  cm_run CompModel_new cs = Ok m /\ cm_Validate true m = Ok (true, n) /\
  cm_Load m e = Ok (y, p) /\ cm_Strain p y = Ok (x, q) /\ (e <? x)%num = true.
Proof. exact scaled_refuted. Qed.
Print Assumptions component_inverse_refuted.

(** C86: another temperature of the state shifts the curve by the thermal strain. *)
Theorem component_temperature : forall (m : CompModel RNum) b (s1 s2 : CableState RNum) ss,
  cm_base m = Ok b -> st_type s1 = st_type s2 ->
  let d := cc_expansion b * (st_temperature s2 - st_temperature s1) in
  let m1 := cm_set_stretch (cm_set_state m (Some s1)) ss in
  let m2 := cm_set_stretch (cm_set_state m (Some s2)) ss in
  (forall e : R, omap fst (cm_Load m2 (e + d)) = omap fst (cm_Load m1 e)) /\
  (forall e : R, omap fst (cm_Slope m2 (e + d)) = omap fst (cm_Slope m1 e)) /\
  (forall y x p, cm_Strain m1 y = Ok (x, p) -> x <> -999999 -> exists q, cm_Strain m2 y = Ok ((x : R) + d, q)).
Proof. exact temperature_shift. Qed.
Print Assumptions component_temperature.

Example component_temperature_case : exists m, cm_run CompModel_new r_calls = Ok m /\ cm_base m = Ok r_comp /\
  st_type (r_state PTCreep 20) = st_type (r_state PTCreep 120) /\
  0 < cc_expansion r_comp * (st_temperature (r_state PTCreep 120) - st_temperature (r_state PTCreep 20)).
Proof.
  destruct r_model as (m & R & B & _). exists m. split; [exact R|]. split; [exact B|]. split; [reflexivity|]. cbn. lra.
Qed.

(** ** The cable *)

(** C80, for histories without a Validate that includes warnings in which a state of
    another polynomial type is set only when no query followed the last change of the
    cable or the stretch state.  Missing: the other histories; see the refutation. *)
Theorem elongation_history_partial : forall (N : Num) (cs : list (EmCall N)) m,
  tidy true PTNull cs = true -> em_run ElongModel_new cs = Ok m ->
  exists b, em_run ElongModel_new (last_setters cs) = Ok b /\ answers_alike m b.
Proof. exact @run_answers. Qed.
Print Assumptions elongation_history_partial.

(** C80 is false: after a query, a change of the polynomial type of the state keeps the
    region points of the old stretch. *)
Theorem elongation_history_refuted : exists lm (cs : list (EmCall (B64 lm))) m b e x y,
  em_run ElongModel_new cs = Ok m /\ em_run ElongModel_new (last_setters cs) = Ok b /\
  cable_load m e = Ok x /\ cable_load b e = Ok y /\ (y <? x)%num = true.
Proof. exact stale_refuted. Qed.
Print Assumptions elongation_history_refuted.

(** C81 for queries and Validate without warnings. *)
Theorem elongation_query_partial : forall (N : Num) (cs : list (EmCall N)) m c p, tidy true PTNull cs = true ->
  em_run ElongModel_new cs = Ok m -> quiet c = true -> em_call m c = Ok p -> answers_alike m p.
Proof. exact query_quiet. Qed.
Print Assumptions elongation_query_partial.

(** C81 is false: a successful Validate with warnings changes the load at a strain. *)
Theorem elongation_query_refuted : exists lm (cs : list (EmCall (B64 lm))) m p e x y,
  em_run ElongModel_new cs = Ok m /\ em_Validate true m = Ok (true, p) /\
  cable_load m e = Ok x /\ cable_load p e = Ok y /\ (y <? x)%num = true.
Proof. exact validate_refuted. Qed.
Print Assumptions elongation_query_refuted.

(** A history with queries and several setters; the answers are loads in tension. *)
Definition case_calls : list (EmCall E64) :=
  setters cable_both PTCreep PTCreep 1024 ++
  [EmSetState (s_state PTLoadStrain); EmLoad CTCombined (strain64 1 (-2)); EmStrain CTCombined (fofZ (N := E64) 2000);
   EmSetState (s_state PTLoadStrain); EmSlope CTCore (strain64 1 (-2)); EmValidate false].
Example elongation_history_case : tidy true PTNull case_calls = true /\
  match em_run ElongModel_new case_calls with
  | Ok m => match cable_load m (strain64 2 (-2)) with Ok y => (#1000 <? y)%num | _ => false end
  | _ => false
  end = true.
Proof. split; vm_compute; reflexivity. Qed.

(** C82: loads and slopes of the cable are the sums over core and shell. *)
Theorem elongation_load_sum : forall (N : Num) (m : ElongModel N) e v p, em_Load m CTCombined e = Ok (v, p) ->
  exists x y, omap fst (em_Load m CTCore e) = Ok x /\ omap fst (em_Load m CTShell e) = Ok y /\ v = (x + y)%num.
Proof. exact @Load_sum. Qed.
Print Assumptions elongation_load_sum.

Theorem elongation_slope_sum : forall (N : Num) (m : ElongModel N) e v p, em_Slope m CTCombined e = Ok (v, p) ->
  exists x y, omap fst (em_Slope m CTCore e) = Ok x /\ omap fst (em_Slope m CTShell e) = Ok y /\ v = (x + y)%num.
Proof. exact @Slope_sum. Qed.
Print Assumptions elongation_slope_sum.

(** C82: a component without coefficients answers 0. *)
Theorem elongation_disabled : forall (N : Num) (cs : list (EmCall N)) m k, tidy true PTNull cs = true ->
  em_run ElongModel_new cs = Ok m -> last_cable None cs = Some k ->
  (sg_core_on k = Ok false -> forall x v p,
     (em_Load m CTCore x = Ok (v, p) \/ em_Slope m CTCore x = Ok (v, p) \/ em_Strain m CTCore x = Ok (v, p)) -> v = (#0)%num) /\
  (sg_shell_on k = Ok false -> forall x v p,
     (em_Load m CTShell x = Ok (v, p) \/ em_Slope m CTShell x = Ok (v, p) \/ em_Strain m CTShell x = Ok (v, p)) -> v = (#0)%num).
Proof. exact disabled_zero. Qed.
Print Assumptions elongation_disabled.

Example elongation_sum_case :
  (match em_run ElongModel_new case_calls with
   | Ok m => is_ok (em_Load m CTCombined (strain64 2 (-2))) && is_ok (em_Slope m CTCombined (strain64 2 (-2)))
   | _ => false
   end = true) /\
  (match em_run ElongModel_new (setters cable_shell PTCreep PTCreep 1024) with
   | Ok m => is_ok (em_Load m CTCore (strain64 2 (-2))) && is_ok (em_Strain m CTCore (fofZ (N := E64) 1000))
   | _ => false
   end = true) /\
  sg_core_on cable_shell = Ok false /\ last_cable None (setters cable_shell PTCreep PTCreep 1024) = Some cable_shell.
Proof. split; [vm_compute; reflexivity|]. split; [vm_compute; reflexivity|]. split; reflexivity. Qed.

(** C83 for the strain the solver reports, after such histories: the load there is within
    0.01 of the requested one, or the strain is below all region points.  Missing: that a
    strain is found, and a bound on the load below the region points. *)
Theorem elongation_strain_partial : forall (cs : list (EmCall RNum)) m y x p, tidy true PTNull cs = true ->
  em_run ElongModel_new cs = Ok m -> em_Strain m CTCombined y = Ok (x, p) ->
  x = -999999 \/
  (exists v, omap fst (em_Load p CTCombined x) = Ok v /\
     (Rabs (v - y) <= 1/100 \/
      (y <= v /\ forall q, In q (em_points p) -> x <= p2x q))).
Proof. exact Strain_result. Qed.
Print Assumptions elongation_strain_partial.

Example elongation_strain_case : exists m x p, tidy (N := RNum) true PTNull r_setters = true /\
  em_run ElongModel_new r_setters = Ok m /\ em_Strain m CTCombined (3000 : RNum) = Ok (x, p).
Proof. destruct (r_strain 3000) as (m & x & p & R & E). exists m, x, p. auto. Qed.

(** C83 is false: for the compression -100, which the cable has at some strain, Strain
    returns a strain of load 0. *)
Theorem elongation_strain_refuted : exists lm (cs : list (EmCall (B64 lm))) m p e y x w,
  em_run ElongModel_new cs = Ok m /\ em_Validate true m = Ok (true, p) /\
  cable_load m e = Ok y /\ (y =? #(-100))%num = true /\
  cable_strain m (#(-100))%num = Ok x /\ (x =? ferr)%num = false /\ cable_load m x = Ok w /\ (w =? #0)%num = true.
Proof. exact compression_refuted. Qed.
Print Assumptions elongation_strain_refuted.

(** C84 for histories in which cable, state and stretch state are set before the first
    query, with usable arguments: there is no undefined behaviour and no exception.  *)
Theorem elongation_safe_partial : forall cs : list (EmCall RNum), Forall usable_call cs -> prepared false false false cs = true ->
  exists m, em_run ElongModel_new cs = Ok m.
Proof. exact prepared_runs. Qed.
Print Assumptions elongation_safe_partial.

Example elongation_safe_case :
  Forall usable_call (r_setters ++ [EmStrain (N := RNum) CTCombined 3000; EmValidate true; EmLoad (N := RNum) CTCore 0]) /\
  prepared false false false
    (r_setters ++ [EmStrain (N := RNum) CTCombined 3000; EmValidate true; EmLoad (N := RNum) CTCore 0]) = true.
Proof.
  split; [|reflexivity]. apply Forall_app. split; [exact r_usable|].
  apply Forall_cons; [exact I|]. apply Forall_cons; [exact I|]. apply Forall_cons; [exact I|apply Forall_nil].
Qed.

(** C84 is false: Validate runs into undefined behaviour with the null polynomial type and
    a load in the stretch state, and set_cable with a cable without base cable. *)
Theorem elongation_safe_refuted :
  (exists lm (cs : list (EmCall (B64 lm))), is_ok (em_run ElongModel_new cs) = true /\
     em_run ElongModel_new (cs ++ [EmValidate true]) = UB) /\
  (forall N : Num, em_run (N := N) ElongModel_new [EmSetCable (Some StCable_new)] = UB).
Proof. exact undefined_refuted. Qed.
Print Assumptions elongation_safe_refuted.

(** C85 is false: Validate with warnings accepts a cable whose load decreases. *)
Theorem elongation_increasing_refuted : exists lm (cs : list (EmCall (B64 lm))) m p e f x y,
  em_run ElongModel_new cs = Ok m /\ em_Validate true m = Ok (true, p) /\ (e <? f)%num = true /\
  cable_load m e = Ok x /\ cable_load m f = Ok y /\ (y <? x)%num = true.
Proof. exact dip_refuted. Qed.
Print Assumptions elongation_increasing_refuted.
