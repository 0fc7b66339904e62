(** Model of /repo/src/sagtension: SagTensionCable, CableState,
    CableComponentElongationModel, CableElongationModel and CableStrainer.

    A pointer to an object of the clients is None (null) or the object; those objects
    do not change during a history.  The pointers an elongation model keeps to its own
    members state_, state_stretch_, state_stretch_core_ and state_stretch_shell_, or to
    a local state, are copies of the state taken when the pointer is set: the members
    change only together with a flag that makes the model set the pointers again before
    it uses them.  The polynomials of a component model refer to the coefficients of the
    base of component_ (set_component_cable, 192-216); a null component_ is dereferenced
    before any polynomial is used.  ModelPointed keeps the pointers themselves and models
    copies and destruction of the objects; PropPointed proves that without copies the
    states taken here are the ones pointed to.  Error messages are in ModelReport. *)
From Coq Require Import ZArith Bool List.
From Verif Require Import Num ModelBase ModelCable ModelPolynomial ModelThermal.
Import ListNotations.
Open Scope num_scope.

Section Elongation.
Context {N : Num}.

(** ** SagTensionCable *)

(** sag_tension_cable.h: SagTensionCableComponent::PolynomialType *)
Inductive PolynomialType : Type := PTNull | PTCreep | PTLoadStrain.

Definition ptype_eqb (a b : PolynomialType) : bool :=
  match a, b with
  | PTNull, PTNull | PTCreep, PTCreep | PTLoadStrain, PTLoadStrain => true
  | _, _ => false
  end.

(** sag_tension_cable.h: the members of SagTensionCableComponent; [None] for the flag
    is an uninitialised bool *)
Record StComponent : Type := mkStComponent {
  sk_base : option (CableComponent N);
  sk_enabled : option bool
}.

(** sag_tension_cable.cc 6-8: is_enabled_ is not initialised *)
Definition StComponent_new : StComponent := mkStComponent None None.

(** sag_tension_cable.cc 13-15 *)
Definition sk_IsEnabled (c : StComponent) : outcome bool := deref (sk_enabled c).

(** sag_tension_cable.cc 190-197, 202-209: some coefficient is not 0 *)
Definition has_nonzero (l : list N) : bool := existsb (fun c => negb (c =? #0)) l.

(** sag_tension_cable.cc 162-171 with UpdateIsEnabled (183-213) *)
Definition sk_set_base (b : option (CableComponent N)) : StComponent :=
  mkStComponent b
    (Some (match b with
           | None => false
           | Some b => has_nonzero (cc_creep b) && has_nonzero (cc_loadstrain b)
           end)).

(** sag_tension_cable.cc 17-120: the result of the base (34) is not used *)
Definition sk_Validate (c : StComponent) : bool :=
  match sk_base c with
  | None => false
  | Some b =>
      negb ((cc_expansion b <=? flit (-5) (-3)) || (flit 5 (-3) <? cc_expansion b))
      && (length (cc_creep b) =? 5)%nat && (length (cc_loadstrain b) =? 5)%nat
      && negb (cc_limit_creep b <? #0) && negb (cc_limit_loadstrain b <? #0)
      && negb (cc_modulus_compression b <? #0) && negb (cc_modulus_tension b <? #0)
      && negb (cc_scale_x b <? #0) && negb (cc_scale_y b <? #0)
  end.

(** sag_tension_cable.h: the members of SagTensionCable *)
Record StCable : Type := mkStCable {
  sg_base : option (Cable N);
  sg_core : StComponent;
  sg_shell : StComponent
}.

(** sag_tension_cable.cc 215-217 *)
Definition StCable_new : StCable := mkStCable None StComponent_new StComponent_new.

(** sag_tension_cable.cc 312-323 *)
Definition sg_set_base (b : option (Cable N)) : StCable :=
  mkStCable b (sk_set_base (option_map (@cb_core N) b)) (sk_set_base (option_map (@cb_shell N) b)).

(** sag_tension_cable.cc 222-237: core, shell and combined *)
Definition sg_core_on (c : StCable) : outcome bool := sk_IsEnabled (sg_core c).
Definition sg_shell_on (c : StCable) : outcome bool := sk_IsEnabled (sg_shell c).
Definition sg_on (c : StCable) : outcome bool :=
  do a <- sg_core_on c; do b <- sg_shell_on c; Ok (a || b).

(** sag_tension_cable.cc 239-294 *)
Definition sg_Validate (c : StCable) : outcome bool :=
  match sg_base c with
  | None => Ok false
  | Some b =>
      do a <- sg_core_on c;
      do s <- sg_shell_on c;
      Ok (Cable_Validate b && negb (cb_strength b <? #0) && negb (cb_temperature b <? #0)
          && negb (a && negb (sk_Validate (sg_core c)))
          && negb (s && negb (sk_Validate (sg_shell c))))
  end.

(** ** CableState *)

(** cable_state.h: CableState *)
Record CableState : Type := mkCableState { st_temperature : N; st_type : PolynomialType }.
(** cable_state.h: CableStretchState *)
Record StretchState : Type := mkStretchState {
  ss_temperature : N; ss_type : PolynomialType; ss_load : N
}.

(** cable_state.cc 6-9 *)
Definition CableState_default : CableState := mkCableState ferr PTNull.
(** cable_state.cc 6-9, 42-44 *)
Definition StretchState_default : StretchState := mkStretchState ferr PTNull ferr.

(** cable_state.cc 14-40 *)
Definition CableState_Validate (s : CableState) : bool :=
  negb (st_temperature s <? #(-100)) && negb (ptype_eqb (st_type s) PTNull).
(** cable_state.cc 49-69: the result of the parent (57) is not used *)
Definition StretchState_Validate (s : StretchState) : bool := negb (ss_load s <? #0).

(** ** CableComponentElongationModel *)

(** The three points of PointsRegions, in the order of the vector. *)
Record Regions : Type := mkRegions {
  rg_unloaded : Point2d N;
  rg_start : Point2d N;
  rg_end : Point2d N
}.

(** cable_component_elongation_model.h: the members; the polynomials refer to the base
    of the component.  [cm_points] is None for the empty points_state_.  The vectors
    points_stretch_creep_ and points_stretch_load_ are written before each use. *)
Record CompModel : Type := mkCompModel {
  cm_component : option StComponent;
  cm_state : option CableState;
  cm_stretch : option StretchState;
  cm_tref : option N;
  cm_load_stretch : N;
  cm_mod_creep : N;
  cm_mod_loadstrain : N;
  cm_thermal_state : N;
  cm_thermal_stretch : N;
  cm_points : option Regions;
  cm_upd_state : bool;
  cm_upd_stretch : bool
}.

(** cable_component_elongation_model.cc 10-24 *)
Definition CompModel_new : CompModel :=
  mkCompModel None None None None ferr ferr ferr ferr ferr None false false.

(** The dereferenced base of the component. *)
Definition cm_base (m : CompModel) : outcome (CableComponent N) :=
  do c <- deref (cm_component m); deref (sk_base c).

(** sag_tension_cable.cc 142-151, dereferenced *)
Definition limit_of (b : CableComponent N) (t : PolynomialType) : outcome N :=
  match t with
  | PTCreep => Ok (cc_limit_creep b)
  | PTLoadStrain => Ok (cc_limit_loadstrain b)
  | PTNull => UB
  end.

(** polynomial.cc 83-122 on the coefficients [l], precision 2 and first guess 0.1
    (cable_component_elongation_model.cc 524-527) *)
Definition poly_X (l : list N) (y : N) : outcome N :=
  omap fst (Polynomial_X (fun _ => l) (Polynomial_new (CAddr 0%Z)) y 2%Z (flit 1 (-1))).

(** polynomial.cc 41-48 on the coefficients [l] *)
Definition poly_Slope (l : list N) (x : N) : N := Y_list (derivative_loop l 0) x.

(** cable_component_elongation_model.cc 252-259 *)
Definition ConvertToStrain (b : CableComponent N) (strain thermal : N) : N :=
  (strain * cc_scale_x b) + thermal.
(** cable_component_elongation_model.cc 261-267 *)
Definition ConvertToStrainPolynomial (b : CableComponent N) (strain thermal : N) : N :=
  (strain - thermal) / cc_scale_x b.

(** cable_component_elongation_model.cc 329-335 *)
Definition LoadLinearExtension (p : Point2d N) (slope strain : N) : N :=
  p2y p + ((strain - p2x p) * slope).
(** cable_component_elongation_model.cc 511-517 *)
Definition StrainLinearExtension (p : Point2d N) (slope load : N) : N :=
  p2x p + ((load - p2y p) / slope).

(** cable_component_elongation_model.cc 337-348 *)
Definition LoadPolynomial (b : CableComponent N) (l : list N) (thermal strain : N) : N :=
  Y_list l (ConvertToStrainPolynomial b strain thermal) * cc_scale_y b.
(** cable_component_elongation_model.cc 437-452 *)
Definition SlopePolynomial (b : CableComponent N) (l : list N) (thermal strain : N) : N :=
  poly_Slope l (ConvertToStrainPolynomial b strain thermal) * (cc_scale_y b / cc_scale_x b).
(** cable_component_elongation_model.cc 519-531 *)
Definition StrainPolynomial (b : CableComponent N) (l : list N) (thermal load : N) : outcome N :=
  do x <- poly_X l load; Ok (ConvertToStrain b x thermal).

(** cable_component_elongation_model.cc 533-539 *)
Definition StrainThermal (b : CableComponent N) (tref temperature : N) : N :=
  cc_expansion b * (temperature - tref).

(** cable_component_elongation_model.cc 350-386 *)
Definition PointsRegions (b : CableComponent N) (tref : N) (l : list N) (temperature limit load_stretch : N)
    : outcome Regions :=
  let thermal := StrainThermal b tref temperature in
  do xe <- StrainPolynomial b l thermal limit;
  do xs <- StrainPolynomial b l thermal load_stretch;
  let pe := mkPoint2d xe limit in
  let ps := mkPoint2d xs load_stretch in
  let pu := mkPoint2d (StrainLinearExtension ps (cc_modulus_tension b) #0) #0 in
  Ok (mkRegions pu ps pe).

(** cable_component_elongation_model.cc 273-327; [mc], [ml] are the two extrapolation
    moduli *)
Definition LoadAt (b : CableComponent N) (mc ml : N) (t : PolynomialType) (r : Regions) (thermal strain : N) : N :=
  let pu := rg_unloaded r in let ps := rg_start r in let pe := rg_end r in
  if strain <? p2x pu then LoadLinearExtension pu (cc_modulus_compression b) strain
  else if (p2x pu <=? strain) && (strain <=? p2x ps) then LoadLinearExtension ps (cc_modulus_tension b) strain
  else if (p2x ps <? strain) && (strain <? p2x pe) then
    match t with
    | PTCreep => LoadPolynomial b (cc_creep b) thermal strain
    | PTLoadStrain => LoadPolynomial b (cc_loadstrain b) thermal strain
    | PTNull => ferr
    end
  else if p2x pe <=? strain then
    match t with
    | PTCreep => LoadLinearExtension pe mc strain
    | PTLoadStrain => LoadLinearExtension pe ml strain
    | PTNull => ferr
    end
  else ferr.

(** cable_component_elongation_model.cc 388-435 *)
Definition SlopeAt (b : CableComponent N) (mc ml : N) (t : PolynomialType) (r : Regions) (thermal strain : N) : N :=
  let pu := rg_unloaded r in let ps := rg_start r in let pe := rg_end r in
  if strain <? p2x pu then cc_modulus_compression b
  else if (p2x pu <=? strain) && (strain <=? p2x ps) then cc_modulus_tension b
  else if (p2x ps <? strain) && (strain <? p2x pe) then
    match t with
    | PTCreep => SlopePolynomial b (cc_creep b) thermal strain
    | PTLoadStrain => SlopePolynomial b (cc_loadstrain b) thermal strain
    | PTNull => ferr
    end
  else if p2x pe <=? strain then
    match t with PTCreep => mc | PTLoadStrain => ml | PTNull => ferr end
  else ferr.

(** cable_component_elongation_model.cc 454-509 *)
Definition StrainAt (b : CableComponent N) (mc ml : N) (t : PolynomialType) (r : Regions) (thermal load : N)
    : outcome N :=
  let pu := rg_unloaded r in let ps := rg_start r in let pe := rg_end r in
  if load <? p2y pu then Ok (StrainLinearExtension pu (cc_modulus_compression b) load)
  else if (p2y pu <=? load) && (load <=? p2y ps) then Ok (StrainLinearExtension ps (cc_modulus_tension b) load)
  else if (p2y ps <? load) && (load <? p2y pe) then
    match t with
    | PTCreep => StrainPolynomial b (cc_creep b) thermal load
    | PTLoadStrain => StrainPolynomial b (cc_loadstrain b) thermal load
    | PTNull => Ok ferr
    end
  else if p2y pe <=? load then
    match t with
    | PTCreep => Ok (StrainLinearExtension pe mc load)
    | PTLoadStrain => Ok (StrainLinearExtension pe ml load)
    | PTNull => Ok ferr
    end
  else Ok ferr.

(** cable_component_elongation_model.cc 566-585 and 588-607: the extrapolation modulus of
    the coefficients [l] with the load limit [limit] *)
Definition ModulusExtrapolate (b : CableComponent N) (l : list N) (limit : N) : outcome N :=
  match l with
  | [] => Ok ferr
  | _ =>
      do x <- StrainPolynomial b l #0 limit;
      let m := SlopePolynomial b l #0 x in
      Ok (if m <? #100000 then #100000 else m)
  end.

(** cable_component_elongation_model.cc 192-216 with UpdateModulusExtrapolate (562-608) *)
Definition cm_set_component (m : CompModel) (c : option StComponent) : outcome CompModel :=
  match c with
  | None =>
      Ok (mkCompModel None (cm_state m) (cm_stretch m) (cm_tref m) (cm_load_stretch m) (cm_mod_creep m)
            (cm_mod_loadstrain m) (cm_thermal_state m) (cm_thermal_stretch m) (cm_points m) false false)
  | Some c =>
      do b <- deref (sk_base c);
      do mc <- ModulusExtrapolate b (cc_creep b) (cc_limit_creep b);
      do ml <- ModulusExtrapolate b (cc_loadstrain b) (cc_limit_loadstrain b);
      Ok (mkCompModel (Some c) (cm_state m) (cm_stretch m) (cm_tref m) (cm_load_stretch m) mc ml
            (cm_thermal_state m) (cm_thermal_stretch m) (cm_points m) false false)
  end.

(** cable_component_elongation_model.cc 218-222: the stretch flag stays *)
Definition cm_set_state (m : CompModel) (s : option CableState) : CompModel :=
  mkCompModel (cm_component m) s (cm_stretch m) (cm_tref m) (cm_load_stretch m) (cm_mod_creep m)
    (cm_mod_loadstrain m) (cm_thermal_state m) (cm_thermal_stretch m) (cm_points m) false (cm_upd_stretch m).
(** cable_component_elongation_model.cc 224-230 *)
Definition cm_set_stretch (m : CompModel) (s : option StretchState) : CompModel :=
  mkCompModel (cm_component m) (cm_state m) s (cm_tref m) (cm_load_stretch m) (cm_mod_creep m)
    (cm_mod_loadstrain m) (cm_thermal_state m) (cm_thermal_stretch m) (cm_points m) false false.
(** cable_component_elongation_model.cc 240-246 *)
Definition cm_set_tref (m : CompModel) (t : option N) : CompModel :=
  mkCompModel (cm_component m) (cm_state m) (cm_stretch m) t (cm_load_stretch m) (cm_mod_creep m)
    (cm_mod_loadstrain m) (cm_thermal_state m) (cm_thermal_stretch m) (cm_points m) false false.

(** cable_component_elongation_model.cc 774-795: the new left and right points; a current
    point between them with load 0, or on one of them, changes nothing *)
Definition stretch_bracket (lo hi current : Point2d N) : Point2d N * Point2d N :=
  if p2x current <? p2x lo then (current, lo)
  else if (p2x lo <? p2x current) && (p2x current <? p2x hi) then
    if p2y current <? #0 then (lo, current)
    else if #0 <? p2y current then (current, hi)
    else (lo, hi)
  else if p2x hi <? p2x current then (hi, current)
  else (lo, hi).

(** cable_component_elongation_model.cc 754-797: [from] and [to] are the two loads at a
    strain; the results are iter and load_to.  101 rounds at most. *)
Fixpoint stretch_loop (fuel : nat) (iter : Z) (from to : N -> N) (lo hi current : Point2d N) (load_to : N)
    : Z * N :=
  match fuel with
  | O => (iter, load_to)
  | S fuel =>
      if flit 1 (-2) <? fabs (p2y current - #0) then
        let slope_line := (p2y hi - p2y lo) / (p2x hi - p2x lo) in
        let x := p2x lo + ((#0 - p2y lo) / slope_line) in
        let load_to := to x in
        let current := mkPoint2d x (load_to - from x) in
        let '(lo, hi) := stretch_bracket lo hi current in
        stretch_loop fuel (iter + 1) from to lo hi current load_to
      else (iter, load_to)
  end.

(** The model with the results of UpdateStretch. *)
Definition with_stretch (m : CompModel) (thermal load : N) : CompModel :=
  mkCompModel (cm_component m) (cm_state m) (cm_stretch m) (cm_tref m) load (cm_mod_creep m)
    (cm_mod_loadstrain m) (cm_thermal_state m) thermal (cm_points m) (cm_upd_state m) (cm_upd_stretch m).

(** cable_component_elongation_model.cc 644-807 *)
Definition UpdateStretch (m : CompModel) : outcome (bool * CompModel) :=
  do b <- cm_base m;
  do tref <- deref (cm_tref m);
  do ss <- deref (cm_stretch m);
  let temperature := ss_temperature ss in
  let thermal := StrainThermal b tref temperature in
  let keep := with_stretch m thermal (cm_load_stretch m) in
  if ss_load ss =? #0 then Ok (true, with_stretch m thermal #0)
  else
    do s <- deref (cm_state m);
    if ptype_eqb (st_type s) (ss_type ss) then Ok (true, with_stretch m thermal (ss_load ss))
    else
      do pc <- PointsRegions b tref (cc_creep b) temperature (cc_limit_creep b) #0;
      do pl <- PointsRegions b tref (cc_loadstrain b) temperature (cc_limit_loadstrain b) #0;
      let points t := match t with PTCreep => Some pc | PTLoadStrain => Some pl | PTNull => None end in
      match points (ss_type ss), points (st_type s) with
      | Some pfrom, Some pto =>
          let mc := cm_mod_creep m in let ml := cm_mod_loadstrain m in
          do xs <- StrainAt b mc ml (ss_type ss) pfrom thermal (ss_load ss);
          let ps := mkPoint2d xs (ss_load ss) in
          let from x := LoadLinearExtension ps (cc_modulus_tension b) x in
          let to x := LoadAt b mc ml (st_type s) pto thermal x in
          let lo := mkPoint2d xs (to xs - from xs) in
          let xr := xs + flit 1 (-3) in
          let hi := mkPoint2d xr (to xr - from xr) in
          let '(iter, load_to) := stretch_loop 101 0 from to lo hi Point2d_default (to xr) in
          if (iter <? 100)%Z then Ok (true, with_stretch m thermal load_to)
          else Ok (false, with_stretch m thermal ferr)
      | _, _ => Ok (false, keep)
      end.

(** cable_component_elongation_model.cc 610-632: the null polynomial of the type kNull is
    dereferenced *)
Definition UpdateState (m : CompModel) : outcome CompModel :=
  do s <- deref (cm_state m);
  do b <- cm_base m;
  do tref <- deref (cm_tref m);
  let thermal := StrainThermal b tref (st_temperature s) in
  do limit <- limit_of b (st_type s);
  let l := match st_type s with PTCreep => cc_creep b | _ => cc_loadstrain b end in
  do r <- PointsRegions b tref l (st_temperature s) limit (cm_load_stretch m);
  Ok (mkCompModel (cm_component m) (cm_state m) (cm_stretch m) (cm_tref m) (cm_load_stretch m) (cm_mod_creep m)
        (cm_mod_loadstrain m) thermal (cm_thermal_stretch m) (Some r) (cm_upd_state m) (cm_upd_stretch m)).

(** The model with the two flags [state] and [stretch]. *)
Definition with_flags (m : CompModel) (state stretch : bool) : CompModel :=
  mkCompModel (cm_component m) (cm_state m) (cm_stretch m) (cm_tref m) (cm_load_stretch m) (cm_mod_creep m)
    (cm_mod_loadstrain m) (cm_thermal_state m) (cm_thermal_stretch m) (cm_points m) state stretch.

(** cable_component_elongation_model.cc 541-560 (with IsUpdated, 269-271): UpdateState
    never returns false *)
Definition cm_Update (m : CompModel) : outcome (bool * CompModel) :=
  do (ok, m) <-
    (if cm_upd_stretch m then Ok (true, m)
     else do (ok, m) <- UpdateStretch m; Ok (ok, with_flags m (cm_upd_state m) ok));
  if ok then
    if cm_upd_state m then Ok (true, m)
    else do m <- UpdateState m; Ok (true, with_flags m true (cm_upd_stretch m))
  else Ok (false, m).

(** A query: update, the value -999999 if it fails, else [f] of the base, the type of the
    state, the points and the model. *)
Definition cm_query (m : CompModel)
    (f : CableComponent N -> PolynomialType -> Regions -> CompModel -> outcome N) : outcome (N * CompModel) :=
  do (ok, m) <- cm_Update m;
  if ok then
    do s <- deref (cm_state m);
    do b <- cm_base m;
    match cm_points m with
    | Some r => do v <- f b (st_type s) r m; Ok (v, m)
    | None => Throw
    end
  else Ok (ferr, m).

(** cable_component_elongation_model.cc 29-38 *)
Definition cm_Load (m : CompModel) (strain : N) : outcome (N * CompModel) :=
  cm_query m (fun b t r m =>
    Ok (LoadAt b (cm_mod_creep m) (cm_mod_loadstrain m) t r (cm_thermal_state m) strain)).
(** cable_component_elongation_model.cc 50-59 *)
Definition cm_Slope (m : CompModel) (strain : N) : outcome (N * CompModel) :=
  cm_query m (fun b t r m =>
    Ok (SlopeAt b (cm_mod_creep m) (cm_mod_loadstrain m) t r (cm_thermal_state m) strain)).
(** cable_component_elongation_model.cc 61-70 *)
Definition cm_Strain (m : CompModel) (load : N) : outcome (N * CompModel) :=
  cm_query m (fun b t r m =>
    StrainAt b (cm_mod_creep m) (cm_mod_loadstrain m) t r (cm_thermal_state m) load).

(** cable_component_elongation_model.cc 72-79 *)
Definition cm_StrainThermal (m : CompModel) : outcome (N * CompModel) :=
  do (ok, m) <- cm_Update m; Ok (if ok then cm_thermal_state m else ferr, m).

(** cable_component_elongation_model.cc 40-48: three default points if the update fails *)
Definition cm_PointsRegions (m : CompModel) : outcome (list (Point2d N) * CompModel) :=
  do (ok, m) <- cm_Update m;
  if ok then
    match cm_points m with
    | Some r => Ok ([rg_unloaded r; rg_start r; rg_end r], m)
    | None => Ok ([], m)
    end
  else Ok ([Point2d_default; Point2d_default; Point2d_default], m).

(** cable_component_elongation_model.cc 824-849 for one polynomial, with warnings *)
Definition origin_valid (b : CableComponent N) (l : list N) : outcome bool :=
  do x <- StrainPolynomial b l #0 #0;
  Ok (negb ((x <? flit (-1) (-3)) || (x <? flit (-1) (-4)) || (flit 1 (-3) <? x) || (flit 1 (-4) <? x))).

(** cable_component_elongation_model.cc 872-907 and 910-945 for one polynomial, with
    warnings.  The strain of every round is the same: iter / 50 is a division of
    integers, 0 for each iter below 50. *)
Definition shape_valid (b : CableComponent N) (l : list N) (limit : N) : outcome bool :=
  do smin <- StrainPolynomial b l #0 #0;
  let strain := smin + (#(Z.div 0 50) * (limit - smin)) in
  let slope := SlopePolynomial b l #0 strain in
  Ok (negb (slope <? #0) && negb (cc_modulus_tension b <? slope)).

(** cable_component_elongation_model.cc 809-852 and 854-948 *)
Definition polynomials_valid (warn : bool) (b : CableComponent N) : outcome bool :=
  if warn then
    do oc <- origin_valid b (cc_creep b);
    do ol <- origin_valid b (cc_loadstrain b);
    do sc <- shape_valid b (cc_creep b) (cc_limit_creep b);
    do sl <- shape_valid b (cc_loadstrain b) (cc_limit_loadstrain b);
    Ok (oc && ol && sc && sl)
  else Ok true.

(** cable_component_elongation_model.cc 89-135: the checks before the update *)
Definition cm_inputs_valid (m : CompModel) : bool :=
  match cm_component m with Some c => sk_Validate c | None => false end
  && match cm_state m with Some s => CableState_Validate s | None => false end
  && match cm_stretch m with Some s => StretchState_Validate s | None => false end
  && match cm_tref m with Some t => negb (t <? #(-100)) | None => false end.

(** cable_component_elongation_model.cc 81-185 *)
Definition cm_Validate (warn : bool) (m : CompModel) : outcome (bool * CompModel) :=
  if cm_inputs_valid m then
    do (ok, m) <- cm_Update m;
    if ok then
      do b <- cm_base m;
      do p <- polynomials_valid warn b;
      Ok ((length (cc_creep b) - 1 =? 4)%nat && (length (cc_loadstrain b) - 1 =? 4)%nat && p, m)
    else Ok (false, m)
  else Ok (false, m).

(** ** CableElongationModel *)

(** cable_elongation_model.h: ComponentType *)
Inductive ComponentType : Type := CTNull | CTCombined | CTCore | CTShell.

(** cable_elongation_model.h: the members; state_stretch_core_ and state_stretch_shell_
    are the copies held by the two component models *)
Record ElongModel : Type := mkElongModel {
  em_cable : option StCable;
  em_state : CableState;
  em_stretch : StretchState;
  em_core : CompModel;
  em_shell : CompModel;
  em_points : list (Point2d N);
  em_upd_state : bool;
  em_upd_stretch : bool
}.

(** cable_elongation_model.cc 27-32 *)
Definition ElongModel_new : ElongModel :=
  mkElongModel None CableState_default StretchState_default CompModel_new CompModel_new [] false false.

Definition em_with_core (m : ElongModel) (c : CompModel) : ElongModel :=
  mkElongModel (em_cable m) (em_state m) (em_stretch m) c (em_shell m) (em_points m) (em_upd_state m)
    (em_upd_stretch m).
Definition em_with_shell (m : ElongModel) (c : CompModel) : ElongModel :=
  mkElongModel (em_cable m) (em_state m) (em_stretch m) (em_core m) c (em_points m) (em_upd_state m)
    (em_upd_stretch m).
Definition em_with_points (m : ElongModel) (l : list (Point2d N)) : ElongModel :=
  mkElongModel (em_cable m) (em_state m) (em_stretch m) (em_core m) (em_shell m) l (em_upd_state m)
    (em_upd_stretch m).
Definition em_with_flags (m : ElongModel) (state stretch : bool) : ElongModel :=
  mkElongModel (em_cable m) (em_state m) (em_stretch m) (em_core m) (em_shell m) (em_points m) state stretch.

(** The component enabled in the cable: cable_->IsEnabled(...) *)
Definition em_core_on (m : ElongModel) : outcome bool := do c <- deref (em_cable m); sg_core_on c.
Definition em_shell_on (m : ElongModel) : outcome bool := do c <- deref (em_cable m); sg_shell_on c.

(** cable_elongation_model.cc 191-197 and 200-206 for one component *)
Definition set_component_model (on : bool) (m : CompModel) (c : StComponent) (tref : outcome N) : outcome CompModel :=
  if on then
    do m <- cm_set_component m (Some c);
    do t <- tref;
    Ok (cm_set_tref m (Some t))
  else Ok CompModel_new.

(** cable_elongation_model.cc 186-211 *)
Definition em_set_cable (m : ElongModel) (c : option StCable) : outcome ElongModel :=
  match c with
  | None => Ok (mkElongModel None (em_state m) (em_stretch m) (em_core m) (em_shell m) (em_points m) false false)
  | Some k =>
      let tref := omap (@cb_temperature N) (deref (sg_base k)) in
      do a <- sg_core_on k;
      do core <- set_component_model a (em_core m) (sg_core k) tref;
      do s <- sg_shell_on k;
      do shell <- set_component_model s (em_shell m) (sg_shell k) tref;
      Ok (mkElongModel (Some k) (em_state m) (em_stretch m) core shell (em_points m) false false)
  end.

(** cable_elongation_model.cc 213-217: the stretch flag stays *)
Definition em_set_state (m : ElongModel) (s : CableState) : ElongModel :=
  mkElongModel (em_cable m) s (em_stretch m) (em_core m) (em_shell m) (em_points m) false (em_upd_stretch m).
(** cable_elongation_model.cc 219-225 *)
Definition em_set_stretch (m : ElongModel) (s : StretchState) : ElongModel :=
  mkElongModel (em_cable m) (em_state m) s (em_core m) (em_shell m) (em_points m) false false.

(** A query of the core or of the shell; 0 if it is not enabled. *)
Definition core_value (m : ElongModel) (q : CompModel -> outcome (N * CompModel)) : outcome (N * ElongModel) :=
  do on <- em_core_on m;
  if on then do (v, c) <- q (em_core m); Ok (v, em_with_core m c) else Ok (#0, m).
Definition shell_value (m : ElongModel) (q : CompModel -> outcome (N * CompModel)) : outcome (N * ElongModel) :=
  do on <- em_shell_on m;
  if on then do (v, c) <- q (em_shell m); Ok (v, em_with_shell m c) else Ok (#0, m).

(** cable_elongation_model.cc 243-249, 251-257 *)
Definition LoadCore (m : ElongModel) (strain : N) : outcome (N * ElongModel) :=
  core_value m (fun c => cm_Load c strain).
Definition LoadShell (m : ElongModel) (strain : N) : outcome (N * ElongModel) :=
  shell_value m (fun c => cm_Load c strain).
(** cable_elongation_model.cc 239-241 *)
Definition LoadCombined (m : ElongModel) (strain : N) : outcome (N * ElongModel) :=
  do (a, m) <- LoadCore m strain; do (b, m) <- LoadShell m strain; Ok (a + b, m).

(** cable_elongation_model.cc 263-269, 271-277 *)
Definition SlopeCore (m : ElongModel) (strain : N) : outcome (N * ElongModel) :=
  core_value m (fun c => cm_Slope c strain).
Definition SlopeShell (m : ElongModel) (strain : N) : outcome (N * ElongModel) :=
  shell_value m (fun c => cm_Slope c strain).
(** cable_elongation_model.cc 259-261 *)
Definition SlopeCombined (m : ElongModel) (strain : N) : outcome (N * ElongModel) :=
  do (a, m) <- SlopeCore m strain; do (b, m) <- SlopeShell m strain; Ok (a + b, m).

(** cable_elongation_model.cc 391-397, 399-405 *)
Definition StrainCore (m : ElongModel) (load : N) : outcome (N * ElongModel) :=
  core_value m (fun c => cm_Strain c load).
Definition StrainShell (m : ElongModel) (load : N) : outcome (N * ElongModel) :=
  shell_value m (fun c => cm_Strain c load).

(** cable_elongation_model.cc 354-379: the new left and right points *)
Definition strain_bracket (load : N) (lo hi current : Point2d N) : Point2d N * Point2d N :=
  if p2x current <? p2x lo then (current, lo)
  else if (p2x lo <=? p2x current) && (p2x current <=? p2x hi) then
    if p2y current <? load then (current, hi)
    else if load <? p2y current then (lo, current)
    else (lo, hi)
  else if p2x hi <? p2x current then (hi, current)
  else (lo, hi).

(** cable_elongation_model.cc 343-388: [fuel] is 100 - iter *)
Fixpoint strain_loop (fuel : nat) (m : ElongModel) (load precision : N) (lo hi current : Point2d N)
    : outcome (N * ElongModel) :=
  match fuel with
  | O => Ok (ferr, m)
  | S fuel =>
      if precision <? fabs (p2y current - load) then
        let slope_line := (p2y hi - p2y lo) / (p2x hi - p2x lo) in
        let x := p2x lo + ((load - p2y lo) / slope_line) in
        do (y, m) <- LoadCombined m x;
        let current := mkPoint2d x y in
        let '(lo, hi) := strain_bracket load lo hi current in
        strain_loop fuel m load precision lo hi current
      else Ok (p2x current, m)
  end.

(** cable_elongation_model.cc 323-331: the first pair around the load; past the last
    point the iterator is dereferenced at the end *)
Fixpoint find_region (load : N) (l : list (Point2d N)) : outcome (Point2d N * Point2d N) :=
  match l with
  | lo :: ((hi :: _) as rest) =>
      if (p2y lo <=? load) && (load <=? p2y hi) then Ok (lo, hi) else find_region load rest
  | _ => UB
  end.

(** cable_elongation_model.cc 279-389.  The pointers compared with 0 in 295-298 are
    addresses of members and are not null, so that no cable is extrapolated into
    compression. *)
Definition StrainCombined (m : ElongModel) (load : N) : outcome (N * ElongModel) :=
  match em_points m with
  | [] => UB
  | pmin :: rest =>
      let pmax := last rest pmin in
      let precision := #1 / fpow #10 #2 in
      if load <=? p2y pmin then
        do c <- deref (em_cable m); do b <- deref (sg_base c); Ok (p2x pmin, m)
      else if p2y pmax <=? load then
        let xr := p2x pmax + flit 5 (-4) in
        do (yr, m) <- LoadCombined m xr;
        strain_loop 99 m load precision pmax (mkPoint2d xr yr) Point2d_default
      else
        do (lo, hi) <- find_region load (em_points m);
        strain_loop 99 m load precision lo hi Point2d_default
  end.

(** cable_elongation_model.cc 519: a sort by x.  Points with equal x are interchangeable:
    their y is replaced in 523-527.  A NaN makes std::sort undefined. *)
Fixpoint insert_x (p : Point2d N) (l : list (Point2d N)) : list (Point2d N) :=
  match l with
  | [] => [p]
  | q :: r => if p2x q <? p2x p then q :: insert_x p r else p :: q :: r
  end.
Definition sort_x (l : list (Point2d N)) : outcome (list (Point2d N)) :=
  if forallb (fun p => p2x p =? p2x p) l then Ok (fold_right insert_x [] l) else UB.

(** cable_elongation_model.cc 523-527 *)
Fixpoint load_points (m : ElongModel) (l : list (Point2d N)) : outcome (list (Point2d N) * ElongModel) :=
  match l with
  | [] => Ok ([], m)
  | p :: l =>
      do (y, m) <- LoadCombined m (p2x p);
      do (l, m) <- load_points m l;
      Ok (mkPoint2d (p2x p) y :: l, m)
  end.

(** cable_elongation_model.cc 495-530 *)
Definition UpdatePointsRegions (m : ElongModel) : outcome ElongModel :=
  do a <- em_core_on m;
  do (pc, m) <-
    (if a then do (l, c) <- cm_PointsRegions (em_core m); Ok (l, em_with_core m c) else Ok ([], m));
  do s <- em_shell_on m;
  do (pl, m) <-
    (if s then do (l, c) <- cm_PointsRegions (em_shell m); Ok (l, em_with_shell m c) else Ok ([], m));
  do l <- sort_x (pc ++ pl);
  do (l, m) <- load_points m l;
  Ok (em_with_points m l).

(** cable_elongation_model.cc 428-444 *)
Definition UpdateComponentsState (m : ElongModel) (s : CableState) : outcome ElongModel :=
  do a <- em_core_on m;
  let m := if a then em_with_core m (cm_set_state (em_core m) (Some s)) else m in
  do b <- em_shell_on m;
  let m := if b then em_with_shell m (cm_set_state (em_shell m) (Some s)) else m in
  UpdatePointsRegions m.

(** The stretch state with another load. *)
Definition ss_with_load (s : StretchState) (load : N) : StretchState :=
  mkStretchState (ss_temperature s) (ss_type s) load.

(** cable_elongation_model.cc 450-493 *)
Definition UpdateComponentsStretch (m : ElongModel) : outcome ElongModel :=
  let zero := Some (ss_with_load (em_stretch m) #0) in
  do a <- em_core_on m;
  let m := if a then em_with_core m (cm_set_stretch (em_core m) zero) else m in
  do s <- em_shell_on m;
  let m := if s then em_with_shell m (cm_set_stretch (em_shell m) zero) else m in
  if ss_load (em_stretch m) =? #0 then Ok m
  else
    do m <- UpdateComponentsState m (mkCableState (ss_temperature (em_stretch m)) (ss_type (em_stretch m)));
    do (x, m) <- StrainCombined m (ss_load (em_stretch m));
    do m <-
      (if a then
         do (y, m) <- LoadCore m x;
         Ok (em_with_core m (cm_set_stretch (em_core m) (Some (ss_with_load (em_stretch m) y))))
       else Ok m);
    if s then
      do (y, m) <- LoadShell m x;
      Ok (em_with_shell m (cm_set_stretch (em_shell m) (Some (ss_with_load (em_stretch m) y))))
    else Ok m.

(** cable_elongation_model.cc 407-426 with IsUpdated (235-237); it never returns false *)
Definition em_Update (m : ElongModel) : outcome ElongModel :=
  do m <-
    (if em_upd_stretch m then Ok m
     else do m <- UpdateComponentsStretch m; Ok (em_with_flags m (em_upd_state m) true));
  if em_upd_state m then Ok m
  else do m <- UpdateComponentsState m (em_state m); Ok (em_with_flags m true (em_upd_stretch m)).

(** cable_elongation_model.cc 37-55 *)
Definition em_Load (m : ElongModel) (t : ComponentType) (strain : N) : outcome (N * ElongModel) :=
  do m <- em_Update m;
  match t with
  | CTCombined => LoadCombined m strain
  | CTCore => LoadCore m strain
  | CTShell => LoadShell m strain
  | CTNull => Ok (ferr, m)
  end.
(** cable_elongation_model.cc 57-75 *)
Definition em_Slope (m : ElongModel) (t : ComponentType) (strain : N) : outcome (N * ElongModel) :=
  do m <- em_Update m;
  match t with
  | CTCombined => SlopeCombined m strain
  | CTCore => SlopeCore m strain
  | CTShell => SlopeShell m strain
  | CTNull => Ok (ferr, m)
  end.
(** cable_elongation_model.cc 77-95 *)
Definition em_Strain (m : ElongModel) (t : ComponentType) (load : N) : outcome (N * ElongModel) :=
  do m <- em_Update m;
  match t with
  | CTCombined => StrainCombined m load
  | CTCore => StrainCore m load
  | CTShell => StrainShell m load
  | CTNull => Ok (ferr, m)
  end.

(** cable_elongation_model.cc 556-572 and 575-591 for one component: the limit is not
    below the strain at rated strength *)
Definition limit_valid (on : bool) (b : outcome (CableComponent N)) (t : PolynomialType) (strain_max : N)
    (q : N -> outcome (N * ElongModel)) (m : ElongModel) : outcome (bool * ElongModel) :=
  if on then
    do b <- b;
    do limit <- limit_of b t;
    do (x, m) <- q limit;
    Ok (negb (x <? strain_max), m)
  else Ok (true, m).

(** cable_elongation_model.cc 532-597 *)
Definition ValidateComponentsStrainLimit (warn : bool) (m : ElongModel) : outcome (bool * ElongModel) :=
  if warn then
    do c <- deref (em_cable m);
    do b <- deref (sg_base c);
    do m <- UpdateComponentsState m (mkCableState (cb_temperature b) PTLoadStrain);
    do (strain_max, m) <- StrainCombined m (cb_strength b);
    do a <- em_core_on m;
    do (v1, m) <- limit_valid a (cm_base (em_core m)) (st_type (em_state m)) strain_max (StrainCore m) m;
    do s <- em_shell_on m;
    do (v2, m) <- limit_valid s (cm_base (em_shell m)) (st_type (em_state m)) strain_max (StrainShell m) m;
    do m <- UpdateComponentsState m (em_state m);
    Ok (v1 && v2, m)
  else Ok (true, m).

(** cable_elongation_model.cc 599-666: 613-614 test the core twice; the components get
    the stretch state of the whole cable at the end (659-663) *)
Definition ValidateComponentsStrainUnloaded (warn : bool) (m : ElongModel) : outcome (bool * ElongModel) :=
  if warn then
    do a <- em_core_on m;
    if a then
      do c <- deref (em_cable m);
      do b <- deref (sg_base c);
      let s := Some (mkCableState (cb_temperature b) PTLoadStrain) in
      let ss := Some (mkStretchState (cb_temperature b) PTLoadStrain #0) in
      let m := em_with_core m (cm_set_stretch (cm_set_state (em_core m) s) ss) in
      let m := em_with_shell m (cm_set_stretch (cm_set_state (em_shell m) s) ss) in
      do (x1, m) <- StrainCore m #0;
      do (x2, m) <- StrainShell m #0;
      let d := x1 - x2 in
      let s := Some (em_state m) in
      let ss := Some (em_stretch m) in
      let m := em_with_core m (cm_set_stretch (cm_set_state (em_core m) s) ss) in
      let m := em_with_shell m (cm_set_stretch (cm_set_state (em_shell m) s) ss) in
      Ok (negb ((flit 5 (-4) <? fabs d) || (flit 1 (-4) <? fabs d)), m)
    else Ok (true, m)
  else Ok (true, m).

(** cable_elongation_model.cc 155-165 for one component *)
Definition component_model_valid (warn on : bool) (c : CompModel) : outcome (bool * CompModel) :=
  if on then cm_Validate warn c else Ok (true, c).

(** cable_elongation_model.cc 97-180 *)
Definition em_Validate (warn : bool) (m : ElongModel) : outcome (bool * ElongModel) :=
  do v <- match em_cable m with Some c => sg_Validate c | None => Ok false end;
  if v && CableState_Validate (em_state m) && StretchState_Validate (em_stretch m) then
    do m <- em_Update m;
    do c <- deref (em_cable m);
    do on <- sg_on c;
    if on then
      do a <- em_core_on m;
      do (v1, core) <- component_model_valid warn a (em_core m);
      let m := em_with_core m core in
      do s <- em_shell_on m;
      do (v2, shell) <- component_model_valid warn s (em_shell m);
      let m := em_with_shell m shell in
      do (v3, m) <- ValidateComponentsStrainLimit warn m;
      do (v4, m) <- ValidateComponentsStrainUnloaded warn m;
      Ok (v1 && v2 && v3 && v4, m)
    else Ok (false, m)
  else Ok (false, m).

(** ** CableStrainer *)

(** The elongation models owned by the clients, by address. *)
Definition Models : Type := Z -> ElongModel.

(** A write of a model. *)
Definition put (mem : Models) (a : Z) (m : ElongModel) : Models := fun b => if Z.eqb a b then m else mem b.

(** cable_strainer.h: the members *)
Record Strainer : Type := mkStrainer {
  cr_length : N;
  cr_load_finish : N;
  cr_load_start : N;
  cr_finish : option Z;
  cr_start : option Z
}.

(** cable_strainer.cc 8-14 *)
Definition Strainer_new : Strainer := mkStrainer ferr ferr ferr None None.

(** cable_strainer.cc 25-42 *)
Definition LengthFinish (mem : Models) (s : Strainer) : outcome (N * Models) :=
  do a <- deref (cr_start s);
  do (x0, ma) <- em_Strain (mem a) CTCombined (cr_load_start s);
  let mem := put mem a ma in
  do b <- deref (cr_finish s);
  do (x1, mb) <- em_Strain (mem b) CTCombined (cr_load_finish s);
  let mem := put mem b mb in
  let d := x1 - x0 in
  Ok (if d <? #0 then cr_length s / (#1 + fabs d) else cr_length s * (#1 + d), mem).

(** The checks of cable_strainer.cc 51-81. *)
Definition cr_inputs_valid (s : Strainer) : bool :=
  negb (cr_length s <=? #0) && negb (cr_load_finish s <? #0) && negb (cr_load_start s <? #0).

(** ** Calls *)

(** Calls on a component model. *)
Inductive CmCall : Type :=
| CmSetComponent (c : option StComponent)
| CmSetState (s : option CableState)
| CmSetStretch (s : option StretchState)
| CmSetTref (t : option N)
| CmLoad (strain : N)
| CmSlope (strain : N)
| CmStrain (load : N)
| CmStrainThermal
| CmPointsRegions
| CmValidate (warn : bool).

(** The model after a call. *)
Definition cm_call (m : CompModel) (c : CmCall) : outcome CompModel :=
  match c with
  | CmSetComponent c => cm_set_component m c
  | CmSetState s => Ok (cm_set_state m s)
  | CmSetStretch s => Ok (cm_set_stretch m s)
  | CmSetTref t => Ok (cm_set_tref m t)
  | CmLoad e => omap snd (cm_Load m e)
  | CmSlope e => omap snd (cm_Slope m e)
  | CmStrain y => omap snd (cm_Strain m y)
  | CmStrainThermal => omap snd (cm_StrainThermal m)
  | CmPointsRegions => omap snd (cm_PointsRegions m)
  | CmValidate w => omap snd (cm_Validate w m)
  end.

(** The model after some calls. *)
Fixpoint cm_run (m : CompModel) (cs : list CmCall) : outcome CompModel :=
  match cs with
  | [] => Ok m
  | c :: cs => do m <- cm_call m c; cm_run m cs
  end.

(** Calls on an elongation model. *)
Inductive EmCall : Type :=
| EmSetCable (c : option StCable)
| EmSetState (s : CableState)
| EmSetStretch (s : StretchState)
| EmLoad (t : ComponentType) (strain : N)
| EmSlope (t : ComponentType) (strain : N)
| EmStrain (t : ComponentType) (load : N)
| EmValidate (warn : bool).

(** The model after a call. *)
Definition em_call (m : ElongModel) (c : EmCall) : outcome ElongModel :=
  match c with
  | EmSetCable c => em_set_cable m c
  | EmSetState s => Ok (em_set_state m s)
  | EmSetStretch s => Ok (em_set_stretch m s)
  | EmLoad t e => omap snd (em_Load m t e)
  | EmSlope t e => omap snd (em_Slope m t e)
  | EmStrain t y => omap snd (em_Strain m t y)
  | EmValidate w => omap snd (em_Validate w m)
  end.

(** The model after some calls. *)
Fixpoint em_run (m : ElongModel) (cs : list EmCall) : outcome ElongModel :=
  match cs with
  | [] => Ok m
  | c :: cs => do m <- em_call m c; em_run m cs
  end.

End Elongation.

Arguments StComponent : clear implicits.
Arguments StCable : clear implicits.
Arguments CableState : clear implicits.
Arguments StretchState : clear implicits.
Arguments Regions : clear implicits.
Arguments CompModel : clear implicits.
Arguments ElongModel : clear implicits.
Arguments Models : clear implicits.
Arguments Strainer : clear implicits.
Arguments CmCall : clear implicits.
Arguments EmCall : clear implicits.
