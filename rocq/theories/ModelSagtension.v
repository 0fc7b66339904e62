(** Model of CableConstraint (/repo/src/transmissionline/cable_constraint.cc), of the
    ruling span and the validation of LineCable (/repo/src/transmissionline/line_cable.cc)
    and of /repo/src/sagtension: LineCableLoaderBase, LineCableReloader, LineCableUnloader
    and LineCableSagger.

    A pointer to a line cable, cable, weather case or list of constraints is None (null)
    or the value it points to, so these are not changed by others while they are in use;
    the sagger keeps the line cable it changes.  A reloader or unloader of catenaries that
    points to elongation models of a loader sees them under the addresses below.  The members the queries of a stored catenary
    refresh are not written back, because a query computes the same value from the stale
    members.  Copies of the loaders, names and error messages are not modelled.  A double
    member that is read through a pointer is at a fixed address. *)
From Coq Require Import ZArith Bool List.
From Verif Require Import Num ModelBase ModelLine ModelCable ModelCatenary ModelSolver ModelLoad ModelThermal
  ModelElongation ModelReload.
Import ListNotations.
Open Scope num_scope.

Section Sagtension.
Context {N : Num}.

(** ** CableConstraint *)

(** cable_constraint.h and cable_condition_type.h: the enumerations *)
Inductive Condition : Type := CdNull | CdCreep | CdInitial | CdLoad.
Inductive LimitType : Type := LmNull | LmHorizontal | LmConstant | LmLength | LmSag | LmSupport.

(** cable_constraint.h: the members *)
Record Constraint : Type := mkConstraint {
  co_weather : option (WeatherLoadCase N);
  co_condition : Condition;
  co_limit : N;
  co_type : LimitType
}.

(** cable_constraint.cc 6-11 *)
Definition Constraint_default : Constraint := mkConstraint None CdNull ferr LmNull.

(** cable_constraint.cc 23-34, line_cable.cc 197-223 and line_cable_reloader.cc 103-115: a
    weather case by its pointer *)
Definition weather_valid (w : option (WeatherLoadCase N)) : bool :=
  match w with None => false | Some w => WeatherLoadCase_Validate w end.

(** The conditions and limit types that are not kNull. *)
Definition known_condition (c : Condition) : bool := match c with CdNull => false | _ => true end.
Definition known_limit (t : LimitType) : bool := match t with LmNull => false | _ => true end.

(** cable_constraint.cc 15-64 *)
Definition Constraint_Validate (c : Constraint) : bool :=
  weather_valid (co_weather c) && known_condition (co_condition c) && negb (co_limit c <? #0) && known_limit (co_type c).

(** ** LineCable *)

(** line_cable.h: the members besides the connections *)
Record Stringing : Type := mkStringing {
  sr_cable : option (Cable N);
  sr_constraint : Constraint;
  sr_spacing : Vector3d N;
  sr_creep : option (WeatherLoadCase N);
  sr_load : option (WeatherLoadCase N)
}.

(** line_cable.cc 17-21 *)
Definition Stringing_default : Stringing := mkStringing None Constraint_default Vector3d_default None None.

(** line_cable.cc set_constraint *)
Definition sr_set_constraint (s : Stringing) (c : Constraint) : Stringing :=
  mkStringing (sr_cable s) c (sr_spacing s) (sr_creep s) (sr_load s).

(** line_cable.cc 61-67 and line_cable_loader_base.cc 180-187: the unit load; the diameter is
    at address 0, the unit weight at address 1 *)
Definition unit_load (s : Stringing) (w : option (WeatherLoadCase N)) : outcome (Vector3d N) :=
  do cable <- deref (sr_cable s);
  do weather <- deref w;
  UnitCableLoad (fun a => if Z.eqb a 0 then cb_diameter cable else cb_weight cable)
    (ul_set_weight (ul_set_diameter UnitLoadSolver_new (Some 0%Z)) (Some 1%Z)) weather.

(** line_cable.cc 70-74 *)
Definition tension_solver (s : Stringing) (load : Vector3d N) : CatenarySolver N :=
  cs_set_weight (cs_set_value (cs_set_spacing CatenarySolver_default (sr_spacing s)) (co_limit (sr_constraint s))) load.

(** line_cable.cc 76-102: the horizontal tension *)
Definition constraint_tension (s : Stringing) (load : Vector3d N) : N :=
  let solver := tension_solver s load in
  match co_type (sr_constraint s) with
  | LmHorizontal => co_limit (sr_constraint s)
  | LmConstant => fst (cs_TensionHorizontal (cs_set_type solver TgConstant))
  | LmLength => fst (cs_TensionHorizontal (cs_set_type solver TgLength))
  | LmSag => fst (cs_TensionHorizontal (cs_set_type solver TgSag))
  | LmSupport =>
      fst (cs_TensionHorizontal
             (cs_set_position (cs_set_type solver TgTension) (if v3z (sr_spacing s) <=? #0 then #0 else #1)))
  | LmNull => fst (cs_TensionHorizontal solver)
  end.

(** line_cable.cc 56-104 *)
Definition CatenaryRulingSpan (s : Stringing) : outcome (Catenary3d N) :=
  do load <- unit_load s (co_weather (sr_constraint s));
  Ok (c3_set_tension (c3_set_weight (c3_set_spacing Catenary3d_default (sr_spacing s)) load) (constraint_tension s load)).

(** line_cable.cc 172-195 and line_cable_unloader.cc 55-78 *)
Definition attachments_valid (v : Vector3d N) : bool :=
  negb (v3x v <=? #0) && (v3y v =? #0) && negb (#2000 <? fabs (v3z v)).

(** line_cable.cc 154-223 *)
Definition Stringing_inputs_valid (s : Stringing) : bool :=
  match sr_cable s with None => false | Some c => Cable_Validate c end
  && Constraint_Validate (sr_constraint s) && attachments_valid (sr_spacing s)
  && weather_valid (sr_creep s) && weather_valid (sr_load s).

(** A line cable with its connections; [Env] holds the structures they point to. *)
Definition Strung : Type := LineCable N Stringing.

(** line_cable.cc 147-242: the result of ValidateConnections is not used (238) *)
Definition Strung_Validate (env : Env N) (l : Strung) : outcome bool :=
  if Stringing_inputs_valid (lc_payload l) then
    do c <- CatenaryRulingSpan (lc_payload l);
    do _ <- ValidateConnections env (lc_connections l);
    Ok (c3_Validate c)
  else Ok false.

(** line_cable_sagger.cc 222-223, 258-260: a copy with another constraint *)
Definition with_constraint (l : Strung) (c : Constraint) : Strung :=
  mkLC (lc_connections l) (sr_set_constraint (lc_payload l) c).

(** ** LineCableLoaderBase *)

(** The addresses of the elongation models of a loader: model_constraint_, model_creep_,
    model_load_ and model_reloaded_ of LineCableReloader or model_unloaded_ of
    LineCableUnloader. *)
Definition at_constraint : Z := 0%Z.
Definition at_creep : Z := 1%Z.
Definition at_load : Z := 2%Z.
Definition at_last : Z := 3%Z.

(** line_cable_loader_base.h: the members *)
Record Loader : Type := mkLoader {
  lb_cable : StCable N;
  lb_catenary : Catenary3d N;
  lb_upd_catenary : bool;
  lb_upd_stretch : bool;
  lb_line : option Strung;
  lb_model_constraint : ElongModel N;
  lb_model_creep : ElongModel N;
  lb_model_load : ElongModel N;
  lb_creep : StretchState N;
  lb_load : StretchState N
}.

(** line_cable_loader_base.cc 11-16 *)
Definition Loader_new : Loader :=
  mkLoader StCable_new Catenary3d_default false false None ElongModel_new ElongModel_new ElongModel_new
    StretchState_default StretchState_default.

(** The models by their addresses; [last] is the model of the derived class. *)
Definition lb_memory (b : Loader) (last : ElongModel N) : Models N :=
  fun a =>
    if Z.eqb a at_constraint then lb_model_constraint b
    else if Z.eqb a at_creep then lb_model_creep b
    else if Z.eqb a at_load then lb_model_load b
    else last.

(** Changes of the members. *)
Definition lb_with_models (b : Loader) (mem : Models N) : Loader :=
  mkLoader (lb_cable b) (lb_catenary b) (lb_upd_catenary b) (lb_upd_stretch b) (lb_line b)
    (mem at_constraint) (mem at_creep) (mem at_load) (lb_creep b) (lb_load b).
Definition lb_with_catenary (b : Loader) (c : Catenary3d N) : Loader :=
  mkLoader (lb_cable b) c (lb_upd_catenary b) (lb_upd_stretch b) (lb_line b)
    (lb_model_constraint b) (lb_model_creep b) (lb_model_load b) (lb_creep b) (lb_load b).
Definition lb_with_flags (b : Loader) (catenary stretch : bool) : Loader :=
  mkLoader (lb_cable b) (lb_catenary b) catenary stretch (lb_line b)
    (lb_model_constraint b) (lb_model_creep b) (lb_model_load b) (lb_creep b) (lb_load b).
Definition lb_with_creep (b : Loader) (s : StretchState N) : Loader :=
  mkLoader (lb_cable b) (lb_catenary b) (lb_upd_catenary b) (lb_upd_stretch b) (lb_line b)
    (lb_model_constraint b) (lb_model_creep b) (lb_model_load b) s (lb_load b).
Definition lb_with_load (b : Loader) (s : StretchState N) : Loader :=
  mkLoader (lb_cable b) (lb_catenary b) (lb_upd_catenary b) (lb_upd_stretch b) (lb_line b)
    (lb_model_constraint b) (lb_model_creep b) (lb_model_load b) (lb_creep b) s.

(** The cable of a line cable, by its pointer. *)
Definition cable_of (l : option Strung) : option (Cable N) :=
  match l with None => None | Some l => sr_cable (lc_payload l) end.

(** line_cable_loader_base.cc 97-109 *)
Definition lb_set_line (b : Loader) (l : option Strung) : Loader :=
  mkLoader (sg_set_base (cable_of l)) (lb_catenary b) false false l
    (lb_model_constraint b) (lb_model_creep b) (lb_model_load b) (lb_creep b) (lb_load b).

(** line_cable_loader_base.cc 175-178 *)
Definition lb_IsUpdated (b : Loader) : bool := lb_upd_catenary b && lb_upd_stretch b.

(** line_cable_loader_base.cc 342-350 *)
Definition UpdateConstraintCatenary (b : Loader) : outcome (bool * Loader) :=
  do l <- deref (lb_line b);
  do c <- CatenaryRulingSpan (lc_payload l);
  Ok (if c3_Validate c then (true, lb_with_catenary b (c3_after_Validate c)) else (false, b)).

(** set_cable, set_state and set_state_stretch on a model, e.g. line_cable_loader_base.cc 142-144 *)
Definition set_model (c : StCable N) (m : ElongModel N) (s : CableState N) (ss : StretchState N) : outcome (ElongModel N) :=
  do m <- em_set_cable m (Some c);
  Ok (em_set_stretch (em_set_state m s) ss).

(** line_cable_loader_base.cc 111-173; the result is not used by Update *)
Definition InitializeLineCableModels (b : Loader) : outcome Loader :=
  do l <- deref (lb_line b);
  let s := lc_payload l in
  do w <- deref (co_weather (sr_constraint s));
  let state := mkCableState (wl_temperature_cable w) PTLoadStrain in
  do stretch <- match co_condition (sr_constraint s) with
                | CdInitial => Ok (Some (mkStretchState #0 PTLoadStrain #0))
                | CdCreep => do w <- deref (sr_creep s); Ok (Some (mkStretchState (wl_temperature_cable w) PTCreep #0))
                | CdLoad => do w <- deref (sr_load s); Ok (Some (mkStretchState (wl_temperature_cable w) PTLoadStrain #0))
                | CdNull => Ok None
                end;
  match stretch with
  | None => Ok b
  | Some stretch =>
      do m0 <- set_model (lb_cable b) (lb_model_constraint b) state stretch;
      do w <- deref (sr_creep s);
      let t := wl_temperature_cable w in
      do m1 <- set_model (lb_cable b) (lb_model_creep b) (mkCableState t PTCreep) (mkStretchState t PTCreep #0);
      do w <- deref (sr_load s);
      let t := wl_temperature_cable w in
      do m2 <- set_model (lb_cable b) (lb_model_load b) (mkCableState t PTLoadStrain) (mkStretchState t PTLoadStrain #0);
      Ok (mkLoader (lb_cable b) (lb_catenary b) (lb_upd_catenary b) (lb_upd_stretch b) (lb_line b) m0 m1 m2
            (lb_creep b) (lb_load b))
  end.

(** line_cable_loader_base.cc 239-242: a reloader of the constraint catenary *)
Definition reloader_from : CatReloader N := rl_set_reference (rl_set_catenary CatReloader_new (Some 0%Z)) (Some at_constraint).

(** The variables of the search for the stretch of the constraint model. *)
Record Stretch : Type := mkStretch {
  sx_left : Point2d N;
  sx_right : Point2d N;
  sx_current : Point2d N;
  sx_iter : Z;
  sx_models : Models N;
  sx_reloader : CatReloader N
}.

(** line_cable_loader_base.cc 262-263: the average tension of the reloaded catenary.  The
    catenary and the unit weight the reloader points to are at address 0. *)
Definition average_reloaded (c : Catenary3d N) (w : Vector3d N) (mem : Models N) (r : CatReloader N)
    : outcome (N * (Models N * CatReloader N)) :=
  do (k, st) <- rl_CatenaryReloaded (fun _ => c) (fun _ => w) mem r;
  Ok (c3_TensionAverage k 100, st).

(** line_cable_loader_base.cc 269-271: another stretch load of the constraint model *)
Definition stretch_by (mem : Models N) (load : N) : Models N :=
  put mem at_constraint (em_set_stretch (mem at_constraint) (ss_with_load (em_stretch (mem at_constraint)) load)).

(** line_cable_loader_base.cc 269-274: the difference of the average tension and the stretch load *)
Definition stretch_gap (c : Catenary3d N) (w : Vector3d N) (mem : Models N) (r : CatReloader N) (load : N)
    : outcome (N * (Models N * CatReloader N)) :=
  do (t, st) <- average_reloaded c w (stretch_by mem load) (rl_set_reference r (Some at_constraint));
  Ok (t - load, st).

(** line_cable_loader_base.cc 302-326: the next left and right points *)
Definition next_stretch (l r current : Point2d N) : Point2d N * Point2d N :=
  if p2x current <? p2x l then (current, l)
  else if (p2x l <=? p2x current) && (p2x current <=? p2x r) then
    if p2y current <? #0 then (l, current)
    else if #0 <? p2y current then (current, r)
    else (l, r)
  else if p2x r <? p2x current then (r, current)
  else (l, r).

(** line_cable_loader_base.cc 287-328: one pass of the loop *)
Definition stretch_pass (c : Catenary3d N) (w : Vector3d N) (s : Stretch) : outcome Stretch :=
  let l := sx_left s in
  let r := sx_right s in
  let x := p2x l + ((#0 - p2y l) / ((p2y r - p2y l) / (p2x r - p2x l))) in
  do (y, st) <- stretch_gap c w (sx_models s) (sx_reloader s) x;
  let current := mkPoint2d x y in
  let '(l, r) := next_stretch l r current in
  Ok (mkStretch l r current (sx_iter s + 1) (fst st) (snd st)).

(** line_cable_loader_base.cc 285-286: whether the loop goes on *)
Definition stretch_on (s : Stretch) : bool :=
  (flit 1 (-2) <? fabs (p2y (sx_current s) - #0)) && (sx_iter s <? 100)%Z.

(** line_cable_loader_base.cc 285-329: at most 99 passes, so 100 is enough fuel *)
Fixpoint stretch_loop (fuel : nat) (c : Catenary3d N) (w : Vector3d N) (s : Stretch) : outcome Stretch :=
  match fuel with
  | O => Ok s
  | S fuel => if stretch_on s then do s <- stretch_pass c w s; stretch_loop fuel c w s else Ok s
  end.

(** line_cable_loader_base.cc 259-340: the search, with [a] the address of the stretch model *)
Definition SolveStretch (c : Catenary3d N) (w : Vector3d N) (strength : outcome N) (mem : Models N) (a : Z)
    : outcome (bool * Models N) :=
  let r := rl_set_weight (rl_set_reloaded reloader_from (Some a)) (Some 0%Z) in
  do (t, st) <- average_reloaded c w mem r;
  let left_ := mkPoint2d #0 (t - ss_load (em_stretch (mem at_constraint))) in
  do x <- strength;
  do (y, st) <- stretch_gap c w (fst st) (snd st) x;
  do s <- stretch_loop (Z.to_nat 100) c w (mkStretch left_ (mkPoint2d x y) Point2d_default 1 (fst st) (snd st));
  Ok (if (sx_iter s <? 100)%Z then (true, sx_models s) else (false, stretch_by (sx_models s) #0)).

(** line_cable_loader_base.cc 267: strength_rated of SagTensionCable *)
Definition strength_of (c : StCable N) : outcome N := do b <- deref (sg_base c); Ok (cb_strength b).

(** line_cable_loader_base.cc 220-340 *)
Definition UpdateConstraintCableModel (b : Loader) : outcome (bool * Loader) :=
  do l <- deref (lb_line b);
  let s := lc_payload l in
  let solve (weather : option (WeatherLoadCase N)) (a : Z) :=
    do w <- unit_load s weather;
    do (ok, mem) <- SolveStretch (lb_catenary b) w (strength_of (lb_cable b)) (lb_memory b ElongModel_new) a;
    Ok (ok, lb_with_models b mem) in
  match co_condition (sr_constraint s) with
  | CdInitial => Ok (true, b)
  | CdCreep => solve (sr_creep s) at_creep
  | CdLoad => solve (sr_load s) at_load
  | CdNull => Ok (false, b)
  end.

(** line_cable_loader_base.cc 366-381 and 388-403: the stretch state at a stretch case, or
    None if the catenary is not reloaded *)
Definition reloaded_stretch (c : Catenary3d N) (s : Stringing) (weather : option (WeatherLoadCase N)) (a : Z)
    (mem : Models N) (r : CatReloader N) : outcome (option (StretchState N) * (Models N * CatReloader N)) :=
  do w <- unit_load s weather;
  let r := rl_set_weight (rl_set_reloaded r (Some a)) (Some 0%Z) in
  do (ok, st) <- rl_Validate (fun _ => c) (fun _ => w) false mem r;
  if ok then
    do (t, st) <- average_reloaded c w (fst st) (snd st);
    let m := fst st a in
    Ok (Some (mkStretchState (st_temperature (em_state m)) (st_type (em_state m)) t), st)
  else Ok (None, st).

(** line_cable_loader_base.cc 361-382: the creep stretch *)
Definition UpdateCreep (b : Loader) (s : Stringing) (r : CatReloader N) : outcome (bool * (Loader * CatReloader N)) :=
  match co_condition (sr_constraint s) with
  | CdCreep => Ok (true, (lb_with_creep b (em_stretch (lb_model_constraint b)), r))
  | _ =>
      do (v, st) <- reloaded_stretch (lb_catenary b) s (sr_creep s) at_creep (lb_memory b ElongModel_new) r;
      let b := lb_with_models b (fst st) in
      match v with
      | Some v => Ok (true, (lb_with_creep b v, snd st))
      | None => Ok (false, (b, snd st))
      end
  end.
(** line_cable_loader_base.cc 384-404: the load stretch *)
Definition UpdateLoad (b : Loader) (s : Stringing) (r : CatReloader N) : outcome (bool * (Loader * CatReloader N)) :=
  match co_condition (sr_constraint s) with
  | CdLoad => Ok (true, (lb_with_load b (em_stretch (lb_model_constraint b)), r))
  | _ =>
      do (v, st) <- reloaded_stretch (lb_catenary b) s (sr_load s) at_load (lb_memory b ElongModel_new) r;
      let b := lb_with_models b (fst st) in
      match v with
      | Some v => Ok (true, (lb_with_load b v, snd st))
      | None => Ok (false, (b, snd st))
      end
  end.

(** line_cable_loader_base.cc 352-407 *)
Definition UpdateLoadStretch (b : Loader) : outcome (bool * Loader) :=
  do l <- deref (lb_line b);
  do (ok, st) <- UpdateCreep b (lc_payload l) reloader_from;
  if ok then
    do (ok, st) <- UpdateLoad (fst st) (lc_payload l) (snd st);
    Ok (ok, fst st)
  else Ok (false, fst st).

(** line_cable_loader_base.cc 189-211 *)
Definition lb_Update (b : Loader) : outcome (bool * Loader) :=
  do (ok, b) <- UpdateConstraintCatenary b;
  let b := lb_with_flags b ok (lb_upd_stretch b) in
  if ok then
    do b <- InitializeLineCableModels b;
    do (ok, b) <- UpdateConstraintCableModel b;
    let b := lb_with_flags b ok (lb_upd_stretch b) in
    if ok then
      do (ok, b) <- UpdateLoadStretch b;
      Ok (ok, lb_with_flags b (lb_upd_catenary b) ok)
    else Ok (false, b)
  else Ok (false, b).

(** line_cable_loader_base.cc 47-72: the checks before the update *)
Definition lb_inputs_valid (env : Env N) (b : Loader) : outcome bool :=
  do v1 <- sg_Validate (lb_cable b);
  do v2 <- match lb_line b with None => Ok false | Some l => Strung_Validate env l end;
  Ok (v1 && v2).

(** ** LineCableReloader *)

(** line_cable_reloader.h: the members *)
Record Reloader : Type := mkReloader {
  lr_base : Loader;
  lr_catenary : Catenary3d N;
  lr_condition : Condition;
  lr_model : ElongModel N;
  lr_upd_catenary : bool;
  lr_upd_model : bool;
  lr_weather : option (WeatherLoadCase N)
}.

(** line_cable_reloader.cc 8-14 *)
Definition Reloader_new : Reloader := mkReloader Loader_new Catenary3d_default CdNull ElongModel_new false false None.

(** Changes of the members. *)
Definition lr_with_base (r : Reloader) (b : Loader) : Reloader :=
  mkReloader b (lr_catenary r) (lr_condition r) (lr_model r) (lr_upd_catenary r) (lr_upd_model r) (lr_weather r).
Definition lr_with_flags (r : Reloader) (catenary model : bool) : Reloader :=
  mkReloader (lr_base r) (lr_catenary r) (lr_condition r) (lr_model r) catenary model (lr_weather r).
Definition lr_with_catenary (r : Reloader) (c : Catenary3d N) : Reloader :=
  mkReloader (lr_base r) c (lr_condition r) (lr_model r) (lr_upd_catenary r) (lr_upd_model r) (lr_weather r).
Definition lr_with_model (r : Reloader) (m : ElongModel N) : Reloader :=
  mkReloader (lr_base r) (lr_catenary r) (lr_condition r) m (lr_upd_catenary r) (lr_upd_model r) (lr_weather r).
Definition lr_with_models (r : Reloader) (mem : Models N) : Reloader :=
  lr_with_model (lr_with_base r (lb_with_models (lr_base r) mem)) (mem at_last).

(** line_cable_loader_base.cc 97-109 *)
Definition lr_set_line (r : Reloader) (l : option Strung) : Reloader := lr_with_base r (lb_set_line (lr_base r) l).
(** line_cable_reloader.cc 145-151 *)
Definition lr_set_condition (r : Reloader) (c : Condition) : Reloader :=
  mkReloader (lr_base r) (lr_catenary r) c (lr_model r) false false (lr_weather r).
(** line_cable_reloader.cc 153-159 *)
Definition lr_set_weather (r : Reloader) (w : option (WeatherLoadCase N)) : Reloader :=
  mkReloader (lr_base r) (lr_catenary r) (lr_condition r) (lr_model r) false false w.

(** line_cable_reloader.cc 165-169 *)
Definition lr_IsUpdated (r : Reloader) : bool := lb_IsUpdated (lr_base r) && lr_upd_model r && lr_upd_catenary r.

(** line_cable_reloader.cc 209-222 and line_cable_unloader.cc 192-205: the stretch state *)
Definition chosen_stretch (b : Loader) (c : Condition) : option (StretchState N) :=
  match c with
  | CdInitial => Some (mkStretchState #0 PTLoadStrain #0)
  | CdCreep => Some (lb_creep b)
  | CdLoad => Some (lb_load b)
  | CdNull => None
  end.

(** line_cable_reloader.cc 203-230 and line_cable_unloader.cc 186-213 after the temperature *)
Definition UpdateLastModel (b : Loader) (m : ElongModel N) (c : Condition) (t : N) : outcome (bool * ElongModel N) :=
  match chosen_stretch b c with
  | None => Ok (false, m)
  | Some s => do m <- set_model (lb_cable b) m (mkCableState t PTLoadStrain) s; Ok (true, m)
  end.

(** line_cable_reloader.cc 203-230 *)
Definition UpdateReloadedCableModel (r : Reloader) : outcome (bool * Reloader) :=
  do w <- deref (lr_weather r);
  do (ok, m) <- UpdateLastModel (lr_base r) (lr_model r) (lr_condition r) (wl_temperature_cable w);
  Ok (ok, lr_with_model r m).

(** line_cable_reloader.cc 232-249 *)
Definition UpdateReloadedCatenary (r : Reloader) : outcome (bool * Reloader) :=
  do l <- deref (lb_line (lr_base r));
  do w <- unit_load (lc_payload l) (lr_weather r);
  let cats := fun _ => lb_catenary (lr_base r) in
  let weights := fun _ => w in
  do (ok, st) <- rl_Validate cats weights false (lb_memory (lr_base r) (lr_model r))
                   (rl_set_weight (rl_set_reloaded reloader_from (Some at_last)) (Some 0%Z));
  if ok then
    do (c, st) <- rl_CatenaryReloaded cats weights (fst st) (snd st);
    Ok (true, lr_with_catenary (lr_with_models r (fst st)) c)
  else Ok (false, lr_with_models r (fst st)).

(** line_cable_reloader.cc 183-200: the update after that of the base class *)
Definition lr_Update_rest (r : Reloader) : outcome (bool * Reloader) :=
  do (ok, r) <-
    (if lr_upd_model r then Ok (true, r)
     else do (ok, r) <- UpdateReloadedCableModel r; Ok (ok, lr_with_flags r (lr_upd_catenary r) ok));
  if ok then
    if lr_upd_catenary r then Ok (true, r)
    else do (ok, r) <- UpdateReloadedCatenary r; Ok (ok, lr_with_flags r ok (lr_upd_model r))
  else Ok (false, r).

(** line_cable_reloader.cc 171-201 *)
Definition lr_Update (r : Reloader) : outcome (bool * Reloader) :=
  if lb_IsUpdated (lr_base r) then lr_Update_rest r
  else
    let r := lr_with_flags r false false in
    do (ok, b) <- lb_Update (lr_base r);
    let r := lr_with_base r b in
    if ok then lr_Update_rest r else Ok (false, r).

(** The start of the queries, e.g. line_cable_reloader.cc 20-23. *)
Definition lr_ensure (r : Reloader) : outcome (bool * Reloader) :=
  if lr_IsUpdated r then Ok (true, r) else lr_Update r.

(** line_cable_loader_base.cc 21-28 and 30-37 *)
Definition lr_StretchStateCreep (r : Reloader) : outcome (StretchState N * Reloader) :=
  do (ok, r) <- lr_ensure r; Ok (if ok then lb_creep (lr_base r) else StretchState_default, r).
Definition lr_StretchStateLoad (r : Reloader) : outcome (StretchState N * Reloader) :=
  do (ok, r) <- lr_ensure r; Ok (if ok then lb_load (lr_base r) else StretchState_default, r).
(** line_cable_reloader.cc 19-26 *)
Definition lr_CatenaryReloaded (r : Reloader) : outcome (Catenary3d N * Reloader) :=
  do (ok, r) <- lr_ensure r; Ok (if ok then lr_catenary r else Catenary3d_default, r).
(** line_cable_reloader.cc 28-35 *)
Definition lr_StateReloaded (r : Reloader) : outcome (CableState N * Reloader) :=
  do (ok, r) <- lr_ensure r;
  Ok (if ok then em_state (lr_model r) else CableState_default, r).
(** line_cable_reloader.cc 37-50 *)
Definition lr_TensionAverageComponent (r : Reloader) (t : ComponentType) : outcome (N * Reloader) :=
  do (ok, r) <- lr_ensure r;
  if ok then
    do (x, m) <- em_Strain (lr_model r) CTCombined (c3_TensionAverage (lr_catenary r) 100);
    do (y, m) <- em_Load m t x;
    Ok (y, lr_with_model r m)
  else Ok (ferr, r).
(** line_cable_reloader.cc 52-59 *)
Definition lr_TensionHorizontal (r : Reloader) : outcome (N * Reloader) :=
  do (ok, r) <- lr_ensure r; Ok (if ok then c3_tension_horizontal (lr_catenary r) else ferr, r).
(** line_cable_reloader.cc 64-79 *)
Definition lr_TensionHorizontalComponent (r : Reloader) (t : ComponentType) : outcome (N * Reloader) :=
  do (ok, r) <- lr_ensure r;
  if ok then
    do (x, r) <- lr_TensionAverageComponent r t;
    Ok (x * (c3_tension_horizontal (lr_catenary r) / c3_TensionAverage (lr_catenary r) 100), r)
  else Ok (ferr, r).

(** line_cable_loader_base.cc 39-91 on a reloader: Update is that of the reloader *)
Definition lr_base_Validate (env : Env N) (r : Reloader) : outcome (bool * Reloader) :=
  do v <- lb_inputs_valid env (lr_base r);
  if v then lr_Update r else Ok (false, r).

(** line_cable_reloader.cc 81-139; the warnings are only used for messages *)
Definition lr_Validate (env : Env N) (r : Reloader) : outcome (bool * Reloader) :=
  do (v, r) <- lr_base_Validate env r;
  if v && known_condition (lr_condition r) && weather_valid (lr_weather r) then lr_Update r else Ok (false, r).

(** Calls on a reloader. *)
Inductive LrCall : Type :=
| LrSetLine (l : option Strung) | LrSetCondition (c : Condition) | LrSetWeather (w : option (WeatherLoadCase N))
| LrStretchStateCreep | LrStretchStateLoad | LrCatenaryReloaded | LrStateReloaded
| LrTensionAverageComponent (t : ComponentType) | LrTensionHorizontal | LrTensionHorizontalComponent (t : ComponentType)
| LrValidate.

(** The state after a call. *)
Definition lr_call (env : Env N) (r : Reloader) (k : LrCall) : outcome Reloader :=
  match k with
  | LrSetLine l => Ok (lr_set_line r l)
  | LrSetCondition c => Ok (lr_set_condition r c)
  | LrSetWeather w => Ok (lr_set_weather r w)
  | LrStretchStateCreep => omap snd (lr_StretchStateCreep r)
  | LrStretchStateLoad => omap snd (lr_StretchStateLoad r)
  | LrCatenaryReloaded => omap snd (lr_CatenaryReloaded r)
  | LrStateReloaded => omap snd (lr_StateReloaded r)
  | LrTensionAverageComponent t => omap snd (lr_TensionAverageComponent r t)
  | LrTensionHorizontal => omap snd (lr_TensionHorizontal r)
  | LrTensionHorizontalComponent t => omap snd (lr_TensionHorizontalComponent r t)
  | LrValidate => omap snd (lr_Validate env r)
  end.

(** The state after some calls. *)
Fixpoint lr_run (env : Env N) (r : Reloader) (ks : list LrCall) : outcome Reloader :=
  match ks with
  | [] => Ok r
  | k :: ks => do r <- lr_call env r k; lr_run env r ks
  end.

(** ** LineCableUnloader *)

(** line_cable_unloader.h: the members *)
Record Unloader : Type := mkUnloader {
  lu_base : Loader;
  lu_condition : Condition;
  lu_upd_length : bool;
  lu_upd_model : bool;
  lu_length : N;
  lu_model : ElongModel N;
  lu_spacing : Vector3d N;
  lu_temperature : N
}.

(** line_cable_unloader.cc 10-19 *)
Definition Unloader_new : Unloader := mkUnloader Loader_new CdNull false false ferr ElongModel_new Vector3d_default ferr.

(** Changes of the members. *)
Definition lu_with_base (u : Unloader) (b : Loader) : Unloader :=
  mkUnloader b (lu_condition u) (lu_upd_length u) (lu_upd_model u) (lu_length u) (lu_model u) (lu_spacing u) (lu_temperature u).
Definition lu_with_flags (u : Unloader) (length model : bool) : Unloader :=
  mkUnloader (lu_base u) (lu_condition u) length model (lu_length u) (lu_model u) (lu_spacing u) (lu_temperature u).
Definition lu_with_length (u : Unloader) (x : N) : Unloader :=
  mkUnloader (lu_base u) (lu_condition u) (lu_upd_length u) (lu_upd_model u) x (lu_model u) (lu_spacing u) (lu_temperature u).
Definition lu_with_model (u : Unloader) (m : ElongModel N) : Unloader :=
  mkUnloader (lu_base u) (lu_condition u) (lu_upd_length u) (lu_upd_model u) (lu_length u) m (lu_spacing u) (lu_temperature u).
Definition lu_with_models (u : Unloader) (mem : Models N) : Unloader :=
  lu_with_model (lu_with_base u (lb_with_models (lu_base u) mem)) (mem at_last).

(** line_cable_loader_base.cc 97-109 *)
Definition lu_set_line (u : Unloader) (l : option Strung) : Unloader := lu_with_base u (lb_set_line (lu_base u) l).
(** line_cable_unloader.cc 117-123 *)
Definition lu_set_condition (u : Unloader) (c : Condition) : Unloader :=
  mkUnloader (lu_base u) c false false (lu_length u) (lu_model u) (lu_spacing u) (lu_temperature u).
(** line_cable_unloader.cc 125-130 *)
Definition lu_set_spacing (u : Unloader) (s : Vector3d N) : Unloader :=
  mkUnloader (lu_base u) (lu_condition u) false (lu_upd_model u) (lu_length u) (lu_model u) s (lu_temperature u).
(** line_cable_unloader.cc 132-138 *)
Definition lu_set_temperature (u : Unloader) (t : N) : Unloader :=
  mkUnloader (lu_base u) (lu_condition u) false false (lu_length u) (lu_model u) (lu_spacing u) t.

(** line_cable_unloader.cc 148-152 *)
Definition lu_IsUpdated (u : Unloader) : bool := lb_IsUpdated (lu_base u) && lu_upd_model u && lu_upd_length u.

(** line_cable_unloader.cc 186-213 *)
Definition UpdateUnloadedCableModel (u : Unloader) : outcome (bool * Unloader) :=
  do (ok, m) <- UpdateLastModel (lu_base u) (lu_model u) (lu_condition u) (lu_temperature u);
  Ok (ok, lu_with_model u m).

(** line_cable_unloader.cc 215-232; both models point to the cable of the loader *)
Definition UpdateUnloadedLength (u : Unloader) : outcome (bool * Unloader) :=
  let b := lu_base u in
  let cats := fun _ => c3_set_spacing (lb_catenary b) (lu_spacing u) in
  do n <- un_set_catenary cats CatUnloader_new (Some 0%Z);
  let n := un_set_unloaded (un_set_reference n (Some at_constraint)) (Some at_last) in
  do (ok, mem) <- un_Validate cats (fun _ _ => true) false (lb_memory b (lu_model u)) n;
  if ok then
    do (x, mem) <- un_LengthUnloaded mem n;
    Ok (true, lu_with_length (lu_with_models u mem) x)
  else Ok (false, lu_with_models u mem).

(** line_cable_unloader.cc 166-183 *)
Definition lu_Update_rest (u : Unloader) : outcome (bool * Unloader) :=
  do (ok, u) <-
    (if lu_upd_model u then Ok (true, u)
     else do (ok, u) <- UpdateUnloadedCableModel u; Ok (ok, lu_with_flags u (lu_upd_length u) ok));
  if ok then
    if lu_upd_length u then Ok (true, u)
    else do (ok, u) <- UpdateUnloadedLength u; Ok (ok, lu_with_flags u ok (lu_upd_model u))
  else Ok (false, u).

(** line_cable_unloader.cc 154-184 *)
Definition lu_Update (u : Unloader) : outcome (bool * Unloader) :=
  if lb_IsUpdated (lu_base u) then lu_Update_rest u
  else
    let u := lu_with_flags u false false in
    do (ok, b) <- lb_Update (lu_base u);
    let u := lu_with_base u b in
    if ok then lu_Update_rest u else Ok (false, u).

(** The start of the queries, e.g. line_cable_unloader.cc 25-28. *)
Definition lu_ensure (u : Unloader) : outcome (bool * Unloader) :=
  if lu_IsUpdated u then Ok (true, u) else lu_Update u.

(** line_cable_unloader.cc 24-31 *)
Definition lu_LengthUnloaded (u : Unloader) : outcome (N * Unloader) :=
  do (ok, u) <- lu_ensure u; Ok (if ok then lu_length u else ferr, u).
(** line_cable_loader_base.cc 21-28 and 30-37 *)
Definition lu_StretchStateCreep (u : Unloader) : outcome (StretchState N * Unloader) :=
  do (ok, u) <- lu_ensure u; Ok (if ok then lb_creep (lu_base u) else StretchState_default, u).
Definition lu_StretchStateLoad (u : Unloader) : outcome (StretchState N * Unloader) :=
  do (ok, u) <- lu_ensure u; Ok (if ok then lb_load (lu_base u) else StretchState_default, u).

(** line_cable_loader_base.cc 39-91 on an unloader *)
Definition lu_base_Validate (env : Env N) (u : Unloader) : outcome (bool * Unloader) :=
  do v <- lb_inputs_valid env (lu_base u);
  if v then lu_Update u else Ok (false, u).

(** line_cable_unloader.cc 33-111 *)
Definition lu_Validate (env : Env N) (u : Unloader) : outcome (bool * Unloader) :=
  do (v, u) <- lu_base_Validate env u;
  if v && known_condition (lu_condition u) && attachments_valid (lu_spacing u) && negb (lu_temperature u <? #(-50))
  then lu_Update u else Ok (false, u).

(** Calls on an unloader. *)
Inductive LuCall : Type :=
| LuSetLine (l : option Strung) | LuSetCondition (c : Condition) | LuSetSpacing (s : Vector3d N) | LuSetTemperature (t : N)
| LuStretchStateCreep | LuStretchStateLoad | LuLengthUnloaded | LuValidate.

(** The state after a call. *)
Definition lu_call (env : Env N) (u : Unloader) (k : LuCall) : outcome Unloader :=
  match k with
  | LuSetLine l => Ok (lu_set_line u l)
  | LuSetCondition c => Ok (lu_set_condition u c)
  | LuSetSpacing s => Ok (lu_set_spacing u s)
  | LuSetTemperature t => Ok (lu_set_temperature u t)
  | LuStretchStateCreep => omap snd (lu_StretchStateCreep u)
  | LuStretchStateLoad => omap snd (lu_StretchStateLoad u)
  | LuLengthUnloaded => omap snd (lu_LengthUnloaded u)
  | LuValidate => omap snd (lu_Validate env u)
  end.

(** The state after some calls. *)
Fixpoint lu_run (env : Env N) (u : Unloader) (ks : list LuCall) : outcome Unloader :=
  match ks with
  | [] => Ok u
  | k :: ks => do u <- lu_call env u k; lu_run env u ks
  end.

(** ** LineCableSagger *)

(** line_cable_sagger.h: the members.  The line cable the sagger points to is the value
    that the sagger has made of it. *)
Record Sagger : Type := mkSagger {
  sa_constraints : option (list Constraint);
  sa_line : option Strung;
  sa_catenaries : list (Catenary3d N);
  sa_index : Z;
  sa_updated : bool
}.

(** line_cable_sagger.cc 8-14 *)
Definition Sagger_new : Sagger := mkSagger None None [] (-9999) false.

(** line_cable_sagger.cc 156-161 *)
Definition sa_set_constraints (s : Sagger) (c : option (list Constraint)) : Sagger :=
  mkSagger c (sa_line s) (sa_catenaries s) (sa_index s) false.
(** line_cable_sagger.cc 163-167 *)
Definition sa_set_line (s : Sagger) (l : option Strung) : Sagger :=
  mkSagger (sa_constraints s) l (sa_catenaries s) (sa_index s) false.

(** std::vector::at with an int: a negative index is a large one *)
Definition vector_at {A : Type} (l : list A) (i : Z) : outcome A :=
  if (i <? 0)%Z then Throw else match nth_error l (Z.to_nat i) with Some x => Ok x | None => Throw end.

(** line_cable_sagger.cc 208-210 and 252-254: a reloader to the loading of the line cable *)
Definition reloader_to (c : Constraint) : Reloader :=
  lr_set_condition (lr_set_weather Reloader_new (co_weather c)) (co_condition c).

(** line_cable_sagger.cc 217-237: the loop; [i] is the index of the first constraint, [t] the
    tension of the controlling one so far *)
Fixpoint control_loop (line : Strung) (r : Reloader) (i : Z) (t : N) (index : Z) (cs : list Constraint)
    : outcome (option Z) :=
  match cs with
  | [] => Ok (Some index)
  | c :: cs =>
      do (h, r) <- lr_TensionHorizontal (lr_set_line r (Some (with_constraint line c)));
      if h =? ferr then Ok None
      else if h <? t then control_loop line r (i + 1) h i cs
      else control_loop line r (i + 1) t index cs
  end.

(** line_cable_sagger.cc 195-240: the index, or None for the failure *)
Definition UpdateControllingConstraintIndex (s : Sagger) : outcome (option Z) :=
  do cs <- deref (sa_constraints s);
  if Nat.eqb (length cs) 1 then Ok (Some 0%Z)
  else
    do line <- deref (sa_line s);
    control_loop line (reloader_to (sr_constraint (lc_payload line))) 0 #999999 (-9999) cs.

(** line_cable_sagger.cc 269-280: the limit of the line cable from the reloaded catenary *)
Definition reloaded_limit (c : Constraint) (k : Catenary3d N) : Constraint :=
  let limit := match co_type c with
               | LmHorizontal => c3_tension_horizontal k
               | LmConstant => c3_Constant k
               | LmSupport => c3_TensionMax k
               | _ => co_limit c
               end in
  mkConstraint (co_weather c) (co_condition c) limit (co_type c).

(** Changes of the members. *)
Definition sa_with_line (s : Sagger) (l : Strung) : Sagger :=
  mkSagger (sa_constraints s) (Some l) (sa_catenaries s) (sa_index s) (sa_updated s).
Definition sa_with_index (s : Sagger) (i : Z) : Sagger :=
  mkSagger (sa_constraints s) (sa_line s) (sa_catenaries s) i (sa_updated s).
Definition sa_with_flag (s : Sagger) (b : bool) : Sagger :=
  mkSagger (sa_constraints s) (sa_line s) (sa_catenaries s) (sa_index s) b.
Definition sa_with_catenaries (s : Sagger) (l : list (Catenary3d N)) : Sagger :=
  mkSagger (sa_constraints s) (sa_line s) l (sa_index s) (sa_updated s).

(** line_cable_sagger.cc 244-284.  The index after a failed search for the controlling
    constraint is not modelled: it is only used for a message then. *)
Definition UpdateLineCableConstraintLimit (env : Env N) (s : Sagger) : outcome (bool * Sagger) :=
  do index <- UpdateControllingConstraintIndex s;
  match index with
  | None => Ok (false, s)
  | Some i =>
      let s := sa_with_index s i in
      do line <- deref (sa_line s);
      do cs <- deref (sa_constraints s);
      do c <- vector_at cs i;
      let own := sr_constraint (lc_payload line) in
      do (v, r) <- lr_Validate env (lr_set_line (reloader_to own) (Some (with_constraint line c)));
      if v then
        do (k, r) <- lr_CatenaryReloaded r;
        Ok (true, sa_with_line s (with_constraint line (reloaded_limit own k)))
      else Ok (false, s)
  end.

(** line_cable_sagger.cc 292-309: the catenaries so far, and whether the loop ended *)
Fixpoint actual_loop (env : Env N) (r : Reloader) (cs : list Constraint) (ks : list (Catenary3d N))
    : outcome (bool * list (Catenary3d N)) :=
  match cs with
  | [] => Ok (true, ks)
  | c :: cs =>
      do (v, r) <- lr_Validate env (lr_set_condition (lr_set_weather r (co_weather c)) (co_condition c));
      if v then
        do (k, r) <- lr_CatenaryReloaded r;
        actual_loop env r cs (ks ++ [k])
      else Ok (false, ks)
  end.

(** line_cable_sagger.cc 286-310 *)
Definition UpdateCatenariesConstraintsActual (env : Env N) (s : Sagger) : outcome (bool * Sagger) :=
  do cs <- deref (sa_constraints s);
  do (ok, ks) <- actual_loop env (lr_set_line Reloader_new (sa_line s)) cs [];
  Ok (ok, sa_with_catenaries s ks).

(** line_cable_sagger.cc 173-190 *)
Definition sa_Update (env : Env N) (s : Sagger) : outcome (bool * Sagger) :=
  if sa_updated s then Ok (true, s)
  else
    do (ok, s) <- UpdateLineCableConstraintLimit env s;
    let s := sa_with_flag s ok in
    if ok then
      do (ok, s) <- UpdateCatenariesConstraintsActual env s;
      Ok (ok, sa_with_flag s ok)
    else Ok (false, s).

(** line_cable_sagger.cc 53-60 *)
Definition sa_IndexConstraintControlling (env : Env N) (s : Sagger) : outcome (Z * Sagger) :=
  do (ok, s) <- sa_Update env s; Ok (if ok then sa_index s else (-9999)%Z, s).
(** line_cable_sagger.cc 62-69 *)
Definition sa_LimitConstraint (env : Env N) (s : Sagger) : outcome (N * Sagger) :=
  do (ok, s) <- sa_Update env s;
  if ok then do l <- deref (sa_line s); Ok (co_limit (sr_constraint (lc_payload l)), s) else Ok (ferr, s).
(** line_cable_sagger.cc 43-51, 71-79, 81-89: a query of an actual catenary *)
Definition sa_actual (env : Env N) (q : Catenary3d N -> N) (s : Sagger) (i : Z) : outcome (N * Sagger) :=
  do (ok, s) <- sa_Update env s;
  if ok then do k <- vector_at (sa_catenaries s) i; Ok (q k, s) else Ok (ferr, s).
Definition sa_CatenaryConstantActual (env : Env N) : Sagger -> Z -> outcome (N * Sagger) := sa_actual env c3_Constant.
Definition sa_TensionHorizontalActual (env : Env N) : Sagger -> Z -> outcome (N * Sagger) :=
  sa_actual env c3_tension_horizontal.
Definition sa_TensionSupportActual (env : Env N) : Sagger -> Z -> outcome (N * Sagger) := sa_actual env c3_TensionMax.
(** line_cable_sagger.cc 19-41 *)
Definition sa_CapacityAllowable (env : Env N) (s : Sagger) (i : Z) : outcome (N * Sagger) :=
  do (ok, s) <- sa_Update env s;
  if ok then
    do cs <- deref (sa_constraints s);
    do c <- vector_at cs i;
    do k <- vector_at (sa_catenaries s) i;
    Ok (match co_type c with
        | LmHorizontal => c3_tension_horizontal k / co_limit c
        | LmConstant => c3_Constant k / co_limit c
        | LmSupport => c3_TensionMax k / co_limit c
        | _ => ferr
        end, s)
  else Ok (ferr, s).

(** line_cable_sagger.cc 91-145: the list of constraints is not tested for null (99) *)
Definition sa_Validate (env : Env N) (s : Sagger) : outcome (bool * Sagger) :=
  do cs <- deref (sa_constraints s);
  let v1 := forallb Constraint_Validate cs in
  do v2 <- match sa_line s with None => Ok false | Some l => Strung_Validate env l end;
  if v1 && v2 then sa_Update env s else Ok (false, s).

(** Calls on a sagger. *)
Inductive SaCall : Type :=
| SaSetConstraints (c : option (list Constraint)) | SaSetLine (l : option Strung)
| SaIndexConstraintControlling | SaLimitConstraint | SaCatenaryConstantActual (i : Z) | SaTensionHorizontalActual (i : Z)
| SaTensionSupportActual (i : Z) | SaCapacityAllowable (i : Z) | SaValidate.

(** The state after a call. *)
Definition sa_call (env : Env N) (s : Sagger) (k : SaCall) : outcome Sagger :=
  match k with
  | SaSetConstraints c => Ok (sa_set_constraints s c)
  | SaSetLine l => Ok (sa_set_line s l)
  | SaIndexConstraintControlling => omap snd (sa_IndexConstraintControlling env s)
  | SaLimitConstraint => omap snd (sa_LimitConstraint env s)
  | SaCatenaryConstantActual i => omap snd (sa_CatenaryConstantActual env s i)
  | SaTensionHorizontalActual i => omap snd (sa_TensionHorizontalActual env s i)
  | SaTensionSupportActual i => omap snd (sa_TensionSupportActual env s i)
  | SaCapacityAllowable i => omap snd (sa_CapacityAllowable env s i)
  | SaValidate => omap snd (sa_Validate env s)
  end.

(** The state after some calls. *)
Fixpoint sa_run (env : Env N) (s : Sagger) (ks : list SaCall) : outcome Sagger :=
  match ks with
  | [] => Ok s
  | k :: ks => do s <- sa_call env s k; sa_run env s ks
  end.

End Sagtension.

Arguments SaCall : clear implicits.
Arguments Constraint : clear implicits.
Arguments Stringing : clear implicits.
Arguments Strung : clear implicits.
Arguments Loader : clear implicits.
Arguments Stretch : clear implicits.
Arguments Reloader : clear implicits.
Arguments LrCall : clear implicits.
Arguments Unloader : clear implicits.
Arguments LuCall : clear implicits.
Arguments Sagger : clear implicits.
