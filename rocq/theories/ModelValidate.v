(** Model of the validation of a transmission line with its error messages:
    /repo/src/transmissionline/hardware.cc, structure.cc, line_structure.cc, alignment.cc,
    cable.cc, weather_load_case.cc, cable_constraint.cc, catenary.cc, line_cable.cc and
    transmission_line.cc.  The results without the messages are also modelled in
    ModelAlignment, ModelCable, ModelLoad, ModelCatenary, ModelSagtension and ModelLine.
    The parameter is_included_warnings is not used by any of these functions.
    No proofs in this file. *)
From Coq Require Import ZArith Bool List String.
From Verif Require Import Num ModelBase ModelAlignment ModelLine ModelCable ModelCatenary ModelLoad ModelSagtension.
Import ListNotations.
Open Scope string_scope.
Open Scope num_scope.

(** include/models/base/error_message.h 12-21 *)
Record Message : Type := mkMessage { em_description : string; em_title : string }.

(** The argument [std::list<ErrorMessage>* messages]; None is nullptr. *)
Definition Messages : Type := option (list Message).

(** [if (messages != nullptr) messages->push_back(message)], e.g. hardware.cc 28-31 *)
Definition push (title description : string) (m : Messages) : Messages :=
  match m with None => None | Some l => Some (l ++ [mkMessage description title])%list end.

(** is_valid and the messages while a Validate function runs *)
Definition Check : Type := bool * Messages.

(** One test, e.g. hardware.cc 26-32: a failed test clears is_valid and adds a message. *)
Definition test (title : string) (failed : bool) (description : string) (c : Check) : Check :=
  if failed then (false, push title description (snd c)) else c.

(** [if (x.Validate(is_included_warnings, messages) == false) is_valid = false], e.g.
    line_structure.cc 51-54 *)
Definition part (v : Messages -> Check) (c : Check) : Check :=
  let (ok, m) := v (snd c) in (if negb ok then false else fst c, m).

(** [x.Validate(is_included_warnings, messages);], the result is dropped, e.g.
    structure.cc 62 *)
Definition dropped (v : Messages -> Check) (c : Check) : Check := (fst c, snd (v (snd c))).

(** A loop over the elements of a container, e.g. structure.cc 60-63 *)
Fixpoint each {A : Type} (f : A -> Check -> Check) (l : list A) (c : Check) : Check :=
  match l with [] => c | a :: rest => each f rest (f a c) end.

Section Validate.
Context {N : Num}.

(** hardware.cc 6-12 *)
Definition Hardware_default : Hardware N := mkHardware ferr ferr HTNull ferr.

(** hardware.cc 17-62 *)
Definition Hardware_Validate (h : Hardware N) (m : Messages) : Check :=
  let t := "HARDWARE" in
  let c := (true, m) in
  let c := test t (hw_area_cross_section h <? #0) "Invalid cross sectional area" c in
  let c := test t (hw_length h <? #0) "Invalid length" c in
  let c := test t (match hw_type h with HTNull => true | _ => false end) "Invalid type" c in
  test t (hw_weight h <? #0) "Invalid weight" c.

(** structure.cc 6-10 *)
Definition StructureAttachment_default : StructureAttachment N := mkAttachment ferr ferr ferr.

(** structure.cc 15-33 *)
Definition StructureAttachment_Validate (a : StructureAttachment N) (m : Messages) : Check :=
  test "STRUCTURE ATTACHMENT" (sa_offset_vertical_top a <? #0) "Invalid vertical offset from top of structure" (true, m).

(** structure.cc 36-39 *)
Definition Structure_default : Structure N := mkStructure [] ferr.

(** structure.cc 44-90.  The result of the attachments (62) is dropped. *)
Definition Structure_Validate (s : Structure N) (m : Messages) : Check :=
  let t := "STRUCTURE" in
  let c := (true, m) in
  let c := match st_attachments s with
           | [] => test t true "No attachments defined" c
           | _ => each (fun a => dropped (StructureAttachment_Validate a)) (st_attachments s) c
           end in
  let c := test t (st_height s <=? #0) "Invalid height" c in
  each (fun a => test t (st_height s <? sa_offset_vertical_top a)
                   "Invalid attachment vertical offset. Exceeds structure height") (st_attachments s) c.

(** line_structure.cc 40-98 *)
Definition LineStructure_Validate (s : LineStructure N) (m : Messages) : Check :=
  let t := "LINE STRUCTURE" in
  let c := (true, m) in
  let c := each (fun h => match h with None => fun c => c | Some h => part (Hardware_Validate h) end) (ls_hardwares s) c in
  let c := test t (ls_height_adjustment s <? #0) "Invalid height adjustment" c in
  let c := test t (#360 <? fabs (ls_rotation s)) "Invalid rotation" c in
  let c := test t (ls_station s <? #0) "Invalid station" c in
  match ls_structure s with
  | None => test t true "Invalid structure" c
  | Some st => part (Structure_Validate st) c
  end.

(** alignment.cc 17-53 *)
Definition AlignmentPoint_report (p : AlignmentPoint N) (m : Messages) : Check :=
  let t := "ALIGNMENT POINT" in
  let c := (true, m) in
  let c := test t (ap_elevation p <? #0) "Invalid elevation" c in
  let c := test t (#360 <? fabs (ap_rotation p)) "Invalid rotation" c in
  test t (ap_station p <? #0) "Invalid station" c.

(** alignment.cc 155-179.  The message about the sorting (170-173) is composed but not
    added to the list, and is_valid is left alone. *)
Definition Alignment_report (points : list (AlignmentPoint N)) (m : Messages) : Check :=
  each (fun p => part (AlignmentPoint_report p)) points (true, m).

(** cable.cc 19-33: no tests *)
Definition CableComponent_report (c : CableComponent N) (m : Messages) : Check := (true, m).

(** cable.cc 48-89.  The results of the components (65, 68) are dropped. *)
Definition Cable_report (cable : Cable N) (m : Messages) : Check :=
  let t := "CABLE" in
  let c := (true, m) in
  let c := test t (cb_area cable <? #0) "Invalid physical area" c in
  let c := dropped (CableComponent_report (cb_core cable)) c in
  let c := dropped (CableComponent_report (cb_shell cable)) c in
  let c := test t (cb_diameter cable <=? #0) "Invalid diameter" c in
  test t (cb_weight cable <=? #0) "Invalid unit weight" c.

(** weather_load_case.cc 19-63 *)
Definition WeatherLoadCase_report (w : WeatherLoadCase N) (m : Messages) : Check :=
  let t := "WEATHER LOAD CASE" in
  let c := (true, m) in
  let c := test t (wl_density_ice w <? #0) "Invalid ice density" c in
  let c := test t (wl_pressure_wind w <? #0) "Invalid wind pressure" c in
  let c := test t (wl_temperature_cable w <? #(-50)) "Invalid cable temperature" c in
  test t (wl_thickness_ice w <? #0) "Invalid ice thickness" c.

(** A pointer that must not be null and whose target is validated, e.g.
    cable_constraint.cc 23-34 *)
Definition pointed {A : Type} (t description : string) (p : option A) (v : A -> Messages -> Check) (c : Check) : Check :=
  match p with None => test t true description c | Some a => part (v a) c end.

(** cable_constraint.cc 15-64 *)
Definition Constraint_report (k : Constraint N) (m : Messages) : Check :=
  let t := "CABLE CONSTRAINT" in
  let c := (true, m) in
  let c := pointed t "Invalid weather case" (co_weather k) WeatherLoadCase_report c in
  let c := test t (negb (known_condition (co_condition k))) "Invalid condition" c in
  let c := test t (co_limit k <? #0) "Invalid limit" c in
  test t (negb (known_limit (co_type k))) "Invalid limit type" c.

(** catenary.cc 293-349 and 472-494 *)
Definition Catenary2d_report (k : Catenary2d N) (m : Messages) : Check :=
  let t := "CATENARY 2D" in
  let c := (true, m) in
  let c := test t (c2_tension k <=? #0) "Invalid horizontal tension" c in
  let c := test t (c2_weight k <=? #0) "Invalid unit weight" c in
  let c := test t (v2x (c2_spacing k) <=? #0) "Invalid horizontal endpoint spacing" c in
  let c := test t ((#10000 <? fabs (v2y (c2_spacing k))) || (#2000 <=? fabs (v2y (c2_spacing k))))
             "Invalid vertical endpoint spacing" c in
  if negb (fst c) then c
  else part (fun m => test t (c2_Constant k <? c2_ConstantMinimum (Vector2d_Magnitude (c2_spacing k)))
                        ("Invalid H/w and endpoint spacing combination. " ++ "The H/w must be increased for this spacing")
                        (true, m)) c.

(** catenary.cc 787-872.  The update (857-862) does not fail. *)
Definition Catenary3d_report (k : Catenary3d N) (m : Messages) : Check :=
  let t := "CATENARY 3D" in
  let c := (true, m) in
  let c := test t (v3x (c3_spacing k) <=? #0) "Invalid horizontal endpoint spacing" c in
  let c := test t (negb (v3y (c3_spacing k) =? #0)) "Invalid transverse endpoint spacing. It must equal zero." c in
  let c := test t ((#10000 <? fabs (v3z (c3_spacing k))) || (#2000 <=? fabs (v3z (c3_spacing k))))
             "Invalid vertical endpoint spacing" c in
  let c := test t (negb (v3x (c3_weight k) =? #0)) "Invalid horizontal unit weight. It must equal zero" c in
  let c := test t (v3y (c3_weight k) <? #0) "Invalid transverse unit weight" c in
  let c := test t (v3z (c3_weight k) <=? #0) "Invalid vertical unit weight" c in
  if negb (fst c) then c else part (Catenary2d_report (c3_catenary_2d (c3_ensure k))) c.

(** line_cable.cc 260-286: the pass over the connections; [first] tells the front, an
    empty rest the back.  The failed type tests add a message and leave is_valid alone. *)
Fixpoint Connections_loop (env : Env N) (first : bool) (connections : list (Connection N)) (m : Messages) : outcome Messages :=
  match connections with
  | [] => Ok m
  | connection :: rest =>
      do structure <- deref env (cn_line_structure connection);
      do hardware <- vec_at (ls_hardwares structure) (cn_index_attachment connection);
      match hardware with
      | None => UB
      | Some h =>
          let terminal := first || match rest with [] => true | _ => false end in
          Connections_loop env false rest
            (match terminal, hw_type h with
             | true, DeadEnd => m
             | true, _ => push "LINE CABLE" "Terminal line cable connection does not have dead-end type hardware" m
             | false, Suspension => m
             | false, _ => push "LINE CABLE" "Interior line cable connection does not have suspension type hardware" m
             end)
      end
  end.

(** line_cable.cc 244-290 *)
Definition Connections_report (env : Env N) (connections : list (Connection N)) (m : Messages) : outcome Check :=
  if Nat.ltb (List.length connections) 2 then Ok (false, push "LINE CABLE" "Not enough connections" m)
  else do m <- Connections_loop env true connections m; Ok (true, m).

(** line_cable.cc 147-223: the tests before the ruling span is solved *)
Definition Stringing_report (s : Stringing N) (m : Messages) : Check :=
  let t := "LINE CABLE" in
  let c := (true, m) in
  let c := pointed t "Invalid cable" (sr_cable s) Cable_report c in
  let c := part (Constraint_report (sr_constraint s)) c in
  let c := test t (v3x (sr_spacing s) <=? #0) "Invalid horizontal ruling span attachment spacing" c in
  let c := test t (negb (v3y (sr_spacing s) =? #0)) "Invalid transverse ruling span attachment spacing" c in
  let c := test t (#2000 <? fabs (v3z (sr_spacing s))) "Invalid vertical ruling span attachment spacing" c in
  let c := pointed t "Invalid creep stretch weathercase" (sr_creep s) WeatherLoadCase_report c in
  pointed t "Invalid load stretch weathercase" (sr_load s) WeatherLoadCase_report c.

(** line_cable.cc 147-242.  The result of ValidateConnections (238) is dropped. *)
Definition LineCable_report (env : Env N) (l : Strung N) (m : Messages) : outcome Check :=
  let c := Stringing_report (lc_payload l) m in
  if negb (fst c) then Ok c
  else
    do k <- CatenaryRulingSpan (lc_payload l);
    let c := part (Catenary3d_report k) c in
    do d <- Connections_report env (lc_connections l) (snd c);
    Ok (fst c, snd d).

(** transmission_line.cc 480-486: the loop over the cables *)
Fixpoint LineCables_loop (env : Env N) (cables : list (Strung N)) (c : Check) : outcome Check :=
  match cables with
  | [] => Ok c
  | l :: rest =>
      do d <- LineCable_report env l (snd c);
      LineCables_loop env rest (if negb (fst d) then false else fst c, snd d)
  end.

(** transmission_line.cc 466-486 *)
Definition Line_parts (l : Line N (Stringing N)) (m : Messages) : outcome Check :=
  let c := (true, m) in
  let c := part (Alignment_report (tl_alignment l)) c in
  let c := each (fun s => part (LineStructure_Validate (snd s))) (tl_line_structures l) c in
  LineCables_loop (tl_line_structures l) (tl_line_cables l) c.

(** transmission_line.cc 459-499 *)
Definition Line_report (l : Line N (Stringing N)) (m : Messages) : Line N (Stringing N) * outcome Check :=
  match Line_parts l m with
  | Ok c =>
      match Update l with
      | (l1, Ok updated) => (l1, Ok (test "TRANSMISSION LINE" (negb updated) "Error updating class" c))
      | (l1, Throw) => (l1, Throw)
      | (l1, UB) => (l1, UB)
      end
  | Throw => (l, Throw)
  | UB => (l, UB)
  end.

End Validate.
