(** Model of cable_attachment_equilibrium_solver.cc and cable_position_locator.cc.

    Error messages are not modelled.  The catenaries and the unit weight do not change
    while the objects point to them; the caches of a catenary are not written back.  The
    transmission line is kept in the locator with its caches. *)
From Coq Require Import ZArith Bool List.
From Verif Require Import Num ModelBase ModelAlignment ModelLine ModelCatenary ModelThermal.
Import ListNotations.
Open Scope num_scope.

(** ** CableAttachmentEquilibriumSolver *)
Section Equilibrium.
Context {N : Num}.

(** cable_attachment_equilibrium_solver.h: the members *)
Record Equilibrium : Type := mkEquilibrium {
  ae_angle_catenaries : N;
  ae_angle_hardware : N;
  ae_angle : N;
  ae_ahead : option (Catenary3d N);
  ae_back : option (Catenary3d N);
  ae_direction : AxisDirectionType;
  ae_updated : bool;
  ae_cable : Vector3d N;
  ae_hardware : Vector3d N;
  ae_imbalance : Vector3d N
}.

(** cable_attachment_equilibrium_solver.cc 8-17 *)
Definition Equilibrium_new : Equilibrium :=
  mkEquilibrium ferr ferr ferr None None ADNull false Vector3d_default Vector3d_default Vector3d_default.

Definition ae_positive (d : AxisDirectionType) : bool := match d with ADPositive => true | _ => false end.

(** cable_attachment_equilibrium_solver.cc 133-166: the setters *)
Definition ae_set_angle_catenaries (s : Equilibrium) (a : N) : Equilibrium :=
  mkEquilibrium a (ae_angle_hardware s) (ae_angle s) (ae_ahead s) (ae_back s) (ae_direction s) false (ae_cable s) (ae_hardware s) (ae_imbalance s).
Definition ae_set_angle_hardware (s : Equilibrium) (a : N) : Equilibrium :=
  mkEquilibrium (ae_angle_catenaries s) a (ae_angle s) (ae_ahead s) (ae_back s) (ae_direction s) false (ae_cable s) (ae_hardware s) (ae_imbalance s).
Definition ae_set_ahead (s : Equilibrium) (c : option (Catenary3d N)) : Equilibrium :=
  mkEquilibrium (ae_angle_catenaries s) (ae_angle_hardware s) (ae_angle s) c (ae_back s) (ae_direction s) false (ae_cable s) (ae_hardware s) (ae_imbalance s).
Definition ae_set_back (s : Equilibrium) (c : option (Catenary3d N)) : Equilibrium :=
  mkEquilibrium (ae_angle_catenaries s) (ae_angle_hardware s) (ae_angle s) (ae_ahead s) c (ae_direction s) false (ae_cable s) (ae_hardware s) (ae_imbalance s).
Definition ae_set_direction (s : Equilibrium) (d : AxisDirectionType) : Equilibrium :=
  mkEquilibrium (ae_angle_catenaries s) (ae_angle_hardware s) (ae_angle s) (ae_ahead s) (ae_back s) d false (ae_cable s) (ae_hardware s) (ae_imbalance s).

(** cable_attachment_equilibrium_solver.cc 177-206: the sum of the tensions, in the
    coordinate system of the class *)
Definition cable_tension (angle : N) (d : AxisDirectionType) (back ahead : Catenary3d N) : Vector3d N :=
  let angle_rotate := (#180 - angle) / #2 in
  let tb := c3_TensionVector back #1 ADNegative in
  let tb := Vector3d_Rotate tb PlXy (if ae_positive d then angle_rotate * #(-1) else angle_rotate) in
  let ta := c3_TensionVector ahead #0 ADPositive in
  let ta := Vector3d_Rotate ta PlXy (if ae_positive d then angle_rotate else angle_rotate * #(-1)) in
  mkVector3d (v3x tb + v3x ta) (v3y tb + v3y ta) (v3z tb + v3z ta).

(** cable_attachment_equilibrium_solver.cc 208-221: the tension of the hardware *)
Definition hardware_tension (angle : N) (d : AxisDirectionType) (tension : N) : Vector3d N :=
  let h := Vector3d_Rotate (mkVector3d #0 #0 #1) PlZy (if ae_positive d then angle else #360 - angle) in
  Vector3d_Rotate (mkVector3d (v3x h * tension) (v3y h * tension) (v3z h * tension)) PlZy #180.

(** cable_attachment_equilibrium_solver.cc 168-235; it always returns true *)
Definition ae_Update (s : Equilibrium) : outcome Equilibrium :=
  do back <- deref (ae_back s);
  do ahead <- deref (ae_ahead s);
  let cable := cable_tension (ae_angle_catenaries s) (ae_direction s) back ahead in
  let hardware := hardware_tension (ae_angle_hardware s) (ae_direction s) (Vector3d_Magnitude cable) in
  let imbalance := mkVector3d (#(-1) * (v3x hardware + v3x cable)) (#(-1) * (v3y hardware + v3y cable))
                              (#(-1) * (v3z hardware + v3z cable)) in
  let angle := Vector3d_Angle cable PlZy false in
  let angle := if ae_positive (ae_direction s) then angle else #360 - angle in
  Ok (mkEquilibrium (ae_angle_catenaries s) (ae_angle_hardware s) angle (ae_ahead s) (ae_back s) (ae_direction s) true
        cable hardware imbalance).

(** cable_attachment_equilibrium_solver.cc 24 and 33: the update of the queries *)
Definition ae_ensure (s : Equilibrium) : outcome Equilibrium := if ae_updated s then Ok s else ae_Update s.
(** cable_attachment_equilibrium_solver.cc 22-29 *)
Definition ae_AngleEquilibrium (s : Equilibrium) : outcome (N * Equilibrium) :=
  do s <- ae_ensure s; Ok (ae_angle s, s).
(** cable_attachment_equilibrium_solver.cc 31-38 *)
Definition ae_TensionImbalance (s : Equilibrium) : outcome (N * Equilibrium) :=
  do s <- ae_ensure s; Ok (Vector3d_Magnitude (ae_imbalance s), s).

(** cable_attachment_equilibrium_solver.cc 49-96: the checks before the update *)
Definition catenary_valid (c : option (Catenary3d N)) : bool := match c with None => false | Some c => c3_Validate c end.
Definition ae_inputs_valid (s : Equilibrium) : bool :=
  negb ((ae_angle_catenaries s <? #0) || (#180 <? ae_angle_catenaries s)) &&
  negb ((ae_angle_hardware s <? #0) || (#180 <? ae_angle_hardware s)) &&
  catenary_valid (ae_ahead s) && catenary_valid (ae_back s) &&
  match ae_direction s with ADNull => false | _ => true end.

(** cable_attachment_equilibrium_solver.cc 40-108: the update is called for null catenaries, too *)
Definition ae_Validate (s : Equilibrium) : outcome (bool * Equilibrium) :=
  do s' <- ae_Update s; Ok (ae_inputs_valid s, s').

(** Calls on an equilibrium solver. *)
Inductive AeCall : Type :=
| AeSetAngleCatenaries (a : N) | AeSetAngleHardware (a : N) | AeSetAhead (c : option (Catenary3d N))
| AeSetBack (c : option (Catenary3d N)) | AeSetDirection (d : AxisDirectionType)
| AeAngleEquilibrium | AeTensionImbalance | AeValidate.

(** The state after a call. *)
Definition ae_call (s : Equilibrium) (k : AeCall) : outcome Equilibrium :=
  match k with
  | AeSetAngleCatenaries a => Ok (ae_set_angle_catenaries s a)
  | AeSetAngleHardware a => Ok (ae_set_angle_hardware s a)
  | AeSetAhead c => Ok (ae_set_ahead s c)
  | AeSetBack c => Ok (ae_set_back s c)
  | AeSetDirection d => Ok (ae_set_direction s d)
  | AeAngleEquilibrium => omap snd (ae_AngleEquilibrium s)
  | AeTensionImbalance => omap snd (ae_TensionImbalance s)
  | AeValidate => omap snd (ae_Validate s)
  end.

(** The state after some calls. *)
Fixpoint ae_run (s : Equilibrium) (ks : list AeCall) : outcome Equilibrium :=
  match ks with [] => Ok s | k :: ks => do s <- ae_call s k; ae_run s ks end.

End Equilibrium.

Arguments Equilibrium : clear implicits.
Arguments AeCall : clear implicits.

(** ** CablePositionLocator *)
Section Locator.
Context {N : Num} {P : Type}.

(** point.h: SphericalPoint3d *)
Record Spherical : Type := mkSpherical { sp_radius : N; sp_angle_x : N; sp_angle_z : N }.

(** cable_position_locator.h: the members *)
Record Locator : Type := mkLocator {
  pl_direction : AxisDirectionType;
  pl_hardwares : list (Hardware N);
  pl_index : Z;
  pl_updated : bool;
  pl_line : option (Line N P);
  pl_cable : list (Point3d N);
  pl_hardware : list Spherical;
  pl_structure : list (Point3d N);
  pl_size : Z;
  pl_tension : N;
  pl_weight : option (Vector3d N)
}.

(** cable_position_locator.cc 11-20 *)
Definition Locator_new : Locator := mkLocator ADNull [] (-9999) false None [] [] [] (-9999) ferr None.

(** cable_position_locator.cc 190-218: the setters *)
Definition pl_set_direction (s : Locator) (d : AxisDirectionType) : Locator :=
  mkLocator d (pl_hardwares s) (pl_index s) false (pl_line s) (pl_cable s) (pl_hardware s) (pl_structure s) (pl_size s) (pl_tension s) (pl_weight s).
Definition pl_set_index (s : Locator) (i : Z) : Locator :=
  mkLocator (pl_direction s) (pl_hardwares s) i false (pl_line s) (pl_cable s) (pl_hardware s) (pl_structure s) (pl_size s) (pl_tension s) (pl_weight s).
Definition pl_set_tension (s : Locator) (h : N) : Locator :=
  mkLocator (pl_direction s) (pl_hardwares s) (pl_index s) false (pl_line s) (pl_cable s) (pl_hardware s) (pl_structure s) (pl_size s) h (pl_weight s).
Definition pl_set_line (s : Locator) (l : option (Line N P)) : Locator :=
  mkLocator (pl_direction s) (pl_hardwares s) (pl_index s) false l (pl_cable s) (pl_hardware s) (pl_structure s) (pl_size s) (pl_tension s) (pl_weight s).
Definition pl_set_weight (s : Locator) (w : option (Vector3d N)) : Locator :=
  mkLocator (pl_direction s) (pl_hardwares s) (pl_index s) false (pl_line s) (pl_cable s) (pl_hardware s) (pl_structure s) (pl_size s) (pl_tension s) w.

(** vector::operator[]: undefined outside the vector *)
Definition vec_get {A : Type} (l : list A) (i : Z) : outcome A := next_deref l i.

(** cable_position_locator.cc 250-277: the points of the structure attachments and the
    hardwares, or None for the failure; and the line with its caches *)
Fixpoint connection_data (l : Line N P) (cs : list (Connection N))
    : outcome (option (list (Point3d N) * list (Hardware N)) * Line N P) :=
  match cs with
  | [] => Ok (Some ([], []), l)
  | c :: cs =>
      let index_structure := IndexLineStructure l (cn_line_structure c) in
      let '(l, p) := PointXyzLineStructureAttachment l index_structure (cn_index_attachment c) in
      do point <- p;
      if p3x point =? ferr then Ok (None, l)
      else
        do structure <- ModelLine.deref (tl_line_structures l) (cn_line_structure c);
        do hardware <- vec_at (ls_hardwares structure) (cn_index_attachment c);
        match hardware with
        | None => Ok (None, l)
        | Some h =>
            do (r, l) <- connection_data l cs;
            Ok (match r with None => None | Some (ps, hs) => Some (point :: ps, h :: hs) end, l)
        end
  end.

(** cable_position_locator.cc 318-347: the hardware point of an inner connection *)
Definition hardware_start (h : Hardware N) (back current ahead : Point3d N) : Spherical :=
  let vb := mkVector2d (p3x back - p3x current) (p3y back - p3y current) in
  let vb := Vector2d_Scale vb (#1 / Vector2d_Magnitude vb) in
  let va := mkVector2d (p3x ahead - p3x current) (p3y ahead - p3y current) in
  let va := Vector2d_Scale va (#1 / Vector2d_Magnitude va) in
  mkSpherical (hw_length h) (Vector2d_Angle (mkVector2d (v2x vb + v2x va) (v2y vb + v2y va)) false) #180.

(** cable_position_locator.cc 312-316: the hardware point of the first and the last connection *)
Definition hardware_end : Spherical := mkSpherical #0 #0 #0.

(** cable_position_locator.cc 307-349 after the first connection, [back] being the point of
    the previous one *)
Fixpoint hardware_points (back : Point3d N) (ps : list (Point3d N)) (hs : list (Hardware N)) : list Spherical :=
  match ps, hs with
  | current :: ((ahead :: _) as ps'), h :: hs' => hardware_start h back current ahead :: hardware_points current ps' hs'
  | [_], [_] => [hardware_end]
  | _, _ => []
  end.

(** cable_position_locator.cc 304-352 *)
Definition InitializePointsHardware (ps : list (Point3d N)) (hs : list (Hardware N)) : list Spherical :=
  match ps, hs with
  | p :: ps, _ :: hs => hardware_end :: hardware_points p ps hs
  | _, _ => []
  end.

(** cable_position_locator.cc 409-433: the cable point of a connection *)
Definition cable_point (structure : Point3d N) (h : Spherical) : Point3d N :=
  let ax := deg2rad (sp_angle_x h) in
  let az := deg2rad (sp_angle_z h) in
  mkPoint3d (sp_radius h * fcos ax * fsin az + p3x structure) (sp_radius h * fsin ax * fsin az + p3y structure)
    (sp_radius h * fcos az + p3z structure).

(** cable_position_locator.cc 406-437 *)
Fixpoint UpdatePointsCable (ps : list (Point3d N)) (hs : list Spherical) : list (Point3d N) :=
  match ps, hs with
  | p :: ps, h :: hs => cable_point p h :: UpdatePointsCable ps hs
  | _, _ => []
  end.

(** cable_position_locator.cc 442-450: a catenary of the loop *)
Definition span_catenary (d : AxisDirectionType) (h : N) (w : Vector3d N) : Catenary3d N :=
  c3_set_weight (c3_set_tension (c3_set_direction Catenary3d_default d) h) w.

(** cable_position_locator.cc 471-487: the spacing between two cable points *)
Definition span_spacing (a b : Point3d N) : Vector3d N :=
  mkVector3d (Vector2d_Magnitude (mkVector2d (p3x b - p3x a) (p3y b - p3y a))) #0 (p3z b - p3z a).

(** cable_position_locator.cc 466-534: the equilibrium of an inner connection; the angles of
    the points behind and ahead, seen from the current one *)
Definition angle_back (back current : Point3d N) : N :=
  Vector2d_Angle (mkVector2d (p3x back - p3x current) (p3y back - p3y current)) false.
Definition angle_ahead (current ahead : Point3d N) : N :=
  let v := mkVector2d (p3x ahead - p3x current) (p3y ahead - p3y current) in
  Vector2d_Angle (Vector2d_Scale v (#1 / Vector2d_Magnitude v)) false.

(** cable_position_locator.cc 491-514: the rotation of [vector_back] (506) is not used *)
Definition attachment_solver (c : Catenary3d N) (back current ahead : Point3d N) (angle_z : N) : Equilibrium N :=
  let angle := fabs (angle_ahead current ahead - angle_back back current) in
  let d := if angle <=? #180 then ADPositive else ADNegative in
  ae_set_direction
    (ae_set_ahead
       (ae_set_back (ae_set_angle_hardware (ae_set_angle_catenaries Equilibrium_new angle) angle_z)
          (Some (c3_set_spacing c (span_spacing back current))))
       (Some (c3_set_spacing c (span_spacing current ahead)))) d.

(** cable_position_locator.cc 457-535 after the first connection: the new hardware points and
    the largest imbalance so far.  The solver of the code is used for every connection, with
    all its inputs set. *)
Fixpoint hardware_loop (c : Catenary3d N) (back : Point3d N) (ps : list (Point3d N)) (hs : list Spherical) (imbalance : N)
    : outcome (list Spherical * N) :=
  match ps, hs with
  | current :: ((ahead :: _) as ps'), h :: hs' =>
      let solver := attachment_solver c back current ahead (sp_angle_z h) in
      do (angle, solver) <- ae_AngleEquilibrium solver;
      do (t, solver) <- ae_TensionImbalance solver;
      do (rest, imbalance) <- hardware_loop c current ps' hs' (if imbalance <? t then t else imbalance);
      Ok (mkSpherical (sp_radius h) (sp_angle_x h) angle :: rest, imbalance)
  | _, _ => Ok (hs, imbalance)
  end.

(** cable_position_locator.cc 439-538 *)
Definition UpdatePointsHardware (c : Catenary3d N) (ps : list (Point3d N)) (hs : list Spherical) : outcome (list Spherical * N) :=
  match ps, hs with
  | p :: ps, h :: hs => do (rest, imbalance) <- hardware_loop c p ps hs #0; Ok (h :: rest, imbalance)
  | _, _ => Ok (hs, #0)
  end.

(** cable_position_locator.cc 368-378: the loop; it makes at most 100 passes, so it never needs
    more fuel than [Z.to_nat 101] *)
Fixpoint position_loop (c : Catenary3d N) (structures : list (Point3d N)) (fuel : nat) (iter : Z) (imbalance : N)
    (cables : list (Point3d N)) (hs : list Spherical) : outcome (Z * list (Point3d N) * list Spherical) :=
  match fuel with
  | O => Ok (iter, cables, hs)
  | S fuel =>
      if (#5 <=? fabs imbalance) && (iter <? 100)%Z then
        do (hs, imbalance) <- UpdatePointsHardware c cables hs;
        position_loop c structures fuel (iter + 1) imbalance (UpdatePointsCable structures hs) hs
      else Ok (iter, cables, hs)
  end.

(** Changes of the members. *)
Definition pl_with (s : Locator) (u : bool) (l : Line N P) (size : Z) (hws : list (Hardware N))
    (structures cables : list (Point3d N)) (hs : list Spherical) : Locator :=
  mkLocator (pl_direction s) hws (pl_index s) u (Some l) cables hs structures size (pl_tension s) (pl_weight s).

(** cable_position_locator.cc 383-404, with 236-302 and 359-381.  The containers of a failed
    update are not modelled: they are initialized before they are used. *)
Definition pl_Update (s : Locator) : outcome (bool * Locator) :=
  do l <- deref (pl_line s);
  do cable <- next_deref (tl_line_cables l) (pl_index s);
  let size := Z.of_nat (length (lc_connections cable)) in
  do (data, l) <- connection_data l (lc_connections cable);
  match data with
  | None => Ok (false, pl_with s false l size [] [] [] [])
  | Some (structures, hws) =>
      let hs := InitializePointsHardware structures hws in
      let cables := UpdatePointsCable structures hs in
      do w <- deref (pl_weight s);
      do (iter, cables, hs) <-
        position_loop (span_catenary (pl_direction s) (pl_tension s) w) structures (Z.to_nat 101) 0 ferr cables hs;
      let ok := (iter <? 100)%Z in
      Ok (ok, pl_with s ok l size hws structures cables hs)
  end.

(** cable_position_locator.cc 31 and 87: the update of the queries *)
Definition pl_ensure (s : Locator) : outcome (bool * Locator) := if pl_updated s then Ok (true, s) else pl_Update s.

(** cable_position_locator.cc 59-79: the points of the loop *)
Fixpoint span_points (c : Catenary3d N) (back : Point3d N) (angle increment : N) (n : nat) (fraction : N) : list (Point3d N) :=
  match n with
  | O => []
  | S n =>
      let p := c3_Coordinate c fraction in
      let v := Vector2d_Rotate (mkVector2d (p3x p) (p3y p)) angle in
      mkPoint3d (p3x back + v2x v) (p3y back + v2y v) (p3z back + p3z p)
        :: span_points c back angle increment n (fraction + increment)
  end.

(** cable_position_locator.cc 25-82 *)
Definition PointsCable (s : Locator) (index num : Z) : outcome (list (Point3d N) * Locator) :=
  do (ok, s) <- pl_ensure s;
  if negb ok then Ok ([], s)
  else if (index <? 0)%Z || (pl_size s - 1 <? index)%Z then Ok ([], s)
  else
    do back <- vec_get (pl_cable s) index;
    do ahead <- vec_get (pl_cable s) (index + 1);
    let v := mkVector2d (p3x ahead - p3x back) (p3y ahead - p3y back) in
    do w <- deref (pl_weight s);
    let c := c3_set_weight (c3_set_tension (c3_set_spacing (c3_set_direction Catenary3d_default (pl_direction s))
               (mkVector3d (Vector2d_Magnitude v) #0 (p3z ahead - p3z back))) (pl_tension s)) w in
    let increment := #1 / (#num - #1) in
    Ok (span_points c back (Vector2d_Angle v false) increment (Z.to_nat num) #0, s).

(** cable_position_locator.cc 84-93; [None] is nullptr *)
Definition PointsCableAttachment (s : Locator) : outcome (option (list (Point3d N)) * Locator) :=
  do (ok, s) <- pl_ensure s; Ok (if ok then Some (pl_cable s) else None, s).

(** cable_position_locator.cc 95-180: the update is called for a null line or weight, too.
    [parts] is the outcome of validating the parts of the line, see [Line_Validate]. *)
Definition pl_Validate (parts : outcome bool) (s : Locator) : outcome (bool * Locator) :=
  let v1 := match pl_direction s with ADNull => false | _ => true end in
  let v2 := negb (pl_index s <? 0)%Z in
  do (v3, s) <- match pl_line s with
                | None => Ok (false, s)
                | Some l => let '(l, r) := Line_Validate l parts in
                            do v <- r;
                            Ok (v, mkLocator (pl_direction s) (pl_hardwares s) (pl_index s) (pl_updated s) (Some l) (pl_cable s)
                                     (pl_hardware s) (pl_structure s) (pl_size s) (pl_tension s) (pl_weight s))
                end;
  let v4 := negb (pl_tension s <=? #0) in
  let v5 := match pl_weight s with
            | None => false
            | Some w => (v3x w =? #0) && negb (v3y w <? #0) && negb (v3z w <=? #0)
            end in
  do (ok, s) <- pl_Update s;
  Ok (v1 && v2 && v3 && v4 && v5 && ok, s).

(** Calls on a locator. *)
Inductive PlCall : Type :=
| PlSetDirection (d : AxisDirectionType) | PlSetIndex (i : Z) | PlSetTension (h : N) | PlSetLine (l : option (Line N P))
| PlSetWeight (w : option (Vector3d N)) | PlPointsCable (index num : Z) | PlPointsCableAttachment | PlValidate (parts : outcome bool).

(** The state after a call. *)
Definition pl_call (s : Locator) (k : PlCall) : outcome Locator :=
  match k with
  | PlSetDirection d => Ok (pl_set_direction s d)
  | PlSetIndex i => Ok (pl_set_index s i)
  | PlSetTension h => Ok (pl_set_tension s h)
  | PlSetLine l => Ok (pl_set_line s l)
  | PlSetWeight w => Ok (pl_set_weight s w)
  | PlPointsCable index num => omap snd (PointsCable s index num)
  | PlPointsCableAttachment => omap snd (PointsCableAttachment s)
  | PlValidate parts => omap snd (pl_Validate parts s)
  end.

(** The state after some calls. *)
Fixpoint pl_run (s : Locator) (ks : list PlCall) : outcome Locator :=
  match ks with [] => Ok s | k :: ks => do s <- pl_call s k; pl_run s ks end.

End Locator.

Arguments Spherical : clear implicits.
Arguments Locator : clear implicits.
Arguments PlCall : clear implicits.
