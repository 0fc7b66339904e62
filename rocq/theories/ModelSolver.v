(** Model of /repo/src/transmissionline/catenary_solver.cc (CatenarySolver).

    The object holds a Catenary3d whose tension the solution writes; the catenary
    is threaded through every step.  Error messages are not modelled. *)
From Coq Require Import ZArith Bool List.
From Verif Require Import Num ModelBase ModelCatenary.
Import ListNotations.
Open Scope num_scope.

(** catenary_solver.h 41-47 *)
Inductive TargetType : Type := TgConstant | TgLength | TgNull | TgSag | TgTension.

Section Solver.
Context {N : Num}.

(** catenary_solver.h: the members *)
Record CatenarySolver : Type := mkCatenarySolver {
  cs_catenary : Catenary3d N;
  cs_is_updated : bool;
  cs_position : N;
  cs_type : TargetType;
  cs_value : N
}.

(** catenary_solver.cc 8-15 *)
Definition CatenarySolver_default : CatenarySolver :=
  mkCatenarySolver Catenary3d_default false #(-1) TgNull ferr.

(** catenary_solver.cc 495-502: the result and the catenary afterwards *)
Definition UpdateCatenaryLength (c : Catenary3d N) (h : N) : N * Catenary3d N :=
  let c := c3_set_tension c h in
  (c3_Length c, c3_after c true).

(** catenary_solver.cc 504-516 *)
Definition UpdateCatenarySag (position : N) (c : Catenary3d N) (h : N) : N * Catenary3d N :=
  let c := c3_set_tension c h in
  (if position =? #(-1) then c3_Sag c else c3_SagAt c position, c3_after c true).

(** catenary_solver.cc 518-530 *)
Definition UpdateCatenaryTension (position : N) (c : Catenary3d N) (h : N) : N * Catenary3d N :=
  let c := c3_set_tension c h in
  (if position =? #(-1) then c3_TensionMax c else c3_Tension c position, c3_after c true).

(** The variables of the loop. *)
Record LoopState : Type := mkLoopState {
  lo_left : Point2d N;
  lo_right : Point2d N;
  lo_current : Point2d N;
  lo_iter : Z;
  lo_catenary : Catenary3d N
}.

(** catenary_solver.cc 246-280: one pass of the loop.  Lines 327-361 and 409-443 are
    the same code with another Update function. *)
Definition solve_pass (update : Catenary3d N -> N -> N * Catenary3d N) (target : N) (s : LoopState) : LoopState :=
  let l := lo_left s in
  let r := lo_right s in
  let slope_line := (p2y r - p2y l) / (p2x r - p2x l) in
  let x := p2x l + ((target - p2y l) / slope_line) in
  let '(y, catenary) := update (lo_catenary s) x in
  let current := mkPoint2d x y in
  let '(l, r) :=
    if x <? p2x l then (current, l)
    else if (p2x l <? x) && (x <? p2x r) then
      if y <? target then (l, current)
      else if target <? y then (current, r)
      else (l, r)
    else if p2x r <? x then (r, current)
    else (l, r) in
  mkLoopState l r current (lo_iter s + 1) catenary.

(** catenary_solver.cc 245: the loop.  It makes at most 101 passes, so it never needs
    more fuel than [Z.to_nat 102]. *)
Fixpoint solve_loop (update : Catenary3d N -> N -> N * Catenary3d N) (target : N) (fuel : nat) (s : LoopState) : LoopState :=
  match fuel with
  | O => s
  | S fuel =>
      if (flit 1 (-2) <? fabs (p2x (lo_left s) - p2x (lo_right s))) && (lo_iter s <=? 100)%Z
      then solve_loop update target fuel (solve_pass update target s)
      else s
  end.

(** catenary_solver.cc 239-290: the loop from the first two points, and the result *)
Definition solve_between (update : Catenary3d N -> N -> N * Catenary3d N) (target : N)
    (left right : Point2d N) (c : Catenary3d N) : bool * Catenary3d N :=
  let s := solve_loop update target (Z.to_nat 102) (mkLoopState left right Point2d_default 0 c) in
  if (lo_iter s <? 100)%Z then (true, c3_set_tension (lo_catenary s) (p2x (lo_current s)))
  else (false, c3_set_tension (lo_catenary s) ferr).

(** catenary_solver.cc 219-221: the lowest acceptable tension *)
Definition tension_minimum (c : Catenary3d N) : N :=
  c2_ConstantMinimum (Vector3d_Magnitude (c3_spacing c)) * Vector3d_Magnitude (c3_weight c).

(** catenary_solver.cc 198-205 *)
Definition SolveFromConstant (value : N) (c : Catenary3d N) : bool * Catenary3d N :=
  (true, c3_set_tension c (value * Vector3d_Magnitude (c3_weight c))).

(** catenary_solver.cc 209-291 *)
Definition SolveFromLength (value : N) (c : Catenary3d N) : bool * Catenary3d N :=
  let xl := tension_minimum c in
  let '(yl, c) := UpdateCatenaryLength c xl in
  if value <=? Vector3d_Magnitude (c3_spacing c) then (false, c)
  else if yl <? value then (false, c)
  else
    let xr := xl * flit 110 (-2) in
    let '(yr, c) := UpdateCatenaryLength c xr in
    solve_between UpdateCatenaryLength value (mkPoint2d xl yl) (mkPoint2d xr yr) c.

(** catenary_solver.cc 295-372 *)
Definition SolveFromSag (position value : N) (c : Catenary3d N) : bool * Catenary3d N :=
  let xl := tension_minimum c in
  let '(yl, c) := UpdateCatenarySag position c xl in
  if yl <? value then (false, c)
  else
    let xr := xl * flit 110 (-2) in
    let '(yr, c) := UpdateCatenarySag position c xr in
    solve_between (UpdateCatenarySag position) value (mkPoint2d xl yl) (mkPoint2d xr yr) c.

(** catenary_solver.cc 376-454 *)
Definition SolveFromTension (position value : N) (c : Catenary3d N) : bool * Catenary3d N :=
  let xl := tension_minimum c in
  let '(yl, c) := UpdateCatenaryTension position c xl in
  if value <? yl then (false, c)
  else
    let xr := value in
    let '(yr, c) := UpdateCatenaryTension position c xr in
    solve_between (UpdateCatenaryTension position) value (mkPoint2d xl yl) (mkPoint2d xr yr) c.

Definition cs_with (s : CatenarySolver) (c : Catenary3d N) (u : bool) : CatenarySolver :=
  mkCatenarySolver c u (cs_position s) (cs_type s) (cs_value s).

(** catenary_solver.cc 456-493: the result and the object afterwards *)
Definition cs_Update (s : CatenarySolver) : bool * CatenarySolver :=
  let finish (r : bool * Catenary3d N) :=
    let '(is_updated, c) := r in
    if is_updated then (c3_Validate c, cs_with s (c3_after_Validate c) true)
    else (false, cs_with s c false) in
  match cs_type s with
  | TgConstant => finish (SolveFromConstant (cs_value s) (cs_catenary s))
  | TgLength => finish (SolveFromLength (cs_value s) (cs_catenary s))
  | TgSag => finish (SolveFromSag (cs_position s) (cs_value s) (cs_catenary s))
  | TgTension => finish (SolveFromTension (cs_position s) (cs_value s) (cs_catenary s))
  | TgNull => (false, s)
  end.

(** catenary_solver.cc 22 and 31: whether the query can answer, and the object afterwards *)
Definition cs_ensure (s : CatenarySolver) : bool * CatenarySolver :=
  if cs_is_updated s then (true, s) else cs_Update s.

(** catenary_solver.cc 20-27 *)
Definition cs_Catenary (s : CatenarySolver) : Catenary3d N * CatenarySolver :=
  let '(b, s) := cs_ensure s in
  (if b then cs_catenary s else Catenary3d_default, s).

(** catenary_solver.cc 29-36 *)
Definition cs_TensionHorizontal (s : CatenarySolver) : N * CatenarySolver :=
  let '(b, s) := cs_ensure s in
  (if b then c3_tension_horizontal (cs_catenary s) else ferr, s).

(** catenary_solver.cc 38-133: the checks before the update *)
Definition cs_inputs_valid (s : CatenarySolver) : bool :=
  let sp := c3_spacing (cs_catenary s) in
  let w := c3_weight (cs_catenary s) in
  ((cs_position s =? #(-1)) || negb ((cs_position s <? #0) || (#1 <? cs_position s)))
  && negb (v3x sp <=? #0) && (v3y sp =? #0) && negb (#2000 <? fabs (v3z sp))
  && (match cs_type s with TgNull => false | _ => true end)
  && negb (cs_value s <=? #0)
  && (v3x w =? #0) && negb (v3y w <? #0) && negb (v3z w <=? #0).

(** catenary_solver.cc 38-147 *)
Definition cs_Validate (s : CatenarySolver) : bool * CatenarySolver :=
  if cs_inputs_valid s then cs_Update s else (false, s).

(** catenary_solver.cc 153-176 *)
Definition cs_set_position (s : CatenarySolver) (p : N) : CatenarySolver :=
  mkCatenarySolver (cs_catenary s) false p (cs_type s) (cs_value s).
Definition cs_set_spacing (s : CatenarySolver) (v : Vector3d N) : CatenarySolver :=
  cs_with s (c3_set_spacing (cs_catenary s) v) false.
Definition cs_set_type (s : CatenarySolver) (t : TargetType) : CatenarySolver :=
  mkCatenarySolver (cs_catenary s) false (cs_position s) t (cs_value s).
Definition cs_set_value (s : CatenarySolver) (v : N) : CatenarySolver :=
  mkCatenarySolver (cs_catenary s) false (cs_position s) (cs_type s) v.
Definition cs_set_weight (s : CatenarySolver) (v : Vector3d N) : CatenarySolver :=
  cs_with s (c3_set_weight (cs_catenary s) v) false.

(** A history of calls; the getters change nothing. *)
Inductive SolverCall : Type :=
| ScSetPosition (p : N) | ScSetSpacing (v : Vector3d N) | ScSetType (t : TargetType)
| ScSetValue (v : N) | ScSetWeight (v : Vector3d N)
| ScCatenary | ScTensionHorizontal | ScValidate.

Definition cs_call (s : CatenarySolver) (k : SolverCall) : CatenarySolver :=
  match k with
  | ScSetPosition p => cs_set_position s p
  | ScSetSpacing v => cs_set_spacing s v
  | ScSetType t => cs_set_type s t
  | ScSetValue v => cs_set_value s v
  | ScSetWeight v => cs_set_weight s v
  | ScCatenary => snd (cs_Catenary s)
  | ScTensionHorizontal => snd (cs_TensionHorizontal s)
  | ScValidate => snd (cs_Validate s)
  end.

Definition cs_run (s : CatenarySolver) (ks : list SolverCall) : CatenarySolver := fold_left cs_call ks s.

End Solver.

Arguments CatenarySolver : clear implicits.
Arguments LoopState : clear implicits.
Arguments SolverCall : clear implicits.
