(** Model of /repo/src/sagtension: CableStrainer::Validate, CatenaryCableUnloader and
    CatenaryCableReloader.

    The catenaries, elongation models and unit weights of the clients live in memories;
    a pointer is None (null) or an address.  The queries on a catenary of the clients
    refresh its cached members; they are not written back here, because a query computes
    the same value from the stale members.  The members the queries of elongation models
    change are written back.  Copies of the objects and error messages are not modelled. *)
From Coq Require Import ZArith Bool List.
From Verif Require Import Num ModelBase ModelCatenary ModelSolver ModelThermal ModelElongation.
Import ListNotations.
Open Scope num_scope.

Section Reload.
Context {N : Num}.

(** The catenaries and the unit weights of the clients. *)
Definition Cats : Type := Z -> Catenary3d N.
Definition Weights : Type := Z -> Vector3d N.

(** ** CableStrainer *)

(** cable_strainer.cc 124-147 *)
Definition cr_set_length (s : Strainer N) (x : N) : Strainer N :=
  mkStrainer x (cr_load_finish s) (cr_load_start s) (cr_finish s) (cr_start s).
Definition cr_set_load_finish (s : Strainer N) (x : N) : Strainer N :=
  mkStrainer (cr_length s) x (cr_load_start s) (cr_finish s) (cr_start s).
Definition cr_set_load_start (s : Strainer N) (x : N) : Strainer N :=
  mkStrainer (cr_length s) (cr_load_finish s) x (cr_finish s) (cr_start s).
Definition cr_set_finish (s : Strainer N) (p : option Z) : Strainer N :=
  mkStrainer (cr_length s) (cr_load_finish s) (cr_load_start s) p (cr_start s).
Definition cr_set_start (s : Strainer N) (p : option Z) : Strainer N :=
  mkStrainer (cr_length s) (cr_load_finish s) (cr_load_start s) (cr_finish s) p.

(** cable_strainer.cc 44-102.  [same a b] tells whether the models at the addresses [a]
    and [b] point to one and the same cable object (line 85); the elongation models keep
    copies of the cables, so the addresses of the cables are not part of the model. *)
Definition cr_Validate (same : Z -> Z -> bool) (warn : bool) (mem : Models N) (s : Strainer N) : outcome (bool * Models N) :=
  if cr_inputs_valid s then
    do a <- deref (cr_start s);
    do b <- deref (cr_finish s);
    do (v1, ma) <- em_Validate warn (mem a);
    let mem := put mem a ma in
    if v1 then
      do (v2, mb) <- em_Validate warn (mem b);
      Ok (same a b && v2, put mem b mb)
    else Ok (false, mem)
  else Ok (false, mem).

(** ** CatenaryCableUnloader *)

(** catenary_cable_unloader.h: the members *)
Record CatUnloader : Type := mkCatUnloader {
  un_catenary : option Z;
  un_strainer : Strainer N
}.

(** catenary_cable_unloader.cc 6-10 *)
Definition CatUnloader_new : CatUnloader := mkCatUnloader None (cr_set_load_finish Strainer_new #0).

(** catenary_cable_unloader.cc 60-65 *)
Definition un_set_catenary (cats : Cats) (u : CatUnloader) (p : option Z) : outcome CatUnloader :=
  do a <- deref p;
  Ok (mkCatUnloader p (cr_set_load_start (cr_set_length (un_strainer u) (c3_Length (cats a)))
                         (c3_TensionAverage (cats a) 100))).
(** catenary_cable_unloader.cc 67-75 *)
Definition un_set_reference (u : CatUnloader) (p : option Z) : CatUnloader :=
  mkCatUnloader (un_catenary u) (cr_set_start (un_strainer u) p).
Definition un_set_unloaded (u : CatUnloader) (p : option Z) : CatUnloader :=
  mkCatUnloader (un_catenary u) (cr_set_finish (un_strainer u) p).

(** catenary_cable_unloader.cc 15-17 *)
Definition un_LengthUnloaded (mem : Models N) (u : CatUnloader) : outcome (N * Models N) :=
  LengthFinish mem (un_strainer u).

(** catenary_cable_unloader.cc 19-46 *)
Definition un_Validate (cats : Cats) (same : Z -> Z -> bool) (warn : bool) (mem : Models N) (u : CatUnloader)
    : outcome (bool * Models N) :=
  let v1 := match un_catenary u with None => false | Some a => c3_Validate (cats a) end in
  do (v2, mem) <- cr_Validate same warn mem (un_strainer u);
  Ok (v1 && v2, mem).

(** ** CatenaryCableReloader *)

(** catenary_cable_reloader.h: the members *)
Record CatReloader : Type := mkCatReloader {
  rl_catenary : option Z;
  rl_result : Catenary3d N;
  rl_updated : bool;
  rl_reference : option Z;
  rl_reloaded : option Z;
  rl_strainer : Strainer N;
  rl_weight : option Z
}.

(** catenary_cable_reloader.cc 10-17 *)
Definition CatReloader_new : CatReloader :=
  mkCatReloader None Catenary3d_default false None None Strainer_new None.

(** catenary_cable_reloader.cc 159-184 *)
Definition rl_set_catenary (r : CatReloader) (p : option Z) : CatReloader :=
  mkCatReloader p (rl_result r) false (rl_reference r) (rl_reloaded r) (rl_strainer r) (rl_weight r).
Definition rl_set_reference (r : CatReloader) (p : option Z) : CatReloader :=
  mkCatReloader (rl_catenary r) (rl_result r) false p (rl_reloaded r) (rl_strainer r) (rl_weight r).
Definition rl_set_reloaded (r : CatReloader) (p : option Z) : CatReloader :=
  mkCatReloader (rl_catenary r) (rl_result r) false (rl_reference r) p (rl_strainer r) (rl_weight r).
Definition rl_set_weight (r : CatReloader) (p : option Z) : CatReloader :=
  mkCatReloader (rl_catenary r) (rl_result r) false (rl_reference r) (rl_reloaded r) (rl_strainer r) p.

(** What a search for the tension reads and writes: the elongation models, the reloaded
    catenary and the strainer. *)
Record Search : Type := mkSearch { se_models : Models N; se_catenary : Catenary3d N; se_strainer : Strainer N }.

(** catenary_cable_reloader.cc 216-224 with UpdateReloadedCatenaryAndStrainer (339-346) *)
Definition LengthDifference (s : Search) (tension : N) : outcome (N * Search) :=
  let c := c3_set_tension (se_catenary s) tension in
  let strainer := cr_set_load_finish (se_strainer s) (c3_TensionAverage c 100) in
  let length_catenary := c3_Length c in
  do (length_cable, mem) <- LengthFinish (se_models s) strainer;
  Ok (length_catenary - length_cable, mkSearch mem (c3_after c true) strainer).

(** The variables of the loop. *)
Record Loop : Type := mkLoop {
  lp_left : Point2d N;
  lp_right : Point2d N;
  lp_current : Point2d N;
  lp_iter : Z;
  lp_search : Search
}.

(** catenary_cable_reloader.cc 271-284: the next tension *)
Definition next_tension (l r : Point2d N) : N :=
  if (#0 <? p2y l) && (p2y r <? #0) then (p2x l + p2x r) / #2
  else p2x l + ((#0 - p2y l) / ((p2y r - p2y l) / (p2x r - p2x l))).

(** catenary_cable_reloader.cc 289-314: the next left and right points *)
Definition next_points (l r current : Point2d N) : Point2d N * Point2d N :=
  if p2x current <? p2x l then (current, l)
  else if (p2x l <? p2x current) && (p2x current <? p2x r) then
    if p2y current <? #0 then (l, current)
    else if #0 <? p2y current then (current, r)
    else (l, r)
  else if p2x r <? p2x current then (r, current)
  else (l, r).

(** catenary_cable_reloader.cc 270-315: one pass of the loop *)
Definition reload_pass (s : Loop) : outcome Loop :=
  let x := next_tension (lp_left s) (lp_right s) in
  do (y, search) <- LengthDifference (lp_search s) x;
  let current := mkPoint2d x y in
  let '(l, r) := next_points (lp_left s) (lp_right s) current in
  Ok (mkLoop l r current (lp_iter s + 1) search).

(** catenary_cable_reloader.cc 268-269: whether the loop goes on *)
Definition reload_on (s : Loop) : bool :=
  (flit 1 (-2) <? fabs (p2x (lp_left s) - p2x (lp_right s))) && (lp_iter s <? 100)%Z.

(** catenary_cable_reloader.cc 268-316: at most 100 passes, so 101 is enough fuel *)
Fixpoint reload_loop (fuel : nat) (s : Loop) : outcome Loop :=
  match fuel with
  | O => Ok s
  | S fuel => if reload_on s then do s <- reload_pass s; reload_loop fuel s else Ok s
  end.

(** catenary_cable_reloader.cc 194-201 *)
Definition reloaded_start (c : Catenary3d N) (w : Vector3d N) : Catenary3d N :=
  c3_set_weight (c3_set_tension (c3_set_spacing Catenary3d_default (c3_spacing c)) (c3_tension_horizontal c)) w.

(** catenary_cable_reloader.cc 203-210 *)
Definition strainer_start (s : Strainer N) (c : Catenary3d N) (reference reloaded : option Z) : Strainer N :=
  cr_set_start (cr_set_finish (cr_set_load_start (cr_set_length s (c3_Length c)) (c3_TensionAverage c 100)) reloaded) reference.

(** catenary_cable_reloader.cc 235-316: the end of the loop *)
Definition reload_end (s : Search) : outcome Loop :=
  let xl := tension_minimum (se_catenary s) in
  do (yl, s) <- LengthDifference s xl;
  let xr := #2 * xl in
  do (yr, s) <- LengthDifference s xr;
  reload_loop (Z.to_nat 101) (mkLoop (mkPoint2d xl yl) (mkPoint2d xr yr) Point2d_default 0 s).

(** catenary_cable_reloader.cc 318-324: the success status *)
Definition reload_success (s : Loop) : bool :=
  if (lp_iter s <? 100)%Z then p2y (lp_current s) <? flit 1 (-1) else false.

(** catenary_cable_reloader.cc 235-325: the status, the models and the object afterwards *)
Definition SolveReloaded (cats : Cats) (weights : Weights) (mem : Models N) (r : CatReloader)
    : outcome (bool * (Models N * CatReloader)) :=
  do a <- deref (rl_catenary r);
  do w <- deref (rl_weight r);
  do e <- reload_end (mkSearch mem (reloaded_start (cats a) (weights w))
                        (strainer_start (rl_strainer r) (cats a) (rl_reference r) (rl_reloaded r)));
  let s := lp_search e in
  Ok (reload_success e,
      (se_models s, mkCatReloader (rl_catenary r) (se_catenary s) false (rl_reference r) (rl_reloaded r) (se_strainer s)
                      (rl_weight r))).

(** catenary_cable_reloader.cc 327-337 *)
Definition rl_Update (cats : Cats) (weights : Weights) (mem : Models N) (r : CatReloader)
    : outcome (bool * (Models N * CatReloader)) :=
  if rl_updated r then Ok (true, (mem, r))
  else
    do (b, st) <- SolveReloaded cats weights mem r;
    let '(mem, r) := st in
    Ok (b, (mem, mkCatReloader (rl_catenary r) (rl_result r) b (rl_reference r) (rl_reloaded r) (rl_strainer r) (rl_weight r))).

(** catenary_cable_reloader.cc 22-29 *)
Definition rl_CatenaryReloaded (cats : Cats) (weights : Weights) (mem : Models N) (r : CatReloader)
    : outcome (Catenary3d N * (Models N * CatReloader)) :=
  do (b, st) <- rl_Update cats weights mem r;
  Ok (if b then rl_result (snd st) else Catenary3d_default, st).

(** catenary_cable_reloader.cc 31-44 *)
Definition rl_LengthUnloaded (cats : Cats) (weights : Weights) (mem : Models N) (r : CatReloader)
    : outcome (N * (Models N * CatReloader)) :=
  do (b, st) <- rl_Update cats weights mem r;
  if b then
    let '(mem, r) := st in
    do u <- un_set_catenary cats CatUnloader_new (rl_catenary r);
    do (v, mem) <- un_LengthUnloaded mem (un_set_unloaded (un_set_reference u (rl_reference r)) (rl_reference r));
    Ok (v, (mem, r))
  else Ok (ferr, st).

(** catenary_cable_reloader.cc 46-53 *)
Definition rl_TensionHorizontal (cats : Cats) (weights : Weights) (mem : Models N) (r : CatReloader)
    : outcome (N * (Models N * CatReloader)) :=
  do (b, st) <- rl_Update cats weights mem r;
  Ok (if b then c3_tension_horizontal (rl_result (snd st)) else ferr, st).

(** catenary_cable_reloader.cc 77-100: a model by its pointer *)
Definition model_valid (warn : bool) (mem : Models N) (p : option Z) : outcome (bool * Models N) :=
  match p with
  | None => Ok (false, mem)
  | Some a => do (v, m) <- em_Validate warn (mem a); Ok (v, put mem a m)
  end.

(** catenary_cable_reloader.cc 103-133 *)
Definition weight_valid (weights : Weights) (p : option Z) : bool :=
  match p with
  | None => false
  | Some a => (v3x (weights a) =? #0) && negb (v3y (weights a) <? #0) && negb (v3z (weights a) <=? #0)
  end.

(** catenary_cable_reloader.cc 55-149 *)
Definition rl_Validate (cats : Cats) (weights : Weights) (warn : bool) (mem : Models N) (r : CatReloader)
    : outcome (bool * (Models N * CatReloader)) :=
  let v1 := match rl_catenary r with None => false | Some a => c3_Validate (cats a) end in
  do (v2, mem) <- model_valid warn mem (rl_reference r);
  do (v3, mem) <- model_valid warn mem (rl_reloaded r);
  if v1 && v2 && v3 && weight_valid weights (rl_weight r) then rl_Update cats weights mem r
  else Ok (false, (mem, r)).

(** ** Histories *)

(** Calls on a reloader. *)
Inductive RlCall : Type :=
| RlSetCatenary (p : option Z) | RlSetReference (p : option Z) | RlSetReloaded (p : option Z) | RlSetWeight (p : option Z)
| RlCatenaryReloaded | RlLengthUnloaded | RlTensionHorizontal | RlValidate (warn : bool).

(** The state after a call. *)
Definition rl_call (cats : Cats) (weights : Weights) (st : Models N * CatReloader) (k : RlCall)
    : outcome (Models N * CatReloader) :=
  let '(mem, r) := st in
  match k with
  | RlSetCatenary p => Ok (mem, rl_set_catenary r p)
  | RlSetReference p => Ok (mem, rl_set_reference r p)
  | RlSetReloaded p => Ok (mem, rl_set_reloaded r p)
  | RlSetWeight p => Ok (mem, rl_set_weight r p)
  | RlCatenaryReloaded => omap snd (rl_CatenaryReloaded cats weights mem r)
  | RlLengthUnloaded => omap snd (rl_LengthUnloaded cats weights mem r)
  | RlTensionHorizontal => omap snd (rl_TensionHorizontal cats weights mem r)
  | RlValidate warn => omap snd (rl_Validate cats weights warn mem r)
  end.

(** The state after some calls. *)
Fixpoint rl_run (cats : Cats) (weights : Weights) (st : Models N * CatReloader) (ks : list RlCall)
    : outcome (Models N * CatReloader) :=
  match ks with
  | [] => Ok st
  | k :: ks => do st <- rl_call cats weights st k; rl_run cats weights st ks
  end.

End Reload.

Arguments Cats : clear implicits.
Arguments Weights : clear implicits.
Arguments CatUnloader : clear implicits.
Arguments CatReloader : clear implicits.
Arguments Search : clear implicits.
Arguments Loop : clear implicits.
