(** Transit saggers in doubles. *)
From Coq Require Import ZArith Bool List.
From Verif Require Import Num ModelBase ModelLine ModelCable ModelCatenary ModelSolver ModelLoad ModelThermal ModelElongation ModelReload ModelSagtension
  ModelSagging SpecSagging SampleMath.
Import ListNotations.
Open Scope num_scope.

(** A span of 1000 ft with a rise of 400 ft, of 1 lb/ft at 800 lbs, that was asked before; the
    transit stands 26 ft beside the span. *)
Definition sg_span : Catenary3d M64 :=
  c3_ensure (c3_set_weight (c3_set_tension (c3_set_spacing Catenary3d_default (mkVector3d (m64 1000) (m64 0) (m64 400))) (m64 800))
    (mkVector3d (m64 0) (m64 0) (m64 1))).
Definition sg_point : Point3d M64 := mkPoint3d (m64 210) (m64 26) (m64 (-40)).
Definition sg_transit : Transit M64 := ts_fresh sg_span sg_point.

(** The slope of the sight from [q] to [p]. *)
Definition slope64 (q p : Point3d M64) : M64 :=
  (p3z p - p3z q) / fsqrt ((p3x p - p3x q) * (p3x p - p3x q) + (p3y p - p3y q) * (p3y p - p3y q)).
Definition sg_position : M64 := flit (n := M64) 65 (-3).

Definition sg_low : bool := fltb (n := M64) (slope64 sg_point (c3_Coordinate sg_span sg_position)) (flit (n := M64) 176 (-3)).
Definition sg_high (r : outcome (bool * Transit M64)) : bool :=
  match r with
  | Ok (true, s') => ts_updated s' && fltb (n := M64) (flit (n := M64) 103 (-1)) (ts_angle s')
  | _ => false
  end.
Lemma sg_low_ok : sg_low = true. Proof. vm_cast_no_check (eq_refl true). Qed.

(** The search with each angle computed once, for a quicker check: not from the code, and
    shown to be the same. *)
Section Once.
Context {N : Num}.
Fixpoint lowest_once (angle : N -> N) (ps : list N) (low : N) (found : option N) : option N :=
  match ps with
  | [] => found
  | p :: ps => let a := angle p in if a <? low then lowest_once angle ps a (Some p) else lowest_once angle ps low found
  end.
Lemma lowest_once_same : forall (angle : N -> N) ps low found, lowest_once angle ps low found = lowest angle ps low found.
Proof.
  induction ps as [|p ps IH]; intros low found; cbn [lowest_once lowest]; [reflexivity|].
  cbv zeta. destruct (angle p <? low); apply IH.
Qed.
Definition pass_once (angle : N -> N) (s : Search N) : outcome (Search N) :=
  match lowest_once angle (sight_positions (se_back s) (se_ahead s) 11) #999999 None with
  | Some position =>
      let tolerance := (se_ahead s - se_back s) / #(11 - 1) in
      let back := position - tolerance in
      let back := if back <? #0 then #0 else back in
      let ahead := position + tolerance in
      let ahead := if #1 <? ahead then #1 else ahead in
      Ok (mkSearch back ahead tolerance position)
  | None => UB
  end.
Lemma pass_once_same : forall (angle : N -> N) s, pass_once angle s = search_pass angle s.
Proof.
  intros angle s. unfold pass_once, search_pass, PositionCatenaryLowAngle. rewrite lowest_once_same.
  destruct (lowest _ _ _ _); reflexivity.
Qed.
Fixpoint search_once (angle : N -> N) (fuel : nat) (s : Search N) : outcome (option (Search N)) :=
  if flit 1 (-5) <? se_tolerance s then
    match fuel with
    | O => Ok None
    | S fuel => do s <- pass_once angle s; search_once angle fuel s
    end
  else Ok (Some s).
Lemma search_once_same : forall (angle : N -> N) fuel s, search_once angle fuel s = search angle fuel s.
Proof.
  induction fuel as [|fuel IH]; intros s; cbn [search_once search]; [reflexivity|].
  rewrite pass_once_same. destruct (flit 1 (-5) <? se_tolerance s); [|reflexivity].
  destruct (search_pass angle s) as [s'| |]; cbn [obind]; [apply IH|reflexivity|reflexivity].
Qed.
End Once.

Lemma sg_high_ok : sg_high (ts_Validate sg_transit) = true.
Proof.
  unfold ts_Validate, ts_Update, UpdatePointCatenaryLow. rewrite <- search_once_same. vm_cast_no_check (eq_refl true).
Qed.

Lemma high_facts : forall r, sg_high r = true -> exists s', r = Ok (true, s') /\
  exists a, AngleLow s' = Ok (a, s') /\ fltb (n := M64) (flit (n := M64) 103 (-1)) a = true.
Proof.
  intros [[[] s']| |] H; try discriminate H. exists s'. split; [reflexivity|]. unfold sg_high in H.
  apply andb_true_iff in H. destruct H as (U & A). exists (ts_angle s'). split; [|exact A].
  unfold AngleLow, ts_ensure. rewrite U. reflexivity.
Qed.

(** The sight to the point at 0.065 is lower than 10 degrees (whose tangent is 0.17633), the
    lowest angle is said to be above 10.3 degrees. *)
Lemma sg_lower : fltb (n := M64) (slope64 sg_point (c3_Coordinate sg_span sg_position)) (flit (n := M64) 176 (-3)) = true /\
  exists s', ts_Validate sg_transit = Ok (true, s') /\
  exists a, AngleLow s' = Ok (a, s') /\ fltb (n := M64) (flit (n := M64) 103 (-1)) a = true.
Proof. exact (conj sg_low_ok (high_facts _ sg_high_ok)). Qed.

(** A new transit sagger. *)
Definition undefined (r : outcome (M64 * Transit M64)) : bool := match r with UB => true | _ => false end.
Lemma new_undefined : undefined (AngleLow Transit_new) = true. Proof. vm_cast_no_check (eq_refl true). Qed.
Lemma undefined_facts : forall r, undefined r = true -> r = UB.
Proof. intros [r| |] H; [discriminate H|discriminate H|reflexivity]. Qed.
Lemma sg_new : AngleLow (@Transit_new M64) = UB.
Proof. exact (undefined_facts _ new_undefined). Qed.

(** A line of two spans, the support between them 200 ft higher, strung with 6000 lbs. *)
Definition sg_weather : WeatherLoadCase M64 := mkWeatherLoadCase (m64 0) (m64 0) (m64 60) (m64 0).
Definition sg_cable : Cable M64 :=
  let d := @Cable_default M64 in
  mkCable (cb_absorptivity d) (m64 1) (cb_core d) (cb_shell d) (m64 1) (cb_emissivity d) [] (m64 100) (m64 70) (m64 1).
Definition sg_line : Strung M64 :=
  mkLC [] (mkStringing (Some sg_cable) (mkConstraint (Some sg_weather) CdInitial (m64 6000) LmHorizontal)
    (mkVector3d (m64 1000) (m64 0) (m64 0)) (Some sg_weather) (Some sg_weather)).
Definition sg_points : list (Point3d M64) :=
  [mkPoint3d (m64 0) (m64 0) (m64 0); mkPoint3d (m64 1000) (m64 0) (m64 200); mkPoint3d (m64 2200) (m64 0) (m64 (-100))].
Definition sg_corrector : Corrector M64 := pc_fresh (Some sg_line) (Some sg_points).
Definition sg_clipping (r : outcome (bool * Corrector M64)) : bool :=
  match r with
  | Ok (true, s') =>
      match pc_clipped s', pc_pulleyed s' with
      | [c; _], [p; _] => fltb (n := M64) (flit (n := M64) 1 (-2)) (fabs (c3_Length c - c3_Length p))
      | _, _ => false
      end
  | _ => false
  end.
Lemma sg_clipping_ok : sg_clipping (pc_ensure sg_corrector) = true. Proof. vm_cast_no_check (eq_refl true). Qed.
Lemma clipping_facts : forall s r, pc_ensure s = r -> sg_clipping r = true -> exists c c' p p',
  corrected s [c; c'] [p; p'] /\ fltb (n := M64) (flit (n := M64) 1 (-2)) (fabs (c3_Length c - c3_Length p)) = true.
Proof.
  intros s [[[] s']| |] E H; try discriminate H. unfold sg_clipping in H.
  destruct (pc_clipped s') as [|c [|c' []]] eqn:C; try discriminate H.
  destruct (pc_pulleyed s') as [|p [|p' []]] eqn:P; try discriminate H.
  exists c, c', p, p'. split; [|exact H]. split; [unfold CatenariesClipped|unfold CatenariesPulleyed]; rewrite E; cbn; congruence.
Qed.
Lemma sg_corrected : exists c c' p p', corrected sg_corrector [c; c'] [p; p'] /\
  fltb (n := M64) (flit (n := M64) 1 (-2)) (fabs (c3_Length c - c3_Length p)) = true.
Proof. exact (clipping_facts _ _ eq_refl sg_clipping_ok). Qed.
