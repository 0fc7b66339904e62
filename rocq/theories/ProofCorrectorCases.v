(** The sag position corrector of a single span, in exact arithmetic. *)
From Coq Require Import ZArith Bool List Reals Lra Lia.
From Verif Require Import Num NumFacts ModelBase ModelLine ModelCable ModelCatenary SpecCatenary SpecCatenary3 ModelSolver ModelLoad ModelThermal ModelElongation ModelReload ModelSagtension ModelSagging SpecSagging
  ProofReal ProofCatenary ProofCatenary3 ProofSolver ProofSolverTarget ProofSolverCases ProofSagging ProofCorrector.
Import ListNotations.
Open Scope R_scope.

(** The span between two points. *)
Definition span_of (section : Catenary3d RNum) (a b : Point3d RNum) : Catenary3d RNum :=
  c3_fresh ADPositive (mkVector3d (N := RNum) (p3x b - p3x a) (p3y b - p3y a) (p3z b - p3z a)) (c3_tension_horizontal section) (c3_weight section).

Lemma span_length : forall section a b, c3_Validate (span_of section a b) = true -> 0 < c3_Length (span_of section a b).
Proof.
  intros section a b V. destruct (cat_Validate _ _ _ V) as (O & H & _).
  apply len3_pos; [intros U; discriminate U|]. apply cat_usable; assumption.
Qed.

Section Single.
Variables (l : Strung RNum) (section : Catenary3d RNum) (a b : Point3d RNum).
Hypothesis (HS : CatenaryRulingSpan (lc_payload l) = Ok section) (HV : c3_Validate section = true).
Let span := span_of section a b.
Let h : R := c3_tension_horizontal section.
Hypothesis (HP : c3_Validate span = true).

Lemma single_clipped : clipped_of (Some l) (Some [a; b]) = Ok (Some [span]).
Proof. unfold clipped_of. cbn [deref obind]. rewrite HS. cbn [obind]. rewrite HV. reflexivity. Qed.

Lemma single_all : forall p n, pulleyed_of [span] = Ok (Some ([p], n)) ->
  let s := pc_fresh (Some l) (Some [a; b]) in
  corrected s [span] [p] /\ omap fst (ClippingOffsets s) = Ok [0; 0] /\ omap fst (SagCorrections s) = Ok [c3_Sag p - c3_Sag span].
Proof.
  intros p n E s.
  assert (C : corrected_of (Some l) (Some [a; b]) = Ok (Some ([span], [p], n))).
  { unfold corrected_of. rewrite single_clipped. cbn [obind]. rewrite E. reflexivity. }
  assert (CU : pc_current s) by (intros U; discriminate U).
  generalize (pc_ensure_of s CU). change (pc_linecable s) with (Some l). change (pc_points s) with (Some [a; b]). rewrite C.
  intros (s' & ES & E1 & E2 & _).
  split; [split|split]; unfold CatenariesClipped, CatenariesPulleyed, ClippingOffsets, SagCorrections; rewrite ES; cbn [obind omap fst];
    rewrite ?E1, ?E2; try reflexivity.
  cbn. do 2 f_equal; [|f_equal]; lra.
Qed.

Lemma solve_single : forall x, SolvePulleyStateTensions (N := RNum) [span] x = Ok (true, [c3_set_tension span x]).
Proof. reflexivity. Qed.
Lemma solve_again : forall x y, SolvePulleyStateTensions (N := RNum) [c3_set_tension span x] y = Ok (true, [c3_set_tension span y]).
Proof. reflexivity. Qed.
Lemma span_same : c3_set_tension span h = span.
Proof. reflexivity. Qed.
Definition len (x : R) : R := LengthCatenaries (N := RNum) [c3_set_tension span x].
Lemma len_h : len h = c3_Length span.
Proof. unfold len. rewrite span_same. unfold LengthCatenaries. cbn [fold_left]. rn. ring. Qed.
Lemma len_pos : 0 < len h.
Proof. rewrite len_h. apply span_length, HP. Qed.

Lemma start : forall P : outcome (option (list (Catenary3d RNum) * RNum)) -> Prop,
  (P (do x <- pulley_loop (N := RNum) (len h) (Z.to_nat 102) (mkPulley (N := RNum) (mkPoint2d (N := RNum) h (len h)) (mkPoint2d (N := RNum) (h * (11 / 10)) (len (h * (11 / 10)))) Point2d_default 0 [c3_set_tension span (h * (11 / 10) : R)]);
      Ok (let '(ok, r) := x in if ok && (pu_iter r <? 100)%Z then Some (pu_catenaries r, p2y (pu_current r)) else None))) ->
  P (pulleyed_of [span]).
Proof.
  intros P H. unfold pulleyed_of, UpdatePulleyState. cbn [pc_clipped pc_length_clipped obind].
  change (c3_tension_horizontal span) with h. rewrite solve_single. cbn [obind].
  replace (fmul (n := RNum) h (flit 110 (-2))) with (h * (11 / 10)) by (rn; rewrite flit_R; simpl; lra).
  rewrite solve_again. cbn [obind]. change (LengthCatenaries (N := RNum) [span]) with (len h).
  change (LengthCatenaries (N := RNum) [c3_set_tension span h]) with (len h).
  change (LengthCatenaries (N := RNum) [c3_set_tension span (h * (11 / 10))]) with (len (h * (11 / 10))).
  destruct (pulley_loop _ _ _) as [[[] r]| |]; cbn [obind andb] in *; try exact H.
  destruct (pu_iter r <? 100)%Z; cbn [obind fst snd]; exact H.
Qed.

(** With a tension above 1 the pulley state of one span is its clipped state. *)
Lemma single_span : 1 < h -> let s := pc_fresh (Some l) (Some [a; b]) in
  corrected s [span] [span] /\ omap fst (ClippingOffsets s) = Ok [0; 0] /\ omap fst (SagCorrections s) = Ok [0].
Proof.
  intros Hh s. assert (E : pulleyed_of [span] = Ok (Some ([span], len h))).
  { apply start. change (Z.to_nat 102) with (S (S (Z.to_nat 100))).
    set (r := mkPoint2d (N := RNum) (h * (11 / 10)) _). set (s0 := mkPulley _ r _ _ _).
    set (s1 := mkPulley (N := RNum) (mkPoint2d (N := RNum) h (len h)) r (mkPoint2d (N := RNum) h (len h)) 1 [c3_set_tension span h]).
    assert (C0 : pulley_continues (N := RNum) (len h) s0 = true).
    { unfold pulley_continues. cbn [s0 r pu_left pu_right pu_current pu_iter p2x p2y Point2d_default]. unfold ferr. rn. rewrite !flit_R. simpl.
      rewrite !(proj2 (Rltb_true _ _)); [reflexivity| |].
      - assert (L := len_pos). unfold Rabs. destruct (Rcase_abs _); lra.
      - unfold Rabs. destruct (Rcase_abs _); lra. }
    assert (P0 : pulley_pass (N := RNum) (len h) s0 = Ok (true, s1)).
    { unfold pulley_pass. cbv zeta. set (x := fadd _ _).
      assert (X : x = h). { unfold x. cbn [s0 pu_left pu_right p2x p2y]. rn. replace (len h - len h) with 0 by ring. unfold Rdiv. ring. }
      rewrite X. cbn [s0 pu_catenaries]. rewrite solve_again. cbn [obind pu_left pu_right p2x p2y r].
      change (LengthCatenaries (N := RNum) [c3_set_tension span h]) with (len h). rn.
      change (p2x (pu_left s0)) with h. change (p2x (pu_right s0)) with (h * (11 / 10)).
      rewrite (proj2 (Rltb_false h h)) by lra. cbn [andb]. rewrite (proj2 (Rltb_false (h * (11 / 10)) h)) by lra. reflexivity. }
    assert (C1 : pulley_continues (N := RNum) (len h) s1 = false).
    { unfold pulley_continues. cbn [s1 r pu_left pu_right pu_current pu_iter p2x p2y]. rn. rewrite !flit_R. simpl.
      replace (len h - len h) with 0 by ring. rewrite Rabs_R0. rewrite (proj2 (Rltb_false (1 * / (10 * (10 * 1))) 0)) by lra.
      rewrite andb_false_r. reflexivity. }
    cbn [pulley_loop]. rewrite C0, P0. cbn [obind]. rewrite C1. cbn [obind]. reflexivity. }
  assert (Q := single_all _ _ E). cbv zeta in Q. fold s in Q. destruct Q as (Q1 & Q2 & Q3).
  split; [exact Q1|]. split; [exact Q2|]. rewrite Q3. do 2 f_equal. req. ring.
Qed.

(** With a tension of at most 1 the loop makes no pass and the tension is 1.1 times too large. *)
Lemma single_light : h <= 1 -> let s := pc_fresh (Some l) (Some [a; b]) in corrected s [span] [c3_set_tension span (h * (11 / 10) : R)].
Proof.
  intros Hh s. assert (H0 : 0 < h) by (destruct (cat_Validate _ _ _ HP) as (_ & H0 & _); exact H0).
  assert (E : exists n, pulleyed_of [span] = Ok (Some ([c3_set_tension span (h * (11 / 10) : R)], n))).
  { apply start. change (Z.to_nat 102) with (S (Z.to_nat 101)).
    set (s0 := mkPulley _ _ _ _ _).
    assert (C0 : pulley_continues (N := RNum) (len h) s0 = false).
    { unfold pulley_continues. cbn [s0 pu_left pu_right pu_current pu_iter p2x p2y Point2d_default]. rn. rewrite !flit_R. simpl.
      rewrite (proj2 (Rltb_false (1 * / (10 * 1)) _)); [reflexivity|]. unfold Rabs. destruct (Rcase_abs _); lra. }
    cbn [pulley_loop]. rewrite C0. cbn [obind]. eexists. reflexivity. }
  destruct E as (n & E). exact (proj1 (single_all _ _ E)).
Qed.
End Single.

(** ** A light wire of 0.01 lb/ft over a span of 100 ft *)
Definition rl_weather : WeatherLoadCase RNum := mkWeatherLoadCase (N := RNum) (0 : R) (0 : R) (60 : R) (0 : R).
Definition rl_cable : Cable RNum :=
  let d := @Cable_default RNum in
  mkCable (cb_absorptivity d) (1 : R) (cb_core d) (cb_shell d) (1 / 10 : R) (cb_emissivity d) [] (100 : R) (70 : R) (1 / 100 : R).
Definition rl_line (h : R) : Strung RNum :=
  mkLC [] (mkStringing (Some rl_cable) (mkConstraint (N := RNum) (Some rl_weather) CdInitial h LmHorizontal)
    (mkVector3d (N := RNum) (100 : R) (0 : R) (0 : R)) (Some rl_weather) (Some rl_weather)).
Definition rl_points : list (Point3d RNum) := [mkPoint3d (N := RNum) (7 : R) (5 : R) (30 : R); mkPoint3d (N := RNum) (107 : R) (5 : R) (30 : R)].

Lemma rl_section : forall h, exists section, CatenaryRulingSpan (lc_payload (rl_line h)) = Ok section /\
  c3_spacing section = mkVector3d (N := RNum) (100 : R) (0 : R) (0 : R) /\
  c3_weight section = mkVector3d (N := RNum) (0 : R) (0 : R) (1 / 100 : R) /\ c3_tension_horizontal section = h /\
  section = c3_fresh ADPositive (c3_spacing section) h (c3_weight section).
Proof.
  intros h. eexists. split; [reflexivity|]. split; [reflexivity|]. split; [|split; reflexivity].
  cbn [c3_weight c3_set_tension c3_set_weight]. f_equal; cbn; rn; lra.
Qed.

Lemma rl_valid : forall h, 1 <= h -> c3_Validate (c3_fresh ADPositive (mkVector3d (N := RNum) (100 : R) (0 : R) (0 : R)) h (mkVector3d (N := RNum) (0 : R) (0 : R) (1 / 100 : R))) = true.
Proof.
  intros h H.
  assert (A : (Vector3d_Magnitude (mkVector3d (N := RNum) (100 : R) (0 : R) (0 : R)) : R) = 100) by (apply mag_axis; lra).
  assert (B : (Vector3d_Magnitude (mkVector3d (N := RNum) (0 : R) (0 : R) (1 / 100 : R)) : R) = 1 / 100) by (apply mag_axis_z; lra).
  apply cat_valid; [unfold inputs_ok; cbn; lra|cbn; rewrite Rabs_R0; lra|lra|]. rewrite A, B. lra.
Qed.

Lemma rl_span : forall h, 1 <= h -> exists section, CatenaryRulingSpan (lc_payload (rl_line h)) = Ok section /\ c3_Validate section = true /\
  c3_tension_horizontal section = h /\ c3_Validate (span_of section (nth 0 rl_points Point3d_default) (nth 1 rl_points Point3d_default)) = true.
Proof.
  intros h H. destruct (rl_section h) as (s & E & A & B & C & D). exists s. split; [exact E|].
  assert (V := rl_valid h H). split; [rewrite D, A, B; exact V|]. split; [exact C|].
  unfold span_of. rewrite B, C. cbn [rl_points nth p3x p3y p3z].
  replace (107 - 7) with 100 by ring. replace (5 - 5) with 0 by ring. replace (30 - 30) with 0 by ring. exact V.
Qed.
