(** Sample cables for the elongation models in real arithmetic. *)
From Coq Require Import ZArith Bool List Reals Lra.
From Verif Require Import Num NumFacts ModelBase ModelCable ModelPolynomial ModelThermal ModelElongation SpecElong ProofReal
  ProofThermalCases ProofElongSafe ProofStrainer ProofElongReal.
Import ListNotations.
Open Scope R_scope.

(** A shell with a creep line of slope 65536 and a load-strain line of slope 131072, the
    load limits 32768 and 65536, the moduli 1000 and 262144, and thermal expansion. *)
Definition r_comp : CableComponent RNum :=
  mkCableComponent (N := RNum) 0 (1 / 100000) [0; 65536; 0; 0; 0] [0; 131072; 0; 0; 0] 32768 65536 1000 262144 1 1.
Definition r_none : CableComponent RNum := mkCableComponent (N := RNum) 0 0 [] [] 0 0 0 0 1 1.
Definition r_cable : Cable RNum := mkCable (N := RNum) 0 1 r_none r_comp 1 0 [] 1000 70 1.

Definition r_state (t : PolynomialType) (temperature : R) : CableState RNum := mkCableState (N := RNum) temperature t.
Definition r_stretch (t : PolynomialType) (load : R) : StretchState RNum := mkStretchState (N := RNum) 70 t load.

Definition r_setters : list (EmCall RNum) :=
  [EmSetCable (Some (sg_set_base (Some r_cable))); EmSetState (r_state PTLoadStrain 50); EmSetStretch (r_stretch PTCreep 1024)].

Lemma r_curves : has_curves r_comp.
Proof.
  split.
  - exists (65536 : R). split; [cbn; auto|]. apply Reqb_false. rn. lra.
  - exists (131072 : R). split; [cbn; auto|]. apply Reqb_false. rn. lra.
Qed.

Lemma r_usable : Forall usable_call r_setters.
Proof.
  apply Forall_cons; [|apply Forall_cons; [|apply Forall_cons; [|apply Forall_nil]]]; cbn [usable_call].
  - exists r_cable. split; [reflexivity|]. right. exact r_curves.
  - discriminate.
  - left. discriminate.
Qed.

(** Any queries after the setters run. *)
Lemma r_runs : forall cs, Forall usable_call cs -> prepared true true true cs = true ->
  exists m, em_run ElongModel_new (r_setters ++ cs) = Ok m.
Proof.
  intros cs U P. apply prepared_runs; [|exact P]. apply Forall_app. split; [exact r_usable|exact U].
Qed.

Lemma run_app : forall (N : Num) cs ds (m : ElongModel N), em_run m (cs ++ ds) = (do n <- em_run m cs; em_run n ds).
Proof.
  intros N cs ds. induction cs as [|c cs IH]; intros m; [reflexivity|]. cbn [app em_run].
  destruct (em_call m c); cbn [obind]; [apply IH|reflexivity|reflexivity].
Qed.

(** A query after the setters. *)
Lemma r_query : forall c, usable_call c -> prepared true true true [c] = true ->
  exists m p, em_run ElongModel_new r_setters = Ok m /\ em_call m c = Ok p.
Proof.
  intros c U P. destruct (r_runs [c]) as (p & E); [constructor; [exact U|constructor]|exact P|].
  rewrite run_app in E. destruct (em_run ElongModel_new r_setters) as [m| |]; cbn [obind em_run] in E; try discriminate E.
  exists m. destruct (em_call m c) as [q| |]; cbn [obind] in E; try discriminate E. exists q. auto.
Qed.

Lemma r_strain : forall y : R, exists m x p, em_run ElongModel_new r_setters = Ok m /\ em_Strain m CTCombined y = Ok (x, p).
Proof.
  intros y. destruct (r_query (EmStrain (N := RNum) CTCombined y) I eq_refl) as (m & p & E & C). exists m.
  cbn [em_call] in C. destruct (em_Strain m CTCombined y) as [(x, q)| |]; try discriminate C. exists x, q. auto.
Qed.

(** A memory with this model everywhere. *)
Lemma r_memory : exists mem : Models RNum, tidy_models mem /\
  forall y0 y1 L : R, exists v mem', LengthFinish mem (mkStrainer (N := RNum) L y1 y0 (Some 2%Z) (Some 1%Z)) = Ok (v, mem').
Proof.
  destruct (r_strain 0) as (m & _ & _ & E & _). exists (fun _ => m).
  assert (T : tidy_models (fun _ => m)). { intros z. exists r_setters. split; [reflexivity|exact E]. }
  split; [exact T|]. intros y0 y1 L.
  pose proof (LengthFinish_value (fun _ => m) (mkStrainer (N := RNum) L y1 y0 (Some 2%Z) (Some 1%Z)) (tidy_tracked _ _ T)) as H.
  assert (Q : forall y : R, is_ok (cable_strain m y) = true).
  { intros y. destruct (r_strain y) as (m' & x & p & E' & S). rewrite E in E'. injection E' as <-. unfold cable_strain. rewrite S.
    reflexivity. }
  destruct (LengthFinish _ _) as [(v, mem')| |]; [eauto| |];
    cbn [cr_start cr_finish cr_load_start cr_load_finish] in H;
    destruct H as [H|[H|[(z & _ & H)|(z & _ & H)]]]; try discriminate H; rewrite Q in H; discriminate H.
Qed.

(** The component model alone, without stretch. *)
Definition r_calls : list (CmCall RNum) :=
  [CmSetComponent (Some (sk_set_base (Some r_comp))); CmSetTref (Some (70 : RNum)); CmSetState (Some (r_state PTLoadStrain 50));
   CmSetStretch (Some (r_stretch PTLoadStrain 0))].

Lemma r_model : exists m, cm_run CompModel_new r_calls = Ok m /\ cm_base m = Ok r_comp /\
  cm_state m = Some (r_state PTLoadStrain 50) /\ cready m /\ cm_upd_state m = false /\ cm_upd_stretch m = false /\
  cm_tref m = Some (70 : RNum) /\ cm_stretch m = Some (r_stretch PTLoadStrain 0).
Proof.
  unfold r_calls. cbn [cm_run cm_call].
  pose proof (set_component_ok CompModel_new (sk_set_base (Some r_comp)) (70 : RNum) r_comp eq_refl) as H.
  assert (Fi : filled r_comp) by (split; discriminate). specialize (H Fi).
  pose proof (eq_refl : sk_base (sk_set_base (Some r_comp)) = Some r_comp) as B. unfold cm_set_component in *.
  rewrite B in *. cbn [deref obind] in *.
  destruct (ModulusExtrapolate r_comp (cc_creep r_comp) (cc_limit_creep r_comp)) as [mc| |]; cbn [obind ok_with] in *; try contradiction.
  destruct (ModulusExtrapolate r_comp (cc_loadstrain r_comp) (cc_limit_loadstrain r_comp)) as [ml| |]; cbn [obind ok_with] in *;
    try contradiction.
  eexists. split; [reflexivity|]. split; [reflexivity|]. split; [reflexivity|].
  split; [|split; [reflexivity|split; [reflexivity|split; reflexivity]]].
  apply cready_set_both; [exact H|discriminate].
Qed.

Lemma r_points : exists m m1 pu ps pe, cm_run CompModel_new r_calls = Ok m /\ cm_base m = Ok r_comp /\
  cm_state m = Some (r_state PTLoadStrain 50) /\ cm_PointsRegions m = Ok ([pu; ps; pe], m1) /\
  p2y ps = (0 : R) /\ p2y pe = (65536 : R).
Proof.
  destruct r_model as (m & R & B & S & C & U & V & T & Z). exists m. pose proof (Points_ok m C) as P.
  unfold cm_PointsRegions in *. unfold cm_Update in *. rewrite V in *.
  assert (X : UpdateStretch m = Ok (true, with_stretch m (StrainThermal r_comp (70 : RNum) (70 : RNum)) (fofZ 0))).
  { unfold UpdateStretch. rewrite B, T. cbn [obind deref]. rewrite Z. cbn [obind deref r_stretch ss_load ss_temperature].
    assert (E : feqb (n := RNum) 0 (fofZ 0) = true) by (apply Reqb_true; rn; reflexivity). rewrite E. reflexivity. }
  rewrite X in *. cbn [obind] in *.
  change (cm_upd_state (with_flags (with_stretch m (StrainThermal r_comp (70 : RNum) (70 : RNum)) (fofZ 0)) (cm_upd_state
    (with_stretch m (StrainThermal r_comp (70 : RNum) (70 : RNum)) (fofZ 0))) true)) with (cm_upd_state m) in *.
  rewrite U in *.
  match type of P with context [UpdateState ?x] => set (n := x) in * end.
  unfold UpdateState in *. change (cm_state n) with (cm_state m) in *. rewrite S in *. cbn [deref obind] in *.
  change (cm_base n) with (cm_base m) in *. rewrite B in *. cbn [obind] in *. change (cm_tref n) with (cm_tref m) in *.
  rewrite T in *. cbn [deref obind r_state st_type st_temperature limit_of] in *.
  unfold PointsRegions in *.
  match type of P with context [StrainPolynomial ?x1 ?x2 ?x3 (cc_limit_loadstrain r_comp)] =>
    destruct (StrainPolynomial x1 x2 x3 (cc_limit_loadstrain r_comp)) as [xe| |] end; cbn [obind ok_with] in *; try contradiction.
  match type of P with context [StrainPolynomial ?x1 ?x2 ?x3 ?x4] => destruct (StrainPolynomial x1 x2 x3 x4) as [xs| |] end;
    cbn [obind ok_with] in *; try contradiction.
  eexists; eexists; eexists; eexists. split; [exact R|]. split; [reflexivity|]. split; [exact S || reflexivity|]. split; [reflexivity|].
  cbn [p2y]. split; [|reflexivity]. change (cm_load_stretch n) with (fofZ (N := RNum) 0). rn. reflexivity.
Qed.
