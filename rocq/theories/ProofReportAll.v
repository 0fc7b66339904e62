(** The laws of messages for the Validate functions of the solvers, and the agreement of
    their results with the functions of the model without messages. *)
From Coq Require Import ZArith Bool List String Lia.
From Verif Require Import Num ModelBase ModelAlignment ModelLine ModelCable ModelCatenary ModelLoad ModelSolver ModelPolynomial
  ModelSolar ModelThermal ModelElongation ModelReload ModelSagtension ModelLocator ModelSagging
  ModelValidate SpecValidate ModelReport SpecReport ProofValidate ProofValidateLine ProofReport ProofReportLine.
Import ListNotations.
Open Scope num_scope.
Open Scope list_scope.

Lemma omap_ok : forall A (r : outcome A), obind r (@Ok A) = r.
Proof. intros A [x| |]; reflexivity. Qed.

Lemma joined : forall a b, a <> ""%string -> (a ++ b)%string <> ""%string.
Proof. intros [|x a] b H; [congruence|discriminate]. Qed.

(** A law that is kept by a rejection without a message. *)
Definition Sinks (P : bool -> list Message -> Prop) : Prop := forall o e, P o e -> P false e.

Section Law.
Context {N : Num}.
Variable text : N -> string.
Variable P : bool -> list Message -> Prop.
Hypothesis law : Law P.

Local Notation fine := (fine P).
Local Notation fstep := (fstep P).
Local Notation ofine := (ofine P).
Local Notation sfine := (sfine P).

Ltac onetest := apply (fine_test P law); [|words|words].
Ltac start := apply (fine_start P law).
Ltac failed := match goal with |- fine (fun m => test ?t true ?d (@?v m)) false =>
  apply (fine_step P law (test t true d) v); [|refine (fstep_test P law t true d _ _); words] end.

(** The update at the end of a validation. *)
Lemma sfine_update : forall S v o (up : outcome (bool * S)) t d, fine v o -> t <> ""%string -> d <> ""%string ->
  sfine (fun m => do (ok, s) <- up; Ok (test t (negb ok) d (v m), s)) (do (ok, s) <- up; Ok (o && ok, s)).
Proof.
  intros S v o [[ok s]| |] t d H T D; cbn [obind]; [|intros m; auto..].
  apply sfine_ok. eapply fine_eq; [apply (fine_test P law); eassumption|]. destruct ok; reflexivity.
Qed.

(** The same with a description made from the object after the update. *)
Lemma sfine_update_blank : forall S v o (up : outcome (bool * S)) t (d : S -> string), fine v o ->
  (forall s, up = Ok (false, s) -> P false [mkMessage (d s) t]) ->
  sfine (fun m => do (ok, s) <- up; Ok (test t (negb ok) (d s) (v m), s)) (do (ok, s) <- up; Ok (o && ok, s)).
Proof.
  intros S v o [[ok s]| |] t d H D; cbn [obind]; [|intros m; auto..].
  apply sfine_ok. eapply fine_eq; [apply (fine_step P law (test t (negb ok) (d s)) v o ok H)|reflexivity].
  exists (said t (d s) (negb ok)). split.
  - destruct ok; [apply (adds_test t false)|apply (adds_test t true)].
  - destruct ok; [apply law|apply D; auto].
Qed.

(** An early return, with what follows given as a whole. *)
Lemma sfine_leave : forall S v o (s : S) K r, fine v o -> (o = true -> sfine K r) ->
  sfine (fun m => if negb (fst (v m)) then Ok (v m, s) else K m) (if o then r else Ok (false, s)).
Proof.
  intros S v o s K r (e & A & B) H. assert (E : forall m, fst (v m) = o) by (intros m; rewrite A; auto).
  destruct o.
  - specialize (H eq_refl). destruct r as [[b s']| |].
    + destruct H as (e' & C & D). exists e'. split; auto. intros m. rewrite E. apply C.
    + intros m. rewrite E. apply H.
    + intros m. rewrite E. apply H.
  - exists e. split; auto. intros m. rewrite E, A. auto.
Qed.

(** ** transmissionline *)
Lemma CatenarySolver_fine : forall s : CatenarySolver N, sfine (fun m => Ok (CatenarySolver_report s m)) (Ok (cs_Validate s)).
Proof.
  intros s.
  assert (H : fine (fun m =>
     let t := "CATENARY SOLVER"%string in
     let sp := c3_spacing (cs_catenary s) in
     let w := c3_weight (cs_catenary s) in
     let c := (true, m) in
     let c := if cs_position s =? #(-1) then c
              else test t ((cs_position s <? #0) || (#1 <? cs_position s)) "Invalid target position" c in
     let c := test t (v3x sp <=? #0) "Invalid horizontal end point spacing" c in
     let c := test t (negb (v3y sp =? #0)) "Invalid end point spacing" c in
     let c := test t (#2000 <? fabs (v3z sp)) "Invalid vertical end point spacing" c in
     let c := test t (match cs_type s with TgNull => true | _ => false end) "Invalid target type" c in
     let c := test t (cs_value s <=? #0) "Invalid target value" c in
     let c := test t (negb (v3x w =? #0)) ("Invalid horizontal unit weight. It must " ++ "equal zero") c in
     let c := test t (v3y w <? #0) "Invalid transverse unit weight" c in
     test t (v3z w <=? #0) "Invalid vertical unit weight" c) (cs_inputs_valid s)).
  { cbn zeta. apply fine_eq with (o1 :=
      ((cs_position s =? #(-1)) || negb ((cs_position s <? #0) || (#1 <? cs_position s)))
      && negb (v3x (c3_spacing (cs_catenary s)) <=? #0) && negb (negb (v3y (c3_spacing (cs_catenary s)) =? #0))
      && negb (#2000 <? fabs (v3z (c3_spacing (cs_catenary s)))) && negb (match cs_type s with TgNull => true | _ => false end)
      && negb (cs_value s <=? #0) && negb (negb (v3x (c3_weight (cs_catenary s)) =? #0))
      && negb (v3y (c3_weight (cs_catenary s)) <? #0) && negb (v3z (c3_weight (cs_catenary s)) <=? #0)).
    - do 8 onetest. destruct (cs_position s =? #(-1)); cbn [orb]; [start|].
      eapply fine_eq; [onetest; start|reflexivity].
    - unfold cs_inputs_valid. rewrite !negb_involutive. destruct (cs_type s); reflexivity. }
  destruct H as (e & A & B). unfold CatenarySolver_report, cs_Validate. cbn zeta in *.
  destruct (cs_inputs_valid s).
  - destruct (cs_Update s) as [[|] s'].
    + exists e. split; auto. intros m. rewrite !A. auto.
    + eexists (e ++ _). split; [|apply (law_app P law true e false); [auto|apply (law_said P law)]].
      * intros m. rewrite !A. cbn [fst negb]. unfold test at 1. cbn [snd]. rewrite push_more, more_more. reflexivity.
      * words.
      * words.
  - exists e. split; auto. intros m. rewrite !A. auto.
Qed.

Lemma Equilibrium_fine : forall s : Equilibrium N, sfine (Equilibrium_report s) (ae_Validate s).
Proof.
  intros s. unfold Equilibrium_report, ae_Validate. cbn zeta.
  apply (sfine_value P _ _ (ae_Update s)). intros s' _. apply sfine_ok. eapply fine_eq.
  - onetest. apply (fine_pointed P law); [|apply (Catenary3d_fine P law)|words|words].
    apply (fine_pointed P law); [|apply (Catenary3d_fine P law)|words|words]. do 2 onetest. start.
  - unfold ae_inputs_valid, catenary_valid. destruct (ae_direction s); reflexivity.
Qed.

Lemma Locator_line_fine : Drops P -> forall (s : Locator N (Stringing N)) v o, fine v o ->
  sfine (fun m => Locator_line s (v m))
    (do (b, s) <- match pl_line s with
                  | None => Ok (false, s)
                  | Some l => let '(l, r) := Line_Validate l (parts_ok l) in
                              do v <- r;
                              Ok (v, mkLocator (pl_direction s) (pl_hardwares s) (pl_index s) (pl_updated s) (Some l) (pl_cable s)
                                       (pl_hardware s) (pl_structure s) (pl_size s) (pl_tension s) (pl_weight s))
                  end; Ok (o && b, s)).
Proof.
  intros drops s v o H. unfold Locator_line. destruct (pl_line s) as [l|]; cbn [obind].
  - assert (K := Line_fine P law drops l). unfold line_validated in K. destruct H as (e1 & A & B).
    destruct (Line_Validate l (parts_ok l)) as [l' r]. destruct r as [b| |]; cbn [obind] in *.
    + destruct K as (e2 & C & D). exists (e1 ++ e2). split; [|apply (law_app P law); auto].
      intros m. rewrite !A. cbn [fst snd]. specialize (C (with_more e1 m)). cbn beta in C.
      destruct (Line_report l (with_more e1 m)) as [l2 [d| |]]; cbn [obind] in *; try discriminate.
      injection C as -> ->. cbn [fst snd obind]. rewrite more_more. destruct b, o; auto.
    + intros m. rewrite A. cbn [snd]. specialize (K (with_more e1 m)). cbn beta in K.
      destruct (Line_report l (with_more e1 m)) as [l2 [d| |]]; cbn [obind] in *; try discriminate; auto.
    + intros m. rewrite A. cbn [snd]. specialize (K (with_more e1 m)). cbn beta in K.
      destruct (Line_report l (with_more e1 m)) as [l2 [d| |]]; cbn [obind] in *; try discriminate; auto.
  - rewrite andb_false_r. apply sfine_ok. eapply fine_eq; [apply (fine_test P law); [eauto|words|words]|]. apply andb_false_r.
Qed.

Lemma Locator_fine : Drops P -> forall s : Locator N (Stringing N),
  sfine (Locator_report s) (pl_Validate (match pl_line s with None => Ok true | Some l => parts_ok l end) s).
Proof.
  intros drops s. unfold Locator_report. cbn zeta. eapply sfine_eq.
  - apply sfine_bind with (rr := fun b (s : Locator N (Stringing N)) =>
      do (ok, s') <- pl_Update s;
      Ok (b && negb (pl_tension s <=? #0) && match pl_weight s with
            | None => false
            | Some w => (v3x w =? #0) && negb (v3y w <? #0) && negb (v3z w <=? #0)
            end && ok, s')).
    + apply (Locator_line_fine drops). do 2 onetest. start.
    + intros b s' c _ H. apply sfine_update; [|words|words].
      destruct (pl_weight s') as [w|]; (eapply fine_eq; [repeat onetest; exact H|]).
      * rewrite negb_involutive, !andb_assoc. reflexivity.
      * reflexivity.
  - unfold pl_Validate. cbn zeta. destruct (pl_line s) as [l|]; cbn [obind].
    + destruct (Line_Validate l (parts_ok l)) as [l' [b| |]]; cbn [obind]; try reflexivity.
      match goal with |- context [pl_Update ?x] => destruct (pl_Update x) as [[ok s']| |] end; cbn [obind]; try reflexivity.
      destruct (pl_direction s); reflexivity.
    + destruct (pl_Update s) as [[ok s']| |]; cbn [obind]; try reflexivity. destruct (pl_direction s); reflexivity.
Qed.

(** ** sagging *)
Lemma Transit_fine : forall s : Transit N, sfine (Transit_report s) (ModelSagging.ts_Validate s).
Proof.
  intros s. unfold Transit_report. cbn zeta. eapply sfine_eq.
  - apply sfine_leave.
    + do 3 onetest. apply (fine_part P law); [start|apply (Catenary3d_fine P law)].
    + intros _. apply sfine_update; [|words|words].
      do 3 onetest. apply (fine_part P law); [start|apply (Catenary3d_fine P law)].
  - unfold ModelSagging.ts_Validate, ts_inputs_valid. cbn [andb].
    match goal with |- (if ?b then _ else _) = _ => destruct b end; [|reflexivity].
    destruct (ModelSagging.ts_Update s) as [[ok s']| |]; reflexivity.
Qed.

Lemma Corrector_line_fine : Drops P -> forall (env : Env N) (s : Corrector N),
  ofine (fun m => match pc_linecable s with
          | None => Ok (test "CABLE SAG POSITION CORRECTOR" true "Invalid line cable" (true, m))
          | Some l => do d <- LineCable_report env l (snd (true, m)); Ok (if negb (fst d) then false else fst (true, m), snd d)
          end)
    (match pc_linecable s with None => Ok false | Some l => Strung_Validate env l end).
Proof.
  intros drops env s. destruct (pc_linecable s) as [l|].
  - eapply ofine_eq.
    + apply (ofine_part P law (LineCable_report env l) (fun m => (true, m)) true); [start|apply (LineCable_fine P law drops)].
    + destruct (Strung_Validate env l); reflexivity.
  - apply (ofine_ok P _ false). eapply fine_eq; [onetest; start|reflexivity].
Qed.

Lemma Corrector_fine : Drops P -> Sinks P -> forall (env : Env N) (s : Corrector N),
  sfine (Corrector_report env s) (pc_Validate env s).
Proof.
  intros drops sinks env s. unfold Corrector_report, pc_Validate. cbn zeta.
  apply osfine_bind; [apply (Corrector_line_fine drops)|].
  intros b c _ H. apply sfine_update; [|words|words].
  destruct (pc_points s) as [ps|].
  - destruct (Z.leb_spec (Z.of_nat (List.length ps)) 1).
    + replace (1 <? Z.of_nat (Datatypes.length ps))%Z with false by (symmetry; apply Z.ltb_ge; lia). rewrite andb_false_r.
      destruct H as (e & A & B). exists e. split; [|eapply sinks; eauto]. intros m. rewrite A. reflexivity.
    + replace (1 <? Z.of_nat (Datatypes.length ps))%Z with true by (symmetry; apply Z.ltb_lt; lia). rewrite andb_true_r. exact H.
  - eapply fine_eq; [onetest; exact H|reflexivity].
Qed.

(** ** thermalrating *)
Lemma SolarSolver_fine : forall s : SolarSolver N, sfine (fun m => Ok (SolarSolver_report s m)) (Ok (sr_Validate s)).
Proof.
  intros s.
  assert (H : fine (fun m =>
     let t := "SOLAR RADIATION SOLVER"%string in
     let c := (true, m) in
     let c := test t ((sr_azimuth_cable s <? #0) || (#360 <? sr_azimuth_cable s)) "Invalid cable azimuth" c in
     let c := test t ((sr_day s <=? 0) || (365 <? sr_day s))%Z "Invalid day" c in
     let c := test t (sr_elevation s <? #0) "Invalid elevation" c in
     let c := test t ((sr_hour s <? 0) || (24 <=? sr_hour s))%Z "Invalid hour" c in
     let c := test t ((sr_latitude s <? #(-90)) || (#90 <? sr_latitude s)) "Invalid latitude" c in
     let c := test t (match sr_quality s with AqNull => true | _ => false end) "Invalid atmosphere quality" c in
     test t (null_units (sr_units s)) "Invalid unit system" c) (sr_inputs_valid s)).
  { cbn zeta. eapply fine_eq; [do 7 onetest; start|].
    unfold sr_inputs_valid. destruct (sr_quality s), (sr_units s); reflexivity. }
  destruct H as (e & A & B). unfold SolarSolver_report, sr_Validate. cbn zeta in *.
  destruct (sr_inputs_valid s).
  - destruct (sr_Update s) as [[|] s'].
    + exists e. split; auto. intros m. rewrite !A. auto.
    + eexists (e ++ _). split; [|apply (law_app P law true e false); [auto|apply (law_said P law)]].
      * intros m. rewrite !A. cbn [fst negb]. unfold test at 1. cbn [snd]. rewrite push_more, more_more. reflexivity.
      * words.
      * words.
  - exists e. split; auto. intros m. rewrite !A. auto.
Qed.

Lemma CurrentSolver_fine : forall s : CurrentSolver N, sfine (CurrentSolver_report s) (sc_Validate s).
Proof.
  intros s. unfold CurrentSolver_report, sc_Validate. cbn zeta. apply sfine_update; [|words|words]. eapply fine_eq.
  - apply (fine_pointed P law); [|apply (ThermalRatingWeather_fine P law)|words|words]. do 2 onetest.
    apply (fine_pointed P law); [start|apply (ThermalRatingCable_fine P law)|words|words].
  - destruct (sc_units s); reflexivity.
Qed.
Lemma TemperatureSolver_fine : forall s : TemperatureSolver N, sfine (TemperatureSolver_report s) (st_Validate s).
Proof.
  intros s. unfold TemperatureSolver_report, st_Validate. cbn zeta. apply sfine_update; [|words|words]. eapply fine_eq.
  - apply (fine_pointed P law); [|apply (ThermalRatingWeather_fine P law)|words|words]. do 2 onetest.
    apply (fine_pointed P law); [start|apply (ThermalRatingCable_fine P law)|words|words].
  - destruct (st_units s); reflexivity.
Qed.
Lemma TransientSolver_fine : forall s : TransientSolver N, sfine (TransientSolver_report s) (ModelThermal.ts_Validate s).
Proof.
  intros s. unfold TransientSolver_report, ModelThermal.ts_Validate. cbn zeta. apply sfine_update; [|words|words]. eapply fine_eq.
  - apply (fine_pointed P law); [|apply (ThermalRatingWeather_fine P law)|words|words]. do 4 onetest. start.
  - destruct (ts_units s); reflexivity.
Qed.

(** ** base *)
Lemma Polynomial_fine : forall store (p : Polynomial N), sfine (Polynomial_report store p) (Polynomial_Validate store p).
Proof.
  intros store p. unfold Polynomial_report, Polynomial_Validate. destruct (py_coefficients p) as [| |a].
  - intros m. auto.
  - apply (sfine_ok P _ (fun m => test "POLYNOMIAL" true "Invalid coefficients" (true, m)) false). eapply fine_eq; [onetest; start|reflexivity].
  - apply (sfine_value P _ _ (Polynomial_Update store p)). intros p' _. apply sfine_ok. start.
Qed.

(** ** sagtension *)
Lemma StCable_fine : forall k : StCable N, ofine (StCable_report k) (sg_Validate k).
Proof.
  intros k. unfold StCable_report, sg_Validate. cbn zeta. destruct (sg_base k) as [b|].
  - apply (ofine_value P _ (sg_core_on k)). intros a _. apply (ofine_value P _ (sg_shell_on k)). intros s _. apply ofine_ok.
    assert (H : fine (fun m => test "SAG TENSION CABLE" (cb_temperature b <? #0) "Invalid component properties temperature"
        (test "SAG TENSION CABLE" (cb_strength b <? #0) "Invalid rated strength" (part (Cable_report b) (true, m))))
        (Cable_Validate b && negb (cb_strength b <? #0) && negb (cb_temperature b <? #0))).
    { do 2 onetest. eapply fine_eq; [apply (fine_part P law); [start|apply (Cable_fine P law)]|reflexivity]. }
    destruct a, s; cbn [andb negb]; rewrite ?negb_involutive, ?andb_true_r.
    + apply (fine_part P law); [|apply (StComponent_fine P law)]. apply (fine_part P law); [exact H|apply (StComponent_fine P law)].
    + apply (fine_part P law); [exact H|apply (StComponent_fine P law)].
    + apply (fine_part P law); [exact H|apply (StComponent_fine P law)].
    + exact H.
  - apply (ofine_ok P _ false). eapply fine_eq; [onetest; start|reflexivity].
Qed.

Lemma Origin_fine : forall b l d v o, fine v o -> d <> ""%string ->
  ofine (fun m => Origin_report b l d (v m)) (omap (andb o) (origin_valid (N := N) b l)).
Proof.
  intros b l d v o H D. unfold Origin_report, origin_valid.
  destruct (StrainPolynomial b l #0 #0) as [x| |]; cbn [obind omap]; [|intros m; auto..].
  apply ofine_ok. apply (fine_test P law); auto. words.
Qed.

Lemma PolynomialOrigin_fine : forall warn (b : CableComponent N),
  ofine (PolynomialOrigin_report warn b)
    (if warn then do x <- origin_valid b (cc_creep b); do y <- origin_valid b (cc_loadstrain b); Ok (x && y) else Ok true).
Proof.
  intros [|] b; unfold PolynomialOrigin_report; cbn [negb]; cbn zeta.
  - eapply ofine_eq.
    + apply ofine_bind with (rr := fun o => omap (andb o) (origin_valid b (cc_loadstrain b))).
      * apply (Origin_fine b (cc_creep b) _ (fun m => (true, m)) true); [start|words].
      * intros o c _ H. apply Origin_fine; [exact H|words].
    + destruct (origin_valid b (cc_creep b)); reflexivity.
  - apply ofine_ok. start.
Qed.

Lemma round_50 : forall i, In i (map Z.of_nat (seq 0 50)) -> Z.div i 50 = Z.div 0 50.
Proof. intros i H. apply in_map_iff in H as (n & <- & H). apply in_seq in H. rewrite !Z.div_small; lia. Qed.

Lemma forallb_const : forall A (f : A -> bool) b l, l <> [] -> (forall a, In a l -> f a = b) -> forallb f l = b.
Proof.
  intros A f b l E H. destruct l as [|a l]; [congruence|]. cbn. rewrite (H a (or_introl eq_refl)).
  destruct b; auto. cbn. apply forallb_forall. intros x Hx. apply H. simpl; auto.
Qed.

Lemma Shape_fine : forall b l limit d1 d2 v o, fine v o -> d1 <> ""%string -> d2 <> ""%string ->
  ofine (fun m => Shape_report text b l limit d1 d2 (v m)) (omap (andb o) (shape_valid b l limit)).
Proof.
  intros b l limit d1 d2 v o H D1 D2. unfold Shape_report, shape_valid.
  destruct (StrainPolynomial b l #0 #0) as [x| |]; cbn [obind omap]; [|intros m; auto..]. cbn zeta.
  apply ofine_ok. apply (fine_step P law (each _ _)); [exact H|].
  set (q := negb (SlopePolynomial b l #0 (x + #(Z.div 0 50) * (limit - x)) <? #0)
            && negb (cc_modulus_tension b <? SlopePolynomial b l #0 (x + #(Z.div 0 50) * (limit - x)))).
  replace q with (forallb (fun _ : Z => q) (map Z.of_nat (seq 0 50))).
  2:{ apply forallb_const; [discriminate|auto]. }
  apply (fstep_each P law). intros i Hi. unfold Shape_round. cbn zeta. rewrite (round_50 i Hi). subst q.
  apply (fstep_then P law (test _ _ _) (test _ _ _)); apply (fstep_test P law); try words; apply joined; auto.
Qed.

Lemma PolynomialShape_fine : forall warn (b : CableComponent N),
  ofine (PolynomialShape_report text warn b)
    (if warn then do x <- shape_valid b (cc_creep b) (cc_limit_creep b);
                  do y <- shape_valid b (cc_loadstrain b) (cc_limit_loadstrain b); Ok (x && y) else Ok true).
Proof.
  intros [|] b; unfold PolynomialShape_report; cbn [negb]; cbn zeta.
  - eapply ofine_eq.
    + apply ofine_bind with (rr := fun o => omap (andb o) (shape_valid b (cc_loadstrain b) (cc_limit_loadstrain b))).
      * apply (Shape_fine b (cc_creep b) (cc_limit_creep b) _ _ (fun m => (true, m)) true); [start|words|words].
      * intros o c _ H. apply Shape_fine; [exact H|words|words].
    + destruct (shape_valid b (cc_creep b) (cc_limit_creep b)); reflexivity.
  - apply ofine_ok. start.
Qed.
End Law.
