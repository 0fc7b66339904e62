(** Calls on the line cable reloader, unloader and sagger that do not fail. *)
From Coq Require Import ZArith Bool List Reals Lra Lia.
From Verif Require Import Num NumFacts ModelBase ModelAlignment ModelLine ModelCable ModelCatenary SpecCatenary ProofCatenary ProofReal ModelSolver
  ModelLoad ModelThermal ModelElongation SpecElong ProofElong ProofElongHistory ProofElongSafe ProofStrainer ModelReload SpecReload ProofReload
  ProofReloadSafe ModelSagtension SpecSagtension SpecSagSafe.
Import ListNotations.

(** ** Models that answer *)
Definition solid (m : ElongModel RNum) : Prop :=
  settled m /\ st_type (em_state m) <> PTNull /\ ss_type (em_stretch m) <> PTNull.

Definition still (m p : ElongModel RNum) : Prop := solid p /\ em_state p = em_state m /\ em_stretch p = em_stretch m.

Lemma solid_query : forall (B : Type) (g : ElongModel RNum -> outcome (B * ElongModel RNum)) m, solid m ->
  (forall n x y, running n x y -> ok_with (fun r => steady n x y (snd r)) (g n)) ->
  ok_with (fun r => still m (snd r)) (do n <- em_Update m; g n).
Proof.
  intros B g m (A1 & A2 & A3) G.
  eapply ok_mono; [apply (query_after B g m A1 A2 (or_introl A3))|].
  - intros n x y R _ _. eapply steady_done; [exact R|]. apply G. exact R.
  - intros (v, p) (X1 & X2 & X3 & X4). cbn [snd] in *. split; [|split; assumption].
    split; [exact X1|]. rewrite X3, X4. split; assumption.
Qed.

Lemma solid_strain : forall m y, solid m -> ok_with (fun r => still m (snd r)) (em_Strain m CTCombined y).
Proof.
  intros m y Sm. apply (solid_query RNum (fun n => StrainCombined n y) m Sm). intros n x z (W & Rn & Z & _).
  apply StrainCombined_ok; assumption.
Qed.

Lemma solid_load : forall m ty e, solid m -> ok_with (fun r => still m (snd r)) (em_Load m ty e).
Proof.
  intros m ty e Sm. apply (solid_query RNum (fun n => match ty with CTCombined => LoadCombined n e | CTCore => LoadCore n e
      | CTShell => LoadShell n e | CTNull => Ok (ferr, n) end) m Sm). intros n x y (W & Rn & _). destruct ty.
  + cbn. split; [apply keeps_refl|]. split; [reflexivity|exact Rn].
  + apply LoadCombined_ok; assumption.
  + apply core_value_ok; try assumption. intros c. apply Load_ok.
  + apply shell_value_ok; try assumption. intros c. apply Load_ok.
Qed.

Lemma solid_valid : forall m w, solid m -> ok_with (fun r => still m (snd r)) (em_Validate w m).
Proof.
  intros m w (A1 & A2 & A3). eapply ok_mono; [apply (Validate_after w m (or_introl A1)); auto|].
  intros (v, p) (X1 & X2 & X3 & X4). cbn [snd] in *. split; [|split; assumption].
  split; [auto|]. rewrite X3, X4. split; assumption.
Qed.

Lemma set_model_solid : forall b m s ss, has_curves (cb_core b) \/ has_curves (cb_shell b) -> st_type s <> PTNull ->
  ss_type ss <> PTNull ->
  ok_with (fun p => solid p /\ em_state p = s /\ em_stretch p = ss) (set_model (sg_set_base (Some b)) m s ss).
Proof.
  intros b m s ss H A B. unfold set_model. eapply ok_bind; [apply (set_cable_settled m b H)|]. intros p (Sp & _ & _).
  cbn [ok_with]. split; [|split; reflexivity]. split; [|split; assumption].
  destruct Sp as [(x & y & W & Pa & _ & _)]. constructor. exists x, y.
  split; [destruct W as (k & W); exists k; exact W|]. split; [exact Pa|]. split; cbn; discriminate.
Qed.

Lemma set_stretch_solid : forall m ss, solid m -> ss_type ss <> PTNull -> solid (em_set_stretch m ss).
Proof.
  intros m ss ([(x & y & W & Pa & _ & _)] & A2 & A3) B. split; [|split; assumption]. constructor. exists x, y.
  split; [destruct W as (k & W); exists k; exact W|]. split; [exact Pa|]. split; cbn; discriminate.
Qed.

(** ** Reloaders and unloaders of catenaries with some models *)
Section On.
Variable P : Z -> Prop.
Definition pfit (mem : Models RNum) : Prop := forall a, P a -> solid (mem a).
(** The models keep their states. *)
Definition pkeep (mem mem' : Models RNum) : Prop := pfit mem' /\ forall a, P a -> em_state (mem' a) = em_state (mem a).

Lemma pkeep_refl : forall mem, pfit mem -> pkeep mem mem.
Proof. intros mem M. split; [exact M|reflexivity]. Qed.
Lemma pkeep_trans : forall m1 m2 m3, pkeep m1 m2 -> pkeep m2 m3 -> pkeep m1 m3.
Proof. intros m1 m2 m3 (_ & A) (B & C). split; [exact B|]. intros a Pa. rewrite (C a Pa). apply A, Pa. Qed.

Lemma put_pkeep : forall mem a m, pfit mem -> P a -> still (mem a) m -> pkeep mem (put mem a m).
Proof.
  intros mem a m H Pa (Sm & E & _). split; intros x Px; unfold put; destruct (Z.eqb_spec a x) as [<-|_]; auto.
Qed.

Lemma LengthFinish_pfit : forall (mem : Models RNum) s a b, pfit mem -> P a -> P b -> cr_start s = Some a -> cr_finish s = Some b ->
  ok_with (fun p => pkeep mem (snd p)) (LengthFinish mem s).
Proof.
  intros mem s a b H Pa Pb A B. unfold LengthFinish. rewrite A, B. cbn [deref obind].
  eapply ok_bind; [apply (solid_strain (mem a) (cr_load_start s) (H a Pa))|]. intros (x0, p0) F0. cbn [snd] in F0.
  pose proof (put_pkeep mem a p0 H Pa F0) as K1. pose proof K1 as (H1 & _).
  eapply ok_bind; [apply (solid_strain (put mem a p0 b) (cr_load_finish s) (H1 b Pb))|]. intros (x1, p1) F1. cbn in *.
  eapply pkeep_trans; [exact K1|]. apply put_pkeep; assumption.
Qed.

(** A search whose strainer points to the models. *)
Definition psearching (mem : Models RNum) (s : Search RNum) : Prop :=
  pkeep mem (se_models s) /\ (exists a, P a /\ cr_start (se_strainer s) = Some a) /\ exists b, P b /\ cr_finish (se_strainer s) = Some b.

Lemma LengthDifference_pfit : forall mem s h, psearching mem s -> ok_with (fun p => psearching mem (snd p)) (LengthDifference s h).
Proof.
  intros mem s h (M & (a & Pa & A) & b & Pb & B). unfold LengthDifference. cbn zeta.
  set (st := cr_set_load_finish _ _).
  eapply ok_bind; [apply (LengthFinish_pfit (se_models s) st a b (proj1 M) Pa Pb A B)|].
  intros (l, mem') F. cbn. split; [eapply pkeep_trans; eassumption|]. split; [exists a; auto|exists b; auto].
Qed.

Lemma loop_pfit : forall mem fuel p, psearching mem (lp_search p) -> ok_with (fun q => psearching mem (lp_search q)) (reload_loop fuel p).
Proof.
  induction fuel as [|fuel IH]; intros p Sp; [exact Sp|]. cbn [reload_loop]. destruct (reload_on p); [|exact Sp].
  eapply ok_bind with (Q := fun q => psearching mem (lp_search q)); [|intros q Q; apply IH, Q].
  unfold reload_pass. cbn zeta. eapply ok_bind; [apply LengthDifference_pfit, Sp|]. intros (y, s) Q.
  destruct (next_points _ _ _) as (l, r). exact Q.
Qed.

Lemma end_pfit : forall mem s, psearching mem s -> ok_with (fun q => psearching mem (lp_search q)) (reload_end s).
Proof.
  intros mem s Sp. unfold reload_end. cbn zeta. eapply ok_bind; [apply LengthDifference_pfit, Sp|]. intros (y, s1) S1.
  eapply ok_bind; [apply LengthDifference_pfit, S1|]. intros (z, s2) S2. apply loop_pfit. exact S2.
Qed.

(** A reloader with all pointers, those to models to the ones here. *)
Definition rl_wired (r : CatReloader RNum) : Prop :=
  rl_catenary r <> None /\ rl_weight r <> None /\ (exists a, P a /\ rl_reference r = Some a) /\ exists b, P b /\ rl_reloaded r = Some b.

Definition rl_done (mem : Models RNum) (r : CatReloader RNum) (st : Models RNum * CatReloader RNum) : Prop :=
  pkeep mem (fst st) /\ rl_wired (snd st) /\ same_keys r (snd st).

Lemma rl_Update_pfit : forall (cats : Cats RNum) weights mem r, pfit mem -> rl_wired r ->
  ok_with (fun p => rl_done mem r (snd p)) (rl_Update cats weights mem r).
Proof.
  intros cats weights mem r M Wr. pose proof Wr as (C & W & (e0 & P0 & E0) & e1 & P1 & E1). unfold rl_Update. destruct (rl_updated r).
  { cbn. split; [apply pkeep_refl, M|]. split; [exact Wr|repeat split]. }
  unfold SolveReloaded. destruct (rl_catenary r) as [a|] eqn:EC; [|contradiction]. destruct (rl_weight r) as [w|] eqn:EW; [|contradiction].
  cbn [deref obind]. set (s := mkSearch _ _ _).
  assert (Sp : psearching mem s).
  { split; [apply pkeep_refl, M|]. unfold s. cbn. rewrite E0, E1. split; eexists; (split; [|reflexivity]); assumption. }
  pose proof (end_pfit mem s Sp) as Q. destruct (reload_end s) as [q| |]; cbn in Q; try contradiction. cbn.
  split; [apply Q|]. split; [|repeat split; cbn; try reflexivity; assumption].
  split; [discriminate|]. split; [discriminate|]. split; [exists e0; auto|exists e1; auto].
Qed.

Lemma model_valid_pfit : forall w mem a, pfit mem -> P a -> ok_with (fun q => pkeep mem (snd q)) (model_valid w mem (Some a)).
Proof.
  intros w mem a M Pa. unfold model_valid. eapply ok_bind; [apply (solid_valid (mem a) w (M a Pa))|]. intros (v, p) Q. cbn in *.
  apply put_pkeep; assumption.
Qed.

Lemma rl_Validate_pfit : forall (cats : Cats RNum) weights warn mem r, pfit mem -> rl_wired r ->
  ok_with (fun p => rl_done mem r (snd p)) (rl_Validate cats weights warn mem r).
Proof.
  intros cats weights warn mem r M Wr. pose proof Wr as (C & W & (e0 & P0 & E0) & e1 & P1 & E1). unfold rl_Validate. cbn zeta. rewrite E0, E1.
  eapply ok_bind; [apply (model_valid_pfit warn mem e0 M P0)|]. intros (v2, m1) M1. cbn [snd] in M1.
  eapply ok_bind; [apply (model_valid_pfit warn m1 e1 (proj1 M1) P1)|]. intros (v3, m2) M2. cbn [snd] in M2.
  pose proof (pkeep_trans _ _ _ M1 M2) as K.
  destruct (_ && _)%bool.
  - eapply ok_mono; [apply (rl_Update_pfit cats weights m2 r (proj1 K) Wr)|]. intros (v, st) (D1 & D2 & D3). cbn [snd fst] in *.
    split; [eapply pkeep_trans; eassumption|]. split; assumption.
  - cbn. split; [exact K|]. split; [exact Wr|repeat split].
Qed.

End On.

(** ** The loader *)

(** The models of the base class, and those with the one of the derived class. *)
Definition three (a : Z) : Prop := a = at_constraint \/ a = at_creep \/ a = at_load.
Definition four (a : Z) : Prop := three a \/ a = at_last.

Lemma unit_load_ok : forall (s : Stringing RNum) w, sr_cable s <> None -> w <> None ->
  ok_with (fun _ => True) (ModelSagtension.unit_load s w).
Proof.
  intros s w C W. unfold ModelSagtension.unit_load. destruct (sr_cable s); [|contradiction]. destruct w; [|contradiction]. exact I.
Qed.

Definition filled (b : Loader RNum) : Prop :=
  solid (lb_model_constraint b) /\ solid (lb_model_creep b) /\ solid (lb_model_load b).

Lemma filled_memory : forall b last, filled b <-> pfit three (lb_memory b last).
Proof.
  intros b last. split.
  - intros (A & B & C) a [->|[->| ->]]; assumption.
  - intros H. split; [apply (H at_constraint); left; reflexivity|]. split; [apply (H at_creep); right; left; reflexivity|].
    apply (H at_load). right. right. reflexivity.
Qed.

Lemma filled_models : forall b mem, pfit three mem -> filled (lb_with_models b mem).
Proof.
  intros b mem H. split; [apply H; left; reflexivity|]. split; [apply H; right; left; reflexivity|]. apply H. right. right. reflexivity.
Qed.

(** What set_line_cable leaves, and a line cable with its contents. *)
Definition cabled (b : Loader RNum) : Prop :=
  forall l, lb_line b = Some l -> lb_cable b = sg_set_base (sr_cable (lc_payload l)).
Definition rooted (b : Loader RNum) (l : Strung RNum) : Prop :=
  lb_line b = Some l /\ lb_cable b = sg_set_base (sr_cable (lc_payload l)).

Lemma wired_from : forall a w, three a -> rl_wired three (rl_set_weight (rl_set_reloaded reloader_from (Some a)) (Some w)).
Proof.
  intros a w Pa. split; [discriminate|]. split; [discriminate|]. split; [exists at_constraint; split; [left; reflexivity|reflexivity]|].
  exists a. auto.
Qed.

Lemma average_ok : forall (P : Z -> Prop) c w mem r, pfit P mem -> rl_wired P r ->
  ok_with (fun p => rl_done P mem r (snd p)) (average_reloaded c w mem r).
Proof.
  intros P c w mem r M W. unfold average_reloaded, rl_CatenaryReloaded.
  pose proof (rl_Update_pfit P (fun _ => c) (fun _ => w) mem r M W) as H.
  destruct (rl_Update (fun _ => c) (fun _ => w) mem r) as [(k, st)| |]; cbn in H; try contradiction. exact H.
Qed.

Lemma Initialize_ok : forall b l, rooted b l -> whole l ->
  ok_with (fun p => rooted p l /\ lb_upd_stretch p = lb_upd_stretch b /\ lb_upd_catenary p = lb_upd_catenary b /\
             (co_condition (sr_constraint (lc_payload l)) <> CdNull -> filled p)) (InitializeLineCableModels b).
Proof.
  intros b l (L & K) ((c & C & H) & W & Wc & Wl). unfold InitializeLineCableModels. rewrite L, K, C. cbn [deref obind]. cbv zeta.
  destruct (co_weather (sr_constraint (lc_payload l))) as [w|]; [|contradiction].
  destruct (sr_creep (lc_payload l)) as [wc|]; [|contradiction]. destruct (sr_load (lc_payload l)) as [wl|]; [|contradiction].
  cbn [deref obind].
  assert (G : forall ss, ss_type ss <> PTNull ->
    ok_with (fun p => rooted p l /\ lb_upd_stretch p = lb_upd_stretch b /\ lb_upd_catenary p = lb_upd_catenary b /\ filled p)
    (do m0 <- set_model (sg_set_base (Some c)) (lb_model_constraint b) (mkCableState (wl_temperature_cable w) PTLoadStrain) ss;
     do m1 <- set_model (sg_set_base (Some c)) (lb_model_creep b) (mkCableState (wl_temperature_cable wc) PTCreep)
                (mkStretchState (wl_temperature_cable wc) PTCreep (fofZ 0));
     do m2 <- set_model (sg_set_base (Some c)) (lb_model_load b) (mkCableState (wl_temperature_cable wl) PTLoadStrain)
                (mkStretchState (wl_temperature_cable wl) PTLoadStrain (fofZ 0));
     Ok (mkLoader (sg_set_base (Some c)) (lb_catenary b) (lb_upd_catenary b) (lb_upd_stretch b) (Some l) m0 m1 m2 (lb_creep b) (lb_load b)))).
  { intros ss Ts. eapply ok_bind; [apply set_model_solid; [exact H|discriminate|exact Ts]|]. intros m0 (S0 & _).
    eapply ok_bind; [apply set_model_solid; [exact H|discriminate|discriminate]|]. intros m1 (S1 & _).
    eapply ok_bind; [apply set_model_solid; [exact H|discriminate|discriminate]|]. intros m2 (S2 & _).
    cbn. split; [split; [reflexivity|]; cbn; rewrite C; reflexivity|]. split; [reflexivity|]. split; [reflexivity|]. split; [exact S0|].
    split; assumption. }
  destruct (co_condition (sr_constraint (lc_payload l))); cbn [obind].
  - cbn. split; [split; [exact L|rewrite K; reflexivity]|]. split; [reflexivity|]. split; [reflexivity|]. intros X. contradiction.
  - eapply ok_mono; [apply G; discriminate|]. intros p (X1 & X2 & X3 & X4). auto.
  - eapply ok_mono; [apply G; discriminate|]. intros p (X1 & X2 & X3 & X4). auto.
  - eapply ok_mono; [apply G; discriminate|]. intros p (X1 & X2 & X3 & X4). auto.
Qed.

(** The search for the stretch. *)
Lemma stretch_by_fit : forall mem load, pfit three mem -> pfit three (stretch_by mem load).
Proof.
  intros mem load M a Pa. unfold stretch_by, put. destruct (Z.eqb at_constraint a); [|apply M, Pa].
  assert (C : solid (mem at_constraint)) by (apply M; left; reflexivity).
  apply set_stretch_solid; [exact C|]. destruct C as (_ & _ & T). exact T.
Qed.

Lemma stretch_gap_ok : forall c w mem r load, pfit three mem -> rl_wired three r ->
  ok_with (fun p => pfit three (fst (snd p)) /\ rl_wired three (snd (snd p))) (stretch_gap c w mem r load).
Proof.
  intros c w mem r load M (W1 & W2 & _ & W4). unfold stretch_gap.
  eapply ok_bind; [apply (average_ok three); [apply stretch_by_fit, M|]|].
  - split; [exact W1|]. split; [exact W2|]. split; [exists at_constraint; split; [left; reflexivity|reflexivity]|]. exact W4.
  - intros (t, st) ((D1 & _) & D2 & _). cbn in *. auto.
Qed.

Lemma stretch_loop_ok : forall c w fuel s, pfit three (sx_models s) -> rl_wired three (sx_reloader s) ->
  ok_with (fun p => pfit three (sx_models p)) (stretch_loop fuel c w s).
Proof.
  induction fuel as [|fuel IH]; intros s M W; [exact M|]. cbn [stretch_loop]. destruct (stretch_on s); [|exact M].
  eapply ok_bind with (Q := fun q => pfit three (sx_models q) /\ rl_wired three (sx_reloader q)); [|intros q (Q1 & Q2); apply IH; assumption].
  unfold stretch_pass. cbv zeta. eapply ok_bind; [apply stretch_gap_ok; assumption|]. intros (y, st) (D1 & D2). cbn [fst snd] in *.
  destruct (next_stretch _ _ _) as (l, r). split; assumption.
Qed.

Lemma SolveStretch_ok : forall c w strength mem a, ok_with (fun _ => True) strength -> pfit three mem -> three a ->
  ok_with (fun p => pfit three (snd p)) (SolveStretch c w strength mem a).
Proof.
  intros c w strength mem a St M Pa. unfold SolveStretch. cbv zeta.
  eapply ok_bind; [apply (average_ok three c w mem _ M (wired_from a 0 Pa))|]. intros (t, st) ((D1 & _) & D2 & _). cbn [fst snd] in *.
  eapply ok_bind; [exact St|]. intros x _.
  eapply ok_bind; [apply stretch_gap_ok; assumption|]. intros (y, st2) (F1 & F2). cbn [fst snd] in *.
  eapply ok_bind; [apply stretch_loop_ok; [exact F1|exact F2]|]. intros s Ms. cbn beta in Ms.
  destruct (sx_iter s <? 100)%Z; cbn; [exact Ms|apply stretch_by_fit, Ms].
Qed.

Lemma ConstraintModel_ok : forall b l, rooted b l -> whole l ->
  (co_condition (sr_constraint (lc_payload l)) <> CdNull -> filled b) ->
  ok_with (fun p => rooted (snd p) l /\ lb_upd_stretch (snd p) = lb_upd_stretch b /\ (fst p = true -> filled (snd p)))
    (UpdateConstraintCableModel b).
Proof.
  intros b l (L & K) Wh Fi. pose proof Wh as ((c & C & H) & W & Wc & Wl). unfold UpdateConstraintCableModel. rewrite L. cbn [deref obind]. cbv zeta.
  assert (G : forall weather a, weather <> None -> three a -> filled b ->
    ok_with (fun p => rooted (snd p) l /\ lb_upd_stretch (snd p) = lb_upd_stretch b /\ (fst p = true -> filled (snd p)))
     (do w <- ModelSagtension.unit_load (lc_payload l) weather;
      do (ok, mem) <- SolveStretch (lb_catenary b) w (strength_of (lb_cable b)) (lb_memory b ElongModel_new) a;
      Ok (ok, lb_with_models b mem))).
  { intros weather a Nw Pa F. eapply ok_bind; [apply unit_load_ok; [congruence|exact Nw]|]. intros w _.
    eapply ok_bind; [apply SolveStretch_ok; [rewrite K, C; exact I|apply filled_memory, F|exact Pa]|].
    intros (ok, mem) M. cbn [fst snd ok_with] in *. split; [split; assumption|]. split; [reflexivity|]. intros _. apply filled_models, M. }
  destruct (co_condition (sr_constraint (lc_payload l))).
  - cbn. split; [split; assumption|]. split; [reflexivity|discriminate].
  - apply G; [exact Wc|right; left; reflexivity|apply Fi; discriminate].
  - cbn. split; [split; assumption|]. split; [reflexivity|]. intros _. apply Fi. discriminate.
  - apply G; [exact Wl|right; right; reflexivity|apply Fi; discriminate].
Qed.

Lemma reloaded_stretch_ok : forall c s weather a mem r, sr_cable s <> None -> weather <> None -> pfit three mem -> three a ->
  rl_catenary r <> None -> rl_reference r = Some at_constraint ->
  ok_with (fun p => pfit three (fst (snd p)) /\ rl_catenary (snd (snd p)) <> None /\ rl_reference (snd (snd p)) = Some at_constraint /\
             forall v, fst p = Some v -> ss_type v <> PTNull) (reloaded_stretch c s weather a mem r).
Proof.
  intros c s weather a mem r C W M Pa Rc Rr. unfold reloaded_stretch.
  eapply ok_bind; [apply unit_load_ok; assumption|]. intros w _. cbv zeta.
  set (q := rl_set_weight _ _).
  assert (Q : rl_wired three q).
  { split; [exact Rc|]. split; [discriminate|]. split; [exists at_constraint; split; [left; reflexivity|exact Rr]|]. exists a. auto. }
  eapply ok_bind; [apply (rl_Validate_pfit three); [exact M|exact Q]|]. intros (ok, st) ((D1 & D1') & D2 & D3). cbn [fst snd] in *.
  assert (X : rl_catenary (snd st) <> None /\ rl_reference (snd st) = Some at_constraint).
  { destruct D3 as (Y1 & Y2 & _). split; [apply D2|]. rewrite <- Y2. exact Rr. }
  destruct ok.
  - eapply ok_bind; [apply (average_ok three); [exact D1|exact D2]|]. intros (t, st2) ((F1 & F1') & F2 & F3). cbn [fst snd ok_with] in *.
    split; [exact F1|]. split; [apply F2|]. split; [destruct F3 as (_ & Y2 & _); rewrite <- Y2; apply X|].
    intros v E. injection E as <-. cbn. destruct (F1 a Pa) as (_ & T & _). exact T.
  - cbn. split; [exact D1|]. split; [apply X|]. split; [apply X|discriminate].
Qed.

(** A part of the last update. *)
Definition flags (b : Loader RNum) : bool * bool := (lb_upd_catenary b, lb_upd_stretch b).
Definition going (l : Strung RNum) (u : bool * bool) (b : Loader RNum) (r : CatReloader RNum) : Prop :=
  rooted b l /\ flags b = u /\ filled b /\ rl_catenary r <> None /\ rl_reference r = Some at_constraint.

Lemma UpdateCreep_ok : forall b l r u, whole l -> going l u b r ->
  ok_with (fun p => going l u (fst (snd p)) (snd (snd p)) /\ (fst p = true -> ss_type (lb_creep (fst (snd p))) <> PTNull))
    (UpdateCreep b (lc_payload l) r).
Proof.
  intros b l r u ((c & C & H) & W & Wc & Wl) ((L & K) & U & F & Rc & Rr). unfold UpdateCreep.
  assert (G : ok_with (fun p => going l u (fst (snd p)) (snd (snd p)) /\ (fst p = true -> ss_type (lb_creep (fst (snd p))) <> PTNull))
    (do (v, st) <- reloaded_stretch (lb_catenary b) (lc_payload l) (sr_creep (lc_payload l)) at_creep (lb_memory b ElongModel_new) r;
      let b := lb_with_models b (fst st) in
      match v with
      | Some v => Ok (true, (lb_with_creep b v, snd st))
      | None => Ok (false, (b, snd st))
      end)).
  { eapply ok_bind; [apply reloaded_stretch_ok; [congruence|exact Wc|apply filled_memory, F|right; left; reflexivity|exact Rc|exact Rr]|].
    intros (v, st) (M & Q1 & Q2 & T). cbn [fst snd] in *. cbv zeta. pose proof (filled_models b (fst st) M) as Fb.
    destruct v as [v|]; cbn.
    - split; [split; [split; assumption|]; split; [exact U|]; split; [exact Fb|split; assumption]|]. intros _. apply T. reflexivity.
    - split; [split; [split; assumption|]; split; [exact U|]; split; [exact Fb|split; assumption]|discriminate]. }
  destruct (co_condition (sr_constraint (lc_payload l))); try exact G.
  cbn. split; [split; [split; assumption|]; split; [exact U|]; split; [exact F|split; assumption]|]. intros _. apply F.
Qed.

Lemma UpdateLoad_ok : forall b l r u, whole l -> going l u b r ->
  ok_with (fun p => going l u (fst (snd p)) (snd (snd p)) /\ (fst p = true -> ss_type (lb_load (fst (snd p))) <> PTNull) /\
             lb_creep (fst (snd p)) = lb_creep b)
    (UpdateLoad b (lc_payload l) r).
Proof.
  intros b l r u ((c & C & H) & W & Wc & Wl) ((L & K) & U & F & Rc & Rr). unfold UpdateLoad.
  assert (G : ok_with (fun p => going l u (fst (snd p)) (snd (snd p)) /\ (fst p = true -> ss_type (lb_load (fst (snd p))) <> PTNull) /\
     lb_creep (fst (snd p)) = lb_creep b)
    (do (v, st) <- reloaded_stretch (lb_catenary b) (lc_payload l) (sr_load (lc_payload l)) at_load (lb_memory b ElongModel_new) r;
      let b := lb_with_models b (fst st) in
      match v with
      | Some v => Ok (true, (lb_with_load b v, snd st))
      | None => Ok (false, (b, snd st))
      end)).
  { eapply ok_bind; [apply reloaded_stretch_ok; [congruence|exact Wl|apply filled_memory, F|right; right; reflexivity|exact Rc|exact Rr]|].
    intros (v, st) (M & Q1 & Q2 & T). cbn [fst snd] in *. cbv zeta. pose proof (filled_models b (fst st) M) as Fb.
    destruct v as [v|]; cbn.
    - split; [split; [split; assumption|]; split; [exact U|]; split; [exact Fb|split; assumption]|]. split; [|reflexivity]. intros _. apply T. reflexivity.
    - split; [split; [split; assumption|]; split; [exact U|]; split; [exact Fb|split; assumption]|]. split; [discriminate|reflexivity]. }
  destruct (co_condition (sr_constraint (lc_payload l))); try exact G.
  cbn. split; [split; [split; assumption|]; split; [exact U|]; split; [exact F|split; assumption]|]. split; [|reflexivity]. intros _. apply F.
Qed.

(** The state after a successful update. *)
Definition primed (b : Loader RNum) : Prop := filled b /\ ss_type (lb_creep b) <> PTNull /\ ss_type (lb_load b) <> PTNull.

Lemma LoadStretch_ok : forall b l, rooted b l -> whole l -> filled b ->
  ok_with (fun p => rooted (snd p) l /\ flags (snd p) = flags b /\ (fst p = true -> primed (snd p))) (UpdateLoadStretch b).
Proof.
  intros b l Ro Wh F. unfold UpdateLoadStretch. rewrite (proj1 Ro). cbn [deref obind].
  eapply ok_bind; [apply (UpdateCreep_ok b l reloader_from (flags b) Wh); split; [exact Ro|]; split; [reflexivity|]; split; [exact F|]; split; [discriminate|reflexivity]|].
  intros (ok, st) (G & T). cbn [fst snd] in *. destruct ok.
  - eapply ok_bind; [apply (UpdateLoad_ok (fst st) l (snd st) (flags b) Wh G)|]. intros (ok2, st2) ((G1 & G2 & G3 & _) & T2 & E). cbn [fst snd ok_with] in *.
    split; [exact G1|]. split; [exact G2|]. intros X. split; [exact G3|]. split; [rewrite E; apply T; reflexivity|apply T2, X].
  - cbn. destruct G as (G1 & G2 & _). split; [exact G1|]. split; [exact G2|discriminate].
Qed.

(** The flags are true only after a successful update. *)
Definition binv (b : Loader RNum) : Prop := cabled b /\ (lb_upd_stretch b = true -> lb_upd_catenary b = true /\ primed b).

Lemma base_Update_ok : forall b l, binv b -> lb_IsUpdated b = false -> lb_line b = Some l -> whole l ->
  ok_with (fun p => binv (snd p) /\ lb_line (snd p) = Some l /\ (fst p = true -> lb_IsUpdated (snd p) = true)) (lb_Update b).
Proof.
  intros b l (Ca & Fl) Up L Wh. unfold lb_Update, UpdateConstraintCatenary. rewrite L. cbn [deref obind].
  assert (Us : lb_upd_stretch b = false).
  { destruct (lb_upd_stretch b) eqn:E; [|reflexivity]. destruct (Fl eq_refl) as (X & _). unfold lb_IsUpdated in Up. rewrite X, E in Up. discriminate Up. }
  assert (Ro : rooted b l). { split; [exact L|]. apply Ca, L. }
  assert (Cl : forall p, rooted p l -> cabled p). { intros p (X & Y) l' E. rewrite X in E. injection E as <-. exact Y. }
  unfold CatenaryRulingSpan. pose proof Wh as ((c & C & H) & W & Wc & Wl).
  pose proof (unit_load_ok (lc_payload l) (co_weather (sr_constraint (lc_payload l))) ltac:(congruence) W) as Lo.
  destruct (ModelSagtension.unit_load (lc_payload l) (co_weather (sr_constraint (lc_payload l)))) as [load| |]; cbn in Lo; try contradiction. cbn [obind].
  set (k := c3_set_tension _ _). destruct (c3_Validate k).
  2:{ cbn [obind]. cbn [ok_with fst snd]. split; [split; [apply Cl; exact Ro|]; cbn; rewrite Us; discriminate|]. split; [exact L|discriminate]. }
  cbn [obind]. set (b1 := lb_with_flags _ _ _).
  assert (R1 : rooted b1 l) by exact Ro. assert (U1 : lb_upd_stretch b1 = false) by exact Us.
  eapply ok_bind; [apply (Initialize_ok b1 l R1 Wh)|]. intros b2 (R2 & U2 & _ & F2).
  eapply ok_bind; [apply (ConstraintModel_ok b2 l R2 Wh F2)|]. intros (ok, b3) (R3 & U3 & F3). cbn [fst snd] in *.
  destruct ok.
  2:{ cbn [ok_with fst snd]. split; [split; [apply Cl; exact R3|]; cbn; rewrite U3, U2, U1; discriminate|]. split; [apply R3|discriminate]. }
  set (b4 := lb_with_flags _ _ _). assert (R4 : rooted b4 l) by exact R3.
  eapply ok_bind; [apply (LoadStretch_ok b4 l R4 Wh (F3 eq_refl))|]. intros (ok, b5) (R5 & U5 & F5). cbn [fst snd ok_with] in *.
  injection U5 as V1 V2.
  split; [split; [apply Cl; exact R5|]|split; [apply R5|]].
  - cbn. intros X. split; [exact V1|]. destruct (F5 X) as (Y1 & Y2 & Y3). split; [exact Y1|split; assumption].
  - intros X. unfold lb_IsUpdated. cbn. rewrite V1, X. reflexivity.
Qed.

(** The model of the derived class. *)
Lemma LastModel_ok : forall b l m cd t, cabled b -> lb_line b = Some l -> whole l -> lb_upd_stretch b = true -> binv b ->
  ok_with (fun p => fst p = true -> solid (snd p)) (UpdateLastModel b m cd t).
Proof.
  intros b l m cd t Ca L ((c & C & H) & _) U (_ & Fl). destruct (Fl U) as (_ & _ & Tc & Tl). unfold UpdateLastModel.
  assert (K : lb_cable b = sg_set_base (Some c)). { rewrite (Ca l L), C. reflexivity. }
  assert (G : forall s, ss_type s <> PTNull ->
    ok_with (fun p : bool * ElongModel RNum => fst p = true -> solid (snd p)) (do m <- set_model (lb_cable b) m (mkCableState t PTLoadStrain) s; Ok (true, m))).
  { intros s Ts. rewrite K. eapply ok_bind; [apply set_model_solid; [exact H|discriminate|exact Ts]|]. intros p (Sp & _). cbn. auto. }
  destruct cd; cbn [chosen_stretch]; [cbn; discriminate|apply G; assumption|apply G; discriminate|apply G; assumption].
Qed.

Lemma four_memory : forall b last, filled b -> solid last -> pfit four (lb_memory b last).
Proof. intros b last F La a [H| ->]; [apply (filled_memory b last); assumption|exact La]. Qed.

Lemma four_three : forall mem, pfit four mem -> pfit three mem.
Proof. intros mem M a H. apply M. left. exact H. Qed.

Lemma binv_models : forall b mem, binv b -> pfit four mem -> binv (lb_with_models b mem).
Proof.
  intros b mem (Ca & Fl) M. split; [exact Ca|]. cbn. intros X. destruct (Fl X) as (X1 & _ & X2 & X3). split; [exact X1|].
  split; [apply filled_models, four_three, M|split; assumption].
Qed.

(** ** The line cable reloader *)
Definition lrsafe (r : Reloader RNum) : Prop := binv (lr_base r) /\ (lr_upd_model r = true -> solid (lr_model r)).
Definition lrhas (r : Reloader RNum) (l : Strung RNum) : Prop := lb_line (lr_base r) = Some l /\ lr_weather r <> None.

Lemma updated_stretch : forall b : Loader RNum, lb_IsUpdated b = true -> lb_upd_stretch b = true.
Proof. intros b H. apply andb_true_iff in H. apply H. Qed.

(** After a query. *)
Definition lrgood (l : Strung RNum) (p : bool * Reloader RNum) : Prop :=
  lrsafe (snd p) /\ lrhas (snd p) l /\ (fst p = true -> lr_upd_model (snd p) = true).

Lemma lr_rest_ok : forall r l, lrsafe r -> lrhas r l -> whole l -> lb_IsUpdated (lr_base r) = true ->
  ok_with (lrgood l) (lr_Update_rest r).
Proof.
  intros r l (B & So) (L & W) Wh U. pose proof (updated_stretch _ U) as Us. unfold lr_Update_rest.
  eapply ok_bind with (Q := fun p => lrsafe (snd p) /\ lrhas (snd p) l /\ lr_base (snd p) = lr_base r /\ (fst p = true -> lr_upd_model (snd p) = true)).
  { destruct (lr_upd_model r) eqn:M.
    - cbn. split; [split; [exact B|intros _; apply So, eq_refl]|]. split; [split; assumption|]. auto.
    - unfold UpdateReloadedCableModel. destruct (lr_weather r) as [w|] eqn:Wr; [|contradiction]. cbn [deref obind].
      pose proof (LastModel_ok (lr_base r) l (lr_model r) (lr_condition r) (wl_temperature_cable w) (proj1 B) L Wh Us B) as H.
      destruct (UpdateLastModel _ _ _ _) as [(ok, m)| |]; cbn in H; try contradiction. cbn.
      split; [split; [exact B|exact H]|]. split; [split; [exact L|cbn; congruence]|]. auto. }
  intros (ok, q) ((B1 & S1) & (L1 & W1) & Eb & U1). cbn [fst snd] in *. destruct ok; [|cbn; split; [split; assumption|]; split; [split; assumption|discriminate]].
  specialize (U1 eq_refl). destruct (lr_upd_catenary q); [cbn; split; [split; assumption|]; split; [split; assumption|auto]|].
  unfold UpdateReloadedCatenary. rewrite L1. cbn [deref obind].
  assert (Pr : primed (lr_base q)). { destruct B1 as (_ & Fl). apply Fl. rewrite Eb. exact Us. }
  assert (M : pfit four (lb_memory (lr_base q) (lr_model q))). { apply four_memory; [apply Pr|apply S1, U1]. }
  destruct Wh as ((c & C & H) & _).
  pose proof (unit_load_ok (lc_payload l) (lr_weather q) ltac:(congruence) W1) as Lo.
  destruct (ModelSagtension.unit_load (lc_payload l) (lr_weather q)) as [w| |]; cbn in Lo; try contradiction. cbn [obind]. cbv zeta.
  set (rl := rl_set_weight _ _).
  assert (Wi : rl_wired four rl).
  { split; [discriminate|]. split; [discriminate|]. split; [exists at_constraint; split; [left; left; reflexivity|reflexivity]|].
    exists at_last. split; [right; reflexivity|reflexivity]. }
  assert (G : forall mem, pfit four mem -> lrsafe (lr_with_models q mem)).
  { intros mem Mm. split; [apply binv_models; assumption|]. intros _. apply Mm. right. reflexivity. }
  pose proof (rl_Validate_pfit four (fun _ => lb_catenary (lr_base q)) (fun _ => w) false _ rl M Wi) as V.
  destruct (rl_Validate _ _ _ _ _) as [(ok, st)| |]; cbn in V; try contradiction. cbn [obind]. destruct V as ((V1 & _) & V2 & _). destruct ok.
  - unfold rl_CatenaryReloaded.
    pose proof (rl_Update_pfit four (fun _ => lb_catenary (lr_base q)) (fun _ => w) (fst st) (snd st) V1 V2) as V.
    destruct (rl_Update _ _ _ _) as [(ok, st2)| |]; cbn in V; try contradiction. destruct V as ((V3 & _) & _).
    cbn [obind fst snd ok_with]. destruct (G _ V3) as (G1 & G2).
    split; [split; [exact G1|intros X; apply G2, X]|]. split; [split; [exact L1|exact W1]|]. intros _. exact U1.
  - cbn [obind fst snd ok_with]. destruct (G _ V1) as (G1 & G2).
    split; [split; [exact G1|intros X; apply G2, X]|]. split; [split; [exact L1|exact W1]|discriminate].
Qed.

Lemma lr_Update_ok : forall r l, lrsafe r -> lrhas r l -> whole l -> ok_with (lrgood l) (lr_Update r).
Proof.
  intros r l (B & So) (L & W) Wh. unfold lr_Update. destruct (lb_IsUpdated (lr_base r)) eqn:U.
  - apply lr_rest_ok; [split; assumption|split; assumption|exact Wh|exact U].
  - cbv zeta. cbn [lr_base lr_with_flags].
    eapply ok_bind; [apply (base_Update_ok (lr_base r) l B U L Wh)|]. intros (ok, b) (B1 & L1 & U1). cbn [fst snd] in *.
    destruct ok.
    + apply lr_rest_ok; [split; [exact B1|cbn; discriminate]|split; [exact L1|exact W]|exact Wh|apply U1; reflexivity].
    + cbn. split; [split; [exact B1|cbn; discriminate]|]. split; [split; [exact L1|exact W]|discriminate].
Qed.

Lemma lr_ensure_ok : forall r l, lrsafe r -> lrhas r l -> whole l -> ok_with (lrgood l) (lr_ensure r).
Proof.
  intros r l Sr Hr Wh. unfold lr_ensure. destruct (lr_IsUpdated r) eqn:U; [|apply lr_Update_ok; assumption].
  cbn. split; [exact Sr|]. split; [exact Hr|]. intros _. unfold lr_IsUpdated in U. rewrite !andb_true_iff in U. apply U.
Qed.

Definition lrkept {A : Type} (l : Strung RNum) (p : A * Reloader RNum) : Prop := lrsafe (snd p) /\ lrhas (snd p) l.

Lemma lr_query_ok : forall (A : Type) (f : bool -> Reloader RNum -> A) r l, lrsafe r -> lrhas r l -> whole l ->
  ok_with (lrkept l) (do (ok, r) <- lr_ensure r; Ok (f ok r, r)).
Proof.
  intros A f r l Sr Hr Wh. eapply ok_bind; [apply (lr_ensure_ok r l Sr Hr Wh)|]. intros (ok, q) (Q1 & Q2 & _). split; assumption.
Qed.

Lemma lr_average_ok : forall r l t, lrsafe r -> lrhas r l -> whole l -> ok_with (lrkept l) (lr_TensionAverageComponent r t).
Proof.
  intros r l t Sr Hr Wh. unfold lr_TensionAverageComponent.
  eapply ok_bind; [apply (lr_ensure_ok r l Sr Hr Wh)|]. intros (ok, q) ((B1 & S1) & Q2 & Q3). cbn [fst snd] in *. destruct ok; [|split; [split; assumption|assumption]].
  eapply ok_bind; [apply solid_strain; apply S1, Q3; reflexivity|]. intros (x, m) (M & _). cbn [snd] in M.
  eapply ok_bind; [apply solid_load, M|]. intros (y, m2) (M2 & _). cbn in *. split; [split; [exact B1|auto]|exact Q2].
Qed.

Lemma Connections_ok : forall env (l : Strung RNum), fastened env l -> ok_with (fun _ => True) (ValidateConnections env (lc_connections l)).
Proof.
  intros env l H. unfold ValidateConnections. destruct (Nat.ltb (length (lc_connections l)) 2) eqn:E; [exact I|].
  destruct H as [H|H]; [apply Nat.ltb_lt in H; congruence|].
  eapply ok_bind with (Q := fun _ => True); [|intros a _; exact I].
  clear E. induction H as [|c cs (s & h & D & V) _ IH]; [exact I|]. cbn [ValidateConnections_loop]. rewrite D. cbn [obind]. rewrite V. cbn [obind]. exact IH.
Qed.

Lemma Strung_ok : forall env (l : Strung RNum), whole l -> fastened env l -> ok_with (fun _ => True) (Strung_Validate env l).
Proof.
  intros env l ((c & C & H) & W & _) Fa. unfold Strung_Validate. destruct (Stringing_inputs_valid _); [|exact I]. unfold CatenaryRulingSpan.
  pose proof (unit_load_ok (lc_payload l) (co_weather (sr_constraint (lc_payload l))) ltac:(congruence) W) as Lo.
  destruct (ModelSagtension.unit_load _ _) as [load| |]; cbn in Lo; try contradiction. cbn [obind].
  eapply ok_bind; [apply Connections_ok, Fa|]. intros a _. exact I.
Qed.

Lemma inputs_ok : forall env b l, cabled b -> lb_line b = Some l -> whole l -> fastened env l -> ok_with (fun _ => True) (lb_inputs_valid env b).
Proof.
  intros env b l Ca L Wh Fa. unfold lb_inputs_valid. rewrite L.
  assert (K : ok_with (fun _ => True) (sg_Validate (lb_cable b))).
  { destruct Wh as ((c & C & H) & _). rewrite (Ca l L), C. exact I. }
  eapply ok_bind; [exact K|]. intros v _. eapply ok_bind; [apply Strung_ok; assumption|]. intros v2 _. exact I.
Qed.

Lemma lr_Validate_ok : forall env r l, lrsafe r -> lrhas r l -> whole l -> fastened env l -> ok_with (lrkept l) (lr_Validate env r).
Proof.
  intros env r l Sr Hr Wh Fa. unfold lr_Validate, lr_base_Validate.
  eapply ok_bind with (Q := lrkept l).
  - pose proof (inputs_ok env (lr_base r) l (proj1 (proj1 Sr)) (proj1 Hr) Wh Fa) as V.
    eapply ok_bind; [exact V|]. intros v _. destruct v; [|split; assumption].
    eapply ok_mono; [apply (lr_Update_ok r l Sr Hr Wh)|]. intros p (P1 & P2 & _). split; assumption.
  - intros (v, q) (Q1 & Q2). cbn [snd] in *. destruct (_ && _)%bool; [|split; assumption].
    eapply ok_mono; [apply (lr_Update_ok q l Q1 Q2 Wh)|]. intros p (P1 & P2 & _). split; assumption.
Qed.

(** The state between calls: [l] and [w] hold if the line cable and the weather are there. *)
Definition lrstate (env : Env RNum) (l w : Prop) (r : Reloader RNum) : Prop :=
  lrsafe r /\ (l -> fit_line env (lb_line (lr_base r))) /\ (w -> lr_weather r <> None).

Lemma lr_call_ok : forall env k ks l w r, lrstate env l w r -> lr_careful env l w (k :: ks) ->
  exists (l' w' : Prop) r', lr_call env r k = Ok r' /\ lrstate env l' w' r' /\ lr_careful env l' w' ks.
Proof.
  intros env k ks l w r (Sr & Hl & Hw) C. pose proof Sr as ((Ca & Fl) & So).
  assert (Q : forall (A : Type) (o : outcome (A * Reloader RNum)),
    (forall line, lrhas r line -> whole line -> fastened env line -> ok_with (lrkept line) o) -> l /\ w /\ lr_careful env l w ks ->
    exists (l' w' : Prop) r', omap snd o = Ok r' /\ lrstate env l' w' r' /\ lr_careful env l' w' ks).
  { intros A o H (Y1 & Y2 & Y3). destruct (Hl Y1) as (line & E & Wh & Fa).
    specialize (H line (conj E (Hw Y2)) Wh Fa). destruct o as [(v, r')| |]; cbn in H; try contradiction. destruct H as (H1 & H2 & H3).
    exists l, w, r'. split; [reflexivity|]. split; [|exact Y3]. split; [exact H1|]. split; [intros _; exists line; auto|intros _; exact H3]. }
  destruct k; cbn [lr_call lr_careful] in *.
  - exists (fit_line env l0), w. eexists. split; [reflexivity|]. split; [|exact C]. split; [|split; [auto|exact Hw]].
    split; [|exact So]. split; [|cbn; discriminate]. intros line E. cbn in *. rewrite E. reflexivity.
  - exists l, w. eexists. split; [reflexivity|]. split; [|exact C]. split; [|split; [exact Hl|exact Hw]].
    split; [split; assumption|cbn; discriminate].
  - exists l, (w0 <> None). eexists. split; [reflexivity|]. split; [|exact C]. split; [|split; [exact Hl|auto]].
    split; [split; assumption|cbn; discriminate].
  - apply Q; [|exact C]. intros line H1 H2 _. apply lr_query_ok; assumption.
  - apply Q; [|exact C]. intros line H1 H2 _. apply lr_query_ok; assumption.
  - apply Q; [|exact C]. intros line H1 H2 _. apply lr_query_ok; assumption.
  - apply Q; [|exact C]. intros line H1 H2 _. apply lr_query_ok; assumption.
  - apply Q; [|exact C]. intros line H1 H2 _. apply lr_average_ok; assumption.
  - apply Q; [|exact C]. intros line H1 H2 _. apply lr_query_ok; assumption.
  - apply Q; [|exact C]. intros line H1 H2 _. unfold lr_TensionHorizontalComponent.
    eapply ok_bind; [apply (lr_ensure_ok r line Sr H1 H2)|]. intros (ok, q) (Q1 & Q2 & _). cbn [fst snd] in *.
    destruct ok; [|split; assumption].
    eapply ok_bind; [apply (lr_average_ok q line t Q1 Q2 H2)|]. intros (x, q2) (Q3 & Q4). split; assumption.
  - apply Q; [|exact C]. intros line H1 H2 H3. apply lr_Validate_ok; assumption.
Qed.

Lemma lr_run_ok : forall env ks l w r, lrstate env l w r -> lr_careful env l w ks -> exists r', lr_run env r ks = Ok r'.
Proof.
  induction ks as [|k ks IH]; intros l w r Sr C; [eexists; reflexivity|]. cbn [lr_run].
  destruct (lr_call_ok env k ks l w r Sr C) as (l' & w' & r' & E & S' & C'). rewrite E. cbn [obind]. exact (IH _ _ _ S' C').
Qed.

Lemma lrsafe_new : lrsafe Reloader_new.
Proof. split; [split; [intros l E; discriminate E|cbn; discriminate]|cbn; discriminate]. Qed.

Theorem line_reloader_runs : forall env (ks : list (LrCall RNum)), lr_careful env False False ks ->
  exists r, lr_run env Reloader_new ks = Ok r.
Proof.
  intros env ks C. apply (lr_run_ok env ks False False); [|exact C]. split; [apply lrsafe_new|]. split; intros [].
Qed.

(** ** The line cable unloader *)
Definition lusafe (u : Unloader RNum) : Prop := binv (lu_base u) /\ (lu_upd_model u = true -> solid (lu_model u)).
Definition luhas (u : Unloader RNum) (l : Strung RNum) : Prop := lb_line (lu_base u) = Some l.
Definition lukept {A : Type} (l : Strung RNum) (p : A * Unloader RNum) : Prop := lusafe (snd p) /\ luhas (snd p) l.

Lemma lu_length_ok : forall u l, lusafe u -> luhas u l -> lb_upd_stretch (lu_base u) = true -> lu_upd_model u = true ->
  ok_with (fun p => lukept l p /\ lu_upd_model (snd p) = true) (UpdateUnloadedLength u).
Proof.
  intros u l (B & So) L Us Um. unfold UpdateUnloadedLength. cbv zeta.
  set (cats := fun _ : Z => c3_set_spacing (lb_catenary (lu_base u)) (lu_spacing u)). cbn [un_set_catenary deref obind].
  set (n := un_set_unloaded _ _).
  assert (M : pfit four (lb_memory (lu_base u) (lu_model u))). { apply four_memory; [apply B, Us|apply So, Um]. }
  assert (G : forall mem, pfit four mem -> lusafe (lu_with_models u mem)).
  { intros mem Mm. split; [apply binv_models; assumption|]. intros _. apply Mm. right. reflexivity. }
  assert (A0 : four at_constraint) by (left; left; reflexivity). assert (A3 : four at_last) by (right; reflexivity).
  eapply ok_bind with (Q := fun p => pfit four (snd p)).
  { unfold un_Validate. cbv zeta. eapply ok_bind with (Q := fun p => pfit four (snd p)); [|intros (v, mem) K; exact K].
    unfold cr_Validate. destruct (cr_inputs_valid (un_strainer n)); [|exact M].
    change (cr_start (un_strainer n)) with (Some at_constraint). change (cr_finish (un_strainer n)) with (Some at_last). cbn [deref obind].
    eapply ok_bind; [apply (solid_valid (lb_memory (lu_base u) (lu_model u) at_constraint) false (M at_constraint A0))|].
    intros (v, p) Q. cbn [snd] in Q. pose proof (put_pkeep four _ at_constraint p M A0 Q) as (K1 & _). destruct v; [|exact K1].
    eapply ok_bind; [apply (solid_valid _ false (K1 at_last A3))|]. intros (v2, p2) Q2. cbn [snd] in Q2.
    pose proof (put_pkeep four _ at_last p2 K1 A3 Q2) as (K2 & _). exact K2. }
  intros (ok, mem) K. cbn [snd] in K. destruct ok.
  - unfold un_LengthUnloaded.
    eapply ok_bind; [apply (LengthFinish_pfit four mem (un_strainer n) at_constraint at_last K A0 A3); reflexivity|].
    intros (x, mem2) (K2 & _). cbn [snd ok_with] in *. destruct (G _ K2) as (G1 & G2).
    split; [split; [split; [exact G1|intros X; apply G2, X]|exact L]|exact Um].
  - cbn [ok_with]. destruct (G _ K) as (G1 & G2). split; [split; [split; [exact G1|intros X; apply G2, X]|exact L]|exact Um].
Qed.

Lemma lu_rest_ok : forall u l, lusafe u -> luhas u l -> whole l -> lb_IsUpdated (lu_base u) = true -> ok_with (lukept l) (lu_Update_rest u).
Proof.
  intros u l (B & So) L Wh U. pose proof (updated_stretch _ U) as Us. unfold lu_Update_rest.
  eapply ok_bind with (Q := fun p => lukept l p /\ lu_base (snd p) = lu_base u /\ (fst p = true -> lu_upd_model (snd p) = true)).
  { destruct (lu_upd_model u) eqn:M.
    - cbn. split; [split; [split; [exact B|intros _; apply So, eq_refl]|exact L]|]. auto.
    - unfold UpdateUnloadedCableModel.
      pose proof (LastModel_ok (lu_base u) l (lu_model u) (lu_condition u) (lu_temperature u) (proj1 B) L Wh Us B) as H.
      destruct (UpdateLastModel _ _ _ _) as [(ok, m)| |]; cbn in H; try contradiction. cbn.
      split; [split; [split; [exact B|exact H]|exact L]|]. auto. }
  intros (ok, q) (K & Eb & U1). cbn [fst snd] in *. destruct ok; [|exact K]. specialize (U1 eq_refl).
  destruct (lu_upd_length q); [exact K|]. destruct K as (K1 & K2).
  eapply ok_bind; [apply (lu_length_ok q l K1 K2); [rewrite Eb; exact Us|exact U1]|].
  intros (ok, q2) (((Y1 & Y2) & Y3) & Y4). cbn [snd ok_with] in *. split; [split; [exact Y1|exact Y2]|exact Y3].
Qed.

Lemma lu_Update_ok : forall u l, lusafe u -> luhas u l -> whole l -> ok_with (lukept l) (lu_Update u).
Proof.
  intros u l (B & So) L Wh. unfold lu_Update. destruct (lb_IsUpdated (lu_base u)) eqn:U.
  - apply lu_rest_ok; [split; assumption|assumption|exact Wh|exact U].
  - cbv zeta. cbn [lu_base lu_with_flags].
    eapply ok_bind; [apply (base_Update_ok (lu_base u) l B U L Wh)|]. intros (ok, b) (B1 & L1 & U1). cbn [fst snd] in *.
    destruct ok.
    + apply lu_rest_ok; [split; [exact B1|cbn; discriminate]|exact L1|exact Wh|apply U1; reflexivity].
    + cbn. split; [split; [exact B1|cbn; discriminate]|exact L1].
Qed.

Lemma lu_query_ok : forall (A : Type) (f : bool -> Unloader RNum -> A) u l, lusafe u -> luhas u l -> whole l ->
  ok_with (lukept l) (do (ok, u) <- lu_ensure u; Ok (f ok u, u)).
Proof.
  intros A f u l Su Hu Wh. unfold lu_ensure. eapply ok_bind with (Q := lukept l).
  - destruct (lu_IsUpdated u); [split; assumption|apply lu_Update_ok; assumption].
  - intros (ok, q) Q. exact Q.
Qed.

Lemma lu_Validate_ok : forall env u l, lusafe u -> luhas u l -> whole l -> fastened env l -> ok_with (lukept l) (lu_Validate env u).
Proof.
  intros env u l Su Hu Wh Fa. unfold lu_Validate, lu_base_Validate.
  eapply ok_bind with (Q := lukept l).
  - pose proof (inputs_ok env (lu_base u) l (proj1 (proj1 Su)) Hu Wh Fa) as V.
    eapply ok_bind; [exact V|]. intros v _. destruct v; [|split; assumption]. apply lu_Update_ok; assumption.
  - intros (v, q) (Q1 & Q2). cbn [snd] in *. destruct (_ && _)%bool; [|split; assumption]. apply lu_Update_ok; assumption.
Qed.

Definition lustate (env : Env RNum) (l : Prop) (u : Unloader RNum) : Prop := lusafe u /\ (l -> fit_line env (lb_line (lu_base u))).

Lemma lu_call_ok : forall env k ks l u, lustate env l u -> lu_careful env l (k :: ks) ->
  exists (l' : Prop) u', lu_call env u k = Ok u' /\ lustate env l' u' /\ lu_careful env l' ks.
Proof.
  intros env k ks l u (Su & Hl) C. pose proof Su as ((Ca & Fl) & So).
  assert (Q : forall (A : Type) (o : outcome (A * Unloader RNum)),
    (forall line, luhas u line -> whole line -> fastened env line -> ok_with (lukept line) o) -> l /\ lu_careful env l ks ->
    exists (l' : Prop) u', omap snd o = Ok u' /\ lustate env l' u' /\ lu_careful env l' ks).
  { intros A o H (Y1 & Y3). destruct (Hl Y1) as (line & E & Wh & Fa).
    specialize (H line E Wh Fa). destruct o as [(v, u')| |]; cbn in H; try contradiction. destruct H as (H1 & H2).
    exists l, u'. split; [reflexivity|]. split; [|exact Y3]. split; [exact H1|]. intros _. exists line. auto. }
  destruct k; cbn [lu_call lu_careful] in *.
  - exists (fit_line env l0). eexists. split; [reflexivity|]. split; [|exact C]. split; [|auto].
    split; [|exact So]. split; [|cbn; discriminate]. intros line E. cbn in *. rewrite E. reflexivity.
  - exists l. eexists. split; [reflexivity|]. split; [|exact C]. split; [|exact Hl]. split; [split; assumption|cbn; discriminate].
  - exists l. eexists. split; [reflexivity|]. split; [|exact C]. split; [|exact Hl]. split; [split; assumption|exact So].
  - exists l. eexists. split; [reflexivity|]. split; [|exact C]. split; [|exact Hl]. split; [split; assumption|cbn; discriminate].
  - apply Q; [|exact C]. intros line H1 H2 _. apply lu_query_ok; assumption.
  - apply Q; [|exact C]. intros line H1 H2 _. apply lu_query_ok; assumption.
  - apply Q; [|exact C]. intros line H1 H2 _. apply lu_query_ok; assumption.
  - apply Q; [|exact C]. intros line H1 H2 H3. apply lu_Validate_ok; assumption.
Qed.

Lemma lu_run_ok : forall env ks l u, lustate env l u -> lu_careful env l ks -> exists u', lu_run env u ks = Ok u'.
Proof.
  induction ks as [|k ks IH]; intros l u Su C; [eexists; reflexivity|]. cbn [lu_run].
  destruct (lu_call_ok env k ks l u Su C) as (l' & u' & E & S' & C'). rewrite E. cbn [obind]. exact (IH _ _ S' C').
Qed.

Theorem line_unloader_runs : forall env (ks : list (LuCall RNum)), lu_careful env False ks ->
  exists u, lu_run env Unloader_new ks = Ok u.
Proof.
  intros env ks C. apply (lu_run_ok env ks False); [|exact C]. split; [|intros []].
  split; [split; [intros l E; discriminate E|cbn; discriminate]|cbn; discriminate].
Qed.
