(** The unloader's length, and calls on the reloader and the unloader that do not fail. *)
From Coq Require Import ZArith Bool List Reals Lra Lia.
From Verif Require Import Num NumFacts ModelBase ModelCatenary SpecCatenary ProofCatenary ProofReal ModelSolver ModelThermal
  ModelElongation SpecElong ProofElong ProofElongHistory ProofElongSafe ProofStrainer ModelReload SpecReload ProofReload ProofReloadGap.
Import ListNotations.

(** ** The unloader *)
Section Unload.
Context {N : Num}.
Variable cats : Cats N.

(** What the setters leave. *)
Definition un_inv (c e0 e1 : option Z) (u : CatUnloader N) : Prop :=
  un_catenary u = c /\ cr_start (un_strainer u) = e0 /\ cr_finish (un_strainer u) = e1 /\
  cr_load_finish (un_strainer u) = fofZ 0 /\
  match c with
  | Some a => cr_length (un_strainer u) = c3_Length (cats a) /\ cr_load_start (un_strainer u) = c3_TensionAverage (cats a) 100
  | None => cr_length (un_strainer u) = ferr
  end.

Lemma new_inv : un_inv None None None (CatUnloader_new (N := N)).
Proof. repeat split. Qed.

Lemma un_run_inv : forall ks c e0 e1 u v, un_inv c e0 e1 u -> un_run cats u ks = Ok v ->
  un_inv (last_of pickU_catenary ks c) (last_of pickU_reference ks e0) (last_of pickU_unloaded ks e1) v.
Proof.
  induction ks as [|k ks IH]; intros c e0 e1 u v I E; cbn [un_run] in E; [injection E as <-; exact I|].
  destruct (un_call cats u k) as [w| |] eqn:W; cbn [obind] in E; try discriminate E.
  destruct I as (I1 & I2 & I3 & I4 & I5).
  destruct k as [p|p|p]; cbn [un_call last_of pickU_catenary pickU_reference pickU_unloaded] in *.
  - unfold un_set_catenary in W. destruct p as [a|]; cbn [deref obind] in W; try discriminate W. injection W as <-.
    refine (IH (Some a) e0 e1 _ _ _ E). repeat split; assumption.
  - injection W as <-. refine (IH c p e1 _ _ _ E). split; [exact I1|]. split; [reflexivity|]. split; [exact I3|]. split; [exact I4|exact I5].
  - injection W as <-. refine (IH c e0 p _ _ _ E). split; [exact I1|]. split; [exact I2|]. split; [reflexivity|]. split; [exact I4|exact I5].
Qed.

Lemma unload_length : forall ks mem u a e0 e1, tidy_models mem -> un_run cats CatUnloader_new ks = Ok u ->
  last_of pickU_catenary ks None = Some a -> last_of pickU_reference ks None = Some e0 -> last_of pickU_unloaded ks None = Some e1 ->
  omap fst (un_LengthUnloaded mem u) = cable_length (cable_strain (mem e0)) (cable_strain (mem e1)) (cats a) (fofZ 0).
Proof.
  intros ks mem u a e0 e1 T E A B C. pose proof (un_run_inv ks _ _ _ _ _ new_inv E) as I. rewrite A, B, C in I.
  destruct I as (_ & I2 & I3 & I4 & I5 & I6). unfold un_LengthUnloaded.
  rewrite (LengthFinish_any mem _ e0 e1 (tidy_tracked _ mem T) I2 I3), I4, I5, I6. reflexivity.
Qed.

(** The setters fail only for a null catenary. *)
Lemma un_run_ok : forall ks u, forallb un_there ks = true -> exists v, un_run cats u ks = Ok v.
Proof.
  induction ks as [|k ks IH]; intros u H; cbn [un_run forallb] in *; [eexists; reflexivity|].
  apply andb_true_iff in H. destruct H as (H1 & H2).
  destruct k as [[a|]|p|p]; try discriminate H1; cbn [un_call un_set_catenary deref obind]; apply IH, H2.
Qed.

End Unload.

(** ** Calls that do not fail *)
Definition mfit (mem : Models RNum) : Prop := forall a, fit true true true (mem a).

Lemma ready_run : forall cs k s t (m n : ElongModel RNum), fit k s t m -> Forall usable_call cs ->
  prepared k s t (cs ++ [EmStrain CTCombined (fofZ 0)]) = true -> em_run m cs = Ok n -> fit true true true n.
Proof.
  induction cs as [|c cs IH]; intros k s t m n Fm U P E.
  - cbn in P, E. injection E as <-. destruct k, s, t; cbn in P; try discriminate P. exact Fm.
  - inversion U as [|c' cs' Uc Ucs]; subst. cbn [app] in P.
    destruct (call_fit k s t m c (cs ++ [EmStrain CTCombined (fofZ 0)]) Fm Uc P) as (k' & s' & t' & p & Ep & Fp & Pp).
    cbn [em_run] in E. rewrite Ep in E. cbn [obind] in E. exact (IH _ _ _ _ _ Fp Ucs Pp E).
Qed.

Lemma ready_fit : forall mem : Models RNum, ready_models mem -> mfit mem.
Proof.
  intros mem H a. destruct (H a) as (cs & U & P & E). apply (ready_run cs false false false ElongModel_new); try assumption.
  constructor; reflexivity.
Qed.

Lemma strain_fit : forall (m : ElongModel RNum) y, fit true true true m ->
  exists x p, em_Strain m CTCombined y = Ok (x, p) /\ fit true true true p.
Proof.
  intros m y Fm.
  destruct (call_fit true true true m (EmStrain CTCombined y) [EmStrain CTCombined (fofZ 0)] Fm I eq_refl) as (k & s & t & p & E & Fp & P).
  cbn [em_call] in E. destruct (em_Strain m CTCombined y) as [(x, q)| |]; cbn [omap obind snd] in E; try discriminate E. injection E as ->.
  exists x, p. split; [reflexivity|]. destruct k, s, t; cbn in P; try discriminate P. exact Fp.
Qed.

Lemma valid_fit : forall (m : ElongModel RNum) w, fit true true true m ->
  exists v p, em_Validate w m = Ok (v, p) /\ fit true true true p.
Proof.
  intros m w Fm.
  destruct (call_fit true true true m (EmValidate w) [EmStrain CTCombined (fofZ 0)] Fm I eq_refl) as (k & s & t & p & E & Fp & P).
  cbn [em_call] in E. destruct (em_Validate w m) as [(x, q)| |]; cbn [omap obind snd] in E; try discriminate E. injection E as ->.
  exists x, p. split; [reflexivity|]. destruct k, s, t; cbn in P; try discriminate P. exact Fp.
Qed.

Lemma put_fit : forall mem a m, mfit mem -> fit true true true m -> mfit (put mem a m).
Proof. intros mem a m H Fm x. unfold put. destruct (Z.eqb a x); [exact Fm|apply H]. Qed.

Lemma LengthFinish_fit : forall (mem : Models RNum) s a b, mfit mem -> cr_start s = Some a -> cr_finish s = Some b ->
  ok_with (fun p => mfit (snd p)) (LengthFinish mem s).
Proof.
  intros mem s a b H A B. unfold LengthFinish. rewrite A, B. cbn [deref obind].
  destruct (strain_fit (mem a) (cr_load_start s) (H a)) as (x0 & p0 & E0 & F0). rewrite E0. cbn [obind].
  pose proof (put_fit mem a p0 H F0) as H1.
  destruct (strain_fit (put mem a p0 b) (cr_load_finish s) (H1 b)) as (x1 & p1 & E1 & F1). rewrite E1. cbn.
  apply put_fit; assumption.
Qed.

(** A search whose strainer points to models. *)
Definition searching (s : Search RNum) : Prop :=
  mfit (se_models s) /\ (exists a, cr_start (se_strainer s) = Some a) /\ exists b, cr_finish (se_strainer s) = Some b.

Lemma LengthDifference_fit : forall s h, searching s -> ok_with (fun p => searching (snd p)) (LengthDifference s h).
Proof.
  intros s h (M & (a & A) & b & B). unfold LengthDifference. cbn zeta.
  set (st := cr_set_load_finish _ _).
  eapply ok_bind; [apply (LengthFinish_fit (se_models s) st a b M A B)|].
  intros (l, mem) F. cbn. split; [exact F|]. split; [exists a; exact A|exists b; exact B].
Qed.

Lemma loop_fit : forall fuel p, searching (lp_search p) -> ok_with (fun q => searching (lp_search q)) (reload_loop fuel p).
Proof.
  induction fuel as [|fuel IH]; intros p S; [exact S|]. cbn [reload_loop]. destruct (reload_on p); [|exact S].
  eapply ok_bind with (Q := fun q => searching (lp_search q)); [|intros q Q; apply IH, Q].
  unfold reload_pass. cbn zeta. eapply ok_bind; [apply LengthDifference_fit, S|]. intros (y, s) Q.
  destruct (next_points _ _ _) as (l, r). exact Q.
Qed.

Lemma end_fit : forall s, searching s -> ok_with (fun q => searching (lp_search q)) (reload_end s).
Proof.
  intros s S. unfold reload_end. cbn zeta. eapply ok_bind; [apply LengthDifference_fit, S|]. intros (y, s1) S1.
  eapply ok_bind; [apply LengthDifference_fit, S1|]. intros (z, s2) S2. apply loop_fit. exact S2.
Qed.

(** The pointers that are set. *)
Definition pointed (b : bool) (p : option Z) : Prop := b = true -> p <> None.
Definition rsafe (c e0 e1 w : bool) (st : Models RNum * CatReloader RNum) : Prop :=
  mfit (fst st) /\ pointed c (rl_catenary (snd st)) /\ pointed e0 (rl_reference (snd st)) /\ pointed e1 (rl_reloaded (snd st)) /\
  pointed w (rl_weight (snd st)).

Definition same_keys (r s : CatReloader RNum) : Prop :=
  rl_catenary r = rl_catenary s /\ rl_reference r = rl_reference s /\ rl_reloaded r = rl_reloaded s /\ rl_weight r = rl_weight s.

Lemma rl_Update_fit : forall (cats : Cats RNum) weights mem r, mfit mem -> rl_catenary r <> None -> rl_reference r <> None ->
  rl_reloaded r <> None -> rl_weight r <> None ->
  ok_with (fun p => mfit (fst (snd p)) /\ same_keys r (snd (snd p))) (rl_Update cats weights mem r).
Proof.
  intros cats weights mem r M C E0 E1 W. unfold rl_Update. destruct (rl_updated r); [cbn; split; [exact M|repeat split]|].
  unfold SolveReloaded. destruct (rl_catenary r) as [a|] eqn:EC; [|contradiction]. destruct (rl_weight r) as [w|] eqn:EW; [|contradiction].
  cbn [deref obind].
  set (s := mkSearch _ _ _).
  assert (S : searching s).
  { split; [exact M|]. unfold s. cbn. destruct (rl_reference r) as [e0|]; [|contradiction]. destruct (rl_reloaded r) as [e1|]; [|contradiction].
    split; eexists; reflexivity. }
  pose proof (end_fit s S) as Q. destruct (reload_end s) as [q| |]; cbn in Q; try contradiction. cbn.
  split; [apply Q|]. repeat split; cbn; try reflexivity; assumption.
Qed.

Lemma model_valid_fit : forall w mem p, mfit mem -> ok_with (fun q => mfit (snd q)) (model_valid w mem p).
Proof.
  intros w mem [a|] M; [|exact M]. unfold model_valid. destruct (valid_fit (mem a) w (M a)) as (v & p & E & P). rewrite E. cbn.
  apply put_fit; assumption.
Qed.

Lemma rl_Validate_fit : forall (cats : Cats RNum) weights warn mem r, mfit mem ->
  ok_with (fun p => mfit (fst (snd p)) /\ same_keys r (snd (snd p))) (rl_Validate cats weights warn mem r).
Proof.
  intros cats weights warn mem r M. unfold rl_Validate. cbn zeta.
  destruct (rl_reference r) as [e0|] eqn:E0.
  2:{ unfold model_valid at 1. cbn [obind]. eapply ok_bind; [apply model_valid_fit, M|]. intros (v3, m) M'.
      rewrite andb_false_r. cbn. split; [exact M'|]. repeat split; try assumption. }
  eapply ok_bind; [apply model_valid_fit, M|]. intros (v2, m1) M1.
  destruct (rl_reloaded r) as [e1|] eqn:E1.
  2:{ cbn. rewrite andb_false_r. cbn. split; [exact M1|]. repeat split; try assumption. }
  eapply ok_bind; [apply model_valid_fit, M1|]. intros (v3, m2) M2.
  destruct (rl_catenary r) as [a|] eqn:EC; [|cbn; split; [exact M2|]; repeat split; assumption].
  destruct (rl_weight r) as [w|] eqn:EW; [|cbn [weight_valid]; rewrite andb_false_r; cbn; split; [exact M2|]; repeat split; assumption].
  destruct (_ && _)%bool; [|cbn; split; [exact M2|]; repeat split; assumption].
  apply rl_Update_fit; [exact M2|congruence..].
Qed.

Lemma call_rsafe : forall (cats : Cats RNum) weights k ks c e0 e1 w st, rsafe c e0 e1 w st -> rl_prepared c e0 e1 w (k :: ks) = true ->
  exists c' e0' e1' w' st', rl_call cats weights st k = Ok st' /\ rsafe c' e0' e1' w' st' /\ rl_prepared c' e0' e1' w' ks = true.
Proof.
  intros cats weights k ks c e0 e1 w (mem, r) (M & C & E0 & E1 & W) P. cbn [fst snd] in *.
  assert (TH : forall p : option Z, pointed (there p) p) by (intros [a|]; cbn; discriminate).
  assert (V : forall (A : Type) (o : outcome (A * (Models RNum * CatReloader RNum))),
    ok_with (fun p => mfit (fst (snd p)) /\ same_keys r (snd (snd p))) o -> rl_prepared c e0 e1 w ks = true ->
    exists c' e0' e1' w' st', omap snd o = Ok st' /\ rsafe c' e0' e1' w' st' /\ rl_prepared c' e0' e1' w' ks = true).
  { intros A [(v, st)| |] H Pk; cbn in H; try contradiction. destruct H as (H & K1 & K2 & K3 & K4). exists c, e0, e1, w, st. split; [reflexivity|].
    split; [|exact Pk]. split; [exact H|]. rewrite <- K1, <- K2, <- K3, <- K4. auto. }
  assert (Q : (c && e0 && e1 && w && rl_prepared c e0 e1 w ks)%bool = true ->
    rl_catenary r <> None /\ rl_reference r <> None /\ rl_reloaded r <> None /\ rl_weight r <> None /\ rl_prepared c e0 e1 w ks = true).
  { intros H. rewrite !andb_true_iff in H. destruct H as ((((-> & ->) & ->) & ->) & H). repeat split; try (apply C || apply E0 || apply E1 || apply W); auto. }
  destruct k as [p|p|p|p| | | |warn]; cbn [rl_call rl_prepared] in *.
  - exists (there p), e0, e1, w. eexists. split; [reflexivity|]. split; [|exact P]. unfold rsafe. cbn. auto.
  - exists c, (there p), e1, w. eexists. split; [reflexivity|]. split; [|exact P]. unfold rsafe. cbn. auto.
  - exists c, e0, (there p), w. eexists. split; [reflexivity|]. split; [|exact P]. unfold rsafe. cbn. auto.
  - exists c, e0, e1, (there p). eexists. split; [reflexivity|]. split; [|exact P]. unfold rsafe. cbn. auto.
  - destruct (Q P) as (P1 & P2 & P3 & P4 & Pk). apply V; [|exact Pk]. unfold rl_CatenaryReloaded.
    eapply ok_bind; [apply rl_Update_fit; assumption|]. intros (b, s) H. exact H.
  - destruct (Q P) as (P1 & P2 & P3 & P4 & Pk). apply V; [|exact Pk]. unfold rl_LengthUnloaded.
    eapply ok_bind; [apply rl_Update_fit; assumption|]. intros (b, (m, s)) H. cbn [snd fst] in H. destruct b; [|exact H].
    destruct H as (H & K). pose proof K as (K1 & K2 & K3 & K4). rewrite <- K1, <- K2.
    destruct (rl_catenary r) as [a|]; [|contradiction]. cbn [un_set_catenary deref obind].
    destruct (rl_reference r) as [b|] eqn:RB; [|contradiction]. unfold un_LengthUnloaded.
    eapply ok_bind; [eapply LengthFinish_fit; [exact H|reflexivity..]|]. intros (v, m') H'. cbn in *. split; [exact H'|exact K].
  - destruct (Q P) as (P1 & P2 & P3 & P4 & Pk). apply V; [|exact Pk]. unfold rl_TensionHorizontal.
    eapply ok_bind; [apply rl_Update_fit; assumption|]. intros (b, s) H. exact H.
  - apply V; [|exact P]. apply rl_Validate_fit, M.
Qed.

Lemma run_rsafe : forall (cats : Cats RNum) weights ks c e0 e1 w st, rsafe c e0 e1 w st -> rl_prepared c e0 e1 w ks = true ->
  exists st', rl_run cats weights st ks = Ok st'.
Proof.
  induction ks as [|k ks IH]; intros c e0 e1 w st S P; [eexists; reflexivity|]. cbn [rl_run].
  destruct (call_rsafe cats weights k ks c e0 e1 w st S P) as (c' & e0' & e1' & w' & st' & E & S' & P'). rewrite E. cbn [obind].
  exact (IH _ _ _ _ _ S' P').
Qed.

Lemma reload_runs : forall (cats : Cats RNum) weights mem ks, ready_models mem -> rl_prepared false false false false ks = true ->
  exists st, rl_run cats weights (mem, CatReloader_new) ks = Ok st.
Proof.
  intros cats weights mem ks R P. apply (run_rsafe cats weights ks false false false false); [|exact P].
  split; [apply ready_fit, R|]. repeat split; intros H; discriminate H.
Qed.

(** The unloader with models answers. *)
Lemma unload_answers : forall (cats : Cats RNum) same warn mem ks, ready_models mem -> forallb un_there ks = true ->
  last_of pickU_reference ks None <> None -> last_of pickU_unloaded ks None <> None ->
  exists u, un_run cats CatUnloader_new ks = Ok u /\ is_ok (un_LengthUnloaded mem u) = true /\ is_ok (un_Validate cats same warn mem u) = true.
Proof.
  intros cats same warn mem ks R K A B. destruct (un_run_ok cats ks CatUnloader_new K) as (u & E). exists u. split; [exact E|].
  pose proof (un_run_inv cats ks _ _ _ _ _ (new_inv cats) E) as (_ & I2 & I3 & _). pose proof (ready_fit mem R) as M.
  destruct (last_of pickU_reference ks None) as [e0|]; [|contradiction]. destruct (last_of pickU_unloaded ks None) as [e1|]; [|contradiction].
  split.
  - pose proof (LengthFinish_fit mem (un_strainer u) e0 e1 M I2 I3) as H. unfold un_LengthUnloaded.
    destruct (LengthFinish mem (un_strainer u)); cbn in H; try contradiction. reflexivity.
  - unfold un_Validate, cr_Validate. destruct (cr_inputs_valid (un_strainer u)); [|reflexivity]. rewrite I2, I3. cbn [deref obind].
    destruct (valid_fit (mem e0) warn (M e0)) as (v & p & Ev & Fp). rewrite Ev. cbn [obind]. destruct v; [|reflexivity].
    destruct (valid_fit (put mem e0 p e1) warn (put_fit mem e0 p M Fp e1)) as (v2 & p2 & E2 & _). rewrite E2. reflexivity.
Qed.
