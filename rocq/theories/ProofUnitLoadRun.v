(** Histories of calls on a CableUnitLoadSolver. *)
From Coq Require Import ZArith Bool List Reals Lra.
From Verif Require Import Num NumFacts ModelBase ModelLoad ProofReal ProofLoad SpecUnitLoadRun.
Import ListNotations.

Lemma latest_snoc : forall {C A : Type} (g : C -> option A) b cs c,
  latest g b (cs ++ [c]) = match g c with Some x => x | None => latest g b cs end.
Proof. intros. unfold latest. rewrite fold_left_app. reflexivity. Qed.

Section Run.
Context {N : Num}.

Lemma ul_run_app : forall cs cs' (st : Doubles N * UnitLoadSolver),
  ul_run st (cs ++ cs') = obind (ul_run st cs) (fun st => ul_run st cs').
Proof.
  induction cs as [|c cs IH]; intros cs' st; [reflexivity|].
  cbn [app ul_run]. destruct (ul_call st c) as [st1| |]; cbn [obind]; [apply IH|reflexivity|reflexivity].
Qed.

(** The state holds what the calls gave. *)
Lemma ul_run_latest : forall (mem : Doubles N) cs st, ul_run (mem, UnitLoadSolver_new) cs = Ok st ->
  ul_diameter (snd st) = diameter_set cs /\ ul_weight (snd st) = weight_set cs /\ forall a, fst st a = double_after mem cs a.
Proof.
  intros mem cs. induction cs as [|c cs IH] using rev_ind; intros st E.
  - injection E as <-. repeat split.
  - rewrite ul_run_app in E. destruct (ul_run (mem, UnitLoadSolver_new) cs) as [[m s]| |]; try discriminate E.
    specialize (IH _ eq_refl). cbn [fst snd] in IH. destruct IH as (Hd & Hw & Hm).
    unfold diameter_set, weight_set, double_after in *.
    cbn [obind ul_run] in E.
    destruct c as [p|p|b x|w|]; cbn [ul_call] in E.
    + injection E as <-. rewrite !latest_snoc. cbn. repeat split; [assumption|]. intros a. rewrite latest_snoc. apply Hm.
    + injection E as <-. rewrite !latest_snoc. cbn. repeat split; [assumption|]. intros a. rewrite latest_snoc. apply Hm.
    + injection E as <-. rewrite !latest_snoc. cbn [gives_diameter gives_weight fst snd]. repeat split; [assumption|assumption|].
      intros a. rewrite latest_snoc. cbn [gives_double]. unfold write. destruct (Z.eqb b a); [reflexivity|apply Hm].
    + destruct (UnitCableLoad m s w) as [v| |]; try discriminate E. injection E as <-.
      rewrite !latest_snoc. cbn [gives_diameter gives_weight fst snd]. repeat split; [assumption|assumption|].
      intros a. rewrite latest_snoc. apply Hm.
    + injection E as <-. rewrite !latest_snoc. cbn [gives_diameter gives_weight fst snd]. repeat split; [assumption|assumption|].
      intros a. rewrite latest_snoc. apply Hm.
Qed.

Lemma load_defined : forall (mem : Doubles N) s w,
  (ul_diameter s = None \/ ul_weight s = None) <-> UnitCableLoad mem s w = UB.
Proof.
  intros mem [d w] k. unfold UnitCableLoad. cbn [ul_diameter ul_weight].
  destruct d as [a|], w as [b|]; cbn; split; intros H; try reflexivity; try discriminate H; auto.
  destruct H as [H|H]; discriminate H.
Qed.

Lemma load_no_throw : forall (mem : Doubles N) s w, UnitCableLoad mem s w <> Throw.
Proof. intros mem [[a|] [b|]] w; cbn; discriminate. Qed.

Lemma ul_run_defined : forall (mem : Doubles N) cs,
  (asked_too_soon cs -> ul_run (mem, UnitLoadSolver_new) cs = UB) /\
  (~ asked_too_soon cs -> exists st, ul_run (mem, UnitLoadSolver_new) cs = Ok st).
Proof.
  intros mem cs. induction cs as [|c cs IH] using rev_ind.
  { split; [|eexists; reflexivity]. intros (b & w & a & E & _). destruct b; discriminate E. }
  destruct IH as [Bad Good].
  assert (Ex : asked_too_soon cs -> asked_too_soon (cs ++ [c])).
  { intros (b & w & a & -> & H). exists b, w, (a ++ [c]). rewrite <- app_assoc. split; [reflexivity|exact H]. }
  assert (De : asked_too_soon (cs ++ [c]) -> asked_too_soon cs \/ exists w, c = UlUnitCableLoad w /\ (diameter_set cs = None \/ weight_set cs = None)).
  { intros (b & w & a & E & H). destruct a as [|z a _] using rev_ind.
    - apply app_inj_tail in E as [-> ->]. right. exists w. split; [reflexivity|exact H].
    - left. replace (b ++ UlUnitCableLoad w :: a ++ [z]) with ((b ++ UlUnitCableLoad w :: a) ++ [z]) in E by (rewrite <- app_assoc; reflexivity).
      apply app_inj_tail in E as [-> _]. exists b, w, a. split; [reflexivity|exact H]. }
  split.
  - intros H. rewrite ul_run_app. destruct (ul_run (mem, UnitLoadSolver_new) cs) as [st| |] eqn:E.
    + destruct (De H) as [K|(w & -> & K)]; [specialize (Bad K); discriminate Bad|].
      destruct (ul_run_latest _ _ _ E) as (Hd & Hw & _). destruct st as [m s]. cbn [snd] in *.
      cbn [obind ul_run ul_call]. rewrite <- Hd, <- Hw in K. apply (load_defined m s w) in K. rewrite K. reflexivity.
    + exfalso. destruct (De H) as [K|(w & -> & K)].
      * specialize (Bad K). discriminate Bad.
      * assert (G : forall cs (st : Doubles N * UnitLoadSolver), ul_run st cs <> Throw).
        { clear. induction cs as [|c cs IH]; intros [m s]; [discriminate|]. cbn [ul_run].
          destruct (ul_call (m, s) c) as [st1| |] eqn:E; cbn [obind]; [apply IH| |discriminate].
          destruct c; cbn [ul_call] in E; try discriminate E.
          destruct (UnitCableLoad m s w) as [v| |] eqn:F; try discriminate E. destruct (load_no_throw _ _ _ F). }
        exact (G _ _ E).
    + reflexivity.
  - intros H. destruct Good as [[m s] E]; [intros K; apply H; auto|].
    rewrite ul_run_app, E. cbn [obind ul_run].
    destruct (ul_run_latest _ _ _ E) as (Hd & Hw & _). cbn [snd] in *.
    destruct c as [p|p|b x|w|]; cbn [ul_call]; try (eexists; reflexivity).
    destruct (UnitCableLoad m s w) as [v| |] eqn:F; [eexists; reflexivity|destruct (load_no_throw _ _ _ F)|].
    exfalso. apply H. apply load_defined in F. rewrite Hd, Hw in F. exists cs, w, []. split; [reflexivity|exact F].
Qed.
End Run.

(** Validate of the state after the calls. *)
Lemma ul_run_valid : forall (mem : Doubles RNum) cs st, ul_run (mem, UnitLoadSolver_new) cs = Ok st ->
  (ul_Validate (fst st) (snd st) = true <->
   exists a b, diameter_set cs = Some a /\ weight_set cs = Some b /\ 0 < double_after mem cs a /\ 0 < double_after mem cs b)%R.
Proof.
  intros mem cs st E. destruct (ul_run_latest _ _ _ E) as (Hd & Hw & Hm).
  unfold ul_Validate, bad_double. rewrite Hd, Hw.
  destruct (diameter_set cs) as [a|], (weight_set cs) as [b|]; cbn [negb andb].
  - rewrite !Hm, andb_true_iff, !negb_true_iff. split.
    + intros [H K]. apply Rleb_false in H, K. exists a, b. repeat split; rn; [exact H|exact K].
    + intros (a' & b' & Ea & Eb & H & K). injection Ea as <-. injection Eb as <-. split; apply Rleb_false; rn; assumption.
  - rewrite andb_false_r. split; [discriminate|]. intros (? & ? & _ & X & _). discriminate X.
  - split; [discriminate|]. intros (? & ? & X & _). discriminate X.
  - split; [discriminate|]. intros (? & ? & X & _). discriminate X.
Qed.

(** The load after the calls. *)
Lemma ul_run_load : forall (mem : Doubles RNum) cs st (w : WeatherLoadCase RNum) a b,
  ul_run (mem, UnitLoadSolver_new) cs = Ok st -> WeatherLoadCase_Validate w = true ->
  diameter_set cs = Some a -> weight_set cs = Some b ->
  (0 < double_after mem cs a)%R -> (0 < double_after mem cs b)%R ->
  exists v, UnitCableLoad (fst st) (snd st) w = Ok v /\
    let d := double_after mem cs a in let t := wl_thickness_ice w in
    let ice := (wl_density_ice w * (PI * ((d / 2 + t) * (d / 2 + t)) - PI * (d / 2 * (d / 2))))%R in
    (v3x v = 0 /\ v3y v = wl_pressure_wind w * (d + 2 * t) /\
     v3z v <= double_after mem cs b + ice <= v3z v + 4 / 1000000000000000 * (wl_density_ice w * t * (d + t)))%R.
Proof.
  intros mem cs st w a b E Vw Da Db Pa Pb.
  assert (V : ul_Validate (fst st) (snd st) = true) by (apply (ul_run_valid _ _ _ E); exists a, b; auto).
  destruct (ul_run_latest _ _ _ E) as (Hd & Hw & Hm).
  destruct (unit_load _ _ _ V Vw) as (a' & b' & v & Ea & Eb & Ev & H).
  rewrite Hd, Da in Ea. injection Ea as <-. rewrite Hw, Db in Eb. injection Eb as <-.
  exists v. split; [exact Ev|]. cbn zeta in *. rewrite !Hm in H. intuition.
Qed.
