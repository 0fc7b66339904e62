(** Proofs about the component tensions of a line cable reloader. *)
From Coq Require Import ZArith Bool List Reals Lra.
From Verif Require Import Num NumFacts ModelBase ModelLine ModelCable ModelCatenary ModelLoad ModelThermal ModelElongation SpecElong ProofElong
  ProofElongStrain ModelReload ModelSagtension SpecCatenary SpecSagtension ProofSagHistory.
Import ListNotations.
Open Scope num_scope.

Section Parts.
Context {N : Num}.

(** The tension of a component of an updated reloader. *)
Definition part (r : Reloader N) (t : ComponentType) : outcome N :=
  do (x, m) <- em_Strain (lr_model r) CTCombined (c3_TensionAverage (lr_catenary r) 100);
  omap fst (em_Load m t x).

Lemma average_part : forall (r : Reloader N) t, omap fst (lr_TensionAverageComponent r t) =
  (do (ok, r) <- lr_ensure r; if ok then part r t else Ok ferr).
Proof.
  intros r t. unfold lr_TensionAverageComponent, part. destruct (lr_ensure r) as [(ok, r1)| |]; cbn [obind]; try reflexivity.
  destruct ok; [|reflexivity]. destruct (em_Strain _ _ _) as [(x, m)| |]; cbn [obind]; try reflexivity.
  unfold omap. destruct (em_Load m t x) as [(y, m')| |]; reflexivity.
Qed.

Lemma ensured : forall (r r1 : Reloader N), lrinv r -> lr_ensure r = Ok (true, r1) -> lr_IsUpdated r1 = true.
Proof.
  intros r r1 I E. pose proof (lr_ensure_fresh r I) as H. rewrite E in H.
  destruct (lr_ensure (lr_like r)) as [q| |]; cbn [orel] in H; try contradiction. exact (proj1 (proj2 (proj2 (proj2 H)))).
Qed.

Lemma part_sum : forall (r : Reloader N) v, part r CTCombined = Ok v ->
  exists a b, part r CTCore = Ok a /\ part r CTShell = Ok b /\ v = a + b.
Proof.
  intros r v E. unfold part in *. destruct (em_Strain _ _ _) as [(x, m)| |]; cbn [obind] in *; try discriminate E.
  destruct (em_Load m CTCombined x) as [(y, p)| |] eqn:L; try discriminate E. change (Ok y = Ok v) in E. injection E as <-.
  destruct (Load_sum m x y p L) as (a & b & A & B & ->). exists a, b. auto.
Qed.

Lemma average_sum : forall (r : Reloader N) v, omap fst (lr_TensionAverageComponent r CTCombined) = Ok v ->
  exists a b, omap fst (lr_TensionAverageComponent r CTCore) = Ok a /\ omap fst (lr_TensionAverageComponent r CTShell) = Ok b /\
    (v = a + b \/ (v = ferr /\ a = ferr /\ b = ferr)).
Proof.
  intros r v E. rewrite average_part in E |- *. rewrite average_part.
  destruct (lr_ensure r) as [([|], r1)| |]; cbn [obind] in *; try discriminate E.
  - destruct (part_sum r1 v E) as (a & b & A & B & C). exists a, b. auto.
  - injection E as <-. exists ferr, ferr. split; [reflexivity|]. split; [reflexivity|]. right. auto.
Qed.

Lemma horizontal_part : forall (r : Reloader N) t v, lrinv r -> omap fst (lr_TensionHorizontalComponent r t) = Ok v ->
  exists x k, omap fst (lr_TensionAverageComponent r t) = Ok x /\ omap fst (lr_CatenaryReloaded r) = Ok k /\
    (v = x * (c3_tension_horizontal k / c3_TensionAverage k 100) \/ (v = ferr /\ x = ferr)).
Proof.
  intros r t v I E. rewrite average_part. unfold lr_CatenaryReloaded. unfold lr_TensionHorizontalComponent in E.
  destruct (lr_ensure r) as [([|], r1)| |] eqn:En; cbn [obind] in *; try discriminate E.
  - pose proof (ensured r r1 I En) as U.
    assert (P : omap fst (lr_TensionAverageComponent r1 t) = part r1 t).
    { rewrite average_part. unfold lr_ensure. rewrite U. reflexivity. }
    destruct (lr_TensionAverageComponent r1 t) as [(x, r2)| |] eqn:A; cbn [obind] in E; try discriminate E.
    assert (C : lr_catenary r2 = lr_catenary r1).
    { unfold lr_TensionAverageComponent, lr_ensure in A. rewrite U in A. cbn [obind] in A.
      destruct (em_Strain _ _ _) as [(y, m)| |]; cbn [obind] in A; try discriminate A.
      destruct (em_Load m t y) as [(z, m')| |]; cbn [obind] in A; try discriminate A. injection A as _ <-. reflexivity. }
    change (Ok (x * (c3_tension_horizontal (lr_catenary r2) / c3_TensionAverage (lr_catenary r2) 100)) = Ok v) in E.
    injection E as <-. rewrite C. exists x, (lr_catenary r1). split; [rewrite <- P; reflexivity|]. split; [reflexivity|]. left. reflexivity.
  - change (Ok (ferr (N := N)) = Ok v) in E. injection E as <-. exists ferr, Catenary3d_default. split; [reflexivity|]. split; [reflexivity|]. right. auto.
Qed.

Lemma parts : forall env (ks : list (LrCall N)) r, lr_run env Reloader_new ks = Ok r ->
  (forall v, omap fst (lr_TensionAverageComponent r CTCombined) = Ok v ->
     exists a b, omap fst (lr_TensionAverageComponent r CTCore) = Ok a /\ omap fst (lr_TensionAverageComponent r CTShell) = Ok b /\
       (v = a + b \/ (v = ferr /\ a = ferr /\ b = ferr))) /\
  (forall t v, omap fst (lr_TensionHorizontalComponent r t) = Ok v ->
     exists x k, omap fst (lr_TensionAverageComponent r t) = Ok x /\ omap fst (lr_CatenaryReloaded r) = Ok k /\
       (v = x * (c3_tension_horizontal k / c3_TensionAverage k 100) \/ (v = ferr /\ x = ferr))).
Proof.
  intros env ks r E. split; [exact (average_sum r)|]. intros t v. apply horizontal_part.
  exact (proj1 (lr_run_inv env ks Reloader_new r lrinv_new E)).
Qed.

End Parts.
