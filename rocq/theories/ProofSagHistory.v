(** Proofs about the line cable loaders in any arithmetic: the answers of a used reloader
    and of a used unloader are those of a new one with the last arguments. *)
From Coq Require Import ZArith Bool List.
From Verif Require Import Num ModelBase ModelLine ModelCable ModelCatenary SpecCatenary ProofCatenary ModelSolver ProofSolver
  ModelLoad ModelThermal ModelElongation SpecElong ProofElong ProofElongHistory ModelReload SpecReload ProofReload
  ModelSagtension SpecSagtension ProofSagtension.
Import ListNotations.
Open Scope num_scope.

Section History.
Context {N : Num}.

(** ** The base class *)
Definition fresh_base (b : Loader N) : Loader N := lb_set_line Loader_new (lb_line b).

Definition binv (b : Loader N) : Prop :=
  (lb_line b = None /\ lb_IsUpdated b = false /\ sg_base (lb_cable b) = None \/ binputs b (fresh_base b)) /\
  (lb_IsUpdated b = true -> exists b', lb_Update (fresh_base b) = Ok (true, b') /\ bsame b b').

Lemma binv_line : forall b l, binv (lb_set_line b l).
Proof. intros b l. split; [right; split; reflexivity|]. cbn. discriminate. Qed.
Lemma binv_new : binv Loader_new.
Proof. split; [left; split; [reflexivity|split; reflexivity]|cbn; discriminate]. Qed.
Lemma binv_same : forall b c, binv b -> bsame b c -> lb_IsUpdated c = lb_IsUpdated b -> binv c.
Proof.
  intros b c (A & B) S U. assert (S' := S). destruct S' as ((L & K) & _). unfold binv, fresh_base. rewrite <- L, U. split.
  - destruct A as [(A1 & A2 & A3)|(A1 & A2)]; [left; rewrite <- K; auto|right; split; [cbn; congruence|]].
    cbn in A2 |- *. rewrite <- K. exact A2.
  - intros V. destruct (B V) as (b' & E & S1). exists b'. split; [exact E|]. eapply bsame_trans; [apply bsame_sym, S|exact S1].
Qed.

Lemma bsame_refl : forall b c : Loader N, bsame b c -> bsame b b.
Proof. intros b c H. eapply bsame_trans; [exact H|apply bsame_sym, H]. Qed.

Lemma lb_Update_fresh : forall b, binv b ->
  orel (fun p q => fst p = fst q /\ binv (snd p) /\ lb_line (snd p) = lb_line b /\ lb_IsUpdated (snd p) = fst p /\
                   (fst p = true -> bsame (snd p) (snd q)))
    (lb_Update b) (lb_Update (fresh_base b)).
Proof.
  intros b (A & _). destruct A as [(A & _ & _)|A].
  - unfold lb_Update, UpdateConstraintCatenary. cbn [fresh_base lb_set_line lb_line]. rewrite A. exact I.
  - pose proof (lb_Update_alike b (fresh_base b) A) as H.
    destruct (lb_Update b) as [(v, b1)| |], (lb_Update (fresh_base b)) as [(v', b2)| |] eqn:E; cbn [orel] in *; try contradiction; try exact I.
    destruct H as (V & I1 & I2 & U1 & U2 & B). cbn [fst snd] in *. subst v'.
    split; [reflexivity|]. split; [|split; [apply I1|split; [exact U1|exact B]]].
    unfold binv, fresh_base. destruct I1 as (L & K). rewrite L. split; [right; split; [cbn; exact L|]|].
    + destruct A as (_ & A2). cbn in A2 |- *. congruence.
    + rewrite U1. intros ->. exists b2. split; [exact E|apply B; reflexivity].
Qed.

Lemma inputs_valid_fresh : forall env b, binv b -> lb_inputs_valid env b = lb_inputs_valid env (fresh_base b).
Proof.
  intros env b ([(L & _ & K)|(L & K)] & _); unfold lb_inputs_valid.
  - cbn [fresh_base lb_set_line lb_line lb_cable]. rewrite L. unfold sg_Validate. rewrite K. reflexivity.
  - rewrite K. reflexivity.
Qed.

(** ** The last model *)
Lemma UpdateLastModel_alike : forall (b c : Loader N) m n k t, bsame b c ->
  orel (fun p q => fst p = fst q /\ (fst p = true -> mates (snd p) (snd q)))
    (UpdateLastModel b m k t) (UpdateLastModel c n k t).
Proof.
  intros b c m n k t ((_ & K) & _ & _ & C1 & C2). unfold UpdateLastModel, chosen_stretch. rewrite C1, C2, K.
  destruct k; cbn [orel fst snd]; try (split; [reflexivity|discriminate]);
    (eapply orel_bind; [apply set_model_mates|]; intros x y M; cbn [orel fst snd]; split; [reflexivity|intros _; exact M]).
Qed.

(** ** The reloader *)
Definition lr_like (r : Reloader N) : Reloader N := lr_fresh (lb_line (lr_base r)) (lr_condition r) (lr_weather r).

Definition rres (r s : Reloader N) : Prop :=
  bsame (lr_base r) (lr_base s) /\ mates (lr_model r) (lr_model s) /\ twin_h (lr_catenary r) (lr_catenary s).

Definition lrinv (r : Reloader N) : Prop :=
  binv (lr_base r) /\
  (lb_IsUpdated (lr_base r) = true -> lr_upd_model r = true -> exists b' w m',
     lb_Update (fresh_base (lr_base r)) = Ok (true, b') /\ lr_weather r = Some w /\
     UpdateLastModel b' ElongModel_new (lr_condition r) (wl_temperature_cable w) = Ok (true, m') /\ mates (lr_model r) m') /\
  (lb_IsUpdated (lr_base r) = true -> lr_upd_catenary r = true ->
     lr_upd_model r = true /\ exists r', lr_Update (lr_like r) = Ok (true, r') /\ rres r r').

Lemma lrinv_new : lrinv Reloader_new.
Proof. split; [apply binv_new|]. split; cbn; discriminate. Qed.
Lemma lrinv_line : forall r l, lrinv (lr_set_line r l).
Proof. intros r l. split; [apply binv_line|]. split; cbn; discriminate. Qed.
Lemma lrinv_condition : forall r c, lrinv r -> lrinv (lr_set_condition r c).
Proof. intros r c (A & _). split; [exact A|]. split; cbn; discriminate. Qed.
Lemma lrinv_weather : forall r w, lrinv r -> lrinv (lr_set_weather r w).
Proof. intros r w (A & _). split; [exact A|]. split; cbn; discriminate. Qed.
Lemma lrinv_model : forall r m, lrinv r -> (lr_upd_model r = true -> mates (lr_model r) m) -> lrinv (lr_with_model r m).
Proof.
  intros r m (A & B & C) M. split; [exact A|]. split; cbn [lr_with_model lr_base lr_upd_model lr_upd_catenary lr_weather lr_condition lr_model].
  - intros U V. destruct (B U V) as (b' & w & m' & B1 & B2 & B3 & B4). exists b', w, m'. split; [exact B1|]. split; [exact B2|].
    split; [exact B3|]. eapply mates_trans; [apply mates_sym, M, V|exact B4].
  - intros U V. destruct (C U V) as (W & r' & E & R1 & R2 & R3). split; [exact W|]. exists r'. split; [exact E|].
    split; [exact R1|]. split; [|exact R3]. eapply mates_trans; [apply mates_sym, M, W|exact R2].
Qed.

(** The inputs of the reloader. *)
Definition lr_keys (r : Reloader N) := (lb_line (lr_base r), lr_condition r, lr_weather r).

Lemma UpdateReloadedCatenary_alike : forall r s, bsame (lr_base r) (lr_base s) -> mates (lr_model r) (lr_model s) ->
  lr_weather r = lr_weather s ->
  orel (fun p q => fst p = fst q /\ bsame (lr_base r) (lr_base (snd p)) /\ bsame (lr_base (snd p)) (lr_base (snd q)) /\
          lb_IsUpdated (lr_base (snd p)) = lb_IsUpdated (lr_base r) /\
          mates (lr_model r) (lr_model (snd p)) /\ mates (lr_model (snd p)) (lr_model (snd q)) /\ lr_keys (snd p) = lr_keys r /\
          lr_upd_model (snd p) = lr_upd_model r /\
          (fst p = true -> twin_h (lr_catenary (snd p)) (lr_catenary (snd q))))
    (UpdateReloadedCatenary r) (UpdateReloadedCatenary s).
Proof.
  intros r s B M W. assert (B' := B). destruct B' as ((L & K) & Ca & MM & C1 & C2). unfold UpdateReloadedCatenary. rewrite <- L, <- W, <- Ca.
  apply (orel_bind _ _ _ _ eq); [apply orel_eq|]. intros l l' <-.
  apply (orel_bind _ _ _ _ eq); [apply orel_eq|]. intros w w' <-.
  pose proof (memory_mates _ _ _ _ MM M) as MX.
  eapply orel_bind; [apply Validate_alike; [exact MX|split; [reflexivity|split; [reflexivity|cbn; discriminate]]]|].
  intros (v, (m1, r1)) (v', (n1, s1)) ((E & M1 & M2 & R & KK) & _). cbn [fst snd] in *. subst v'.
  assert (Res : forall m2 n2 : Models N, mmates m2 n2 -> mmates (lb_memory (lr_base r) (lr_model r)) m2 ->
    bsame (lr_base r) (lb_with_models (lr_base r) m2) /\ bsame (lb_with_models (lr_base r) m2) (lb_with_models (lr_base s) n2) /\
    mates (lr_model r) (m2 at_last) /\ mates (m2 at_last) (n2 at_last)).
  { intros m2 n2 A1 A2. split; [apply (bsame_models _ _ (lr_model r)); [destruct (bsame_refl _ _ B) as (_ & _ & X & _); exact X|exact A2]|].
    split; [split; [split; cbn; congruence|]; split; [exact Ca|]; split; [apply with_models, A1|split; assumption]|].
    split; [apply (A2 at_last)|apply A1]. }
  destruct v.
  - eapply orel_bind; [apply Catenary_alike; eassumption|].
    intros (k, (m2, r2)) (k', (n2, s2)) (T & M3 & M4 & _). cbn [fst snd] in *. cbn [orel fst snd].
    destruct (Res m2 n2 M3 (mmates_trans _ _ _ M2 M4)) as (P1 & P2 & P3 & P4).
    split; [reflexivity|]. split; [exact P1|]. split; [exact P2|]. split; [reflexivity|]. split; [exact P3|]. split; [exact P4|].
    split; [reflexivity|]. split; [reflexivity|]. intros _. exact T.
  - cbn [orel fst snd]. destruct (Res m1 n1 M1 M2) as (P1 & P2 & P3 & P4).
    split; [reflexivity|]. split; [exact P1|]. split; [exact P2|]. split; [reflexivity|]. split; [exact P3|]. split; [exact P4|].
    split; [reflexivity|]. split; [reflexivity|]. discriminate.
Qed.

Definition lr_paired (r : Reloader N) (p q : bool * Reloader N) : Prop :=
  fst p = fst q /\ lrinv (snd p) /\ lr_keys (snd p) = lr_keys r /\ lr_IsUpdated (snd p) = fst p /\ (fst p = true -> rres (snd p) (snd q)).

(** The reloaded catenary. *)
Lemma catenary_stage : forall r s, lrinv r -> lb_IsUpdated (lr_base r) = true -> lr_upd_model r = true ->
  bsame (lr_base r) (lr_base s) -> mates (lr_model r) (lr_model s) -> lr_weather r = lr_weather s ->
  lr_Update (lr_like r) = (do (ok, s) <- UpdateReloadedCatenary s; Ok (ok, lr_with_flags s ok (lr_upd_model s))) ->
  orel (lr_paired r) (do (ok, r) <- UpdateReloadedCatenary r; Ok (ok, lr_with_flags r ok (lr_upd_model r)))
    (do (ok, s) <- UpdateReloadedCatenary s; Ok (ok, lr_with_flags s ok (lr_upd_model s))).
Proof.
  intros r s (A & B & _) U V BS MS W F. pose proof (UpdateReloadedCatenary_alike r s BS MS W) as H.
  destruct (UpdateReloadedCatenary r) as [(v, r1)| |], (UpdateReloadedCatenary s) as [(v', s1)| |]; cbn [orel obind] in *;
    try contradiction; try exact I.
  destruct H as (E & B1 & B2 & U1 & M1 & M2 & K1 & V1 & T). cbn [fst snd] in *. subst v'.
  assert (Res : v = true -> rres (lr_with_flags r1 v (lr_upd_model r1)) (lr_with_flags s1 v (lr_upd_model s1))).
  { intros X. split; [exact B2|]. split; [exact M2|exact (T X)]. }
  injection K1 as K2 K3 K4.
  split; [reflexivity|]. cbn [fst snd]. split; [|split; [unfold lr_keys; cbn; congruence|split; [|exact Res]]].
  - split; [apply (binv_same (lr_base r)); assumption|].
    split; cbn [lr_with_flags lr_base lr_upd_model lr_upd_catenary lr_weather lr_condition lr_model].
    + intros _ _. destruct (B U V) as (b' & w & m' & X1 & X2 & X3 & X4). exists b', w, m'. unfold fresh_base in *. rewrite K2, K3, K4.
      split; [exact X1|]. split; [exact X2|]. split; [exact X3|]. eapply mates_trans; [apply mates_sym, M1|exact X4].
    + intros _ ->. split; [congruence|]. exists (lr_with_flags s1 true (lr_upd_model s1)).
      split; [|apply Res; reflexivity]. unfold lr_like in *. cbn [lr_with_flags lr_base lr_condition lr_weather]. rewrite K2, K3, K4. exact F.
  - unfold lr_IsUpdated. cbn. rewrite U1, U, V1, V. reflexivity.
Qed.

Lemma rest_start : forall (s : Reloader N) w m', lr_upd_model s = false -> lr_upd_catenary s = false -> lr_weather s = Some w ->
  UpdateLastModel (lr_base s) (lr_model s) (lr_condition s) (wl_temperature_cable w) = Ok (true, m') ->
  lr_Update_rest s = (do (ok, s) <- UpdateReloadedCatenary (lr_with_flags (lr_with_model s m') false true);
                      Ok (ok, lr_with_flags s ok (lr_upd_model s))).
Proof.
  intros s w m' U V W E. unfold lr_Update_rest, UpdateReloadedCableModel. rewrite U, W. cbn [deref obind]. rewrite E. cbn [obind].
  cbn [lr_with_flags lr_upd_catenary lr_with_model]. rewrite V. reflexivity.
Qed.

Lemma Update_like : forall r, lr_Update (lr_like r) =
  (do (ok, b) <- lb_Update (fresh_base (lr_base r));
   if ok then lr_Update_rest (lr_with_base (lr_like r) b) else Ok (false, lr_with_base (lr_like r) b)).
Proof. intros r. unfold lr_Update. reflexivity. Qed.

Lemma rest_fresh : forall r b', lrinv r -> lb_IsUpdated (lr_base r) = true ->
  lb_Update (fresh_base (lr_base r)) = Ok (true, b') -> bsame (lr_base r) b' ->
  orel (lr_paired r) (lr_Update_rest r) (lr_Update (lr_like r)).
Proof.
  intros r b' H U E BS. pose (s := lr_with_base (lr_like r) b').
  assert (F : lr_Update (lr_like r) = lr_Update_rest s).
  { rewrite Update_like, E. reflexivity. }
  assert (H' := H). destruct H' as (A & B & C). destruct (lr_upd_model r) eqn:V.
  - destruct (B U eq_refl) as (b'' & w & m' & X1 & X2 & X3 & X4). rewrite E in X1. injection X1 as <-.
    pose proof (rest_start s w m' eq_refl eq_refl X2 X3) as G.
    unfold lr_Update_rest at 1. rewrite V. cbn [obind]. destruct (lr_upd_catenary r) eqn:Q.
    + destruct (C U eq_refl) as (_ & r' & R1 & R2). rewrite R1. cbn [orel]. split; [reflexivity|]. split; [exact H|]. split; [reflexivity|].
      split; [unfold lr_IsUpdated; cbn [fst snd]; rewrite U, V, Q; reflexivity|]. intros _. exact R2.
    + rewrite F, G. apply catenary_stage; try assumption; try reflexivity. rewrite F. exact G.
  - assert (Q : lr_upd_catenary r = false).
    { destruct (lr_upd_catenary r); [|reflexivity]. destruct (C U eq_refl) as (X & _). discriminate X. }
    destruct (lr_weather r) as [w|] eqn:W.
    2: { rewrite F. unfold lr_Update_rest, UpdateReloadedCableModel. rewrite V.
         change (lr_upd_model s) with false. change (lr_weather s) with (lr_weather r). rewrite W. exact I. }
    pose proof (UpdateLastModel_alike (lr_base r) b' (lr_model r) ElongModel_new (lr_condition r) (wl_temperature_cable w) BS) as L.
    destruct (UpdateLastModel (lr_base r) (lr_model r) _ _) as [(v, m)| |] eqn:L1,
      (UpdateLastModel b' ElongModel_new _ _) as [(v', m')| |] eqn:L2; cbn [orel] in L; try contradiction.
    + destruct L as (LE & M). cbn [fst snd] in *. subst v'. destruct v.
      * pose proof (rest_start s w m' eq_refl eq_refl W L2) as G. rewrite (rest_start r w m V Q W L1), F, G.
        set (r1 := lr_with_flags (lr_with_model r m) false true).
        change (orel (lr_paired r1)
                  (do (ok, r0) <- UpdateReloadedCatenary r1; Ok (ok, lr_with_flags r0 ok (lr_upd_model r0)))
                  (do (ok, s0) <- UpdateReloadedCatenary (lr_with_flags (lr_with_model s m') false true);
                   Ok (ok, lr_with_flags s0 ok (lr_upd_model s0)))).
        apply catenary_stage; try assumption; try reflexivity.
        { split; [exact A|]. split; [|cbn; discriminate]. intros _ _. exists b', w, m'. split; [exact E|]. split; [exact W|].
          split; [exact L2|apply M; reflexivity]. }
        { apply M. reflexivity. }
        { change (lr_like r1) with (lr_like r). rewrite F. exact G. }
      * rewrite F. unfold lr_Update_rest, UpdateReloadedCableModel. rewrite V, W. cbn [deref obind]. rewrite L1.
        change (lr_upd_model s) with false. change (lr_weather s) with (lr_weather r). rewrite W. cbn [deref obind].
        change (lr_base s) with b'. change (lr_model s) with (@ElongModel_new N). change (lr_condition s) with (lr_condition r). rewrite L2.
        cbn [obind orel]. split; [reflexivity|]. cbn [fst snd]. split; [|split; [reflexivity|]].
        { split; [exact A|]. split; cbn; [discriminate|]. rewrite Q. discriminate. }
        { split; [|discriminate]. unfold lr_IsUpdated. cbn. apply andb_false_iff. left. apply andb_false_iff. right. reflexivity. }
    + rewrite F. unfold lr_Update_rest, UpdateReloadedCableModel. rewrite V, W. cbn [deref obind]. rewrite L1.
        change (lr_upd_model s) with false. change (lr_weather s) with (lr_weather r). rewrite W. cbn [deref obind].
        change (lr_base s) with b'. change (lr_model s) with (@ElongModel_new N). change (lr_condition s) with (lr_condition r). rewrite L2. exact I.
    + rewrite F. unfold lr_Update_rest, UpdateReloadedCableModel. rewrite V, W. cbn [deref obind]. rewrite L1.
        change (lr_upd_model s) with false. change (lr_weather s) with (lr_weather r). rewrite W. cbn [deref obind].
        change (lr_base s) with b'. change (lr_model s) with (@ElongModel_new N). change (lr_condition s) with (lr_condition r). rewrite L2. exact I.
Qed.

Lemma lr_Update_fresh : forall r, lrinv r -> orel (lr_paired r) (lr_Update r) (lr_Update (lr_like r)).
Proof.
  intros r H. assert (A := proj1 H). destruct (lb_IsUpdated (lr_base r)) eqn:U.
  - destruct (proj2 A U) as (b' & E & BS). unfold lr_Update at 1. rewrite U. apply (rest_fresh r b'); assumption.
  - pose proof (lb_Update_fresh (lr_base r) A) as L.
    unfold lr_Update at 1. rewrite U. cbn [lr_with_flags lr_base].
    destruct (lb_Update (lr_base r)) as [(v, b)| |] eqn:E, (lb_Update (fresh_base (lr_base r))) as [(v', b')| |] eqn:E'; cbn [orel] in L; try contradiction.
    + destruct L as (LE & B & K & V & S). cbn [fst snd obind] in *. subst v'. destruct v.
      * set (r1 := lr_with_base (lr_with_flags r false false) b).
        assert (X : lr_like r1 = lr_like r) by (unfold lr_like; cbn; rewrite K; reflexivity).
        assert (Y : fresh_base (lr_base r1) = fresh_base (lr_base r)) by (unfold fresh_base; cbn; rewrite K; reflexivity).
        rewrite <- X. eapply orel_mono; [apply (rest_fresh r1 b')|].
        { split; [exact B|]. split; cbn; discriminate. }
        { exact V. }
        { rewrite Y. exact E'. }
        { apply S. reflexivity. }
        intros p q (P1 & P2 & P3 & P4). split; [exact P1|]. split; [exact P2|]. split; [|exact P4].
        rewrite P3. unfold lr_keys. cbn. rewrite K. reflexivity.
      * rewrite Update_like, E'. cbn [obind orel]. split; [reflexivity|]. cbn [fst snd].
        split; [split; [exact B|]; cbn; rewrite V; split; discriminate|]. split; [unfold lr_keys; cbn; rewrite K; reflexivity|].
        split; [|discriminate]. unfold lr_IsUpdated. cbn. rewrite V. reflexivity.
    + rewrite Update_like, E'. exact I.
    + rewrite Update_like, E'. exact I.
Qed.

Lemma ensure_Update : forall r : Reloader N, lr_ensure r = lr_Update r.
Proof.
  intros r. unfold lr_ensure. destruct (lr_IsUpdated r) eqn:U; [|reflexivity].
  unfold lr_IsUpdated in U. apply andb_prop in U. destruct U as (U & W). apply andb_prop in U. destruct U as (U & V).
  unfold lr_Update, lr_Update_rest. rewrite U, V. cbn [obind]. rewrite W. reflexivity.
Qed.
Lemma updated_Update : forall r : Reloader N, lr_IsUpdated r = true -> lr_Update r = Ok (true, r).
Proof. intros r U. rewrite <- ensure_Update. unfold lr_ensure. rewrite U. reflexivity. Qed.

Lemma lr_ensure_fresh : forall r, lrinv r -> orel (lr_paired r) (lr_ensure r) (lr_ensure (lr_like r)).
Proof. intros r H. rewrite !ensure_Update. apply lr_Update_fresh, H. Qed.

(** ** The answers *)

(** The call keeps the invariant and the inputs, and answers as a new reloader. *)
Definition lr_answers {A : Type} (r : Reloader N) (p q : A * Reloader N) : Prop :=
  fst p = fst q /\ lrinv (snd p) /\ lr_keys (snd p) = lr_keys r.

Lemma simple_answers : forall (A : Type) (f : Reloader N -> A) (d : A) r, lrinv r ->
  (forall a b, rres a b -> f a = f b) ->
  orel (lr_answers r) (do (ok, r) <- lr_ensure r; Ok (if ok then f r else d, r))
    (do (ok, r) <- lr_ensure (lr_like r); Ok (if ok then f r else d, r)).
Proof.
  intros A f d r H F. eapply orel_bind; [apply lr_ensure_fresh, H|]. intros (v, a) (v', b) (E & I & K & _ & R). cbn [fst snd] in *. subst v'.
  cbn [orel]. split; [|split; [exact I|exact K]]. cbn [fst snd]. destruct v; [apply F, R; reflexivity|reflexivity].
Qed.

Lemma load_paired : forall (m n : ElongModel N) t x, mates m n -> orel (paired m n) (em_Load m t x) (em_Load n t x).
Proof.
  intros m n t x M. apply (paired_query _ (fun m => em_Load m t x)).
  - intros a b H. apply (mates_answers a b H).
  - intros a v b T E. apply kept_mates; [exact T|]. apply (tracked_query _ (load_of t x)); [apply load_of_agree|exact T|].
    change (omap snd (em_Load a t x) = Ok b). rewrite E. reflexivity.
  - exact M.
Qed.

Lemma component_alike : forall r s t, lrinv r -> rres r s -> lr_IsUpdated r = true ->
  orel (fun p q => fst p = fst q /\ lrinv (snd p) /\ lr_keys (snd p) = lr_keys r /\ lr_IsUpdated (snd p) = true /\ rres (snd p) (snd q))
    (do (x, m) <- em_Strain (lr_model r) CTCombined (c3_TensionAverage (lr_catenary r) 100);
     do (y, m) <- em_Load m t x; Ok (y, lr_with_model r m))
    (do (x, m) <- em_Strain (lr_model s) CTCombined (c3_TensionAverage (lr_catenary s) 100);
     do (y, m) <- em_Load m t x; Ok (y, lr_with_model s m)).
Proof.
  intros r s t I (R1 & R2 & R3) U. rewrite (average_same _ _ R3).
  eapply orel_bind; [apply strain_paired, R2|]. intros (x, m) (x', n) (E & M & M1). cbn [fst snd] in *. subst x'.
  eapply orel_bind; [apply load_paired, M|]. intros (y, m2) (y', n2) (E & M2 & M3). cbn [fst snd] in *. subst y'. cbn [orel fst snd].
  split; [reflexivity|]. split; [apply lrinv_model; [exact I|]; intros _; eapply mates_trans; eassumption|].
  split; [reflexivity|]. split; [exact U|]. split; [exact R1|]. split; [exact M2|exact R3].
Qed.

Lemma TensionAverageComponent_alike : forall r t, lrinv r ->
  orel (lr_answers r) (lr_TensionAverageComponent r t) (lr_TensionAverageComponent (lr_like r) t).
Proof.
  intros r t H. unfold lr_TensionAverageComponent. eapply orel_bind; [apply lr_ensure_fresh, H|].
  intros (v, a) (v', b) (E & I & K & U & R). cbn [fst snd] in *. subst v'. destruct v.
  - eapply orel_mono; [apply component_alike; [exact I|apply R; reflexivity|exact U]|].
    intros p q (P1 & P2 & P3 & _). split; [exact P1|]. split; [exact P2|congruence].
  - cbn [orel]. split; [reflexivity|]. split; assumption.
Qed.

(** A new reloader is updated by an update that succeeds. *)
Lemma like_updated : forall r a, lr_Update (lr_like r) = Ok (true, a) -> lr_IsUpdated a = true.
Proof.
  intros r a E. pose proof (lr_Update_fresh (lr_like r) (lrinv_weather _ _ (lrinv_condition _ _ (lrinv_line _ _)))) as H.
  rewrite E in H. destruct (lr_Update (lr_like (lr_like r))) as [q| |]; cbn [orel] in H; try contradiction.
  destruct H as (_ & _ & _ & H & _). exact H.
Qed.

Lemma TensionHorizontalComponent_alike : forall r t, lrinv r ->
  orel (lr_answers r) (lr_TensionHorizontalComponent r t) (lr_TensionHorizontalComponent (lr_like r) t).
Proof.
  intros r t H. unfold lr_TensionHorizontalComponent. pose proof (lr_ensure_fresh r H) as L. rewrite !ensure_Update in *.
  destruct (lr_Update r) as [(v, a)| |] eqn:E1, (lr_Update (lr_like r)) as [(v', b)| |] eqn:E2; cbn [orel obind] in *; try contradiction; try exact I.
  destruct L as (E & I & K & U & R). cbn [fst snd] in *. subst v'. destruct v.
  - unfold lr_TensionAverageComponent, lr_ensure. rewrite U, (like_updated _ _ E2). cbn [obind].
    eapply orel_bind; [apply component_alike; [exact I|apply R; reflexivity|exact U]|].
    intros (x, a1) (x', b1) (P1 & P2 & P3 & _ & R1 & R2 & R3). cbn [fst snd orel] in *. subst x'.
    split; [|split; [exact P2|cbn [snd]; congruence]]. cbn [fst]. rewrite (average_same _ _ R3), (proj2 R3). reflexivity.
  - cbn [orel]. split; [reflexivity|]. split; assumption.
Qed.

Lemma like_keys : forall r s : Reloader N, lr_keys r = lr_keys s -> lr_like r = lr_like s.
Proof. intros r s K. unfold lr_keys in K. injection K as K1 K2 K3. unfold lr_like. congruence. Qed.

Lemma base_Validate_alike : forall env r, lrinv r ->
  orel (fun p q => fst p = fst q /\ lrinv (snd p) /\ lr_keys (snd p) = lr_keys r /\ lrinv (snd q) /\ lr_keys (snd q) = lr_keys r)
    (lr_base_Validate env r) (lr_base_Validate env (lr_like r)).
Proof.
  intros env r H. unfold lr_base_Validate. rewrite (inputs_valid_fresh env (lr_base r) (proj1 H)).
  change (lr_base (lr_like r)) with (fresh_base (lr_base r)).
  assert (HL : lrinv (lr_like r)) by (apply lrinv_weather, lrinv_condition, lrinv_line).
  apply (orel_bind _ _ _ _ eq); [apply orel_eq|]. intros v v' <-. destruct v.
  - pose proof (lr_Update_fresh r H) as A. pose proof (lr_Update_fresh (lr_like r) HL) as B.
    assert (X : lr_like (lr_like r) = lr_like r) by reflexivity. rewrite X in B.
    destruct (lr_Update r) as [(v, a)| |], (lr_Update (lr_like r)) as [(v', b)| |]; cbn [orel] in *; try contradiction; try exact I.
    destruct A as (E & I & K & _). destruct B as (_ & I' & K' & _). cbn [fst snd] in *. auto.
  - cbn [orel fst snd]. auto.
Qed.

Lemma Validate_fresh_alike : forall env r, lrinv r ->
  orel (lr_answers r) (lr_Validate env r) (lr_Validate env (lr_like r)).
Proof.
  intros env r H. unfold lr_Validate. eapply orel_bind; [apply base_Validate_alike, H|].
  intros (v, a) (v', b) (E & I & K & I' & K'). cbn [fst snd] in *. subst v'.
  assert (C : lr_condition a = lr_condition b /\ lr_weather a = lr_weather b).
  { unfold lr_keys in K, K'. injection K as _ K1 K2. injection K' as _ K3 K4. split; congruence. }
  destruct C as (C1 & C2). rewrite <- C1, <- C2. destruct (_ && _ && _).
  - pose proof (lr_Update_fresh a I) as A. pose proof (lr_Update_fresh b I') as B.
    rewrite (like_keys a b) in A by congruence.
    destruct (lr_Update a) as [(x, a1)| |], (lr_Update b) as [(y, b1)| |], (lr_Update (lr_like b)) as [(z, c1)| |];
      cbn [orel] in *; try contradiction; try exact Logic.I.
    destruct A as (A1 & A2 & A3 & _). destruct B as (B1 & _). cbn [fst snd] in *.
    split; [cbn [fst]; congruence|]. split; [exact A2|]. cbn [snd]. congruence.
  - cbn [orel]. split; [reflexivity|]. split; [exact I|]. cbn [snd]. congruence.
Qed.

(** ** Histories *)
Lemma CatenaryReloaded_alike : forall r, lrinv r ->
  orel (fun p q => twin_h (fst p) (fst q) /\ lrinv (snd p) /\ lr_keys (snd p) = lr_keys r)
    (lr_CatenaryReloaded r) (lr_CatenaryReloaded (lr_like r)).
Proof.
  intros r H. unfold lr_CatenaryReloaded. eapply orel_bind; [apply lr_ensure_fresh, H|].
  intros (v, a) (v', b) (E & I & K & _ & R). cbn [fst snd] in *. subst v'. cbn [orel fst snd].
  split; [|split; assumption]. destruct v; [apply R; reflexivity|].
  split; [|reflexivity]. split; [intros X; discriminate X|]. split; [intros X; discriminate X|auto].
Qed.

Lemma answers_fst : forall (A : Type) r (x y : outcome (A * Reloader N)), orel (lr_answers r) x y -> omap fst x = omap fst y.
Proof. intros A r x y H. apply orel_fst with (r := lr_answers r); [exact H|]. intros p q (E & _). exact E. Qed.

Lemma lrinv_alike : forall env r, lrinv r -> lr_alike env r (lr_like r).
Proof.
  intros env r H. unfold lr_alike.
  split; [eapply answers_fst, Validate_fresh_alike, H|].
  split; [eapply answers_fst; apply (simple_answers _ (fun r => lb_creep (lr_base r))); [exact H|]; intros a b ((_ & _ & _ & X & _) & _); exact X|].
  split; [eapply answers_fst; apply (simple_answers _ (fun r => lb_load (lr_base r))); [exact H|]; intros a b ((_ & _ & _ & _ & X) & _); exact X|].
  split; [eapply answers_fst; apply (simple_answers _ (fun r => em_state (lr_model r))); [exact H|]; intros a b (_ & (_ & _ & _ & _ & X) & _); exact X|].
  split; [eapply answers_fst; apply (simple_answers _ (fun r => c3_tension_horizontal (lr_catenary r))); [exact H|]; intros a b (_ & _ & (_ & X)); exact X|].
  split; [intros t; eapply answers_fst, TensionAverageComponent_alike, H|].
  split; [intros t; eapply answers_fst, TensionHorizontalComponent_alike, H|].
  intros q. pose proof (CatenaryReloaded_alike r H) as C.
  destruct (lr_CatenaryReloaded r) as [(k, a)| |], (lr_CatenaryReloaded (lr_like r)) as [(k', b)| |]; cbn [orel omap] in *; try contradiction; try reflexivity.
  change (Ok (c3_answer k q) = Ok (c3_answer k' q)). rewrite (twin_answer k k' q (proj1 C)). reflexivity.
Qed.

Lemma orel_snd : forall (A B : Type) (R : A -> A -> Prop) (P : B -> Prop) (f : A -> B) x y z,
  orel R x y -> (forall p q, R p q -> P (f p)) -> omap f x = Ok z -> P z.
Proof.
  intros A B R P f [p| |] y z H K E; cbn in E; try discriminate E. injection E as <-.
  destruct y as [q| |]; cbn [orel] in H; try contradiction. apply (K p q H).
Qed.

Lemma lr_call_inv : forall env r k r', lrinv r -> lr_call env r k = Ok r' ->
  lrinv r' /\ lb_line (lr_base r') = match pickLr_line k with Some l => l | None => lb_line (lr_base r) end /\
  lr_condition r' = match pickLr_condition k with Some l => l | None => lr_condition r end /\
  lr_weather r' = match pickLr_weather k with Some l => l | None => lr_weather r end.
Proof.
  intros env r k r' H E.
  assert (Q : lrinv r' /\ lr_keys r' = lr_keys r -> lrinv r' /\ lb_line (lr_base r') = lb_line (lr_base r) /\
              lr_condition r' = lr_condition r /\ lr_weather r' = lr_weather r).
  { intros (A & K). unfold lr_keys in K. injection K as K1 K2 K3. auto. }
  destruct k; cbn [lr_call pickLr_line pickLr_condition pickLr_weather] in *;
    try (injection E as <-; cbn; split; [first [apply lrinv_line|apply lrinv_condition, H|apply lrinv_weather, H]|auto]);
    apply Q; clear Q.
  - refine (orel_snd _ _ _ (fun z => lrinv z /\ lr_keys z = lr_keys r) snd _ _ _
              (simple_answers _ (fun r => lb_creep (lr_base r)) StretchState_default r H _) _ E);
      [intros a b ((_ & _ & _ & X & _) & _); exact X|intros p q (_ & P); exact P].
  - refine (orel_snd _ _ _ (fun z => lrinv z /\ lr_keys z = lr_keys r) snd _ _ _
              (simple_answers _ (fun r => lb_load (lr_base r)) StretchState_default r H _) _ E);
      [intros a b ((_ & _ & _ & _ & X) & _); exact X|intros p q (_ & P); exact P].
  - refine (orel_snd _ _ _ (fun z => lrinv z /\ lr_keys z = lr_keys r) snd _ _ _ (CatenaryReloaded_alike r H) _ E);
      intros p q (_ & P); exact P.
  - refine (orel_snd _ _ _ (fun z => lrinv z /\ lr_keys z = lr_keys r) snd _ _ _
              (simple_answers _ (fun r => em_state (lr_model r)) CableState_default r H _) _ E);
      [intros a b (_ & (_ & _ & _ & _ & X) & _); exact X|intros p q (_ & P); exact P].
  - refine (orel_snd _ _ _ (fun z => lrinv z /\ lr_keys z = lr_keys r) snd _ _ _ (TensionAverageComponent_alike r t H) _ E);
      intros p q (_ & P); exact P.
  - refine (orel_snd _ _ _ (fun z => lrinv z /\ lr_keys z = lr_keys r) snd _ _ _
              (simple_answers _ (fun r => c3_tension_horizontal (lr_catenary r)) ferr r H _) _ E);
      [intros a b (_ & _ & (_ & X)); exact X|intros p q (_ & P); exact P].
  - refine (orel_snd _ _ _ (fun z => lrinv z /\ lr_keys z = lr_keys r) snd _ _ _ (TensionHorizontalComponent_alike r t H) _ E);
      intros p q (_ & P); exact P.
  - refine (orel_snd _ _ _ (fun z => lrinv z /\ lr_keys z = lr_keys r) snd _ _ _ (Validate_fresh_alike env r H) _ E);
      intros p q (_ & P); exact P.
Qed.

Lemma lr_run_inv : forall env ks r r', lrinv r -> lr_run env r ks = Ok r' ->
  lrinv r' /\ lb_line (lr_base r') = last_of pickLr_line ks (lb_line (lr_base r)) /\
  lr_condition r' = last_of pickLr_condition ks (lr_condition r) /\ lr_weather r' = last_of pickLr_weather ks (lr_weather r).
Proof.
  intros env. induction ks as [|k ks IH]; intros r r' H E; cbn [lr_run] in E.
  - injection E as <-. auto.
  - destruct (lr_call env r k) as [r1| |] eqn:C; cbn [obind] in E; try discriminate E.
    destruct (lr_call_inv env r k r1 H C) as (H1 & A & B & D). destruct (IH r1 r' H1 E) as (H2 & A2 & B2 & D2).
    cbn [last_of]. rewrite A2, B2, D2, A, B, D. auto.
Qed.

Lemma reloader_history : forall (env : Env N) (ks : list (LrCall N)) (r : Reloader N), lr_run env Reloader_new ks = Ok r ->
  lr_alike env r (lr_fresh (last_of pickLr_line ks None) (last_of pickLr_condition ks CdNull) (last_of pickLr_weather ks None)).
Proof.
  intros env ks r E. destruct (lr_run_inv env ks Reloader_new r lrinv_new E) as (H & A & B & C).
  pose proof (lrinv_alike env r H) as L. unfold lr_like in L. rewrite A, B, C in L. exact L.
Qed.

End History.
