(** Proofs about the line cable unloader in any arithmetic: its answers are those of a new
    one with the last arguments. *)
From Coq Require Import ZArith Bool List.
From Verif Require Import Num ModelBase ModelLine ModelCable ModelCatenary SpecCatenary ProofCatenary ModelSolver ProofSolver
  ModelLoad ModelThermal ModelElongation SpecElong ProofElong ProofElongHistory ModelReload SpecReload ProofReload
  ModelSagtension SpecSagtension ProofSagtension ProofSagHistory.
Import ListNotations.
Open Scope num_scope.

Section Unload.
Context {N : Num}.

Definition lu_like (u : Unloader N) : Unloader N :=
  lu_fresh (lb_line (lu_base u)) (lu_condition u) (lu_spacing u) (lu_temperature u).

Definition ures (u v : Unloader N) : Prop :=
  bsame (lu_base u) (lu_base v) /\ mates (lu_model u) (lu_model v) /\ lu_length u = lu_length v.

Definition luinv (u : Unloader N) : Prop :=
  binv (lu_base u) /\
  (lb_IsUpdated (lu_base u) = true -> lu_upd_model u = true -> exists b' m',
     lb_Update (fresh_base (lu_base u)) = Ok (true, b') /\
     UpdateLastModel b' ElongModel_new (lu_condition u) (lu_temperature u) = Ok (true, m') /\ mates (lu_model u) m') /\
  (lb_IsUpdated (lu_base u) = true -> lu_upd_length u = true ->
     lu_upd_model u = true /\ exists u', lu_Update (lu_like u) = Ok (true, u') /\ ures u u').

Lemma luinv_new : luinv Unloader_new.
Proof. split; [apply binv_new|]. split; cbn; discriminate. Qed.
Lemma luinv_line : forall u l, luinv (lu_set_line u l).
Proof. intros u l. split; [apply binv_line|]. split; cbn; discriminate. Qed.
Lemma luinv_condition : forall u c, luinv u -> luinv (lu_set_condition u c).
Proof. intros u c (A & _). split; [exact A|]. split; cbn; discriminate. Qed.
Lemma luinv_temperature : forall u t, luinv u -> luinv (lu_set_temperature u t).
Proof. intros u t (A & _). split; [exact A|]. split; cbn; discriminate. Qed.
Lemma luinv_spacing : forall u s, luinv u -> luinv (lu_set_spacing u s).
Proof. intros u s (A & B & _). split; [exact A|]. split; [exact B|]. cbn. discriminate. Qed.

Definition lu_keys (u : Unloader N) := (lb_line (lu_base u), lu_condition u, lu_spacing u, lu_temperature u).

(** ** The unloaded length *)
Lemma cr_Validate_paired : forall same (m n : Models N) s, mmates m n ->
  orel (fun p q => fst p = fst q /\ mmates (snd p) (snd q) /\ mmates m (snd p)) (cr_Validate same false m s) (cr_Validate same false n s).
Proof.
  intros same m n s M. unfold cr_Validate. assert (S := mmates_self m n M).
  destruct (cr_inputs_valid s); [|cbn [orel fst snd]; auto].
  apply (orel_bind _ _ _ _ eq); [apply orel_eq|]. intros a a' <-.
  apply (orel_bind _ _ _ _ eq); [apply orel_eq|]. intros b b' <-.
  eapply orel_bind; [apply valid_paired, M|]. intros (v, x) (v', y) (E & P & Q). cbn [fst snd] in *. subst v'.
  assert (M1 : mmates (put m a x) (put n a y)) by (apply put_mates; assumption).
  assert (M2 : mmates m (put m a x)).
  { intros c. unfold put. destruct (Z.eqb a c) eqn:W; [apply Z.eqb_eq in W; subst c; exact Q|apply S]. }
  destruct v; [|cbn [orel fst snd]; auto].
  eapply orel_bind; [apply valid_paired, M1|]. intros (v, x1) (v', y1) (E & P1 & Q1). cbn [fst snd] in *. subst v'.
  cbn [orel fst snd]. split; [reflexivity|]. split; [apply put_mates; assumption|].
  eapply mmates_trans; [exact M2|]. intros c. unfold put at 2. destruct (Z.eqb b c) eqn:W; [apply Z.eqb_eq in W; subst c; exact Q1|].
  apply (mmates_self _ _ M1).
Qed.

Lemma UpdateUnloadedLength_alike : forall u v, bsame (lu_base u) (lu_base v) -> mates (lu_model u) (lu_model v) ->
  lu_spacing u = lu_spacing v ->
  orel (fun p q => fst p = fst q /\ bsame (lu_base u) (lu_base (snd p)) /\ bsame (lu_base (snd p)) (lu_base (snd q)) /\
          lb_IsUpdated (lu_base (snd p)) = lb_IsUpdated (lu_base u) /\
          mates (lu_model u) (lu_model (snd p)) /\ mates (lu_model (snd p)) (lu_model (snd q)) /\ lu_keys (snd p) = lu_keys u /\
          lu_upd_model (snd p) = lu_upd_model u /\
          (fst p = true -> lu_length (snd p) = lu_length (snd q)))
    (UpdateUnloadedLength u) (UpdateUnloadedLength v).
Proof.
  intros r s B M W. assert (B' := B). destruct B' as ((L & K) & Ca & MM & C1 & C2). unfold UpdateUnloadedLength. rewrite <- W, <- Ca.
  apply (orel_bind _ _ _ _ eq); [apply orel_eq|]. intros l l' <-.
  pose proof (memory_mates _ _ _ _ MM M) as MX.
  assert (Res : forall m2 n2 : Models N, mmates m2 n2 -> mmates (lb_memory (lu_base r) (lu_model r)) m2 ->
    bsame (lu_base r) (lb_with_models (lu_base r) m2) /\ bsame (lb_with_models (lu_base r) m2) (lb_with_models (lu_base s) n2) /\
    mates (lu_model r) (m2 at_last) /\ mates (m2 at_last) (n2 at_last)).
  { intros m2 n2 A1 A2. split; [apply (bsame_models _ _ (lu_model r)); [destruct (bsame_refl _ _ B) as (_ & _ & X & _); exact X|exact A2]|].
    split; [split; [split; cbn; congruence|]; split; [exact Ca|]; split; [apply with_models, A1|split; assumption]|].
    split; [apply (A2 at_last)|apply A1]. }
  unfold un_Validate.
  eapply orel_bind.
  - eapply orel_bind; [apply cr_Validate_paired, MX|]. intros (v, m1) (v', n1) (E & P & Q). cbn [fst snd] in *. subst v'.
    instantiate (1 := fun p q => fst p = fst q /\ mmates (snd p) (snd q) /\ mmates (lb_memory (lu_base r) (lu_model r)) (snd p)).
    cbn [orel fst snd]. auto.
  - intros (v, m1) (v', n1) (E & P & Q). cbn [fst snd] in *. subst v'. destruct v.
    + unfold un_LengthUnloaded. pose proof (LengthFinish_paired m1 n1 (un_strainer (un_set_unloaded (un_set_reference l (Some at_constraint)) (Some at_last))) P) as F.
      destruct (LengthFinish m1 _) as [(x, m2)| |] eqn:E1, (LengthFinish n1 _) as [(y, n2)| |] eqn:E2; cbn [orel obind] in *; try contradiction; try exact I.
      destruct F as (E & P1). cbn [fst snd] in *. subst y.
      assert (Q1 := LengthFinish_mates _ _ _ _ (fun a => proj1 (P a)) E1).
      destruct (Res m2 n2 P1 (mmates_trans _ _ _ Q Q1)) as (P3 & P4 & P5 & P6).
      split; [reflexivity|]. split; [exact P3|]. split; [exact P4|]. split; [reflexivity|]. split; [exact P5|]. split; [exact P6|].
      split; [reflexivity|]. split; reflexivity.
    + cbn [orel fst snd]. destruct (Res m1 n1 P Q) as (P3 & P4 & P5 & P6).
      split; [reflexivity|]. split; [exact P3|]. split; [exact P4|]. split; [reflexivity|]. split; [exact P5|]. split; [exact P6|].
      split; [reflexivity|]. split; [reflexivity|discriminate].
Qed.

Definition lu_paired (u : Unloader N) (p q : bool * Unloader N) : Prop :=
  fst p = fst q /\ luinv (snd p) /\ lu_keys (snd p) = lu_keys u /\ lu_IsUpdated (snd p) = fst p /\ (fst p = true -> ures (snd p) (snd q)).

Lemma length_stage : forall r s, luinv r -> lb_IsUpdated (lu_base r) = true -> lu_upd_model r = true ->
  bsame (lu_base r) (lu_base s) -> mates (lu_model r) (lu_model s) -> lu_spacing r = lu_spacing s ->
  lu_Update (lu_like r) = (do (ok, s) <- UpdateUnloadedLength s; Ok (ok, lu_with_flags s ok (lu_upd_model s))) ->
  orel (lu_paired r) (do (ok, r) <- UpdateUnloadedLength r; Ok (ok, lu_with_flags r ok (lu_upd_model r)))
    (do (ok, s) <- UpdateUnloadedLength s; Ok (ok, lu_with_flags s ok (lu_upd_model s))).
Proof.
  intros r s (A & B & _) U V BS MS W F. pose proof (UpdateUnloadedLength_alike r s BS MS W) as H.
  destruct (UpdateUnloadedLength r) as [(v, r1)| |], (UpdateUnloadedLength s) as [(v', s1)| |]; cbn [orel obind] in *;
    try contradiction; try exact I.
  destruct H as (E & B1 & B2 & U1 & M1 & M2 & K1 & V1 & T). cbn [fst snd] in *. subst v'.
  assert (Res : v = true -> ures (lu_with_flags r1 v (lu_upd_model r1)) (lu_with_flags s1 v (lu_upd_model s1))).
  { intros X. split; [exact B2|]. split; [exact M2|exact (T X)]. }
  injection K1 as K2 K3 K4 K5.
  split; [reflexivity|]. cbn [fst snd]. split; [|split; [unfold lu_keys; cbn; congruence|split; [|exact Res]]].
  - split; [apply (binv_same (lu_base r)); assumption|].
    split; cbn [lu_with_flags lu_base lu_upd_model lu_upd_length lu_temperature lu_condition lu_model].
    + intros _ _. destruct (B U V) as (b' & m' & X1 & X3 & X4). exists b', m'. unfold fresh_base in *. rewrite K2, K3, K5.
      split; [exact X1|]. split; [exact X3|]. eapply mates_trans; [apply mates_sym, M1|exact X4].
    + intros _ ->. split; [congruence|]. exists (lu_with_flags s1 true (lu_upd_model s1)).
      split; [|apply Res; reflexivity]. unfold lu_like in *. cbn [lu_with_flags lu_base lu_condition lu_spacing lu_temperature].
      rewrite K2, K3, K4, K5. exact F.
  - unfold lu_IsUpdated. cbn. rewrite U1, U, V1, V. reflexivity.
Qed.

Lemma urest_start : forall (s : Unloader N) m', lu_upd_model s = false -> lu_upd_length s = false ->
  UpdateLastModel (lu_base s) (lu_model s) (lu_condition s) (lu_temperature s) = Ok (true, m') ->
  lu_Update_rest s = (do (ok, s) <- UpdateUnloadedLength (lu_with_flags (lu_with_model s m') false true);
                      Ok (ok, lu_with_flags s ok (lu_upd_model s))).
Proof.
  intros s m' U V E. unfold lu_Update_rest, UpdateUnloadedCableModel. rewrite U. cbn [deref obind]. rewrite E. cbn [obind].
  cbn [lu_with_flags lu_upd_length lu_with_model]. rewrite V. reflexivity.
Qed.

Lemma uUpdate_like : forall r, lu_Update (lu_like r) =
  (do (ok, b) <- lb_Update (fresh_base (lu_base r));
   if ok then lu_Update_rest (lu_with_base (lu_like r) b) else Ok (false, lu_with_base (lu_like r) b)).
Proof. intros r. unfold lu_Update. reflexivity. Qed.

Lemma urest_fresh : forall r b', luinv r -> lb_IsUpdated (lu_base r) = true ->
  lb_Update (fresh_base (lu_base r)) = Ok (true, b') -> bsame (lu_base r) b' ->
  orel (lu_paired r) (lu_Update_rest r) (lu_Update (lu_like r)).
Proof.
  intros r b' H U E BS. pose (s := lu_with_base (lu_like r) b').
  assert (F : lu_Update (lu_like r) = lu_Update_rest s).
  { rewrite uUpdate_like, E. reflexivity. }
  assert (H' := H). destruct H' as (A & B & C). destruct (lu_upd_model r) eqn:V.
  - destruct (B U eq_refl) as (b'' & m' & X1 & X3 & X4). rewrite E in X1. injection X1 as <-.
    pose proof (urest_start s m' eq_refl eq_refl X3) as G.
    unfold lu_Update_rest at 1. rewrite V. cbn [obind]. destruct (lu_upd_length r) eqn:Q.
    + destruct (C U eq_refl) as (_ & r' & R1 & R2). rewrite R1. cbn [orel]. split; [reflexivity|]. split; [exact H|]. split; [reflexivity|].
      split; [unfold lu_IsUpdated; cbn [fst snd]; rewrite U, V, Q; reflexivity|]. intros _. exact R2.
    + rewrite F, G. apply length_stage; try assumption; try reflexivity. rewrite F. exact G.
  - assert (Q : lu_upd_length r = false).
    { destruct (lu_upd_length r); [|reflexivity]. destruct (C U eq_refl) as (X & _). discriminate X. }
    pose proof (UpdateLastModel_alike (lu_base r) b' (lu_model r) ElongModel_new (lu_condition r) (lu_temperature r) BS) as L.
    destruct (UpdateLastModel (lu_base r) (lu_model r) _ _) as [(v, m)| |] eqn:L1,
      (UpdateLastModel b' ElongModel_new _ _) as [(v', m')| |] eqn:L2; cbn [orel] in L; try contradiction.
    + destruct L as (LE & M). cbn [fst snd] in *. subst v'. destruct v.
      * pose proof (urest_start s m' eq_refl eq_refl L2) as G. rewrite (urest_start r m V Q L1), F, G.
        set (r1 := lu_with_flags (lu_with_model r m) false true).
        change (orel (lu_paired r1)
                  (do (ok, r0) <- UpdateUnloadedLength r1; Ok (ok, lu_with_flags r0 ok (lu_upd_model r0)))
                  (do (ok, s0) <- UpdateUnloadedLength (lu_with_flags (lu_with_model s m') false true);
                   Ok (ok, lu_with_flags s0 ok (lu_upd_model s0)))).
        apply length_stage; try assumption; try reflexivity.
        { split; [exact A|]. split; [|cbn; discriminate]. intros _ _. exists b', m'. split; [exact E|].
          split; [exact L2|apply M; reflexivity]. }
        { apply M. reflexivity. }
        { change (lu_like r1) with (lu_like r). rewrite F. exact G. }
      * rewrite F. unfold lu_Update_rest, UpdateUnloadedCableModel. rewrite V. cbn [deref obind]. rewrite L1.
        change (lu_upd_model s) with false. cbn [deref obind].
        change (lu_base s) with b'. change (lu_model s) with (@ElongModel_new N). change (lu_condition s) with (lu_condition r).
        change (lu_temperature s) with (lu_temperature r). rewrite L2.
        cbn [obind orel]. split; [reflexivity|]. cbn [fst snd]. split; [|split; [reflexivity|]].
        { split; [exact A|]. split; cbn; [discriminate|]. rewrite Q. discriminate. }
        { split; [|discriminate]. unfold lu_IsUpdated. cbn. apply andb_false_iff. left. apply andb_false_iff. right. reflexivity. }
    + rewrite F. unfold lu_Update_rest, UpdateUnloadedCableModel. rewrite V. cbn [deref obind]. rewrite L1.
        change (lu_upd_model s) with false. cbn [deref obind].
        change (lu_base s) with b'. change (lu_model s) with (@ElongModel_new N). change (lu_condition s) with (lu_condition r).
        change (lu_temperature s) with (lu_temperature r). rewrite L2. exact I.
    + rewrite F. unfold lu_Update_rest, UpdateUnloadedCableModel. rewrite V. cbn [deref obind]. rewrite L1.
        change (lu_upd_model s) with false. cbn [deref obind].
        change (lu_base s) with b'. change (lu_model s) with (@ElongModel_new N). change (lu_condition s) with (lu_condition r).
        change (lu_temperature s) with (lu_temperature r). rewrite L2. exact I.
Qed.

Lemma lu_Update_fresh : forall r, luinv r -> orel (lu_paired r) (lu_Update r) (lu_Update (lu_like r)).
Proof.
  intros r H. assert (A := proj1 H). destruct (lb_IsUpdated (lu_base r)) eqn:U.
  - destruct (proj2 A U) as (b' & E & BS). unfold lu_Update at 1. rewrite U. apply (urest_fresh r b'); assumption.
  - pose proof (lb_Update_fresh (lu_base r) A) as L.
    unfold lu_Update at 1. rewrite U. cbn [lu_with_flags lu_base].
    destruct (lb_Update (lu_base r)) as [(v, b)| |] eqn:E, (lb_Update (fresh_base (lu_base r))) as [(v', b')| |] eqn:E'; cbn [orel] in L; try contradiction.
    + destruct L as (LE & B & K & V & S). cbn [fst snd obind] in *. subst v'. destruct v.
      * set (r1 := lu_with_base (lu_with_flags r false false) b).
        assert (X : lu_like r1 = lu_like r) by (unfold lu_like; cbn; rewrite K; reflexivity).
        assert (Y : fresh_base (lu_base r1) = fresh_base (lu_base r)) by (unfold fresh_base; cbn; rewrite K; reflexivity).
        rewrite <- X. eapply orel_mono; [apply (urest_fresh r1 b')|].
        { split; [exact B|]. split; cbn; discriminate. }
        { exact V. }
        { rewrite Y. exact E'. }
        { apply S. reflexivity. }
        intros p q (P1 & P2 & P3 & P4). split; [exact P1|]. split; [exact P2|]. split; [|exact P4].
        rewrite P3. unfold lu_keys. cbn. rewrite K. reflexivity.
      * rewrite uUpdate_like, E'. cbn [obind orel]. split; [reflexivity|]. cbn [fst snd].
        split; [split; [exact B|]; cbn; rewrite V; split; discriminate|]. split; [unfold lu_keys; cbn; rewrite K; reflexivity|].
        split; [|discriminate]. unfold lu_IsUpdated. cbn. rewrite V. reflexivity.
    + rewrite uUpdate_like, E'. exact I.
    + rewrite uUpdate_like, E'. exact I.
Qed.

Lemma uensure_Update : forall r : Unloader N, lu_ensure r = lu_Update r.
Proof.
  intros r. unfold lu_ensure. destruct (lu_IsUpdated r) eqn:U; [|reflexivity].
  unfold lu_IsUpdated in U. apply andb_prop in U. destruct U as (U & W). apply andb_prop in U. destruct U as (U & V).
  unfold lu_Update, lu_Update_rest. rewrite U, V. cbn [obind]. rewrite W. reflexivity.
Qed.

(** ** The answers *)
Definition lu_answers {A : Type} (r : Unloader N) (p q : A * Unloader N) : Prop :=
  fst p = fst q /\ luinv (snd p) /\ lu_keys (snd p) = lu_keys r.

Lemma usimple_answers : forall (A : Type) (f : Unloader N -> A) (d : A) r, luinv r ->
  (forall a b, ures a b -> f a = f b) ->
  orel (lu_answers r) (do (ok, r) <- lu_ensure r; Ok (if ok then f r else d, r))
    (do (ok, r) <- lu_ensure (lu_like r); Ok (if ok then f r else d, r)).
Proof.
  intros A f d r H F. rewrite !uensure_Update. eapply orel_bind; [apply lu_Update_fresh, H|].
  intros (v, a) (v', b) (E & I & K & _ & R). cbn [fst snd] in *. subst v'.
  cbn [orel]. split; [|split; [exact I|exact K]]. cbn [fst snd]. destruct v; [apply F, R; reflexivity|reflexivity].
Qed.

Lemma ulike_keys : forall r s : Unloader N, lu_keys r = lu_keys s -> lu_like r = lu_like s.
Proof. intros r s K. unfold lu_keys in K. injection K as K1 K2 K3 K4. unfold lu_like. congruence. Qed.

Lemma ubase_Validate_alike : forall env r, luinv r ->
  orel (fun p q => fst p = fst q /\ luinv (snd p) /\ lu_keys (snd p) = lu_keys r /\ luinv (snd q) /\ lu_keys (snd q) = lu_keys r)
    (lu_base_Validate env r) (lu_base_Validate env (lu_like r)).
Proof.
  intros env r H. unfold lu_base_Validate. rewrite (inputs_valid_fresh env (lu_base r) (proj1 H)).
  change (lu_base (lu_like r)) with (fresh_base (lu_base r)).
  assert (HL : luinv (lu_like r)) by (apply luinv_temperature, luinv_spacing, luinv_condition, luinv_line).
  apply (orel_bind _ _ _ _ eq); [apply orel_eq|]. intros v v' <-. destruct v.
  - pose proof (lu_Update_fresh r H) as A. pose proof (lu_Update_fresh (lu_like r) HL) as B.
    assert (X : lu_like (lu_like r) = lu_like r) by reflexivity. rewrite X in B.
    destruct (lu_Update r) as [(v, a)| |], (lu_Update (lu_like r)) as [(v', b)| |]; cbn [orel] in *; try contradiction; try exact I.
    destruct A as (E & I & K & _). destruct B as (_ & I' & K' & _). cbn [fst snd] in *. auto.
  - cbn [orel fst snd]. auto.
Qed.

Lemma uValidate_alike : forall env r, luinv r -> orel (lu_answers r) (lu_Validate env r) (lu_Validate env (lu_like r)).
Proof.
  intros env r H. unfold lu_Validate. eapply orel_bind; [apply ubase_Validate_alike, H|].
  intros (v, a) (v', b) (E & I & K & I' & K'). cbn [fst snd] in *. subst v'.
  assert (C : lu_condition a = lu_condition b /\ lu_spacing a = lu_spacing b /\ lu_temperature a = lu_temperature b).
  { unfold lu_keys in K, K'. injection K as _ K1 K2 K3. injection K' as _ K4 K5 K6. split; [congruence|split; congruence]. }
  destruct C as (C1 & C2 & C3). rewrite <- C1, <- C2, <- C3. destruct (_ && _ && _ && _).
  - pose proof (lu_Update_fresh a I) as A. pose proof (lu_Update_fresh b I') as B.
    rewrite (ulike_keys a b) in A by congruence.
    destruct (lu_Update a) as [(x, a1)| |], (lu_Update b) as [(y, b1)| |], (lu_Update (lu_like b)) as [(z, c1)| |];
      cbn [orel] in *; try contradiction; try exact Logic.I.
    destruct A as (A1 & A2 & A3 & _). destruct B as (B1 & _). cbn [fst snd] in *.
    split; [cbn [fst]; congruence|]. split; [exact A2|]. cbn [snd]. congruence.
  - cbn [orel]. split; [reflexivity|]. split; [exact I|]. cbn [snd]. congruence.
Qed.

Lemma uanswers_fst : forall (A : Type) r (x y : outcome (A * Unloader N)), orel (lu_answers r) x y -> omap fst x = omap fst y.
Proof. intros A r x y H. apply orel_fst with (r := lu_answers r); [exact H|]. intros p q (E & _). exact E. Qed.

Lemma luinv_alike : forall env r, luinv r -> lu_alike env r (lu_like r).
Proof.
  intros env r H. unfold lu_alike.
  split; [eapply uanswers_fst, uValidate_alike, H|].
  split; [eapply uanswers_fst; apply (usimple_answers _ (fun r => lb_creep (lu_base r))); [exact H|]; intros a b ((_ & _ & _ & X & _) & _); exact X|].
  split; [eapply uanswers_fst; apply (usimple_answers _ (fun r => lb_load (lu_base r))); [exact H|]; intros a b ((_ & _ & _ & _ & X) & _); exact X|].
  eapply uanswers_fst; apply (usimple_answers _ (fun r => lu_length r)); [exact H|]; intros a b (_ & _ & X); exact X.
Qed.

Lemma lu_call_inv : forall env r k r', luinv r -> lu_call env r k = Ok r' ->
  luinv r' /\ lb_line (lu_base r') = match pickLu_line k with Some l => l | None => lb_line (lu_base r) end /\
  lu_condition r' = match pickLu_condition k with Some l => l | None => lu_condition r end /\
  lu_spacing r' = match pickLu_spacing k with Some l => l | None => lu_spacing r end /\
  lu_temperature r' = match pickLu_temperature k with Some l => l | None => lu_temperature r end.
Proof.
  intros env r k r' H E.
  assert (Q : luinv r' /\ lu_keys r' = lu_keys r -> luinv r' /\ lb_line (lu_base r') = lb_line (lu_base r) /\
              lu_condition r' = lu_condition r /\ lu_spacing r' = lu_spacing r /\ lu_temperature r' = lu_temperature r).
  { intros (A & K). unfold lu_keys in K. injection K as K1 K2 K3 K4. auto. }
  destruct k; cbn [lu_call pickLu_line pickLu_condition pickLu_spacing pickLu_temperature] in *;
    try (injection E as <-; cbn; split;
         [first [apply luinv_line|apply luinv_condition, H|apply luinv_spacing, H|apply luinv_temperature, H]|auto]);
    apply Q; clear Q.
  - refine (orel_snd _ _ _ (fun z => luinv z /\ lu_keys z = lu_keys r) snd _ _ _
              (usimple_answers _ (fun r => lb_creep (lu_base r)) StretchState_default r H _) _ E);
      [intros a b ((_ & _ & _ & X & _) & _); exact X|intros p q (_ & P); exact P].
  - refine (orel_snd _ _ _ (fun z => luinv z /\ lu_keys z = lu_keys r) snd _ _ _
              (usimple_answers _ (fun r => lb_load (lu_base r)) StretchState_default r H _) _ E);
      [intros a b ((_ & _ & _ & _ & X) & _); exact X|intros p q (_ & P); exact P].
  - refine (orel_snd _ _ _ (fun z => luinv z /\ lu_keys z = lu_keys r) snd _ _ _
              (usimple_answers _ (fun r => lu_length r) ferr r H _) _ E);
      [intros a b (_ & _ & X); exact X|intros p q (_ & P); exact P].
  - refine (orel_snd _ _ _ (fun z => luinv z /\ lu_keys z = lu_keys r) snd _ _ _ (uValidate_alike env r H) _ E);
      intros p q (_ & P); exact P.
Qed.

Lemma lu_run_inv : forall env ks r r', luinv r -> lu_run env r ks = Ok r' ->
  luinv r' /\ lb_line (lu_base r') = last_of pickLu_line ks (lb_line (lu_base r)) /\
  lu_condition r' = last_of pickLu_condition ks (lu_condition r) /\ lu_spacing r' = last_of pickLu_spacing ks (lu_spacing r) /\
  lu_temperature r' = last_of pickLu_temperature ks (lu_temperature r).
Proof.
  intros env. induction ks as [|k ks IH]; intros r r' H E; cbn [lu_run] in E.
  - injection E as <-. auto.
  - destruct (lu_call env r k) as [r1| |] eqn:C; cbn [obind] in E; try discriminate E.
    destruct (lu_call_inv env r k r1 H C) as (H1 & A & B & D & F). destruct (IH r1 r' H1 E) as (H2 & A2 & B2 & D2 & F2).
    cbn [last_of]. rewrite A2, B2, D2, F2, A, B, D, F. auto.
Qed.

Lemma unloader_history : forall (env : Env N) (ks : list (LuCall N)) (u : Unloader N), lu_run env Unloader_new ks = Ok u ->
  lu_alike env u (lu_fresh (last_of pickLu_line ks None) (last_of pickLu_condition ks CdNull)
                    (last_of pickLu_spacing ks Vector3d_default) (last_of pickLu_temperature ks ferr)).
Proof.
  intros env ks r E. destruct (lu_run_inv env ks Unloader_new r luinv_new E) as (H & A & B & C & D).
  pose proof (luinv_alike env r H) as L. unfold lu_like in L. rewrite A, B, C, D in L. exact L.
Qed.

End Unload.
