(** Calls on the line cable sagger that are defined. *)
From Coq Require Import ZArith Bool List Reals Lra Lia.
From Verif Require Import Num NumFacts ModelBase ModelAlignment ModelLine ModelCable ModelCatenary SpecCatenary ProofCatenary ProofReal ModelSolver
  ModelLoad ModelThermal ModelElongation SpecElong ProofElong ProofElongHistory ProofElongSafe ProofStrainer ModelReload SpecReload ProofReload
  ProofReloadSafe ModelSagtension SpecSagtension ProofSagHistory ProofSagger ProofSagLaws ProofThermalCases SpecSagSafe ProofSagSafe.
Import ListNotations.

(** An outcome that is defined. *)
Definition calm {A : Type} (Q : A -> Prop) (o : outcome A) : Prop := match o with Ok a => Q a | Throw => True | UB => False end.

Lemma calm_bind : forall (A B : Type) (Q : A -> Prop) (P : B -> Prop) o f, calm Q o -> (forall a, Q a -> calm P (f a)) -> calm P (do x <- o; f x).
Proof. intros A B Q P [a| |] f H G; cbn in *; auto. Qed.
Lemma ok_calm : forall (A : Type) (Q : A -> Prop) o, ok_with Q o -> calm Q o.
Proof. intros A Q [a| |] H; cbn in *; auto. Qed.
Lemma calm_mono : forall (A : Type) (Q P : A -> Prop) o, calm Q o -> (forall a, Q a -> P a) -> calm P o.
Proof. intros A Q P [a| |] H G; cbn in *; auto. Qed.

Lemma with_whole : forall (l : Strung RNum) c, whole l -> co_weather c <> None -> whole (with_constraint l c).
Proof. intros l c (C & W & Wc & Wl) H. split; [exact C|]. split; [exact H|]. split; assumption. Qed.
Lemma with_fastened : forall env (l : Strung RNum) c, fastened env l -> fastened env (with_constraint l c).
Proof. intros env l c H. exact H. Qed.

Lemma lrsafe_line : forall r (l : option (Strung RNum)), lrsafe r -> lrsafe (lr_set_line r l).
Proof.
  intros r l ((Ca & Fl) & So). split; [|exact So]. split; [|cbn; discriminate]. intros line E. cbn in *. rewrite E. reflexivity.
Qed.
Lemma lrsafe_to : forall c : Constraint RNum, lrsafe (reloader_to c).
Proof. intros c. split; [apply lrsafe_new|cbn; discriminate]. Qed.
Lemma lrsafe_at : forall r (c : Constraint RNum), lrsafe r -> lrsafe (lr_set_condition (lr_set_weather r (co_weather c)) (co_condition c)).
Proof. intros r c (B & _). split; [exact B|cbn; discriminate]. Qed.

Lemma control_ok : forall line cs r i t index, whole line -> Forall (fun c => co_weather c <> None) cs -> lrsafe r -> lr_weather r <> None ->
  ok_with (fun _ => True) (control_loop line r i t index cs).
Proof.
  intros line. induction cs as [|c cs IH]; intros r i t index Wh Fc Sr Wr; [exact I|]. cbn [control_loop]. inversion Fc as [|c' cs' Hc Hcs]; subst.
  eapply ok_bind; [apply (lr_query_ok RNum (fun ok r => if ok then c3_tension_horizontal (lr_catenary r) else ferr) _ (with_constraint line c));
    [apply lrsafe_line, Sr|split; [reflexivity|exact Wr]|apply with_whole; assumption]|].
  intros (h, q) (Q1 & _ & Q2). cbn [snd] in *. destruct (h =? ferr)%num; [exact I|]. destruct (h <? t)%num; apply IH; assumption.
Qed.

(** The index of the controlling constraint. *)
Lemma control_index : forall line cs r i (t : RNum) index j, let own := sr_constraint (lc_payload line) in
  lr_condition r = co_condition own -> lr_weather r = co_weather own -> control_loop line r i t index cs = Ok (Some j) ->
  (j = index /\ Forall (fun c => exists x : R, tension_under line c = Ok x /\ (t <= x)%R) cs) \/ (i <= j < i + Z.of_nat (length cs))%Z /\
    exists c, In c cs /\ exists x : R, tension_under line c = Ok x /\ (x < t)%R.
Proof.
  intros line. induction cs as [|c cs IH]; intros r i t index j own A B E; cbn [control_loop] in E.
  - injection E as <-. left. split; [reflexivity|constructor].
  - pose proof (tension_step line r c A B) as T.
    destruct (lr_TensionHorizontal _) as [(h, r')| |]; cbn [obind] in E; try discriminate E.
    destruct T as (T & A' & B'). destruct (h =? ferr)%num; [discriminate E|]. cbn [length].
    destruct (h <? t)%num eqn:C.
    + apply Rltb_true in C. right. destruct (IH _ _ _ _ _ A' B' E) as [(-> & _)|(Hj & _)].
      * split; [lia|]. exists c. split; [left; reflexivity|]. exists h. auto.
      * split; [lia|]. exists c. split; [left; reflexivity|]. exists h. auto.
    + assert (C' : (t <= h)%R). { apply Rltb_false. exact C. }
      destruct (IH _ _ _ _ _ A' B' E) as [(-> & Fa)|(Hj & c' & I' & X)].
      * left. split; [reflexivity|]. constructor; [exists h; auto|exact Fa].
      * right. split; [lia|]. exists c'. split; [right; exact I'|exact X].
Qed.

Definition fit_list (cs : list (Constraint RNum)) : Prop := Forall (fun c => co_weather c <> None) cs.

(** No constraint has a tension below the one the search starts with. *)
Definition uncontrolled (line : Strung RNum) (cs : list (Constraint RNum)) : Prop :=
  length cs <> 1%nat /\ Forall (fun c => exists x : R, tension_under line c = Ok x /\ (999999 <= x)%R) cs.

Lemma vector_at_in : forall (A : Type) (l : list A) i, (0 <= i < Z.of_nat (length l))%Z -> exists x, vector_at l i = Ok x /\ In x l.
Proof.
  intros A l i H. unfold vector_at. destruct (Z.ltb_spec i 0); [lia|]. destruct (nth_error l (Z.to_nat i)) as [x|] eqn:E.
  - exists x. split; [reflexivity|]. eapply nth_error_In, E.
  - apply nth_error_None in E. lia.
Qed.

Lemma index_ok : forall s line cs, sa_line s = Some line -> sa_constraints s = Some cs -> whole line -> fit_list cs ->
  ok_with (fun p => forall i, p = Some i -> (exists c, vector_at cs i = Ok c /\ co_weather c <> None) /\ ~ uncontrolled line cs \/
                                            vector_at cs i = Throw /\ uncontrolled line cs) (UpdateControllingConstraintIndex s).
Proof.
  intros s line cs L C Wh Fc. unfold UpdateControllingConstraintIndex. rewrite C, L. cbn [deref obind].
  assert (In' : forall i, (0 <= i < Z.of_nat (length cs))%Z -> exists c, vector_at cs i = Ok c /\ co_weather c <> None).
  { intros i Hi. destruct (vector_at_in _ cs i Hi) as (c & V & Ic). exists c. split; [exact V|]. unfold fit_list in Fc. rewrite Forall_forall in Fc. auto. }
  destruct (Nat.eqb_spec (length cs) 1) as [N1|N1].
  { cbn. intros i E. injection E as <-. left. split; [apply In'; lia|]. intros (X & _). contradiction. }
  set (own := sr_constraint (lc_payload line)).
  pose proof (control_ok line cs (reloader_to own) 0 (fofZ 999999) (-9999) Wh Fc (lrsafe_to own)) as K.
  assert (Wo : lr_weather (reloader_to own) <> None) by (destruct Wh as (_ & X & _); exact X). specialize (K Wo).
  destruct (control_loop line (reloader_to own) 0 (fofZ 999999) (-9999) cs) as [[j|]| |] eqn:E; cbn in K; try contradiction; cbn.
  2:{ intros i X. discriminate X. }
  intros i X. injection X as <-.
  destruct (control_index line cs (reloader_to own) 0 (fofZ 999999) (-9999) j eq_refl eq_refl E) as [(-> & Fa)|(Hj & c & Ic & x & T & Lt)].
  - right. split; [reflexivity|]. split; [exact N1|]. rewrite Rlit0 in Fa. exact Fa.
  - left. split; [apply In'; lia|]. intros (_ & Fa). rewrite Forall_forall in Fa. destruct (Fa c Ic) as (y & Ty & Ly).
    rewrite T in Ty. injection Ty as <-. rewrite Rlit0 in Lt. change (F RNum) with R in *. lra.
Qed.

(** The sagger keeps its arguments, except the limit. *)
Definition sahas (env : Env RNum) (s : Sagger RNum) : Prop :=
  fit_line env (sa_line s) /\ fit_constraints (sa_constraints s).
Definition sakept (env : Env RNum) (s t : Sagger RNum) : Prop := sahas env t /\ sa_constraints t = sa_constraints s.

Lemma limit_calm : forall env s line cs, sa_line s = Some line -> sa_constraints s = Some cs -> whole line -> fastened env line -> fit_list cs ->
  match UpdateLineCableConstraintLimit env s with
  | Ok (_, t) => ~ (uncontrolled line cs) /\ sakept env s t
  | Throw => uncontrolled line cs
  | UB => False
  end \/ exists t, UpdateLineCableConstraintLimit env s = Ok (false, t) /\ sakept env s t /\ UpdateControllingConstraintIndex s = Ok None.
Proof.
  intros env s line cs L C Wh Fa Fc.
  assert (Hs : sahas env s). { split; [exists line; auto|exists cs; auto]. }
  pose proof (index_ok s line cs L C Wh Fc) as K. unfold UpdateLineCableConstraintLimit.
  destruct (UpdateControllingConstraintIndex s) as [[i|]| |]; cbn in K; try contradiction; cbn [obind].
  2:{ right. exists s. split; [reflexivity|]. split; [split; [exact Hs|reflexivity]|reflexivity]. }
  left. cbv zeta. cbn [sa_with_index sa_line sa_constraints]. rewrite L, C. cbn [deref obind].
  destruct (K i eq_refl) as [((c & V & Wc) & Nu)|(V & U)]; rewrite V; cbn [obind]; [|exact U].
  set (own := sr_constraint (lc_payload line)).
  assert (Wo : lr_weather (reloader_to own) <> None) by (destruct Wh as (_ & X & _); exact X).
  pose proof (lr_Validate_ok env (lr_set_line (reloader_to own) (Some (with_constraint line c))) (with_constraint line c)
    (lrsafe_line _ _ (lrsafe_to own)) (conj eq_refl Wo) (with_whole _ _ Wh Wc) (with_fastened env line c Fa)) as Va.
  destruct (lr_Validate _ _) as [(v, r)| |]; cbn in Va; try contradiction. cbn [obind]. destruct Va as (Sr & Hr).
  destruct v; [|split; [exact Nu|split; [exact Hs|reflexivity]]].
  assert (Q : ok_with (lrkept (with_constraint line c)) (lr_CatenaryReloaded r)).
  { apply (lr_query_ok _ (fun ok r => if ok then lr_catenary r else Catenary3d_default) r _ Sr Hr (with_whole _ _ Wh Wc)). }
  destruct (lr_CatenaryReloaded r) as [(k, r2)| |]; cbn in Q; try contradiction. cbn [obind].
  split; [exact Nu|]. split; [|cbn; exact C || reflexivity]. split; [|exists cs; split; [exact C|exact Fc]].
  eexists. split; [reflexivity|]. split; [|exact (with_fastened env line _ Fa)]. apply with_whole; [exact Wh|].
  unfold reloaded_limit. cbn. destruct Wh as (_ & X & _). exact X.
Qed.

Lemma actual_ok : forall env line cs r ks, whole line -> fastened env line -> fit_list cs -> lrsafe r -> lb_line (lr_base r) = Some line ->
  ok_with (fun p => fst p = true -> length (snd p) = (length ks + length cs)%nat) (actual_loop env r cs ks).
Proof.
  intros env line. induction cs as [|c cs IH]; intros r ks Wh Fa Fc Sr L; cbn [actual_loop].
  { cbn. intros _. lia. }
  inversion Fc as [|c' cs' Hc Hcs]; subst.
  eapply ok_bind; [apply (lr_Validate_ok env _ line); [apply lrsafe_at, Sr|split; [exact L|exact Hc]|exact Wh|exact Fa]|].
  intros (v, q) (Q1 & Q2). cbn [snd] in *. destruct v; [|cbn; discriminate].
  eapply ok_bind; [apply (lr_query_ok _ (fun ok r => if ok then lr_catenary r else Catenary3d_default) q line Q1 Q2 Wh)|].
  intros (k, q2) (Q3 & Q4 & _). cbn [snd] in *. eapply ok_mono; [apply IH; assumption|]. intros (b, l) H E. cbn [fst snd] in *. rewrite (H E).
  rewrite app_length. cbn. lia.
Qed.

(** An updated sagger has as many catenaries as constraints. *)
Definition saup (s : Sagger RNum) : Prop :=
  sa_updated s = true -> exists cs, sa_constraints s = Some cs /\ length (sa_catenaries s) = length cs.
Definition sainv (env : Env RNum) (s : Sagger RNum) : Prop := sahas env s /\ saup s.

Lemma sa_Update_calm : forall env s, sainv env s ->
  calm (fun p => sainv env (snd p) /\ sa_constraints (snd p) = sa_constraints s /\ (fst p = true -> sa_updated (snd p) = true)) (sa_Update env s).
Proof.
  intros env s (((line & L & Wh & Fa) & cs & C & Fc) & Up). unfold sa_Update. destruct (sa_updated s) eqn:U.
  { cbn. split; [split; [split; [exists line; auto|exists cs; auto]|exact Up]|]. auto. }
  eapply calm_bind with (Q := fun p => sakept env s (snd p)).
  { destruct (limit_calm env s line cs L C Wh Fa Fc) as [H|(t & E & K & _)]; [|rewrite E; exact K].
    destruct (UpdateLineCableConstraintLimit env s) as [(b, t)| |]; cbn; auto. apply H. }
  intros (ok, t) (((line1 & L1 & W1 & F1) & cs1 & C1 & G1) & Ec). cbn [snd] in *. destruct ok.
  2:{ cbn. split; [split; [split; [exists line1; auto|exists cs1; auto]|unfold saup; cbn; discriminate]|]. split; [exact Ec|discriminate]. }
  unfold UpdateCatenariesConstraintsActual. cbn [sa_with_flag sa_constraints sa_line]. rewrite C1. cbn [deref obind].
  pose proof (actual_ok env line1 cs1 (lr_set_line Reloader_new (sa_line t)) [] W1 F1 G1 (lrsafe_line _ _ lrsafe_new) ltac:(exact L1)) as A.
  destruct (actual_loop env (lr_set_line Reloader_new (sa_line t)) cs1 []) as [(ok, ks)| |]; cbn in A; try contradiction. cbn.
  split; [|split; [exact Ec|auto]]. split; [split; [exists line1; auto|exists cs1; auto]|]. unfold saup. cbn. intros X. exists cs1. auto.
Qed.

Lemma vector_at_calm : forall (A : Type) (l : list A) i, calm (fun _ => True) (vector_at l i).
Proof. intros A l i. unfold vector_at. destruct (i <? 0)%Z; [exact I|]. destruct (nth_error l (Z.to_nat i)); exact I. Qed.

(** The state between calls. *)
Definition sastate (env : Env RNum) (l c : Prop) (s : Sagger RNum) : Prop :=
  (l -> fit_line env (sa_line s)) /\ (c -> fit_constraints (sa_constraints s)) /\ saup s.

Lemma sa_call_calm : forall env k ks l c s, sastate env l c s -> sa_careful env l c (k :: ks) ->
  exists l' c' : Prop, calm (sastate env l' c') (sa_call env s k) /\ sa_careful env l' c' ks.
Proof.
  intros env k ks l c s (Hl & Hc & Up) C.
  assert (Q : forall (A : Type) (o : outcome (A * Sagger RNum)), (sainv env s -> calm (fun p => sainv env (snd p)) o) ->
    l /\ c /\ sa_careful env l c ks -> exists l' c' : Prop, calm (sastate env l' c') (omap snd o) /\ sa_careful env l' c' ks).
  { intros A o H (Y1 & Y2 & Y3). exists l, c. split; [|exact Y3]. specialize (H (conj (conj (Hl Y1) (Hc Y2)) Up)).
    destruct o as [(v, t)| |]; cbn in *; auto. destruct H as ((H1 & H2) & H3). split; [auto|]. split; [auto|exact H3]. }
  assert (V : forall (A : Type) (f : bool -> Sagger RNum -> outcome A),
    (forall ok t, sainv env t -> (ok = true -> sa_updated t = true) -> calm (fun _ => True) (f ok t)) ->
    sainv env s -> calm (fun p : A * Sagger RNum => sainv env (snd p)) (do (ok, t) <- sa_Update env s; do v <- f ok t; Ok (v, t))).
  { intros A f Hf Is. eapply calm_bind; [apply (sa_Update_calm env s Is)|]. intros (ok, t) (T1 & _ & T2). cbn [fst snd] in *.
    eapply calm_bind; [apply (Hf ok t T1 T2)|]. intros v _. exact T1. }
  destruct k as [p|p| | |i|i|i|i|]; cbn [sa_call sa_careful] in *.
  - exists l, (fit_constraints p). split; [|exact C]. split; [exact Hl|]. split; [auto|unfold saup; cbn; discriminate].
  - exists (fit_line env p), c. split; [|exact C]. split; [auto|]. split; [exact Hc|unfold saup; cbn; discriminate].
  - apply Q; [|exact C]. intros Is. rewrite index_query. apply V; [|exact Is]. intros ok t _ _. destruct ok; exact I.
  - apply Q; [|exact C]. intros Is. rewrite limit_query. apply V; [|exact Is]. intros ok t (((line & L & _) & _) & _) _. unfold f_limit.
    destruct ok; [rewrite L|]; exact I.
  - apply Q; [|exact C]. intros Is. unfold sa_CatenaryConstantActual. rewrite actual_query. apply V; [|exact Is].
    intros ok t _ _. unfold f_actual. destruct ok; [|exact I]. eapply calm_bind; [apply vector_at_calm|]. intros x _. exact I.
  - apply Q; [|exact C]. intros Is. unfold sa_TensionHorizontalActual. rewrite actual_query. apply V; [|exact Is].
    intros ok t _ _. unfold f_actual. destruct ok; [|exact I]. eapply calm_bind; [apply vector_at_calm|]. intros x _. exact I.
  - apply Q; [|exact C]. intros Is. unfold sa_TensionSupportActual. rewrite actual_query. apply V; [|exact Is].
    intros ok t _ _. unfold f_actual. destruct ok; [|exact I]. eapply calm_bind; [apply vector_at_calm|]. intros x _. exact I.
  - apply Q; [|exact C]. intros Is. rewrite capacity_query. apply V; [|exact Is].
    intros ok t ((_ & (cs & Ec & _)) & _) _. unfold f_capacity. destruct ok; [|exact I]. rewrite Ec. cbn [deref obind].
    eapply calm_bind; [apply vector_at_calm|]. intros x _. eapply calm_bind; [apply vector_at_calm|]. intros y _. exact I.
  - apply Q; [|exact C]. intros Is. pose proof Is as (((line & L & Wh & Fa) & (cs & Ec & _)) & _). unfold sa_Validate. rewrite Ec, L. cbn [deref obind].
    eapply calm_bind; [apply ok_calm, (Strung_ok env line Wh Fa)|]. intros v _. destruct (_ && _)%bool; [|exact Is].
    eapply calm_mono; [apply (sa_Update_calm env s Is)|]. intros p (P1 & _). exact P1.
Qed.

Lemma sa_run_calm : forall env ks l c s, sastate env l c s -> sa_careful env l c ks -> calm (fun _ => True) (sa_run env s ks).
Proof.
  induction ks as [|k ks IH]; intros l c s Ss C; [exact I|]. cbn [sa_run].
  destruct (sa_call_calm env k ks l c s Ss C) as (l' & c' & K & C'). eapply calm_bind; [exact K|]. intros t T. cbn beta in T. exact (IH _ _ _ T C').
Qed.

Theorem sagger_runs : forall env (ks : list (SaCall RNum)), sa_careful env False False ks -> sa_run env Sagger_new ks <> UB.
Proof.
  intros env ks C. assert (H : calm (fun _ => True) (sa_run env Sagger_new ks)).
  { apply (sa_run_calm env ks False False); [|exact C]. split; [intros []|]. split; [intros []|unfold saup; cbn; discriminate]. }
  intros E. rewrite E in H. exact H.
Qed.

(** ** When the sagger throws *)
Lemma Update_throws : forall env line cs, whole line -> fastened env line -> fit_list cs ->
  (sa_Update env (sa_fresh (Some line) (Some cs)) = Throw <-> uncontrolled line cs).
Proof.
  intros env line cs Wh Fa Fc. split.
  - intros E. unfold sa_Update in E. cbn [sa_fresh sa_set_line sa_set_constraints sa_updated] in E.
    change (mkSagger (Some cs) (Some line) (sa_catenaries Sagger_new) (sa_index Sagger_new) false) with (sa_fresh (Some line) (Some cs)) in E.
    destruct (limit_calm env (sa_fresh (Some line) (Some cs)) line cs eq_refl eq_refl Wh Fa Fc) as [H|(t & Et & _)].
    2:{ rewrite Et in E. discriminate E. }
    destruct (UpdateLineCableConstraintLimit env (sa_fresh (Some line) (Some cs))) as [([|], t)| |] eqn:Eu; cbn [obind] in E; try discriminate E; [|exact H].
    exfalso. destruct H as (_ & (((l1 & L1 & W1 & F1) & cs1 & C1 & G1) & _)).
    unfold UpdateCatenariesConstraintsActual in E. cbn [sa_with_flag sa_constraints sa_line] in E. rewrite C1 in E. cbn [deref obind] in E.
    pose proof (actual_ok env l1 cs1 (lr_set_line Reloader_new (sa_line t)) [] W1 F1 G1 (lrsafe_line _ _ lrsafe_new) ltac:(exact L1)) as A.
    destruct (actual_loop env (lr_set_line Reloader_new (sa_line t)) cs1 []) as [(ok, ks)| |]; cbn in A; try contradiction. cbn in E. discriminate E.
  - intros (N1 & H). apply high_tensions; [exact N1|]. intros c Ic. rewrite Forall_forall in H. destruct (H c Ic) as (x & T & Lx).
    exists x. split; [exact T|]. rewrite ferr_R, Rlit0. split.
    + apply Reqb_false. lra.
    + apply Rltb_false. exact Lx.
Qed.

Theorem sagger_throwing : forall env (ks : list (SaCall RNum)) s line cs, sa_run env Sagger_new ks = Ok s ->
  last_of pickSa_line ks None = Some line -> last_of pickSa_constraints ks None = Some cs ->
  whole line -> fastened env line -> fit_list cs ->
  (sa_IndexConstraintControlling env s = Throw <-> uncontrolled line cs).
Proof.
  intros env ks s line cs E L C Wh Fa Fc. pose proof (sagger_history env ks s E) as (H & _). rewrite L, C in H.
  rewrite <- (Update_throws env line cs Wh Fa Fc). clear E.
  assert (X : forall t, sa_IndexConstraintControlling env t = Throw <-> omap fst (sa_IndexConstraintControlling env t) = Throw).
  { intros t. destruct (sa_IndexConstraintControlling env t) as [(v, u)| |]; cbn; split; intros Y; try discriminate Y; reflexivity. }
  rewrite X, H, <- X. unfold sa_IndexConstraintControlling. clear.
  destruct (sa_Update env (sa_fresh (Some line) (Some cs))) as [(b, t)| |]; cbn; split; intros Y; try discriminate Y; reflexivity.
Qed.

(** ** Lists of one constraint *)
Definition lone (s : Sagger RNum) : Prop := forall cs, sa_constraints s = Some cs -> length cs = 1%nat.

Lemma sa_Update_lone : forall env s, sainv env s -> lone s ->
  ok_with (fun p => (sainv env (snd p) /\ lone (snd p)) /\ (fst p = true -> sa_updated (snd p) = true)) (sa_Update env s).
Proof.
  intros env s Is Lo. pose proof (sa_Update_calm env s Is) as H.
  assert (T : sa_Update env s <> Throw).
  { destruct Is as (((line & L & Wh & Fa) & cs & C & Fc) & _). unfold sa_Update. destruct (sa_updated s); [discriminate|].
    destruct (limit_calm env s line cs L C Wh Fa Fc) as [K|(t & Et & _)]; [|rewrite Et; discriminate].
    destruct (UpdateLineCableConstraintLimit env s) as [([|], t)| |]; cbn [obind]; [|discriminate| |contradiction].
    - destruct K as (_ & (((l1 & L1 & W1 & F1) & cs1 & C1 & G1) & _)).
      unfold UpdateCatenariesConstraintsActual. cbn [sa_with_flag sa_constraints sa_line]. rewrite C1. cbn [deref obind].
      pose proof (actual_ok env l1 cs1 (lr_set_line Reloader_new (sa_line t)) [] W1 F1 G1 (lrsafe_line _ _ lrsafe_new) ltac:(exact L1)) as A.
      destruct (actual_loop env (lr_set_line Reloader_new (sa_line t)) cs1 []) as [(ok, ks)| |]; cbn in A; try contradiction. cbn. discriminate.
    - destruct K as (K & _). exfalso. apply K, Lo, C. }
  destruct (sa_Update env s) as [(b, t)| |]; cbn in *; try contradiction. destruct H as (H1 & H2 & H3). split; [split; [exact H1|]|exact H3].
  intros cs E. apply Lo. rewrite <- H2. exact E.
Qed.

Lemma first_ok : forall env s, sainv env s -> lone s -> sa_updated s = true ->
  exists c k, sa_constraints s = Some [c] /\ sa_catenaries s = [k].
Proof.
  intros env s (_ & Up) Lo U. destruct (Up U) as (cs & C & Len). pose proof (Lo cs C) as N1. rewrite N1 in Len.
  destruct cs as [|c [|]]; try discriminate N1. destruct (sa_catenaries s) as [|k [|]]; try discriminate Len. exists c, k. auto.
Qed.

Lemma sa_call_lone : forall env k ks l c s, sastate env l c s -> lone s -> sa_single k -> sa_careful env l c (k :: ks) ->
  exists (l' c' : Prop) t, sa_call env s k = Ok t /\ sastate env l' c' t /\ lone t /\ sa_careful env l' c' ks.
Proof.
  intros env k ks l c s (Hl & Hc & Up) Lo Si C.
  assert (Q : forall (A : Type) (o : outcome (A * Sagger RNum)), (sainv env s -> ok_with (fun p => sainv env (snd p) /\ lone (snd p)) o) ->
    l /\ c /\ sa_careful env l c ks -> exists (l' c' : Prop) t, omap snd o = Ok t /\ sastate env l' c' t /\ lone t /\ sa_careful env l' c' ks).
  { intros A o H (Y1 & Y2 & Y3). specialize (H (conj (conj (Hl Y1) (Hc Y2)) Up)).
    destruct o as [(v, t)| |]; cbn in *; try contradiction. destruct H as (((H1 & H2) & H3) & H4). exists l, c, t. split; [reflexivity|].
    split; [split; [auto|]; split; [auto|exact H3]|]. split; assumption. }
  assert (V : forall (A : Type) (f : bool -> Sagger RNum -> outcome A),
    (forall ok t, sainv env t -> lone t -> (ok = true -> sa_updated t = true) -> ok_with (fun _ => True) (f ok t)) ->
    sainv env s -> ok_with (fun p : A * Sagger RNum => sainv env (snd p) /\ lone (snd p)) (do (ok, t) <- sa_Update env s; do v <- f ok t; Ok (v, t))).
  { intros A f Hf Is. eapply ok_bind; [apply (sa_Update_lone env s Is Lo)|]. intros (ok, t) ((T1 & T3) & T2). cbn [fst snd] in *.
    eapply ok_bind; [apply (Hf ok t T1 T3 T2)|]. intros v _. split; assumption. }
  assert (Ac : forall q i, i = 0%Z -> sainv env s ->
    ok_with (fun p : RNum * Sagger RNum => sainv env (snd p) /\ lone (snd p)) (sa_actual env q s i)).
  { intros q i -> Is. rewrite actual_query. apply V; [|exact Is]. intros ok t T1 T2 T3. unfold f_actual. destruct ok; [|exact I].
    destruct (first_ok env t T1 T2 (T3 eq_refl)) as (c0 & k0 & _ & K). rewrite K. exact I. }
  destruct k as [p|p| | |i|i|i|i|]; cbn [sa_call sa_careful] in *.
  - exists l, (fit_constraints p). eexists. split; [reflexivity|]. split; [split; [exact Hl|]; split; [auto|unfold saup; cbn; discriminate]|].
    split; [|exact C]. intros cs E. cbn in E. subst p. exact Si.
  - exists (fit_line env p), c. eexists. split; [reflexivity|]. split; [split; [auto|]; split; [exact Hc|unfold saup; cbn; discriminate]|].
    split; [exact Lo|exact C].
  - apply Q; [|exact C]. intros Is. rewrite index_query. apply V; [|exact Is]. intros ok t _ _ _. destruct ok; exact I.
  - apply Q; [|exact C]. intros Is. rewrite limit_query. apply V; [|exact Is]. intros ok t (((line & L & _) & _) & _) _ _. unfold f_limit.
    destruct ok; [rewrite L|]; exact I.
  - apply Q; [|exact C]. apply Ac. apply Si. reflexivity.
  - apply Q; [|exact C]. apply Ac. apply Si. reflexivity.
  - apply Q; [|exact C]. apply Ac. apply Si. reflexivity.
  - apply Q; [|exact C]. intros Is. rewrite capacity_query. apply V; [|exact Is].
    intros ok t T1 T2 T3. unfold f_capacity. destruct ok; [|exact I]. rewrite (Si i eq_refl).
    destruct (first_ok env t T1 T2 (T3 eq_refl)) as (c0 & k0 & K1 & K2). rewrite K1, K2. exact I.
  - apply Q; [|exact C]. intros Is. pose proof Is as (((line & L & Wh & Fa) & (cs & Ec & _)) & _). unfold sa_Validate. rewrite Ec, L. cbn [deref obind].
    eapply ok_bind; [apply (Strung_ok env line Wh Fa)|]. intros v _. destruct (_ && _)%bool; [|split; assumption].
    eapply ok_mono; [apply (sa_Update_lone env s Is Lo)|]. intros p (P1 & _). exact P1.
Qed.

Theorem sagger_single_runs : forall env (ks : list (SaCall RNum)), sa_careful env False False ks -> Forall sa_single ks ->
  exists s, sa_run env Sagger_new ks = Ok s.
Proof.
  intros env ks C Si.
  assert (G : forall ks l c s, sastate env l c s -> lone s -> sa_careful env l c ks -> Forall sa_single ks -> exists t, sa_run env s ks = Ok t).
  { clear. induction ks as [|k ks IH]; intros l c s Ss Lo C Si; [eexists; reflexivity|]. inversion Si as [|k' ks' Hk Hks]; subst. cbn [sa_run].
    destruct (sa_call_lone env k ks l c s Ss Lo Hk C) as (l' & c' & t & E & S' & Lo' & C'). rewrite E. cbn [obind]. exact (IH _ _ _ S' Lo' C' Hks). }
  apply (G ks False False); try assumption; [|intros cs E; discriminate E].
  split; [intros []|]. split; [intros []|unfold saup; cbn; discriminate].
Qed.
