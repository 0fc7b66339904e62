(** Proofs about CableElongationModel, for every arithmetic: its answers depend only on
    the cable, the state and the stretch state in force. *)
From Coq Require Import ZArith Bool List.
From Verif Require Import Num ModelBase ModelCable ModelPolynomial ModelThermal ModelElongation ProofElong.
Import ListNotations.
Open Scope num_scope.

Section Model.
Context {N : Num}.
Implicit Types a b m : ElongModel N.

(** The same inputs; the enabled component models agree. *)
Record meq (a b : ElongModel N) : Prop := mkMeq {
  me_cable : em_cable a = em_cable b;
  me_stretch : em_stretch a = em_stretch b;
  me_core : em_core_on a = Ok true -> ceq (em_core a) (em_core b);
  me_shell : em_shell_on a = Ok true -> ceq (em_shell a) (em_shell b)
}.

(** The same region points, state and flags. *)
Definition kept (a m : ElongModel N) : Prop :=
  em_points m = em_points a /\ em_state m = em_state a /\
  em_upd_state m = em_upd_state a /\ em_upd_stretch m = em_upd_stretch a.

Lemma kept_trans : forall a b m, kept a b -> kept b m -> kept a m.
Proof. intros a b m (H0 & H1 & H2 & H3) (G0 & G1 & G2 & G3). repeat split; congruence. Qed.
Lemma kept_refl : forall a, kept a a.
Proof. intros a. repeat split. Qed.

Lemma on_cable : forall a b, em_cable a = em_cable b -> em_core_on a = em_core_on b /\ em_shell_on a = em_shell_on b.
Proof. intros a b H. unfold em_core_on, em_shell_on. rewrite H. auto. Qed.

Lemma meq_sym : forall a b, meq a b -> meq b a.
Proof.
  intros a b [H1 H3 H7 H8]. destruct (on_cable a b H1) as (E1 & E2).
  constructor; auto; intros H; apply ceq_sym; [apply H7|apply H8]; congruence.
Qed.

Lemma meq_trans : forall a b m, meq a b -> meq b m -> meq a m.
Proof.
  intros a b m [H1 H3 H7 H8] [G1 G3 G7 G8].
  destruct (on_cable a b H1) as (E1 & E2).
  constructor; try congruence; intros H; eapply ceq_trans; eauto; [apply G7|apply G8]; congruence.
Qed.

(** A query: the same answer; the models keep their inputs, points and flags. *)
Definition manswer {A : Type} (a b : ElongModel N) (p q : A * ElongModel N) : Prop :=
  fst p = fst q /\ meq (snd p) (snd q) /\ (meq a (snd p) /\ kept a (snd p)) /\ (meq b (snd q) /\ kept b (snd q)).

Lemma meq_refl : forall a b, meq a b -> meq a a /\ meq b b.
Proof. intros a b H. split; eapply meq_trans; eauto; apply meq_sym; exact H. Qed.

Lemma manswer_here : forall (A : Type) (v : A) a b, meq a b -> manswer a b (v, a) (v, b).
Proof.
  intros A v a b H. destruct (meq_refl a b H). split; [reflexivity|]. cbn [snd]. split; [exact H|].
  split; (split; [assumption|apply kept_refl]).
Qed.

Lemma manswer_trans : forall (A B : Type) a b (p q : A * ElongModel N) (p' q' : B * ElongModel N),
  manswer a b p q -> manswer (snd p) (snd q) p' q' -> manswer a b p' q'.
Proof.
  intros A B a b p q p' q' (H1 & H2 & (H3 & K3) & (H4 & K4)) (G1 & G2 & (G3 & L3) & (G4 & L4)).
  split; [exact G1|]. split; [exact G2|]. split; (split; [eapply meq_trans|eapply kept_trans]; eauto).
Qed.

Lemma with_core_meq : forall a b c d, meq a b -> ceq c d -> meq (em_with_core a c) (em_with_core b d).
Proof. intros a b c d [H1 H3 H7 H8] C. constructor; cbn; auto. Qed.
Lemma with_shell_meq : forall a b c d, meq a b -> ceq c d -> meq (em_with_shell a c) (em_with_shell b d).
Proof. intros a b c d [H1 H3 H7 H8] C. constructor; cbn; auto. Qed.

Lemma with_core_self : forall a b c, meq a b -> ceq (em_core a) c -> meq a (em_with_core a c).
Proof. intros a b c H C. destruct (meq_refl a b H) as ([H1 H3 H7 H8] & _). constructor; cbn; auto. Qed.
Lemma with_shell_self : forall a b c, meq a b -> ceq (em_shell a) c -> meq a (em_with_shell a c).
Proof. intros a b c H C. destruct (meq_refl a b H) as ([H1 H3 H7 H8] & _). constructor; cbn; auto. Qed.

Lemma core_value_agree : forall q a b,
  (forall c d, ceq c d -> orel (same_answer c d) (q c) (q d)) ->
  meq a b -> orel (manswer a b) (core_value a q) (core_value b q).
Proof.
  intros q a b Hq H. unfold core_value. destruct (on_cable a b (me_cable _ _ H)) as (E & _). rewrite <- E.
  destruct (em_core_on a) as [[|]| |] eqn:On; cbn [obind]; try exact I.
  2: { apply manswer_here. exact H. }
  apply (orel_bind _ _ _ _ _ _ _ _ _ _ (Hq _ _ (me_core _ _ H On))).
  intros (v, c) (w, d) (V & C & Ca & Cb). cbn [fst snd] in *. subst w. split; [reflexivity|]. cbn [snd].
  split; [apply with_core_meq; auto|]. split; (split; [|repeat split]).
  - apply (with_core_self a b); auto.
  - apply (with_core_self b a); auto. apply meq_sym; exact H.
Qed.

Lemma shell_value_agree : forall q a b,
  (forall c d, ceq c d -> orel (same_answer c d) (q c) (q d)) ->
  meq a b -> orel (manswer a b) (shell_value a q) (shell_value b q).
Proof.
  intros q a b Hq H. unfold shell_value. destruct (on_cable a b (me_cable _ _ H)) as (_ & E). rewrite <- E.
  destruct (em_shell_on a) as [[|]| |] eqn:On; cbn [obind]; try exact I.
  2: { apply manswer_here. exact H. }
  apply (orel_bind _ _ _ _ _ _ _ _ _ _ (Hq _ _ (me_shell _ _ H On))).
  intros (v, c) (w, d) (V & C & Ca & Cb). cbn [fst snd] in *. subst w. split; [reflexivity|]. cbn [snd].
  split; [apply with_shell_meq; auto|]. split; (split; [|repeat split]).
  - apply (with_shell_self a b); auto.
  - apply (with_shell_self b a); auto. apply meq_sym; exact H.
Qed.

Lemma LoadCore_agree : forall a b e, meq a b -> orel (manswer a b) (LoadCore a e) (LoadCore b e).
Proof. intros. apply core_value_agree; auto. intros. apply Load_agree; auto. Qed.
Lemma LoadShell_agree : forall a b e, meq a b -> orel (manswer a b) (LoadShell a e) (LoadShell b e).
Proof. intros. apply shell_value_agree; auto. intros. apply Load_agree; auto. Qed.
Lemma SlopeCore_agree : forall a b e, meq a b -> orel (manswer a b) (SlopeCore a e) (SlopeCore b e).
Proof. intros. apply core_value_agree; auto. intros. apply Slope_agree; auto. Qed.
Lemma SlopeShell_agree : forall a b e, meq a b -> orel (manswer a b) (SlopeShell a e) (SlopeShell b e).
Proof. intros. apply shell_value_agree; auto. intros. apply Slope_agree; auto. Qed.
Lemma StrainCore_agree : forall a b e, meq a b -> orel (manswer a b) (StrainCore a e) (StrainCore b e).
Proof. intros. apply core_value_agree; auto. intros. apply Strain_agree; auto. Qed.
Lemma StrainShell_agree : forall a b e, meq a b -> orel (manswer a b) (StrainShell a e) (StrainShell b e).
Proof. intros. apply shell_value_agree; auto. intros. apply Strain_agree; auto. Qed.

(** The sum of two queries. *)
Lemma sum_agree : forall (q1 q2 : ElongModel N -> outcome (N * ElongModel N)) a b,
  (forall x y, meq x y -> orel (manswer x y) (q1 x) (q1 y)) ->
  (forall x y, meq x y -> orel (manswer x y) (q2 x) (q2 y)) -> meq a b ->
  orel (manswer a b)
    (do (v, m) <- q1 a; do (w, m) <- q2 m; Ok (v + w, m))
    (do (v, m) <- q1 b; do (w, m) <- q2 m; Ok (v + w, m)).
Proof.
  intros q1 q2 a b H1 H2 H. apply (orel_bind _ _ _ _ _ _ _ _ _ _ (H1 a b H)).
  intros (v, m) (v', m') (V & M & Ma & Mb). cbn [fst snd] in *. subst v'.
  apply (orel_bind _ _ _ _ _ _ _ _ _ _ (H2 m m' M)).
  intros (w, n) (w', n') B. pose proof B as (W & _). cbn [fst snd] in *. subst w'.
  pose proof (manswer_trans _ _ a b (v, m) (v, m') (w, n) (w, n')
    (conj eq_refl (conj M (conj Ma Mb))) B) as (_ & D). split; [reflexivity|exact D].
Qed.

Lemma LoadCombined_agree : forall a b e, meq a b -> orel (manswer a b) (LoadCombined a e) (LoadCombined b e).
Proof.
  intros. unfold LoadCombined. apply sum_agree with (q1 := fun m => LoadCore m e) (q2 := fun m => LoadShell m e); auto.
  - intros. apply LoadCore_agree; auto.
  - intros. apply LoadShell_agree; auto.
Qed.
Lemma SlopeCombined_agree : forall a b e, meq a b -> orel (manswer a b) (SlopeCombined a e) (SlopeCombined b e).
Proof.
  intros. unfold SlopeCombined.
  apply sum_agree with (q1 := fun m => SlopeCore m e) (q2 := fun m => SlopeShell m e); auto.
  - intros. apply SlopeCore_agree; auto.
  - intros. apply SlopeShell_agree; auto.
Qed.

Lemma strain_loop_agree : forall fuel a b load prec lo hi cur, meq a b ->
  orel (manswer a b) (strain_loop fuel a load prec lo hi cur) (strain_loop fuel b load prec lo hi cur).
Proof.
  induction fuel as [|fuel IH]; intros a b load prec lo hi cur H; cbn [strain_loop].
  { apply manswer_here. exact H. }
  destruct (prec <? fabs (p2y cur - load)); [|apply manswer_here; exact H].
  apply (orel_bind _ _ _ _ _ _ _ _ _ _ (LoadCombined_agree a b _ H)).
  intros (v, m) (w, m') A. pose proof A as (V & M & _). cbn [fst snd] in *. subst w.
  match goal with |- context [strain_bracket ?x1 ?x2 ?x3 ?x4] => destruct (strain_bracket x1 x2 x3 x4) as [lo' hi'] end.
  eapply orel_mono. { apply IH. exact M. }
  intros p q B. eapply manswer_trans; eauto.
Qed.

Lemma StrainCombined_agree : forall a b y, meq a b -> em_points a = em_points b ->
  orel (manswer a b) (StrainCombined a y) (StrainCombined b y).
Proof.
  intros a b y H P. unfold StrainCombined. rewrite <- P, <- (me_cable _ _ H).
  destruct (em_points a) as [|pmin rest]; [exact I|].
  destruct (y <=? p2y pmin).
  { destruct (deref (em_cable a)) as [c| |]; cbn [obind]; try exact I.
    destruct (deref (sg_base c)) as [k| |]; cbn [obind]; try exact I. apply manswer_here. exact H. }
  destruct (p2y (last rest pmin) <=? y).
  { apply (orel_bind _ _ _ _ _ _ _ _ _ _ (LoadCombined_agree a b _ H)).
    intros (v, m) (w, m') A. pose proof A as (V & M & _). cbn [fst snd] in *. subst w.
    eapply orel_mono. { apply strain_loop_agree. exact M. }
    intros p q B. eapply manswer_trans; eauto. }
  destruct (find_region y (pmin :: rest)) as [(lo, hi)| |]; cbn [obind]; try exact I.
  apply strain_loop_agree. exact H.
Qed.

Lemma load_points_agree : forall l a b, meq a b -> orel (manswer a b) (load_points a l) (load_points b l).
Proof.
  induction l as [|p l IH]; intros a b H; cbn [load_points].
  { apply manswer_here. exact H. }
  apply (orel_bind _ _ _ _ _ _ _ _ _ _ (LoadCombined_agree a b _ H)).
  intros (v, m) (w, m') A. pose proof A as (V & M & _). cbn [fst snd] in *. subst w.
  apply (orel_bind _ _ _ _ _ _ _ _ _ _ (IH m m' M)).
  intros (l1, n) (l2, n') B. pose proof B as (W & _). cbn [fst snd] in W. subst l2.
  pose proof (manswer_trans _ _ _ _ _ _ _ _ A B) as (_ & D). split; [reflexivity|exact D].
Qed.

(** ** Updates *)

(** The sum of two lists of points, with the models after. *)
Lemma points_part_agree : forall a b, meq a b ->
  orel (manswer a b)
    (do on <- em_core_on a;
     if on then do (l, c) <- cm_PointsRegions (em_core a); Ok (l, em_with_core a c) else Ok ([], a))
    (do on <- em_core_on b;
     if on then do (l, c) <- cm_PointsRegions (em_core b); Ok (l, em_with_core b c) else Ok ([], b)) /\
  orel (manswer a b)
    (do on <- em_shell_on a;
     if on then do (l, c) <- cm_PointsRegions (em_shell a); Ok (l, em_with_shell a c) else Ok ([], a))
    (do on <- em_shell_on b;
     if on then do (l, c) <- cm_PointsRegions (em_shell b); Ok (l, em_with_shell b c) else Ok ([], b)).
Proof.
  intros a b H. destruct (on_cable a b (me_cable _ _ H)) as (E1 & E2). rewrite <- E1, <- E2. split.
  - destruct (em_core_on a) as [[|]| |] eqn:On; cbn [obind]; try exact I; [|apply manswer_here; exact H].
    apply (orel_bind _ _ _ _ _ _ _ _ _ _ (Points_agree _ _ (me_core _ _ H On))).
    intros (v, c) (w, d) (V & C & Ca & Cb). cbn [fst snd] in *. subst w. split; [reflexivity|]. cbn [snd].
    split; [apply with_core_meq; auto|]. split; (split; [|repeat split]).
    + apply (with_core_self a b); auto.
    + apply (with_core_self b a); auto. apply meq_sym; exact H.
  - destruct (em_shell_on a) as [[|]| |] eqn:On; cbn [obind]; try exact I; [|apply manswer_here; exact H].
    apply (orel_bind _ _ _ _ _ _ _ _ _ _ (Points_agree _ _ (me_shell _ _ H On))).
    intros (v, c) (w, d) (V & C & Ca & Cb). cbn [fst snd] in *. subst w. split; [reflexivity|]. cbn [snd].
    split; [apply with_shell_meq; auto|]. split; (split; [|repeat split]).
    + apply (with_shell_self a b); auto.
    + apply (with_shell_self b a); auto. apply meq_sym; exact H.
Qed.

(** The cable, the states and the flags. *)
Definition kept_inputs (a m : ElongModel N) : Prop :=
  em_cable m = em_cable a /\ em_stretch m = em_stretch a /\ em_state m = em_state a /\
  em_upd_state m = em_upd_state a /\ em_upd_stretch m = em_upd_stretch a.

Lemma kept_inputs_trans : forall a b m, kept_inputs a b -> kept_inputs b m -> kept_inputs a m.
Proof. intros a b m (H0 & H1 & H2 & H3 & H4) (G0 & G1 & G2 & G3 & G4). repeat split; congruence. Qed.

(** After an update of the points the models agree, points included. *)
Definition repointed (a b p q : ElongModel N) : Prop :=
  meq p q /\ em_points p = em_points q /\ (meq a p /\ kept_inputs a p) /\ (meq b q /\ kept_inputs b q).

Lemma UpdatePointsRegions_split : forall a,
  UpdatePointsRegions a =
  (do (pc, m) <- (do on <- em_core_on a;
     if on then do (l, c) <- cm_PointsRegions (em_core a); Ok (l, em_with_core a c) else Ok ([], a));
   do (pl, m) <- (do on <- em_shell_on m;
     if on then do (l, c) <- cm_PointsRegions (em_shell m); Ok (l, em_with_shell m c) else Ok ([], m));
   do l <- sort_x (pc ++ pl);
   do (l, m) <- load_points m l;
   Ok (em_with_points m l)).
Proof.
  intros a. unfold UpdatePointsRegions. destruct (em_core_on a) as [on| |]; cbn [obind]; try reflexivity.
  match goal with |- obind ?x _ = obind ?x _ => destruct x as [(pc, m)| |] end; cbn [obind]; try reflexivity.
  destruct (em_shell_on m) as [s| |]; reflexivity.
Qed.

Lemma UpdatePointsRegions_agree : forall a b, meq a b ->
  orel (repointed a b) (UpdatePointsRegions a) (UpdatePointsRegions b).
Proof.
  intros a b H. rewrite (UpdatePointsRegions_split a), (UpdatePointsRegions_split b).
  apply (orel_bind _ _ _ _ _ _ _ _ _ _ (proj1 (points_part_agree a b H))).
  intros (pc, m) (pc', m') A. pose proof A as (V & M & _). cbn [fst snd] in *. subst pc'.
  apply (orel_bind _ _ _ _ _ _ _ _ _ _ (proj2 (points_part_agree m m' M))).
  intros (pl, n) (pl', n') B. pose proof B as (W & K & _). cbn [fst snd] in W, K. subst pl'.
  destruct (sort_x (pc ++ pl)) as [l| |]; cbn [obind]; try exact I.
  apply (orel_bind _ _ _ _ _ _ _ _ _ _ (load_points_agree l n n' K)).
  intros (l1, x) (l2, x') C. pose proof C as (X & _). cbn [fst snd] in X. subst l2.
  pose proof (manswer_trans _ _ a b _ _ _ _ (manswer_trans _ _ a b _ _ _ _ A B) C) as (_ & Q & (Qa & Ka) & (Qb & Kb)).
  cbn [snd] in *. destruct Ka as (_ & Ka0 & Ka1 & Ka2), Kb as (_ & Kb0 & Kb1 & Kb2).
  assert (P : forall y z, meq y z -> meq y (em_with_points z l1)).
  { intros y z [H1 H3 H4 H5]. constructor; cbn; auto. }
  assert (P' : meq (em_with_points x l1) (em_with_points x' l1)).
  { apply P. apply meq_sym. apply P. apply meq_sym. exact Q. }
  split; [exact P'|]. split; [reflexivity|].
  split; (split; [apply P; assumption|]).
  - destruct Qa as [Q1 Q2 _ _]. repeat split; cbn; congruence.
  - destruct Qb as [Q1 Q2 _ _]. repeat split; cbn; congruence.
Qed.

(** Agreement up to the state of the enabled component models, which may be set to [s]. *)
Definition settable (s : CableState N) (c d : CompModel N) : Prop :=
  cinv (cm_set_state c (Some s)) /\ cinv (cm_set_state d (Some s)) /\ skey c = skey d.

Record seq (s : CableState N) (a b : ElongModel N) : Prop := mkSeq {
  se_cable : em_cable a = em_cable b;
  se_stretch : em_stretch a = em_stretch b;
  se_core : em_core_on a = Ok true -> settable s (em_core a) (em_core b);
  se_shell : em_shell_on a = Ok true -> settable s (em_shell a) (em_shell b)
}.

(** The models with the state set. *)
Definition set_states (m : ElongModel N) (s : CableState N) : outcome (ElongModel N) :=
  do x <- em_core_on m;
  let m := if x then em_with_core m (cm_set_state (em_core m) (Some s)) else m in
  do y <- em_shell_on m;
  Ok (if y then em_with_shell m (cm_set_state (em_shell m) (Some s)) else m).

Lemma UpdateComponentsState_split : forall m s,
  UpdateComponentsState m s = (do m <- set_states m s; UpdatePointsRegions m).
Proof.
  intros m s. unfold UpdateComponentsState, set_states. destruct (em_core_on m) as [a| |]; cbn [obind]; try reflexivity.
  match goal with |- obind ?x _ = obind (obind ?x _) _ => destruct x as [b| |] end; reflexivity.
Qed.

Lemma settable_ceq : forall s c d, settable s c d -> ceq (cm_set_state c (Some s)) (cm_set_state d (Some s)).
Proof.
  intros s c d (H1 & H2 & H3). split; [|split]; auto. unfold ckey. cbn [cm_set_state cm_state].
  change (skey (cm_set_state c (Some s))) with (skey c). change (skey (cm_set_state d (Some s))) with (skey d). congruence.
Qed.

Lemma set_states_agree : forall s a b, seq s a b ->
  orel (fun p q => meq p q /\ kept_inputs a p /\ kept_inputs b q) (set_states a s) (set_states b s).
Proof.
  intros s a b [H1 H3 H4 H5]. destruct (on_cable a b H1) as (E1 & E2). unfold set_states. rewrite <- E1.
  destruct (em_core_on a) as [ca| |] eqn:Oc; cbn [obind]; try exact I.
  assert (S1 : em_shell_on (if ca then em_with_core a (cm_set_state (em_core a) (Some s)) else a) = em_shell_on a).
  { destruct ca; reflexivity. }
  assert (S2 : em_shell_on (if ca then em_with_core b (cm_set_state (em_core b) (Some s)) else b) = em_shell_on a).
  { destruct ca; symmetry; exact E2. }
  rewrite S1, S2. destruct (em_shell_on a) as [sa| |] eqn:Os; cbn [obind]; try exact I.
  cbn [orel].
  split; [|split; destruct ca, sa; repeat split].
  destruct ca, sa; constructor; cbn; auto; unfold em_core_on, em_shell_on in *; cbn [em_with_core em_with_shell em_cable];
    intros X; try (rewrite Oc in X; discriminate X); try (rewrite Os in X; discriminate X);
    apply settable_ceq; auto.
Qed.

(** The result of UpdateComponentsState. *)
Definition restated (a b p q : ElongModel N) : Prop :=
  meq p q /\ em_points p = em_points q /\ kept_inputs a p /\ kept_inputs b q.

Lemma UpdateComponentsState_agree : forall s a b, seq s a b ->
  orel (restated a b) (UpdateComponentsState a s) (UpdateComponentsState b s).
Proof.
  intros s a b H. rewrite !UpdateComponentsState_split.
  apply (orel_bind _ _ _ _ _ _ _ _ _ _ (set_states_agree s a b H)).
  intros p q (M & K & L). eapply orel_mono. { apply UpdatePointsRegions_agree. exact M. }
  intros x y (X & P & (_ & K') & (_ & L')). split; [exact X|]. split; [exact P|].
  split; eapply kept_inputs_trans; eauto.
Qed.

(** ** Stretch *)

(** The inputs of a component model without the two states. *)
Definition tkey (c : CompModel N) := (cm_component c, cm_tref c, cm_mod_creep c, cm_mod_loadstrain c).

(** Agreement up to the states of the enabled component models. *)
Record teq (a b : ElongModel N) : Prop := mkTeq {
  te_cable : em_cable a = em_cable b;
  te_stretch : em_stretch a = em_stretch b;
  te_core : em_core_on a = Ok true -> tkey (em_core a) = tkey (em_core b);
  te_shell : em_shell_on a = Ok true -> tkey (em_shell a) = tkey (em_shell b)
}.

(** No cached value is in use, and the inputs but the state agree. *)
Definition cleared (c d : CompModel N) : Prop :=
  (cm_upd_stretch c = false /\ cm_upd_state c = false) /\ (cm_upd_stretch d = false /\ cm_upd_state d = false) /\
  skey c = skey d.

Record zeq (a b : ElongModel N) : Prop := mkZeq {
  ze_cable : em_cable a = em_cable b;
  ze_stretch : em_stretch a = em_stretch b;
  ze_core : em_core_on a = Ok true -> cleared (em_core a) (em_core b);
  ze_shell : em_shell_on a = Ok true -> cleared (em_shell a) (em_shell b)
}.

Lemma cleared_settable : forall s c d, cleared c d -> settable s c d.
Proof.
  intros s c d ((H1 & H2) & (H3 & H4) & H5). split; [|split]; [apply cinv_cleared; auto..|exact H5].
Qed.

Lemma zeq_seq : forall s a b, zeq a b -> seq s a b.
Proof. intros s a b [H1 H2 H3 H4]. constructor; auto; intros; apply cleared_settable; auto. Qed.

Lemma cleared_stretch : forall c d ss, tkey c = tkey d -> cleared (cm_set_stretch c ss) (cm_set_stretch d ss).
Proof.
  intros c d ss H. unfold tkey in H. injection H as H1 H2 H3 H4. split; [|split]; [repeat split..|].
  unfold skey. cbn [cm_set_stretch cm_component cm_stretch cm_tref cm_mod_creep cm_mod_loadstrain]. congruence.
Qed.

Lemma ceq_tkey : forall c d, ceq c d -> tkey c = tkey d.
Proof.
  intros c d (_ & _ & H). unfold ckey, skey in H. injection H as H1 H2 H3 H4 H5 H6. unfold tkey. congruence.
Qed.

(** The models with zero stretch load. *)
Definition set_zero (m : ElongModel N) : outcome (bool * bool * ElongModel N) :=
  let zero := Some (ss_with_load (em_stretch m) #0) in
  do x <- em_core_on m;
  let m := if x then em_with_core m (cm_set_stretch (em_core m) zero) else m in
  do y <- em_shell_on m;
  Ok (x, y, if y then em_with_shell m (cm_set_stretch (em_shell m) zero) else m).

Lemma set_zero_agree : forall a b, teq a b ->
  orel (fun p q => fst p = fst q /\ (em_core_on a = Ok (fst (fst p)) /\ em_shell_on a = Ok (snd (fst p))) /\
                   zeq (snd p) (snd q) /\ kept_inputs a (snd p) /\ kept_inputs b (snd q))
    (set_zero a) (set_zero b).
Proof.
  intros a b [H1 H2 H3 H4]. destruct (on_cable a b H1) as (E1 & E2). unfold set_zero. rewrite <- E1, <- H2.
  destruct (em_core_on a) as [x| |] eqn:Oc; cbn [obind]; try exact I.
  set (z := Some (ss_with_load (em_stretch a) #0)).
  assert (S1 : em_shell_on (if x then em_with_core a (cm_set_stretch (em_core a) z) else a) = em_shell_on a).
  { destruct x; reflexivity. }
  assert (S2 : em_shell_on (if x then em_with_core b (cm_set_stretch (em_core b) z) else b) = em_shell_on a).
  { destruct x; symmetry; exact E2. }
  rewrite S1, S2. destruct (em_shell_on a) as [y| |] eqn:Os; cbn [obind orel]; try exact I.
  cbn [fst snd]. split; [reflexivity|]. split; [auto|]. split; [|split; destruct x, y; repeat split].
  destruct x, y; constructor; cbn; auto; unfold em_core_on, em_shell_on in *; cbn [em_with_core em_with_shell em_cable];
    intros X; try (rewrite Oc in X; discriminate X); try (rewrite Os in X; discriminate X);
    apply cleared_stretch; auto.
Qed.

(** The component loads at the strain [x] become the stretch loads. *)
Definition set_loads (x : N) (on_core on_shell : bool) (m : ElongModel N) : outcome (ElongModel N) :=
  do m <-
    (if on_core then
       do (y, m) <- LoadCore m x;
       Ok (em_with_core m (cm_set_stretch (em_core m) (Some (ss_with_load (em_stretch m) y))))
     else Ok m);
  if on_shell then
    do (y, m) <- LoadShell m x;
    Ok (em_with_shell m (cm_set_stretch (em_shell m) (Some (ss_with_load (em_stretch m) y))))
  else Ok m.

Lemma UpdateComponentsStretch_split : forall m,
  UpdateComponentsStretch m =
  (do z <- set_zero m;
   let '(x, y, m) := z in
   if ss_load (em_stretch m) =? #0 then Ok m
   else
     do m <- UpdateComponentsState m (mkCableState (ss_temperature (em_stretch m)) (ss_type (em_stretch m)));
     do (e, m) <- StrainCombined m (ss_load (em_stretch m));
     set_loads e x y m).
Proof.
  intros m. unfold UpdateComponentsStretch, set_zero, set_loads.
  destruct (em_core_on m) as [x| |]; cbn [obind]; try reflexivity.
  match goal with |- obind ?x _ = obind (obind ?x _) _ => destruct x as [y| |] end; reflexivity.
Qed.

Lemma kept_kept_inputs : forall a m, meq a m -> kept a m -> kept_inputs a m.
Proof. intros a m [H1 H2 _ _] (_ & G1 & G2 & G3). repeat split; congruence. Qed.

Lemma set_loads_agree : forall e a b x y, meq a b -> em_core_on a = Ok x -> em_shell_on a = Ok y ->
  orel (fun p q => zeq p q /\ kept_inputs a p /\ kept_inputs b q) (set_loads e x y a) (set_loads e x y b).
Proof.
  intros e a b x y H Oc Os. unfold set_loads.
  set (r := fun p q : ElongModel N =>
    em_cable p = em_cable q /\ em_stretch p = em_stretch q /\
    (em_core_on p = Ok true -> cleared (em_core p) (em_core q)) /\
    (em_shell_on p = Ok true -> ceq (em_shell p) (em_shell q)) /\ kept_inputs a p /\ kept_inputs b q).
  apply orel_bind with (r := r).
  { destruct x.
    - apply (orel_bind _ _ _ _ _ _ _ _ _ _ (LoadCore_agree a b e H)).
      intros (v, m) (w, m') (V & M & (Ma & Ka) & (Mb & Kb)). cbn [fst snd] in *. subst w. cbn [orel]. unfold r.
      pose proof (kept_kept_inputs _ _ Ma Ka) as Ia. pose proof (kept_kept_inputs _ _ Mb Kb) as Ib.
      cbn [em_with_core em_cable em_stretch em_core em_shell]. split; [apply (me_cable _ _ M)|].
      split; [apply (me_stretch _ _ M)|]. split.
      + intros X. rewrite (me_stretch _ _ M). apply cleared_stretch. apply ceq_tkey. apply (me_core _ _ M). exact X.
      + split; [intros X; apply (me_shell _ _ M); exact X|]. split; assumption.
    - cbn [orel]. unfold r. destruct H as [H1 H2 H3 H4]. split; [exact H1|]. split; [exact H2|].
      split; [intros X; rewrite Oc in X; discriminate X|]. split; [exact H4|]. split; repeat split. }
  intros p q (R1 & R2 & R3 & R4 & R5 & R6).
  assert (Op : em_shell_on p = em_shell_on a).
  { destruct R5 as (Ec & _). unfold em_shell_on. rewrite Ec. reflexivity. }
  destruct y.
  2: { cbn [orel]. split; [|split; assumption]. constructor; auto.
       intros X. rewrite Op, Os in X. discriminate X. }
  (* the shell *)
  unfold LoadShell, shell_value. destruct (on_cable p q R1) as (_ & E2). rewrite <- E2, Op, Os. cbn [obind].
  assert (C : ceq (em_shell p) (em_shell q)). { apply R4. congruence. }
  pose proof (Load_agree _ _ e C) as L.
  destruct (cm_Load (em_shell p) e) as [(v, c)| |], (cm_Load (em_shell q) e) as [(w, d)| |];
    cbn [orel obind] in *; try contradiction; try exact I.
  destruct L as (V & Q & _). cbn [fst snd] in *. subst w.
  split; [|split].
  - constructor; cbn; auto. intros _. rewrite R2. apply cleared_stretch. apply ceq_tkey. exact Q.
  - destruct R5 as (K1 & K2 & K3 & K4 & K5). repeat split; cbn; auto.
  - destruct R6 as (K1 & K2 & K3 & K4 & K5). repeat split; cbn; auto.
Qed.

Lemma UpdateComponentsStretch_agree : forall a b, teq a b ->
  orel (fun p q => zeq p q /\ kept_inputs a p /\ kept_inputs b q)
    (UpdateComponentsStretch a) (UpdateComponentsStretch b).
Proof.
  intros a b H. rewrite !UpdateComponentsStretch_split.
  apply (orel_bind _ _ _ _ _ _ _ _ _ _ (set_zero_agree a b H)).
  intros ((x, y), m) ((x', y'), m') (E & (Oc & Os) & Z & Ka & Kb). cbn [fst snd] in *. injection E as <- <-.
  rewrite <- (ze_stretch _ _ Z). destruct (ss_load (em_stretch m) =? #0).
  { cbn [orel]. auto. }
  apply (orel_bind _ _ _ _ _ _ _ _ _ _
    (UpdateComponentsState_agree (mkCableState (ss_temperature (em_stretch m)) (ss_type (em_stretch m))) m m'
       (zeq_seq _ _ _ Z))).
  intros n n' (M & P & Kn & Kn'). rewrite <- (me_stretch _ _ M).
  apply (orel_bind _ _ _ _ _ _ _ _ _ _ (StrainCombined_agree n n' (ss_load (em_stretch n)) M P)).
  intros (e, o) (e', o') (V & Mo & (Mn & Ko) & (Mn' & Ko')). cbn [fst snd] in *. subst e'.
  assert (Io : kept_inputs a o).
  { eapply kept_inputs_trans; [|apply kept_kept_inputs; eauto]. eapply kept_inputs_trans; eauto. }
  assert (Io' : kept_inputs b o').
  { eapply kept_inputs_trans; [|apply kept_kept_inputs; eauto]. eapply kept_inputs_trans; eauto. }
  assert (On : em_core_on o = Ok x /\ em_shell_on o = Ok y).
  { destruct Io as (Ec & _). unfold em_core_on, em_shell_on in *. rewrite Ec. auto. }
  eapply orel_mono. { apply set_loads_agree; [exact Mo|apply On..]. }
  intros p q (Q & I1 & I2). split; [exact Q|]. split; eapply kept_inputs_trans; eauto.
Qed.

End Model.
