(** Histories of calls on an elongation model: the answers follow from the last setters. *)
From Coq Require Import ZArith Bool List.
From Verif Require Import Num ModelBase ModelCable ModelPolynomial ModelThermal ModelElongation SpecElong ProofElong
  ProofElongModel.
Import ListNotations.
Open Scope num_scope.

Section History.
Context {N : Num}.
Implicit Types b m : ElongModel N.

(** The enabled components after UpdateComponentsState. *)
Lemma set_states_result : forall s m p, set_states m s = Ok p ->
  (em_core_on m = Ok true -> em_core p = cm_set_state (em_core m) (Some s)) /\
  (em_shell_on m = Ok true -> em_shell p = cm_set_state (em_shell m) (Some s)).
Proof.
  intros s m p E. unfold set_states in E. destruct (em_core_on m) as [x| |] eqn:Oc; cbn [obind] in E; try discriminate E.
  assert (S1 : em_shell_on (if x then em_with_core m (cm_set_state (em_core m) (Some s)) else m) = em_shell_on m).
  { destruct x; reflexivity. }
  rewrite S1 in E. destruct (em_shell_on m) as [y| |]; cbn [obind] in E; try discriminate E. injection E as <-.
  split; intros H; injection H as ->.
  - destruct y; reflexivity.
  - destruct x; reflexivity.
Qed.

Lemma UpdateComponentsState_result : forall s m p, seq s m m -> UpdateComponentsState m s = Ok p ->
  (em_core_on m = Ok true -> skey (em_core p) = skey (em_core m) /\ cm_state (em_core p) = Some s) /\
  (em_shell_on m = Ok true -> skey (em_shell p) = skey (em_shell m) /\ cm_state (em_shell p) = Some s).
Proof.
  intros s m p H E. rewrite UpdateComponentsState_split in E. pose proof (set_states_agree s m m H) as A.
  destruct (set_states m s) as [q| |] eqn:Q; cbn [obind] in E; try discriminate E.
  destruct A as (M & K & _). pose proof (UpdatePointsRegions_agree q q M) as B. rewrite E in B.
  destruct B as (_ & _ & (Mp & _) & _). destruct (set_states_result s m q Q) as (R1 & R2).
  assert (Oc : em_core_on q = em_core_on m /\ em_shell_on q = em_shell_on m).
  { destruct K as (Ec & _). unfold em_core_on, em_shell_on. rewrite Ec. auto. }
  destruct Oc as (Oc & Os). split; intros X.
  - assert (Y : em_core_on q = Ok true) by congruence. destruct (me_core _ _ Mp Y) as (_ & _ & Z).
    destruct (ckey_split _ _ Z) as (Z1 & Z2 & _). rewrite (R1 X) in Z1, Z2. rewrite <- Z1, <- Z2. split; reflexivity.
  - assert (Y : em_shell_on q = Ok true) by congruence. destruct (me_shell _ _ Mp Y) as (_ & _ & Z).
    destruct (ckey_split _ _ Z) as (Z1 & Z2 & _). rewrite (R2 X) in Z1, Z2. rewrite <- Z1, <- Z2. split; reflexivity.
Qed.

(** A component of a used model beside that of the fresh one after its stretch update. *)
Definition held (s : CableState N) (c d : CompModel N) : Prop :=
  cinv c /\ skey c = skey d /\ stype c = Some (st_type s).

(** The fresh model: nothing is updated. *)
Definition unused (b : ElongModel N) : Prop := em_upd_state b = false /\ em_upd_stretch b = false.

(** A used model [m] beside the fresh model [b] with the same inputs. *)
Record hinv (m b : ElongModel N) : Prop := mkHinv {
  hi_unused : unused b;
  hi_teq : teq m b;
  hi_state : em_state m = em_state b;
  hi_flags : em_upd_state m = true -> em_upd_stretch m = true;
  hi_stretch : em_upd_stretch m = true -> exists b1, UpdateComponentsStretch b = Ok b1 /\
    (em_core_on m = Ok true -> held (em_state m) (em_core m) (em_core b1)) /\
    (em_shell_on m = Ok true -> held (em_state m) (em_shell m) (em_shell b1));
  hi_points : em_upd_state m = true -> exists b2, em_Update b = Ok b2 /\ meq m b2 /\ em_points m = em_points b2
}.

Lemma teq_refl : forall b, teq b b.
Proof. intros b. constructor; auto. Qed.

Lemma teq_sym : forall m b, teq m b -> teq b m.
Proof.
  intros m b [H1 H2 H3 H4]. destruct (on_cable _ _ H1) as (E1 & E2).
  constructor; auto; intros X; symmetry; [apply H3|apply H4]; congruence.
Qed.
Lemma teq_trans : forall x y z : ElongModel N, teq x y -> teq y z -> teq x z.
Proof.
  intros x y z [H1 H2 H3 H4] [G1 G2 G3 G4]. destruct (on_cable _ _ H1) as (E1 & E2).
  constructor; try congruence; intros X; [rewrite (H3 X); apply G3|rewrite (H4 X); apply G4]; congruence.
Qed.

Lemma skey_tkey : forall c d : CompModel N, skey c = skey d -> tkey c = tkey d.
Proof. intros c d H. unfold skey in H. injection H as H1 H2 H3 H4 H5. unfold tkey. congruence. Qed.

(** The stretch update keeps the inputs of the components but the states. *)
Lemma teq_meq : forall m p, meq m p -> teq m p.
Proof. intros m p [H1 H2 H3 H4]. constructor; auto; intros X; apply ceq_tkey; auto. Qed.

Lemma set_zero_teq : forall m x y p, set_zero m = Ok (x, y, p) -> teq m p.
Proof.
  intros m x y p E. unfold set_zero in E. destruct (em_core_on m) as [u| |]; cbn [obind] in E; try discriminate E.
  match type of E with obind ?e _ = _ => destruct e as [v| |] end; cbn [obind] in E; try discriminate E.
  injection E as -> -> <-. destruct x, y; constructor; reflexivity || (intros; reflexivity).
Qed.

Lemma set_loads_teq : forall e x y m p, meq m m -> set_loads e x y m = Ok p -> teq m p.
Proof.
  intros e x y m p M E. unfold set_loads in E.
  assert (Cx : forall n z, meq m n -> teq m (em_with_core n (cm_set_stretch (em_core n) z))).
  { intros n z Q. destruct (teq_meq _ _ Q) as [Q1 Q2 Q3 Q4]. constructor; auto. }
  assert (Hx : exists n, (if x then
       do (y, m) <- LoadCore m e;
       Ok (em_with_core m (cm_set_stretch (em_core m) (Some (ss_with_load (em_stretch m) y))))
     else Ok m) = Ok n /\ teq m n /\ (em_shell_on m = Ok true -> ceq (em_shell m) (em_shell n))).
  { destruct x.
    - pose proof (LoadCore_agree m m e M) as A. destruct (LoadCore m e) as [(v, n)| |]; cbn [obind] in E; try discriminate E.
      destruct A as (_ & _ & (Q & _) & _). cbn [snd] in Q. cbn [obind]. eexists. split; [reflexivity|].
      split; [apply Cx; exact Q|]. apply (me_shell _ _ Q).
    - exists m. split; [reflexivity|]. split; [apply teq_refl|]. apply (me_shell _ _ M). }
  destruct Hx as (n & En & Tn & Sn). rewrite En in E. cbn [obind] in E.
  destruct y; [|injection E as <-; exact Tn].
  unfold LoadShell, shell_value in E. destruct (em_shell_on n) as [on| |] eqn:On; cbn [obind] in E; try discriminate E.
  assert (Om : em_shell_on m = em_shell_on n). { apply on_cable. apply (te_cable _ _ Tn). }
  destruct on.
  - assert (C : ceq (em_shell n) (em_shell n)).
    { assert (Y : em_shell_on m = Ok true) by congruence. specialize (Sn Y).
      eapply ceq_trans; [apply ceq_sym; exact Sn|exact Sn]. }
    pose proof (Load_agree _ _ e C) as L. destruct (cm_Load (em_shell n) e) as [(v, c)| |]; cbn [obind] in E; try discriminate E.
    destruct L as (_ & _ & Q & _). cbn [snd] in Q. injection E as <-. destruct Tn as [T1 T2 T3 T4].
    constructor; cbn; auto. intros X. rewrite (T4 X). apply (ceq_tkey _ _ Q).
  - injection E as <-. destruct Tn as [T1 T2 T3 T4]. constructor; cbn; auto.
Qed.

Lemma UpdateComponentsStretch_teq : forall m p, UpdateComponentsStretch m = Ok p -> teq m p.
Proof.
  intros m p E. rewrite UpdateComponentsStretch_split in E.
  pose proof (set_zero_agree m m (teq_refl m)) as Z. pose proof (set_zero_teq m) as T.
  destruct (set_zero m) as [((x, y), n)| |]; cbn [obind] in E; try discriminate E. specialize (T x y n eq_refl).
  destruct Z as (_ & _ & Z & _). cbn [snd] in Z. destruct (ss_load (em_stretch n) =? #0).
  { injection E as <-. exact T. }
  pose proof (zeq_seq (mkCableState (ss_temperature (em_stretch n)) (ss_type (em_stretch n))) _ _ Z) as S.
  pose proof (UpdateComponentsState_agree _ _ _ S) as A. pose proof (fun p => UpdateComponentsState_result _ n p S) as R.
  destruct (UpdateComponentsState n (mkCableState (ss_temperature (em_stretch n)) (ss_type (em_stretch n)))) as [o| |];
    cbn [obind] in E; try discriminate E.
  destruct A as (M & _ & K & _). destruct (R o eq_refl) as (R1 & R2).
  pose proof (StrainCombined_agree o o (ss_load (em_stretch o)) M eq_refl) as B.
  destruct (StrainCombined o (ss_load (em_stretch o))) as [(e, q)| |]; cbn [obind] in E; try discriminate E.
  destruct B as (_ & Mq & (Mo & _) & _). cbn [snd] in *.
  apply (teq_trans _ _ _ T). apply teq_trans with (y := o).
  { destruct K as (K1 & K2 & _). constructor; auto; intros X; symmetry; apply skey_tkey; [apply R1|apply R2]; exact X. }
  apply (teq_trans _ _ _ (teq_meq _ _ Mo)). apply (set_loads_teq e x y); assumption.
Qed.

(** The second half of Update on the two models, from models whose stretch is set. *)
Record stated_on (m p q : ElongModel N) : Prop := mkStatedOn {
  so_meq : meq p q;
  so_points : em_points p = em_points q;
  so_cable : em_cable p = em_cable m;
  so_stretch : em_stretch p = em_stretch m;
  so_state : em_state p = em_state m;
  so_upd_state : em_upd_state p = true;
  so_upd_stretch : em_upd_stretch p = em_upd_stretch m;
  so_core : em_core_on m = Ok true ->
    skey (em_core p) = skey (em_core m) /\ cm_state (em_core p) = Some (em_state m);
  so_shell : em_shell_on m = Ok true ->
    skey (em_shell p) = skey (em_shell m) /\ cm_state (em_shell p) = Some (em_state m)
}.

Definition state_half (m : ElongModel N) : outcome (ElongModel N) :=
  if em_upd_state m then Ok m
  else do n <- UpdateComponentsState m (em_state m); Ok (em_with_flags n true (em_upd_stretch n)).
Definition stretch_half (m : ElongModel N) : outcome (ElongModel N) :=
  if em_upd_stretch m then Ok m
  else do n <- UpdateComponentsStretch m; Ok (em_with_flags n (em_upd_state n) true).
Lemma Update_split : forall m, em_Update m = (do n <- stretch_half m; state_half n).
Proof. reflexivity. Qed.

Lemma state_part : forall m b, seq (em_state m) m b -> em_state m = em_state b ->
  em_upd_state m = false -> em_upd_state b = false ->
  orel (stated_on m) (state_half m) (state_half b).
Proof.
  intros m b S E U V. unfold state_half. rewrite U, V, <- E.
  assert (Sm : seq (em_state m) m m).
  { destruct S as [S1 S2 S3 S4]. constructor; auto; intros X; [destruct (S3 X)|destruct (S4 X)];
      (split; [assumption|split; [assumption|reflexivity]]). }
  pose proof (UpdateComponentsState_result (em_state m) m) as R.
  pose proof (UpdateComponentsState_agree (em_state m) m b S) as A.
  destruct (UpdateComponentsState m (em_state m)) as [p| |], (UpdateComponentsState b (em_state m)) as [q| |];
    cbn [orel obind] in *; try contradiction; try exact I.
  destruct (R p Sm eq_refl) as (R1 & R2). destruct A as (M & P & (K1 & K2 & K3 & K4 & K5) & _).
  destruct M as [M1 M2 M3 M4].
  constructor; cbn [em_with_flags em_points em_cable em_stretch em_state em_upd_state em_upd_stretch em_core em_shell]; auto.
  constructor; cbn; auto.
Qed.

(** The first half: afterwards the states may be set. *)
Record stretched_on (m b p q : ElongModel N) : Prop := mkStretchedOn {
  st_seq : seq (em_state m) p q;
  st_cable : em_cable p = em_cable m;
  st_stretch : em_stretch p = em_stretch m;
  st_state : em_state p = em_state m;
  st_upd_state : em_upd_state p = em_upd_state m;
  st_upd_stretch : em_upd_stretch p = true;
  st_fresh : em_state q = em_state b /\ em_upd_state q = false;
  st_known : exists b1, UpdateComponentsStretch b = Ok b1 /\
    (em_core_on m = Ok true -> skey (em_core p) = skey (em_core b1)) /\
    (em_shell_on m = Ok true -> skey (em_shell p) = skey (em_shell b1))
}.

Lemma held_settable : forall s c d, held s c d -> cinv (cm_set_state d (Some s)) -> settable s c d.
Proof.
  intros s c d (H1 & H2 & H3) H4. split; [|split]; auto.
  apply cinv_set_state; auto.
Qed.

Lemma stretch_part : forall m b, hinv m b -> em_upd_state m = false ->
  orel (stretched_on m b) (stretch_half m) (stretch_half b).
Proof.
  intros m b [(Ub & Sb) H2 H3 H4 H5 H6] U. unfold stretch_half. rewrite Sb.
  destruct (em_upd_stretch m) eqn:V.
  - destruct (H5 eq_refl) as (b1 & E & Hc & Hs). rewrite E. cbn [obind orel].
    pose proof (UpdateComponentsStretch_agree b b (teq_refl b)) as A. rewrite E in A. destruct A as (Z & K & _).
    destruct K as (K1 & K2 & K3 & K4 & K5). destruct H2 as [T1 T2 T3 T4]. destruct Z as [_ _ Z3 Z4].
    assert (Oc : em_core_on b1 = em_core_on m /\ em_shell_on b1 = em_shell_on m).
    { unfold em_core_on, em_shell_on. rewrite K1, T1. auto. }
    destruct Oc as (Oc & Os).
    constructor; cbn [em_with_flags em_state em_upd_state]; auto.
    + constructor; cbn [em_with_flags em_cable em_stretch em_core em_shell]; try congruence.
      * intros X. apply held_settable; auto. assert (Y : em_core_on b1 = Ok true) by congruence.
        destruct (cleared_settable (em_state m) _ _ (Z3 Y)) as (W & _). exact W.
      * intros X. apply held_settable; auto. assert (Y : em_shell_on b1 = Ok true) by congruence.
        destruct (cleared_settable (em_state m) _ _ (Z4 Y)) as (W & _). exact W.
    + split; congruence.
    + exists b1. split; [exact E|]. split; intros X; [destruct (Hc X)|destruct (Hs X)]; tauto.
  - pose proof (UpdateComponentsStretch_agree m b H2) as A.
    destruct (UpdateComponentsStretch m) as [p| |], (UpdateComponentsStretch b) as [q| |] eqn:Q;
      cbn [orel obind] in *; try contradiction; try exact I.
    destruct A as (Z & (K1 & K2 & K3 & K4 & K5) & (L1 & L2 & L3 & L4 & L5)).
    assert (Oc : em_core_on p = em_core_on m /\ em_shell_on p = em_shell_on m).
    { unfold em_core_on, em_shell_on. rewrite K1. auto. }
    destruct Oc as (Oc & Os).
    constructor; cbn [em_with_flags em_cable em_stretch em_state em_upd_state em_upd_stretch em_core em_shell]; auto.
    + destruct (zeq_seq (em_state m) _ _ Z) as [S1 S2 S3 S4]. constructor; cbn; auto.
    + split; congruence.
    + exists q. split; [exact Q|]. destruct Z as [_ _ Z3 Z4]. split; intros X.
      * apply Z3. congruence.
      * apply Z4. congruence.
Qed.

(** Update on the two models. *)
Record updated_on (m b p q : ElongModel N) : Prop := mkUpdatedOn {
  uo_meq : meq p q;
  uo_points : em_points p = em_points q;
  uo_cable : em_cable p = em_cable m;
  uo_stretch : em_stretch p = em_stretch m;
  uo_state : em_state p = em_state m;
  uo_hinv : hinv p b;
  uo_upd : em_upd_state p = true
}.

Lemma Update_hist : forall m b, hinv m b -> orel (updated_on m b) (em_Update m) (em_Update b).
Proof.
  intros m b H. destruct (em_upd_state m) eqn:U.
  { pose proof H as [H1 H2 H3 H4 H5 H6]. destruct (H6 U) as (b2 & E & M & P).
    assert (X : em_Update m = Ok m). { unfold em_Update. rewrite (H4 U). cbn [obind]. rewrite U. reflexivity. }
    rewrite X, E. cbn [orel]. constructor; auto. }
  pose proof (stretch_part m b H U) as A. rewrite !Update_split.
  destruct (stretch_half m) as [n| |] eqn:En, (stretch_half b) as [c| |] eqn:Ec; cbn [orel obind] in *; try contradiction;
    try exact I.
  destruct A as [A1 A2 A3 A4 A5 A6 (A7 & A8) (b1 & A9 & A10 & A11)].
  pose proof H as [H1 H2 H3 H4 H5 H6].
  assert (B : orel (stated_on n) (state_half n) (state_half c)).
  { apply state_part; [rewrite A4; exact A1|congruence..]. }
  destruct (state_half n) as [p| |], (state_half c) as [q| |] eqn:Eq; cbn [orel] in *; try contradiction; try exact I.
  destruct B as [B1 B2 B3 B4 B5 B6 B7 B8 B9].
  assert (Oc : em_core_on n = em_core_on m /\ em_shell_on n = em_shell_on m).
  { unfold em_core_on, em_shell_on. rewrite A2. auto. }
  destruct Oc as (Oc & Os).
  assert (Pc : em_core_on p = em_core_on m /\ em_shell_on p = em_shell_on m).
  { unfold em_core_on, em_shell_on. rewrite B3, A2. auto. }
  destruct Pc as (Pc & Ps). pose proof (UpdateComponentsStretch_teq b b1 A9) as Tk.
  constructor; try congruence; try assumption.
  constructor; try assumption; try congruence.
  - (* inputs *)
    destruct H2 as [T1 T2 T3 T4]. constructor; try congruence.
    + intros X. assert (Y : em_core_on n = Ok true) by congruence. destruct (B8 Y) as (W & _).
      assert (V : em_core_on m = Ok true) by congruence.
      assert (Vb : em_core_on b = Ok true). { unfold em_core_on. rewrite <- T1. exact V. }
      rewrite (te_core _ _ Tk Vb). apply skey_tkey. rewrite W. apply A10. exact V.
    + intros X. assert (Y : em_shell_on n = Ok true) by congruence. destruct (B9 Y) as (W & _).
      assert (V : em_shell_on m = Ok true) by congruence.
      assert (Vb : em_shell_on b = Ok true). { unfold em_shell_on. rewrite <- T1. exact V. }
      rewrite (te_shell _ _ Tk Vb). apply skey_tkey. rewrite W. apply A11. exact V.
  - intros _. exists b1. split; [exact A9|]. split; intros X.
    + assert (Y : em_core_on n = Ok true) by congruence. destruct (B8 Y) as (W & V).
      assert (Z : em_core_on m = Ok true) by congruence. split; [apply (me_core _ _ B1 X)|]. split.
      * rewrite W. apply A10. exact Z.
      * unfold stype. rewrite V. cbn. congruence.
    + assert (Y : em_shell_on n = Ok true) by congruence. destruct (B9 Y) as (W & V).
      assert (Z : em_shell_on m = Ok true) by congruence. split; [apply (me_shell _ _ B1 X)|]. split.
      * rewrite W. apply A11. exact Z.
      * unfold stype. rewrite V. cbn. congruence.
  - intros _. exists q. split; [|auto]. rewrite Update_split, Ec. exact Eq.
Qed.

(** ** Queries and setters *)

(** A model that differs from an updated one in the caches of its components only. *)
Lemma hinv_meq : forall p b r, hinv p b -> em_upd_state p = true -> meq p r -> kept p r -> hinv r b.
Proof.
  intros p b r [H1 H2 H3 H4 H5 H6] U M (K1 & K2 & K3 & K4).
  destruct (on_cable _ _ (me_cable _ _ M)) as (Oc & Os).
  constructor; try congruence.
  - apply teq_trans with (y := p); [apply teq_sym; apply teq_meq; exact M|exact H2].
  - intros X. apply H4 in U. congruence.
  - intros X. destruct (H5 (H4 U)) as (b1 & E & Hc & Hs). exists b1. split; [exact E|].
    split; intros Y.
    + assert (Z : em_core_on p = Ok true) by congruence. destruct (me_core _ _ M Z) as (I1 & I2 & I3).
      destruct (ckey_split _ _ I3) as (J1 & J2 & J3). destruct (Hc Z) as (G1 & G2 & G3).
      split; [exact I2|]. split; congruence.
    + assert (Z : em_shell_on p = Ok true) by congruence. destruct (me_shell _ _ M Z) as (I1 & I2 & I3).
      destruct (ckey_split _ _ I3) as (J1 & J2 & J3). destruct (Hs Z) as (G1 & G2 & G3).
      split; [exact I2|]. split; congruence.
  - intros _. destruct (H6 U) as (b2 & E & M2 & P2). exists b2. split; [exact E|]. split; [|congruence].
    apply meq_trans with (b := p); [apply meq_sym; exact M|exact M2].
Qed.

(** A query: Update, then [q]. *)
Definition mquery {A : Type} (q : ElongModel N -> outcome (A * ElongModel N)) (m : ElongModel N) :=
  do m <- em_Update m; q m.

Lemma mquery_hist : forall (A : Type) (q : ElongModel N -> outcome (A * ElongModel N)) m b,
  (forall x y, meq x y -> em_points x = em_points y -> orel (manswer x y) (q x) (q y)) ->
  hinv m b ->
  omap fst (mquery q m) = omap fst (mquery q b) /\
  (forall v r, mquery q m = Ok (v, r) -> hinv r b /\ em_cable r = em_cable m /\ em_stretch r = em_stretch m /\
                                          em_state r = em_state m).
Proof.
  intros A q m b Q H. unfold mquery. pose proof (Update_hist m b H) as U.
  destruct (em_Update m) as [p| |], (em_Update b) as [c| |]; cbn [orel obind omap] in *; try contradiction;
    try (split; [reflexivity|discriminate]).
  destruct U as [U1 U2 U3 U4 U5 U6 U7]. pose proof (Q p c U1 U2) as R. split.
  - eapply orel_fst; [exact R|]. intros x y (V & _). exact V.
  - intros v r E. rewrite E in R. destruct (q c) as [(w, c')| |]; cbn [orel] in R; try contradiction.
    destruct R as (_ & _ & (M & K) & _). cbn [snd] in *. split; [apply (hinv_meq p b r); assumption|].
    destruct K as (_ & K2 & _). split; [rewrite <- U3; symmetry; apply (me_cable _ _ M)|].
    split; [rewrite <- U4; symmetry; apply (me_stretch _ _ M)|congruence].
Qed.

(** The queries as such. *)
Definition load_of (t : ComponentType) (e : N) (m : ElongModel N) : outcome (N * ElongModel N) :=
  match t with CTCombined => LoadCombined m e | CTCore => LoadCore m e | CTShell => LoadShell m e | CTNull => Ok (ferr, m) end.
Definition slope_of (t : ComponentType) (e : N) (m : ElongModel N) : outcome (N * ElongModel N) :=
  match t with CTCombined => SlopeCombined m e | CTCore => SlopeCore m e | CTShell => SlopeShell m e | CTNull => Ok (ferr, m) end.
Definition strain_of (t : ComponentType) (y : N) (m : ElongModel N) : outcome (N * ElongModel N) :=
  match t with CTCombined => StrainCombined m y | CTCore => StrainCore m y | CTShell => StrainShell m y
  | CTNull => Ok (ferr, m) end.

Lemma load_of_agree : forall t e x y, meq x y -> em_points x = em_points y ->
  orel (manswer x y) (load_of t e x) (load_of t e y).
Proof.
  intros [| | |] e x y H P; cbn [load_of];
    [apply manswer_here|apply LoadCombined_agree|apply LoadCore_agree|apply LoadShell_agree]; exact H.
Qed.
Lemma slope_of_agree : forall t e x y, meq x y -> em_points x = em_points y ->
  orel (manswer x y) (slope_of t e x) (slope_of t e y).
Proof.
  intros [| | |] e x y H P; cbn [slope_of];
    [apply manswer_here|apply SlopeCombined_agree|apply SlopeCore_agree|apply SlopeShell_agree]; exact H.
Qed.
Lemma strain_of_agree : forall t e x y, meq x y -> em_points x = em_points y ->
  orel (manswer x y) (strain_of t e x) (strain_of t e y).
Proof.
  intros [| | |] e x y H P; cbn [strain_of];
    [apply manswer_here|apply StrainCombined_agree|apply StrainCore_agree|apply StrainShell_agree]; assumption.
Qed.

(** Validate without warnings, after the checks of the inputs. *)
Definition valid_of (m : ElongModel N) : outcome (bool * ElongModel N) :=
  do c <- deref (em_cable m);
  do on <- sg_on c;
  if on then
    do x <- em_core_on m;
    do (v1, core) <- component_model_valid false x (em_core m);
    let m := em_with_core m core in
    do s <- em_shell_on m;
    do (v2, shell) <- component_model_valid false s (em_shell m);
    Ok (v1 && v2 && true && true, em_with_shell m shell)
  else Ok (false, m).

Lemma Validate_split : forall m,
  em_Validate false m =
  (do v <- match em_cable m with Some c => sg_Validate c | None => Ok false end;
   if v && CableState_Validate (em_state m) && StretchState_Validate (em_stretch m) then mquery valid_of m
   else Ok (false, m)).
Proof.
  intros m. unfold em_Validate, mquery, valid_of.
  destruct (match em_cable m with Some c => sg_Validate c | None => Ok false end) as [v| |]; cbn [obind]; try reflexivity.
Qed.

Lemma component_core_agree : forall x y : ElongModel N, meq x y ->
  orel (manswer x y)
    (do on <- em_core_on x; do (v, c) <- component_model_valid false on (em_core x); Ok (v, em_with_core x c))
    (do on <- em_core_on y; do (v, c) <- component_model_valid false on (em_core y); Ok (v, em_with_core y c)).
Proof.
  intros x y H. destruct (on_cable x y (me_cable _ _ H)) as (E & _). rewrite <- E.
  assert (S : forall z : ElongModel N, em_with_core z (em_core z) = z). { intros []. reflexivity. }
  destruct (em_core_on x) as [[|]| |] eqn:On; cbn [obind component_model_valid]; try exact I.
  2: { rewrite (S x), (S y). apply manswer_here. exact H. }
  apply (orel_bind _ _ _ _ _ _ _ _ _ _ (Validate_agree _ _ false (me_core _ _ H On))).
  intros (v, c) (w, d) (V & C & Ca & Cb). cbn [fst snd] in *. subst w. split; [reflexivity|]. cbn [snd].
  split; [apply with_core_meq; auto|]. split; (split; [|repeat split]).
  - apply (with_core_self x y); auto.
  - apply (with_core_self y x); auto. apply meq_sym; exact H.
Qed.
Lemma component_shell_agree : forall x y : ElongModel N, meq x y ->
  orel (manswer x y)
    (do on <- em_shell_on x; do (v, c) <- component_model_valid false on (em_shell x); Ok (v, em_with_shell x c))
    (do on <- em_shell_on y; do (v, c) <- component_model_valid false on (em_shell y); Ok (v, em_with_shell y c)).
Proof.
  intros x y H. destruct (on_cable x y (me_cable _ _ H)) as (_ & E). rewrite <- E.
  assert (S : forall z : ElongModel N, em_with_shell z (em_shell z) = z). { intros []. reflexivity. }
  destruct (em_shell_on x) as [[|]| |] eqn:On; cbn [obind component_model_valid]; try exact I.
  2: { rewrite (S x), (S y). apply manswer_here. exact H. }
  apply (orel_bind _ _ _ _ _ _ _ _ _ _ (Validate_agree _ _ false (me_shell _ _ H On))).
  intros (v, c) (w, d) (V & C & Ca & Cb). cbn [fst snd] in *. subst w. split; [reflexivity|]. cbn [snd].
  split; [apply with_shell_meq; auto|]. split; (split; [|repeat split]).
  - apply (with_shell_self x y); auto.
  - apply (with_shell_self y x); auto. apply meq_sym; exact H.
Qed.

Lemma valid_of_split : forall m,
  valid_of m =
  (do c <- deref (em_cable m);
   do on <- sg_on c;
   if on then
     do (v1, m) <- (do on <- em_core_on m; do (v, c) <- component_model_valid false on (em_core m); Ok (v, em_with_core m c));
     do (v2, m) <- (do on <- em_shell_on m; do (v, c) <- component_model_valid false on (em_shell m);
                    Ok (v, em_with_shell m c));
     Ok (v1 && v2 && true && true, m)
   else Ok (false, m)).
Proof.
  intros m. unfold valid_of. destruct (deref (em_cable m)) as [c| |]; cbn [obind]; try reflexivity.
  destruct (sg_on c) as [[|]| |]; cbn [obind]; try reflexivity.
  destruct (em_core_on m) as [x| |]; cbn [obind]; try reflexivity.
  destruct (component_model_valid false x (em_core m)) as [(v1, core)| |]; cbn [obind]; try reflexivity.
  destruct (em_shell_on (em_with_core m core)) as [s| |]; cbn [obind]; try reflexivity.
  destruct (component_model_valid false s (em_shell (em_with_core m core))) as [(v2, shell)| |]; reflexivity.
Qed.

Lemma valid_of_agree : forall x y, meq x y -> em_points x = em_points y ->
  orel (manswer x y) (valid_of x) (valid_of y).
Proof.
  intros x y H P. rewrite !valid_of_split, <- (me_cable _ _ H).
  destruct (deref (em_cable x)) as [c| |]; cbn [obind]; try exact I.
  destruct (sg_on c) as [[|]| |]; cbn [obind]; try exact I; [|apply manswer_here; exact H].
  apply (orel_bind _ _ _ _ _ _ _ _ _ _ (component_core_agree x y H)).
  intros (v, m) (v', m') A. pose proof A as (V & M & _). cbn [fst snd] in V, M. subst v'.
  apply (orel_bind _ _ _ _ _ _ _ _ _ _ (component_shell_agree m m' M)).
  intros (w, n) (w', n') B. pose proof B as (W & _). cbn [fst snd] in W. subst w'.
  pose proof (manswer_trans _ _ x y _ _ _ _ A B) as (_ & D). split; [reflexivity|exact D].
Qed.

Lemma Validate_hist : forall m b, hinv m b ->
  omap fst (em_Validate false m) = omap fst (em_Validate false b) /\
  (forall v r, em_Validate false m = Ok (v, r) -> hinv r b /\ em_cable r = em_cable m /\ em_stretch r = em_stretch m /\
                                          em_state r = em_state m).
Proof.
  intros m b H. rewrite !Validate_split, <- (te_cable _ _ (hi_teq _ _ H)), <- (te_stretch _ _ (hi_teq _ _ H)),
    <- (hi_state _ _ H).
  destruct (match em_cable m with Some c => sg_Validate c | None => Ok false end) as [v| |]; cbn [obind omap];
    try (split; [reflexivity|discriminate]).
  destruct (v && CableState_Validate (em_state m) && StretchState_Validate (em_stretch m)).
  - apply mquery_hist; [apply valid_of_agree|exact H].
  - split; [reflexivity|]. intros w r E. injection E as <- <-. auto.
Qed.

(** The answers on the two models. *)
Lemma hinv_answers : forall m b, hinv m b -> answers_alike m b.
Proof.
  intros m b H. split; [|split; [|split]].
  - intros t x. apply (proj1 (mquery_hist _ (load_of t x) m b (load_of_agree t x) H)).
  - intros t x. apply (proj1 (mquery_hist _ (slope_of t x) m b (slope_of_agree t x) H)).
  - intros t y. apply (proj1 (mquery_hist _ (strain_of t y) m b (strain_of_agree t y) H)).
  - apply Validate_hist. exact H.
Qed.

(** ** The fresh model *)

Definition fresh (c : option (StCable N)) (s : CableState N) (ss : StretchState N) : outcome (ElongModel N) :=
  em_run ElongModel_new [EmSetCable c; EmSetState s; EmSetStretch ss].

Lemma fresh_split : forall c s ss,
  fresh c s ss = omap (fun m => em_set_stretch (em_set_state m s) ss) (em_set_cable ElongModel_new c).
Proof.
  intros c s ss. unfold fresh. cbn [em_run em_call]. destruct (em_set_cable ElongModel_new c); reflexivity.
Qed.

Lemma set_cable_facts : forall m c p, em_set_cable m c = Ok p ->
  em_cable p = c /\ em_state p = em_state m /\ em_stretch p = em_stretch m /\ unused p.
Proof.
  intros m [k|] p E; cbn [em_set_cable] in E.
  - destruct (sg_core_on k) as [x| |]; cbn [obind] in E; try discriminate E.
    match type of E with obind ?e _ = _ => destruct e as [core| |] end; cbn [obind] in E; try discriminate E.
    destruct (sg_shell_on k) as [y| |]; cbn [obind] in E; try discriminate E.
    match type of E with obind ?e _ = _ => destruct e as [shell| |] end; cbn [obind] in E; try discriminate E.
    injection E as <-. repeat split.
  - injection E as <-. repeat split.
Qed.

(** Setting a component gives the same inputs from every model. *)
Lemma set_component_model_tkey : forall on (m n : CompModel N) c t,
  orel (fun p q => tkey p = tkey q) (set_component_model on m c t) (set_component_model on n c t).
Proof.
  intros [|] m n c t; [|reflexivity]. cbn [set_component_model cm_set_component].
  destruct (deref (sk_base c)) as [k| |]; cbn [obind]; try exact I.
  destruct (ModulusExtrapolate k (cc_creep k) (cc_limit_creep k)) as [mc| |]; cbn [obind]; try exact I.
  destruct (ModulusExtrapolate k (cc_loadstrain k) (cc_limit_loadstrain k)) as [ml| |]; cbn [obind]; try exact I.
  destruct t as [t| |]; cbn [obind]; try exact I. reflexivity.
Qed.

Lemma set_cable_tkey : forall m n k,
  orel (fun p q => tkey (em_core p) = tkey (em_core q) /\ tkey (em_shell p) = tkey (em_shell q))
    (em_set_cable m (Some k)) (em_set_cable n (Some k)).
Proof.
  intros m n k. cbn [em_set_cable]. destruct (sg_core_on k) as [x| |]; cbn [obind]; try exact I.
  eapply orel_bind; [apply set_component_model_tkey|]. intros p q H.
  destruct (sg_shell_on k) as [y| |]; cbn [obind]; try exact I.
  eapply orel_bind; [apply set_component_model_tkey|]. intros p' q' H'.
  cbn [orel em_core em_shell]. split; assumption.
Qed.

(** A used model beside the fresh one with the same inputs. *)
Definition tracked (m : ElongModel N) : Prop :=
  exists b, fresh (em_cable m) (em_state m) (em_stretch m) = Ok b /\ hinv m b.

(** A model in which nothing is updated follows from its inputs. *)
Lemma hinv_unused : forall m b, unused m -> unused b -> teq m b -> em_state m = em_state b -> hinv m b.
Proof.
  intros m b (U1 & U2) B T S. constructor; auto; intros X; congruence.
Qed.

Lemma tracked_new : tracked ElongModel_new.
Proof.
  eexists. split; [reflexivity|]. apply hinv_unused; try (split; reflexivity); try reflexivity.
Qed.

Lemma tracked_set_cable : forall m c p, em_set_cable m c = Ok p -> tracked p.
Proof.
  intros m c p E. destruct (set_cable_facts m c p E) as (F1 & F2 & F3 & F4). unfold tracked.
  rewrite fresh_split, F1. destruct c as [k|].
  - pose proof (set_cable_tkey m ElongModel_new k) as T. rewrite E in T.
    destruct (em_set_cable ElongModel_new (Some k)) as [q| |] eqn:Q; cbn [orel] in T; try contradiction.
    destruct T as (T1 & T2). destruct (set_cable_facts _ _ _ Q) as (G1 & _ & _ & G4).
    cbn [omap]. eexists. split; [reflexivity|]. apply hinv_unused; try assumption.
    + split; reflexivity.
    + constructor; cbn; congruence || (intros; assumption).
    + reflexivity.
  - cbn [em_set_cable omap]. eexists. split; [reflexivity|]. apply hinv_unused; try assumption.
    + split; reflexivity.
    + assert (X : em_core_on p = UB /\ em_shell_on p = UB).
      { unfold em_core_on, em_shell_on. rewrite F1. split; reflexivity. }
      destruct X as (X1 & X2). constructor; cbn; [congruence|congruence|..]; intros Y; congruence.
    + reflexivity.
Qed.

Lemma fresh_facts : forall c s ss b, fresh c s ss = Ok b ->
  em_cable b = c /\ em_state b = s /\ em_stretch b = ss /\ unused b.
Proof.
  intros c s ss b E. rewrite fresh_split in E. destruct (em_set_cable ElongModel_new c) as [q| |] eqn:Q; try discriminate E.
  destruct (set_cable_facts _ _ _ Q) as (G1 & G2 & G3 & G4). injection E as <-. repeat split. exact G1.
Qed.

(** Another state or stretch state in the fresh model. *)
Lemma fresh_state : forall c s ss b s', fresh c s ss = Ok b ->
  exists b', fresh c s' ss = Ok b' /\ teq b b' /\ unused b' /\ em_state b' = s'.
Proof.
  intros c s ss b s' E. rewrite fresh_split in *. destruct (em_set_cable ElongModel_new c) as [q| |] eqn:Q; try discriminate E.
  injection E as <-. eexists. split; [reflexivity|]. split; [constructor; reflexivity || (intros; reflexivity)|].
  split; [split; reflexivity|reflexivity].
Qed.
Lemma fresh_stretch : forall c s ss b ss', fresh c s ss = Ok b ->
  exists b', fresh c s ss' = Ok b' /\ em_cable b' = em_cable b /\ em_core b' = em_core b /\ em_shell b' = em_shell b /\
    em_stretch b' = ss' /\ unused b' /\ em_state b' = s.
Proof.
  intros c s ss b s' E. rewrite fresh_split in *. destruct (em_set_cable ElongModel_new c) as [q| |] eqn:Q; try discriminate E.
  injection E as <-. eexists. split; [reflexivity|]. repeat split.
Qed.

Lemma tracked_set_stretch : forall m ss, tracked m -> tracked (em_set_stretch m ss).
Proof.
  intros m ss (b & E & H). destruct (fresh_stretch _ _ _ _ ss E) as (b' & E' & F1 & F2 & F3 & F4 & F5 & F6).
  exists b'. split; [exact E'|]. destruct H as [_ [T1 T2 T3 T4] S _ _ _].
  apply hinv_unused; auto.
  - split; reflexivity.
  - constructor; cbn; try congruence; intros X; [rewrite F2; apply T3|rewrite F3; apply T4]; exact X.
Qed.

Lemma tracked_set_state : forall m s, tracked m ->
  (em_upd_stretch m = true -> st_type s = st_type (em_state m)) -> tracked (em_set_state m s).
Proof.
  intros m s (b & E & H) C. destruct (fresh_state _ _ _ _ s E) as (b' & E' & T & U & S).
  exists b'. split; [exact E'|]. destruct H as [H1 H2 H3 H4 H5 H6].
  constructor; auto.
  - apply teq_trans with (y := b); [|exact T]. destruct H2 as [T1 T2 T3 T4]. constructor; cbn; auto.
  - cbn. discriminate.
  - cbn [em_set_state em_upd_stretch em_state em_core em_shell]. intros X. destruct (H5 X) as (b1 & E1 & Hc & Hs).
    pose proof (UpdateComponentsStretch_agree b b' T) as A. rewrite E1 in A.
    destruct (UpdateComponentsStretch b') as [b1'| |]; cbn [orel] in A; try contradiction.
    destruct A as (Z & (K1 & _) & _). exists b1'. split; [reflexivity|].
    assert (O : em_core_on b1 = em_core_on m /\ em_shell_on b1 = em_shell_on m).
    { unfold em_core_on, em_shell_on. rewrite K1, <- (te_cable _ _ H2). auto. }
    destruct O as (Oc & Os). specialize (C X). split; intros Y.
    + change (em_core_on m = Ok true) in Y. destruct (Hc Y) as (G1 & G2 & G3). split; [exact G1|]. split; [|congruence].
      rewrite G2. apply (ze_core _ _ Z). congruence.
    + change (em_shell_on m = Ok true) in Y. destruct (Hs Y) as (G1 & G2 & G3). split; [exact G1|]. split; [|congruence].
      rewrite G2. apply (ze_shell _ _ Z). congruence.
  - cbn. discriminate.
Qed.

(** A query keeps the invariant and the inputs. *)
Definition kept_call (m r : ElongModel N) : Prop :=
  tracked r /\ em_cable r = em_cable m /\ em_stretch r = em_stretch m /\ em_state r = em_state m.

Lemma tracked_query : forall (A : Type) (q : ElongModel N -> outcome (A * ElongModel N)) m r,
  (forall x y, meq x y -> em_points x = em_points y -> orel (manswer x y) (q x) (q y)) ->
  tracked m -> omap snd (mquery q m) = Ok r -> kept_call m r.
Proof.
  intros A q m r Q (b & E & H) R. destruct (mquery q m) as [(v, r')| |] eqn:M; cbn in R; try discriminate R.
  injection R as ->. destruct (proj2 (mquery_hist _ q m b Q H) v r M) as (I & C1 & C2 & C3).
  split; [|auto]. exists b. split; [congruence|exact I].
Qed.

Lemma tracked_Validate : forall m r, tracked m -> omap snd (em_Validate false m) = Ok r -> kept_call m r.
Proof.
  intros m r (b & E & H) R. destruct (em_Validate false m) as [(v, r')| |] eqn:M; cbn in R; try discriminate R.
  injection R as ->. destruct (proj2 (Validate_hist m b H) v r M) as (I & C1 & C2 & C3).
  split; [|auto]. exists b. split; [congruence|exact I].
Qed.

(** ** The theorem *)

Lemma ptype_eqb_eq : forall x y, ptype_eqb x y = true -> x = y.
Proof. intros [| |] [| |] H; congruence || discriminate H. Qed.

Lemma run_tracked : forall cs pending m p, tracked m -> (pending = true -> em_upd_stretch m = false) ->
  tidy pending (st_type (em_state m)) cs = true -> em_run m cs = Ok p ->
  tracked p /\ em_cable p = last_cable (em_cable m) cs /\ em_state p = last_state (em_state m) cs /\
  em_stretch p = last_stretch (em_stretch m) cs.
Proof.
  induction cs as [|c cs IH]; intros pending m p T P D R.
  { injection R as <-. auto. }
  cbn [em_run] in R. destruct (em_call m c) as [n| |] eqn:C; cbn [obind] in R; try discriminate R.
  assert (Q : kept_call m n -> tidy false (st_type (em_state m)) cs = true ->
    last_cable (em_cable m) (c :: cs) = last_cable (em_cable m) cs ->
    last_state (em_state m) (c :: cs) = last_state (em_state m) cs ->
    last_stretch (em_stretch m) (c :: cs) = last_stretch (em_stretch m) cs ->
    tracked p /\ em_cable p = last_cable (em_cable m) (c :: cs) /\ em_state p = last_state (em_state m) (c :: cs) /\
    em_stretch p = last_stretch (em_stretch m) (c :: cs)).
  { intros (K1 & K2 & K3 & K4) D' -> -> ->. rewrite <- K2, <- K3, <- K4.
    apply (IH false); auto; [discriminate|]. rewrite K4. exact D'. }
  destruct c as [c|s|ss|t e|t e|t y|w]; cbn [em_call] in C.
  - destruct (set_cable_facts m c n C) as (F1 & F2 & F3 & F4). cbn [last_cable last_state last_stretch].
    rewrite <- F1 at 1. rewrite <- F2, <- F3. apply (IH true); auto.
    + apply (tracked_set_cable m c). exact C.
    + intros _. apply F4.
    + rewrite F2. exact D.
  - injection C as <-. cbn [tidy] in D. apply andb_true_iff in D. destruct D as (D1 & D2).
    cbn [last_cable last_state last_stretch].
    apply (IH pending (em_set_state m s) p); auto. apply tracked_set_state; [exact T|].
    intros X. apply orb_true_iff in D1. destruct D1 as [D1|D1].
    + specialize (P D1). congruence.
    + apply ptype_eqb_eq. exact D1.
  - injection C as <-. cbn [last_cable last_state last_stretch].
    apply (IH true (em_set_stretch m ss) p); auto. apply tracked_set_stretch. exact T.
  - apply Q; try reflexivity; try exact D. apply (tracked_query _ (load_of t e)); auto. apply load_of_agree.
  - apply Q; try reflexivity; try exact D. apply (tracked_query _ (slope_of t e)); auto. apply slope_of_agree.
  - apply Q; try reflexivity; try exact D. apply (tracked_query _ (strain_of t y)); auto. apply strain_of_agree.
  - destruct w; [discriminate D|]. apply Q; try reflexivity; try exact D. apply tracked_Validate; assumption.
Qed.

Theorem run_answers : forall cs m, tidy true PTNull cs = true -> em_run ElongModel_new cs = Ok m ->
  exists b, em_run ElongModel_new (last_setters cs) = Ok b /\ answers_alike m b.
Proof.
  intros cs m D R.
  destruct (run_tracked cs true ElongModel_new m tracked_new (fun _ => eq_refl) D R) as ((b & E & H) & C1 & C2 & C3).
  exists b. split; [|apply hinv_answers; exact H].
  unfold last_setters. cbn in C1, C2, C3. rewrite <- C1, <- C2, <- C3. exact E.
Qed.

End History.
