(** Proofs about the elongation models, for every arithmetic: an answer depends only on
    the inputs in force. *)
From Coq Require Import ZArith Bool List.
From Verif Require Import Num ModelBase ModelCable ModelPolynomial ModelThermal ModelElongation.
Import ListNotations.
Open Scope num_scope.

(** Two outcomes of the same kind, with related values. *)
Definition orel {A B : Type} (r : A -> B -> Prop) (x : outcome A) (y : outcome B) : Prop :=
  match x, y with
  | Ok a, Ok b => r a b
  | Throw, Throw => True
  | UB, UB => True
  | _, _ => False
  end.

Lemma orel_bind : forall (A B A' B' : Type) (r : A -> B -> Prop) (r' : A' -> B' -> Prop) x y f g,
  orel r x y -> (forall a b, r a b -> orel r' (f a) (g b)) -> orel r' (obind x f) (obind y g).
Proof. intros A B A' B' r r' [a| |] [b| |] f g H K; cbn in *; try contradiction; try exact I; auto. Qed.

Lemma orel_mono : forall (A B : Type) (r r' : A -> B -> Prop) x y,
  orel r x y -> (forall a b, r a b -> r' a b) -> orel r' x y.
Proof. intros A B r r' [a| |] [b| |] H K; cbn in *; try contradiction; auto. Qed.

Lemma orel_eq : forall (A : Type) (x : outcome A), orel eq x x.
Proof. intros A [a| |]; cbn; auto. Qed.

Lemma orel_fst : forall (A B C : Type) (r : A * B -> A * C -> Prop) x y,
  orel r x y -> (forall p q, r p q -> fst p = fst q) -> omap fst x = omap fst y.
Proof.
  intros A B C r [a| |] [b| |] H K; cbn in *; try contradiction; auto. rewrite (K _ _ H). reflexivity.
Qed.

Section Elong.
Context {N : Num}.
Implicit Types a b m : CompModel N.

(** ** Component models *)

(** The inputs of a component model without the state. *)
Definition skey (m : CompModel N) := (cm_component m, cm_stretch m, cm_tref m, cm_mod_creep m, cm_mod_loadstrain m).
(** All inputs. *)
Definition ckey (m : CompModel N) := (skey m, cm_state m).
Definition stype (m : CompModel N) := option_map (@st_type N) (cm_state m).

(** The cached values are those an update computes. *)
Definition cinv (m : CompModel N) : Prop :=
  (cm_upd_stretch m = true ->
     exists p, UpdateStretch m = Ok (true, p) /\ cm_load_stretch m = cm_load_stretch p) /\
  (cm_upd_state m = true -> cm_upd_stretch m = true /\
     exists p, UpdateState m = Ok p /\ cm_thermal_state m = cm_thermal_state p /\ cm_points m = cm_points p).

Definition is_stretched (m p : CompModel N) : Prop := exists th l, p = with_stretch m th l.

Lemma UpdateStretch_cong : forall a b, skey a = skey b -> stype a = stype b ->
  orel (fun p q => fst p = fst q /\ (fst p = true -> cm_load_stretch (snd p) = cm_load_stretch (snd q)) /\
                   is_stretched a (snd p) /\ is_stretched b (snd q))
    (UpdateStretch a) (UpdateStretch b).
Proof.
  intros a b K T. unfold skey in K. injection K as K1 K2 K3 K4 K5. unfold stype in T.
  unfold UpdateStretch, cm_base. rewrite <- K1, <- K2, <- K3, <- K4, <- K5.
  destruct (deref (cm_component a)) as [c| |]; cbn [obind]; try exact I.
  destruct (deref (sk_base c)) as [k| |]; cbn [obind]; try exact I.
  destruct (deref (cm_tref a)) as [t| |]; cbn [obind]; try exact I.
  destruct (deref (cm_stretch a)) as [ss| |]; cbn [obind]; try exact I.
  destruct (ss_load ss =? #0).
  { cbn. repeat split; eexists; eexists; reflexivity. }
  assert (E : orel (fun s s' => st_type s = st_type s') (deref (cm_state a)) (deref (cm_state b))).
  { destruct (cm_state a), (cm_state b); cbn in *; try discriminate; auto. congruence. }
  apply (orel_bind _ _ _ _ _ _ _ _ _ _ E). intros s s' Es. rewrite <- Es.
  destruct (ptype_eqb (st_type s) (ss_type ss)).
  { cbn. repeat split; eexists; eexists; reflexivity. }
  destruct (PointsRegions k t (cc_creep k) (ss_temperature ss) (cc_limit_creep k) #0) as [pc| |];
    cbn [obind]; try exact I.
  destruct (PointsRegions k t (cc_loadstrain k) (ss_temperature ss) (cc_limit_loadstrain k) #0) as [pl| |];
    cbn [obind]; try exact I.
  destruct (ss_type ss), (st_type s);
    try solve [cbn; repeat split; try discriminate; eexists; eexists; reflexivity].
  all: (match goal with |- context [StrainAt ?x1 ?x2 ?x3 ?x4 ?x5 ?x6 ?x7] =>
          destruct (StrainAt x1 x2 x3 x4 x5 x6 x7) as [xs| |] end); cbn [obind]; try exact I.
  all: (match goal with |- context [stretch_loop ?x1 ?x2 ?x3 ?x4 ?x5 ?x6 ?x7 ?x8] =>
          destruct (stretch_loop x1 x2 x3 x4 x5 x6 x7 x8) as [it lt] end).
  all: destruct (it <? 100)%Z; cbn; repeat split; try discriminate; eexists; eexists; reflexivity.
Qed.

Definition is_stated (m p : CompModel N) : Prop :=
  exists th r, p = mkCompModel (cm_component m) (cm_state m) (cm_stretch m) (cm_tref m) (cm_load_stretch m)
    (cm_mod_creep m) (cm_mod_loadstrain m) th (cm_thermal_stretch m) (Some r) (cm_upd_state m) (cm_upd_stretch m).

Lemma UpdateState_cong : forall a b, ckey a = ckey b -> cm_load_stretch a = cm_load_stretch b ->
  orel (fun p q => cm_thermal_state p = cm_thermal_state q /\ cm_points p = cm_points q /\
                   is_stated a p /\ is_stated b q)
    (UpdateState a) (UpdateState b).
Proof.
  intros a b K L. unfold ckey, skey in K. injection K as K1 K2 K3 K4 K5 K6.
  unfold UpdateState, cm_base. rewrite <- K1, <- K3, <- K6, <- L.
  destruct (deref (cm_state a)) as [s| |]; cbn [obind]; try exact I.
  destruct (deref (cm_component a)) as [c| |]; cbn [obind]; try exact I.
  destruct (deref (sk_base c)) as [k| |]; cbn [obind]; try exact I.
  destruct (deref (cm_tref a)) as [t| |]; cbn [obind]; try exact I.
  destruct (limit_of k (st_type s)) as [l| |]; cbn [obind]; try exact I.
  match goal with |- context [PointsRegions ?x1 ?x2 ?x3 ?x4 ?x5 ?x6] =>
    destruct (PointsRegions x1 x2 x3 x4 x5 x6) as [r| |] end; cbn [obind orel]; try exact I.
  cbn. repeat split; eexists; eexists; rewrite ?K1, ?K3, ?K6, ?L; reflexivity.
Qed.

Lemma skey_stretch : forall m th l, skey (with_stretch m th l) = skey m.
Proof. reflexivity. Qed.
Lemma skey_flags : forall m x y, skey (with_flags m x y) = skey m.
Proof. reflexivity. Qed.

(** A model whose stretch load is computed keeps that when only the caches of the state
    or the flags change. *)
Lemma stretched_again : forall a b p, skey a = skey b -> stype a = stype b ->
  UpdateStretch a = Ok (true, p) ->
  exists q, UpdateStretch b = Ok (true, q) /\ cm_load_stretch q = cm_load_stretch p.
Proof.
  intros a b p K T E. pose proof (UpdateStretch_cong a b K T) as H. rewrite E in H.
  destruct (UpdateStretch b) as [[ok q]| |]; cbn in H; try contradiction.
  destruct H as (<- & H & _). exists q. split; [reflexivity|]. symmetry. auto.
Qed.

Lemma stated_again : forall a b p, ckey a = ckey b -> cm_load_stretch a = cm_load_stretch b ->
  UpdateState a = Ok p ->
  exists q, UpdateState b = Ok q /\ cm_thermal_state q = cm_thermal_state p /\ cm_points q = cm_points p.
Proof.
  intros a b p K T E. pose proof (UpdateState_cong a b K T) as H. rewrite E in H.
  destruct (UpdateState b) as [q| |]; cbn in H; try contradiction.
  destruct H as (H1 & H2 & _). exists q. auto.
Qed.

(** What an update leaves: the inputs, the invariant and, if it succeeds, the same values
    for every model with the same inputs. *)
Record updated (m p : CompModel N) (ok : bool) : Prop := {
  up_key : ckey p = ckey m;
  up_inv : cinv p;
  up_flags : ok = true -> cm_upd_state p = true /\ cm_upd_stretch p = true
}.

Lemma ckey_split : forall a b, ckey a = ckey b -> skey a = skey b /\ cm_state a = cm_state b /\ stype a = stype b.
Proof. unfold ckey, stype. intros a b H. injection H as H1 H2 H3 H4 H5 H6. unfold skey. repeat split; congruence. Qed.

Lemma updated_values : forall a b, cinv a -> cinv b -> ckey a = ckey b ->
  cm_upd_state a = true -> cm_upd_state b = true ->
  cm_load_stretch a = cm_load_stretch b /\ cm_thermal_state a = cm_thermal_state b /\ cm_points a = cm_points b.
Proof.
  intros a b (Ia & Ja) (Ib & Jb) K A B. destruct (ckey_split a b K) as (K1 & K2 & K3).
  destruct (Ja A) as (Sa & pa & Ea & Ta & Pa). destruct (Jb B) as (Sb & pb & Eb & Tb & Pb).
  destruct (Ia Sa) as (qa & Fa & La). destruct (Ib Sb) as (qb & Fb & Lb).
  destruct (stretched_again a b qa K1 K3 Fa) as (q & Fq & Lq). rewrite Fb in Fq. injection Fq as <-.
  assert (L : cm_load_stretch a = cm_load_stretch b) by congruence.
  destruct (stated_again a b pa K L Ea) as (p & Ep & Tp & Pp). rewrite Eb in Ep. injection Ep as <-.
  repeat split; congruence.
Qed.

(** The second half of Update. *)
Lemma Update_state_part : forall m, cm_upd_stretch m = true ->
  cm_Update m = if cm_upd_state m then Ok (true, m)
                else do p <- UpdateState m; Ok (true, with_flags p true (cm_upd_stretch p)).
Proof. intros m H. unfold cm_Update. rewrite H. reflexivity. Qed.

Lemma UpdateState_flags : forall m s u,
  UpdateState (with_flags m s u) = omap (fun p => with_flags p s u) (UpdateState m).
Proof.
  intros m s u. unfold UpdateState, cm_base. cbn [with_flags cm_state cm_component cm_tref cm_load_stretch].
  destruct (deref (cm_state m)) as [x| |]; cbn [obind omap]; try reflexivity.
  destruct (deref (cm_component m)) as [c| |]; cbn [obind omap]; try reflexivity.
  destruct (deref (sk_base c)) as [k| |]; cbn [obind omap]; try reflexivity.
  destruct (deref (cm_tref m)) as [t| |]; cbn [obind omap]; try reflexivity.
  destruct (limit_of k (st_type x)) as [l| |]; cbn [obind omap]; try reflexivity.
  match goal with |- context [PointsRegions ?x1 ?x2 ?x3 ?x4 ?x5 ?x6] =>
    destruct (PointsRegions x1 x2 x3 x4 x5 x6) as [r| |] end; reflexivity.
Qed.

(** From a computed stretch load the state is updated well. *)
Lemma Update_from_stretch : forall m, cinv m -> cm_upd_stretch m = true ->
  match cm_Update m with
  | Ok (ok, p) => ok = true /\ updated m p true
  | _ => cm_upd_state m = false /\ is_ok (UpdateState m) = false
  end.
Proof.
  intros m I S. rewrite Update_state_part by exact S. destruct (cm_upd_state m) eqn:U.
  { split; [reflexivity|]. constructor; auto. }
  destruct (UpdateState m) as [p| |] eqn:E; cbn [obind]; [|auto..].
  pose proof (UpdateState_cong m m eq_refl eq_refl) as C. rewrite E in C. destruct C as (_ & _ & (th & r & ->) & _).
  split; [reflexivity|]. constructor; [reflexivity| |auto].
  destruct I as (I1 & _). split.
  - intros _. destruct (I1 S) as (q & Eq & Lq).
    destruct (stretched_again m
      (with_flags (mkCompModel (cm_component m) (cm_state m) (cm_stretch m) (cm_tref m) (cm_load_stretch m)
        (cm_mod_creep m) (cm_mod_loadstrain m) th (cm_thermal_stretch m) (Some r) (cm_upd_state m) (cm_upd_stretch m))
        true (cm_upd_stretch m)) q eq_refl eq_refl Eq) as (q' & Eq' & Lq').
    exists q'. split; [exact Eq'|]. cbn [with_flags cm_load_stretch]. congruence.
  - intros _. split; [exact S|].
    destruct (stated_again m
      (with_flags (mkCompModel (cm_component m) (cm_state m) (cm_stretch m) (cm_tref m) (cm_load_stretch m)
        (cm_mod_creep m) (cm_mod_loadstrain m) th (cm_thermal_stretch m) (Some r) (cm_upd_state m) (cm_upd_stretch m))
        true (cm_upd_stretch m)) _ eq_refl eq_refl E) as (q' & Eq' & Tq' & Pq').
    exists q'. split; [exact Eq'|]. rewrite Tq', Pq'. split; reflexivity.
Qed.

(** The model with the stretch load of a successful UpdateStretch. *)
Lemma stretched_inv : forall m p, cinv m -> cm_upd_stretch m = false -> UpdateStretch m = Ok (true, p) ->
  cinv (with_flags p (cm_upd_state p) true) /\ ckey (with_flags p (cm_upd_state p) true) = ckey m /\
  cm_upd_stretch (with_flags p (cm_upd_state p) true) = true /\
  cm_upd_state (with_flags p (cm_upd_state p) true) = false.
Proof.
  intros m p (I1 & I2) S E. pose proof (UpdateStretch_cong m m eq_refl eq_refl) as C. rewrite E in C.
  destruct C as (_ & _ & (th & l & P) & _). cbn [snd] in P.
  assert (U : cm_upd_state m = false).
  { destruct (cm_upd_state m) eqn:U; [|reflexivity]. destruct (I2 eq_refl) as (X & _). congruence. }
  subst p. split; [split|split; [reflexivity|split; [reflexivity|exact U]]].
  - intros _. destruct (stretched_again m (with_flags (with_stretch m th l) (cm_upd_state (with_stretch m th l)) true)
      _ eq_refl eq_refl E) as (q & Eq & Lq). exists q. split; [exact Eq|]. rewrite Lq. reflexivity.
  - cbn [with_flags with_stretch cm_upd_state]. intros H. congruence.
Qed.

Lemma Update_spec : forall m, cinv m ->
  match cm_Update m with
  | Ok (ok, p) => updated m p ok
  | _ => cm_upd_state m = false
  end.
Proof.
  intros m I. destruct (cm_upd_stretch m) eqn:S.
  { pose proof (Update_from_stretch m I S) as H. destruct (cm_Update m) as [[ok p]| |].
    - destruct H as (-> & H). exact H.
    - apply H.
    - apply H. }
  assert (U : cm_upd_state m = false).
  { destruct (cm_upd_state m) eqn:U; [|reflexivity]. destruct I as (_ & I2). destruct (I2 U) as (X & _).
    congruence. }
  destruct (UpdateStretch m) as [[ok p]| |] eqn:E.
  - destruct ok.
    + destruct (stretched_inv m p I S E) as (Ip & Kp & Sp & Up).
      assert (R : cm_Update m = cm_Update (with_flags p (cm_upd_state p) true)).
      { rewrite (Update_state_part (with_flags p (cm_upd_state p) true) Sp). unfold cm_Update. rewrite S, E.
        reflexivity. }
      rewrite R. pose proof (Update_from_stretch _ Ip Sp) as H.
      destruct (cm_Update (with_flags p (cm_upd_state p) true)) as [[ok q]| |].
      * destruct H as (-> & [H1 H2 H3]). constructor; [congruence|assumption|assumption].
      * exact U.
      * exact U.
    + assert (R : cm_Update m = Ok (false, with_flags p (cm_upd_state p) false)).
      { unfold cm_Update. rewrite S, E. reflexivity. }
      rewrite R. pose proof (UpdateStretch_cong m m eq_refl eq_refl) as C. rewrite E in C.
      destruct C as (_ & _ & (th & l & P) & _). cbn [snd] in P. subst p.
      constructor; [reflexivity| |discriminate]. split; cbn; intros; [discriminate|congruence].
  - unfold cm_Update. rewrite S, E. exact U.
  - unfold cm_Update. rewrite S, E. exact U.
Qed.

(** Two component models with the same inputs and good caches. *)
Definition ceq (a b : CompModel N) : Prop := cinv a /\ cinv b /\ ckey a = ckey b.

Lemma ceq_sym : forall a b, ceq a b -> ceq b a.
Proof. intros a b (H1 & H2 & H3). split; [|split]; auto. Qed.
Lemma ceq_trans : forall a b m, ceq a b -> ceq b m -> ceq a m.
Proof. intros a b m (H1 & H2 & H3) (H4 & H5 & H6). split; [|split]; auto. congruence. Qed.

(** Update on two such models. *)
Definition agree (p q : bool * CompModel N) : Prop :=
  fst p = fst q /\ ceq (snd p) (snd q) /\
  (fst p = true -> cm_thermal_state (snd p) = cm_thermal_state (snd q) /\ cm_points (snd p) = cm_points (snd q)).

Lemma Update_agree : forall a b, ceq a b ->
  orel (fun p q => agree p q /\ ceq a (snd p) /\ ceq b (snd q)) (cm_Update a) (cm_Update b).
Proof.
  assert (Main : forall a b, ceq a b -> orel (fun p q => fst p = fst q) (cm_Update a) (cm_Update b)).
  { (* the same outcome *)
    assert (Known : forall a b, ceq a b -> cm_upd_stretch a = true -> cm_upd_stretch b = true ->
      orel (fun p q : bool * CompModel N => fst p = fst q) (cm_Update a) (cm_Update b)).
    { intros a b (Ia & Ib & K) Sa Sb.
      destruct (ckey_split a b K) as (K1 & K2 & K3).
      assert (L : cm_load_stretch a = cm_load_stretch b).
      { destruct (proj1 Ia Sa) as (p & Ep & Lp). destruct (proj1 Ib Sb) as (q & Eq & Lq).
        destruct (stretched_again a b p K1 K3 Ep) as (q' & Eq' & Lq'). rewrite Eq in Eq'. injection Eq' as <-.
        congruence. }
      pose proof (UpdateState_cong a b K L) as C.
      rewrite (Update_state_part a Sa), (Update_state_part b Sb).
      destruct (cm_upd_state a) eqn:Ua; destruct (cm_upd_state b) eqn:Ub.
      - reflexivity.
      - destruct (proj2 Ia Ua) as (_ & p & Ep & _). rewrite Ep in C.
        destruct (UpdateState b); cbn in *; try contradiction. reflexivity.
      - destruct (proj2 Ib Ub) as (_ & p & Ep & _). rewrite Ep in C.
        destruct (UpdateState a); cbn in *; try contradiction. reflexivity.
      - destruct (UpdateState a), (UpdateState b); cbn in *; try contradiction; reflexivity. }
    (* a model with no stretch load yet *)
    assert (Step : forall a, cinv a -> cm_upd_stretch a = false ->
      (exists p, UpdateStretch a = Ok (true, p) /\ cm_Update a = cm_Update (with_flags p (cm_upd_state p) true)) \/
      match UpdateStretch a with
      | Ok (true, _) => False
      | Ok (false, p) => cm_Update a = Ok (false, with_flags p (cm_upd_state p) false)
      | Throw => cm_Update a = Throw
      | UB => cm_Update a = UB
      end).
    { intros a Ia Sa. destruct (UpdateStretch a) as [[[|] p]| |] eqn:E.
      - left. exists p. split; [reflexivity|]. unfold cm_Update at 1. rewrite Sa, E. cbn [obind].
        rewrite Update_state_part by reflexivity. reflexivity.
      - right. unfold cm_Update. rewrite Sa, E. reflexivity.
      - right. unfold cm_Update. rewrite Sa, E. reflexivity.
      - right. unfold cm_Update. rewrite Sa, E. reflexivity. }
    (* only the second model has its stretch load *)
    assert (Half : forall a b, ceq a b -> cm_upd_stretch a = false -> cm_upd_stretch b = true ->
      orel (fun p q : bool * CompModel N => fst p = fst q) (cm_Update a) (cm_Update b)).
    { intros a b (Ia & Ib & K) Sa Sb. destruct (ckey_split a b K) as (K1 & K2 & K3).
      destruct (proj1 Ib Sb) as (q & Eq & Lq).
      destruct (stretched_again b a q (eq_sym K1) (eq_sym K3) Eq) as (p & Ep & Lp).
      destruct (stretched_inv a p Ia Sa Ep) as (Ip & Kp & Sp & Up).
      destruct (Step a Ia Sa) as [(p' & Ep' & ->)|H]; [|rewrite Ep in H; contradiction].
      rewrite Ep in Ep'. injection Ep' as <-. apply Known; auto. split; [|split]; auto. congruence. }
    intros a b (Ia & Ib & K). destruct (ckey_split a b K) as (K1 & K2 & K3).
    destruct (cm_upd_stretch a) eqn:Sa; destruct (cm_upd_stretch b) eqn:Sb.
    - apply Known; auto. split; [|split]; auto.
    - assert (H : orel (fun p q : bool * CompModel N => fst p = fst q) (cm_Update b) (cm_Update a)).
      { apply Half; auto. split; [|split]; auto. }
      destruct (cm_Update a), (cm_Update b); cbn in *; auto.
    - apply Half; auto. split; [|split]; auto.
    - destruct (Step a Ia Sa) as [(p & Ep & ->)|H].
      + destruct (stretched_inv a p Ia Sa Ep) as (Ip & Kp & Sp & Up).
        assert (H : orel (fun p q : bool * CompModel N => fst p = fst q)
                  (cm_Update b) (cm_Update (with_flags p (cm_upd_state p) true))).
        { apply Half; auto. split; [|split]; auto. congruence. }
        destruct (cm_Update b), (cm_Update (with_flags p (cm_upd_state p) true)); cbn in *; auto.
      + pose proof (UpdateStretch_cong a b K1 K3) as C.
        destruct (Step b Ib Sb) as [(q & Eq & _)|H'].
        * rewrite Eq in C. destruct (UpdateStretch a) as [[[|] p]| |]; cbn in C; try contradiction.
          destruct C; discriminate.
        * destruct (UpdateStretch a) as [[[|] p]| |]; try contradiction; rewrite H;
            destruct (UpdateStretch b) as [[[|] q]| |]; cbn in C; try contradiction; rewrite H';
            try exact I; destruct C; try discriminate; reflexivity. }
  intros a b H. pose proof (Main a b H) as M. destruct H as (Ia & Ib & K).
  pose proof (Update_spec a Ia) as A. pose proof (Update_spec b Ib) as B.
  destruct (cm_Update a) as [[oka p]| |], (cm_Update b) as [[okb q]| |]; cbn in *; try contradiction; try exact I.
  subst okb. destruct A as [A1 A2 A3], B as [B1 B2 B3].
  assert (E : ceq p q). { split; [|split]; auto. congruence. }
  split; [|split; split; auto].
  split; [reflexivity|]. cbn [snd fst]. split; [exact E|]. intros ->.
  destruct (A3 eq_refl) as (F1 & F2), (B3 eq_refl) as (G1 & G2).
  destruct (updated_values p q A2 B2 (proj2 (proj2 E)) F1 G1) as (_ & H1 & H2). auto.
Qed.

(** Queries on two such models: the same answer; the models keep their inputs. *)
Definition same_answer {A : Type} (a b : CompModel N) (p q : A * CompModel N) : Prop :=
  fst p = fst q /\ ceq (snd p) (snd q) /\ ceq a (snd p) /\ ceq b (snd q).

Lemma query_agree : forall f a b,
  (forall k t r p q, cm_mod_creep p = cm_mod_creep q -> cm_mod_loadstrain p = cm_mod_loadstrain q ->
     cm_thermal_state p = cm_thermal_state q -> f k t r p = f k t r q) ->
  ceq a b -> orel (same_answer a b) (cm_query a f) (cm_query b f).
Proof.
  intros f a b Hf H. unfold cm_query. apply (orel_bind _ _ _ _ _ _ _ _ _ _ (Update_agree a b H)).
  intros (oka, p) (okb, q) ((E & Q & V) & Ha & Hb). cbn [fst snd] in *. subst okb.
  destruct oka; [|split; auto].
  destruct (V eq_refl) as (T & P). destruct Q as (Ip & Iq & K). destruct (ckey_split p q K) as (K1 & K2 & _).
  unfold skey in K1. injection K1 as K3 K4 K5 K6 K7.
  unfold cm_base. rewrite <- K2, <- K3, <- P.
  destruct (deref (cm_state p)) as [s| |]; cbn [obind]; try exact I.
  destruct (deref (cm_component p)) as [c| |]; cbn [obind]; try exact I.
  destruct (deref (sk_base c)) as [k| |]; cbn [obind]; try exact I.
  destruct (cm_points p) as [r|]; [|exact I].
  rewrite (Hf k (st_type s) r p q K6 K7 T). destruct (f k (st_type s) r q) as [v| |]; cbn [obind orel]; try exact I.
  split; [reflexivity|]. split; [|split]; cbn [snd]; auto. split; [|split]; auto.
Qed.

Lemma Load_agree : forall a b e, ceq a b -> orel (same_answer a b) (cm_Load a e) (cm_Load b e).
Proof. intros. apply query_agree; auto. intros k t r p q -> -> ->. reflexivity. Qed.
Lemma Slope_agree : forall a b e, ceq a b -> orel (same_answer a b) (cm_Slope a e) (cm_Slope b e).
Proof. intros. apply query_agree; auto. intros k t r p q -> -> ->. reflexivity. Qed.
Lemma Strain_agree : forall a b e, ceq a b -> orel (same_answer a b) (cm_Strain a e) (cm_Strain b e).
Proof. intros. apply query_agree; auto. intros k t r p q -> -> ->. reflexivity. Qed.

Lemma Thermal_agree : forall a b, ceq a b -> orel (same_answer a b) (cm_StrainThermal a) (cm_StrainThermal b).
Proof.
  intros a b H. unfold cm_StrainThermal. apply (orel_bind _ _ _ _ _ _ _ _ _ _ (Update_agree a b H)).
  intros (oka, p) (okb, q) ((E & Q & V) & Ha & Hb). cbn [fst snd] in *. subst okb.
  split; [|auto]. cbn [fst]. destruct oka; [|reflexivity]. apply V. reflexivity.
Qed.

Lemma Points_agree : forall a b, ceq a b -> orel (same_answer a b) (cm_PointsRegions a) (cm_PointsRegions b).
Proof.
  intros a b H. unfold cm_PointsRegions. apply (orel_bind _ _ _ _ _ _ _ _ _ _ (Update_agree a b H)).
  intros (oka, p) (okb, q) ((E & Q & V) & Ha & Hb). cbn [fst snd] in *. subst okb.
  destruct oka; [|split; auto]. destruct (V eq_refl) as (_ & <-). destruct (cm_points p); cbn; split; auto.
Qed.

Lemma inputs_valid_key : forall a b, ckey a = ckey b -> cm_inputs_valid a = cm_inputs_valid b.
Proof.
  intros a b K. unfold ckey, skey in K. injection K as K1 K2 K3 K4 K5 K6. unfold cm_inputs_valid.
  rewrite K1, K2, K3, K6. reflexivity.
Qed.

Lemma Validate_agree : forall a b w, ceq a b -> orel (same_answer a b) (cm_Validate w a) (cm_Validate w b).
Proof.
  intros a b w H. unfold cm_Validate. pose proof H as (Ia & Ib & K). rewrite <- (inputs_valid_key a b K).
  destruct (cm_inputs_valid a).
  2: { split; [reflexivity|]. cbn [snd]. split; [exact H|]. split; split; auto. }
  apply (orel_bind _ _ _ _ _ _ _ _ _ _ (Update_agree a b H)).
  intros (oka, p) (okb, q) ((E & Q & V) & Ha & Hb). cbn [fst snd] in *. subst okb.
  destruct oka; [|split; auto]. destruct Q as (Ip & Iq & K'). pose proof K' as Kc. unfold ckey, skey in K'.
  injection K' as K1 K2 K3 K4 K5 K6. unfold cm_base. rewrite <- K1.
  destruct (deref (cm_component p)) as [c| |]; cbn [obind]; try exact I.
  destruct (deref (sk_base c)) as [k| |]; cbn [obind]; try exact I.
  destruct (polynomials_valid w k) as [v| |]; cbn [obind]; try exact I.
  split; [reflexivity|]. split; [|auto]. split; [|split]; auto.
Qed.

(** ** Setters *)

Lemma cinv_cleared : forall m, cm_upd_stretch m = false -> cm_upd_state m = false -> cinv m.
Proof. intros m H1 H2. split; intros H; congruence. Qed.

Lemma cinv_set_stretch : forall m s, cinv (cm_set_stretch m s).
Proof. intros. apply cinv_cleared; reflexivity. Qed.

(** The state may be replaced when no stretch load is computed, or by one of the same
    polynomial type. *)
Lemma cinv_set_state : forall m s, cinv m ->
  (cm_upd_stretch m = true -> stype m = option_map (@st_type N) s) -> cinv (cm_set_state m s).
Proof.
  intros m s (I1 & I2) T. split; cbn [cm_set_state cm_upd_stretch cm_upd_state]; [|intros H; discriminate H].
  intros U. destruct (I1 U) as (p & Ep & Lp).
  destruct (stretched_again m (cm_set_state m s) p eq_refl (T U) Ep) as (q & Eq & Lq).
  exists q. split; [exact Eq|]. cbn [cm_set_state cm_load_stretch]. congruence.
Qed.

End Elong.
