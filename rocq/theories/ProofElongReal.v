(** Proofs about the component elongation model and the strainer in real arithmetic. *)
From Coq Require Import ZArith Bool List Reals Lra Psatz.
From Verif Require Import Num NumFacts ModelBase ModelCable ModelPolynomial ModelThermal ModelElongation SpecElong ProofReal
  ProofThermalCases ProofElong ProofElongModel ProofElongHistory.
Import ListNotations.
Open Scope R_scope.

(** ** Update *)

Lemma UpdateStretch_shape : forall (N : Num) (m p : CompModel N) ok, UpdateStretch m = Ok (ok, p) ->
  exists th l, p = with_stretch m th l.
Proof.
  intros N m p ok E. pose proof (UpdateStretch_cong m m eq_refl eq_refl) as C. rewrite E in C.
  destruct C as (_ & _ & H & _). exact H.
Qed.

Lemma Update_shape : forall (N : Num) (m p : CompModel N) ok, cm_Update m = Ok (ok, p) ->
  ckey p = ckey m /\ (ok = true -> cm_upd_state p = true /\ cm_upd_stretch p = true).
Proof.
  intros N m p ok E. unfold cm_Update in E.
  assert (P : exists n ok1, (if cm_upd_stretch m then Ok (true, m)
      else do (ok, m) <- UpdateStretch m; Ok (ok, with_flags m (cm_upd_state m) ok)) = Ok (ok1, n) /\
    ckey n = ckey m /\ (ok1 = true -> cm_upd_stretch n = true)).
  { destruct (cm_upd_stretch m) eqn:S; [exists m, true; auto|].
    destruct (UpdateStretch m) as [(ok1, n)| |] eqn:U; cbn [obind] in *; try discriminate E.
    destruct (UpdateStretch_shape _ _ _ _ U) as (th & l & ->). eexists; eexists. split; [reflexivity|].
    split; [reflexivity|]. intros ->. reflexivity. }
  destruct P as (n & ok1 & P1 & P2 & P3). rewrite P1 in E. cbn [obind] in E.
  destruct ok1; [|injection E as <- <-; split; [exact P2|discriminate]].
  destruct (cm_upd_state n) eqn:U; [injection E as <- <-; auto|].
  destruct (UpdateState n) as [q| |] eqn:V; cbn [obind] in E; try discriminate E.
  pose proof (UpdateState_cong n n eq_refl eq_refl) as C. rewrite V in C. destruct C as (_ & _ & (th & r & ->) & _).
  injection E as <- <-. split; [rewrite <- P2; reflexivity|]. intros _. cbn. auto.
Qed.

Lemma Update_again : forall (N : Num) (m p : CompModel N), cm_Update m = Ok (true, p) -> cm_Update p = Ok (true, p).
Proof.
  intros N m p E. destruct (Update_shape _ _ _ _ E) as (_ & F). destruct (F eq_refl) as (F1 & F2).
  unfold cm_Update. rewrite F2. cbn [obind]. rewrite F1. reflexivity.
Qed.

(** A query of a model whose update gives [p]. *)
Lemma query_updated : forall (N : Num) (m p : CompModel N) f, cm_Update m = Ok (true, p) ->
  cm_query m f = cm_query p f.
Proof. intros N m p f E. unfold cm_query. rewrite E, (Update_again _ _ _ E). reflexivity. Qed.

(** ** The caches of a component model *)

(** The extrapolation moduli are those of the component; the unloaded point lies on the
    line of the tension modulus through the stretch point. *)
Definition cgood (m : CompModel RNum) : Prop :=
  (forall b, cm_base m = Ok b ->
     (cc_creep b <> [] -> 100000 <= cm_mod_creep m) /\ (cc_loadstrain b <> [] -> 100000 <= cm_mod_loadstrain m)) /\
  (cm_upd_state m = true -> exists b r, cm_base m = Ok b /\ cm_points m = Some r /\
     p2y (rg_unloaded r) = 0 /\
     p2x (rg_unloaded r) = p2x (rg_start r) + (0 - p2y (rg_start r)) / cc_modulus_tension b).

Lemma base_key : forall (N : Num) (a b : CompModel N), skey a = skey b ->
  cm_base a = cm_base b /\ cm_mod_creep a = cm_mod_creep b /\ cm_mod_loadstrain a = cm_mod_loadstrain b.
Proof.
  intros N a b K. unfold skey in K. injection K as K1 K2 K3 K4 K5. unfold cm_base. rewrite K1. auto.
Qed.

Lemma ModulusExtrapolate_bound : forall (b : CableComponent RNum) l limit m,
  ModulusExtrapolate b l limit = Ok m -> l <> [] -> 100000 <= m.
Proof.
  intros b l limit m E L. destruct l as [|c l]; [contradiction|]. unfold ModulusExtrapolate in E.
  destruct (StrainPolynomial b (c :: l) (fofZ 0) limit) as [x| |]; cbn [obind] in E; try discriminate E.
  set (s := SlopePolynomial b (c :: l) (fofZ 0) x) in *. clearbody s.
  match type of E with context [fltb ?u ?w] => destruct (fltb u w) eqn:C end; injection E as <-.
  - rn. lra.
  - apply Rltb_false in C. rn. lra.
Qed.

Lemma cgood_cleared : forall (m n : CompModel RNum), cgood m ->
  cm_component n = cm_component m -> cm_mod_creep n = cm_mod_creep m -> cm_mod_loadstrain n = cm_mod_loadstrain m ->
  cm_upd_state n = false -> cgood n.
Proof.
  intros m n (G & _) E1 E2 E3 U. split; [|intros X; congruence]. unfold cm_base. rewrite E1, E2, E3. exact G.
Qed.

Lemma cgood_Update : forall (m p : CompModel RNum) ok, cgood m -> cm_Update m = Ok (ok, p) -> cgood p.
Proof.
  intros m p ok (G1 & G2) E. pose proof (Update_shape _ _ _ _ E) as (K & _).
  destruct (ckey_split _ _ K) as (K1 & _). destruct (base_key _ _ _ K1) as (B1 & B2 & B3).
  split; [rewrite B1, B2, B3; exact G1|]. intros U. unfold cm_Update in E.
  assert (P : exists n ok1, (if cm_upd_stretch m then Ok (true, m)
      else do (ok, m) <- UpdateStretch m; Ok (ok, with_flags m (cm_upd_state m) ok)) = Ok (ok1, n) /\
    skey n = skey m /\ cm_upd_state n = cm_upd_state m /\ cm_points n = cm_points m).
  { destruct (cm_upd_stretch m) eqn:S; [exists m, true; auto|].
    destruct (UpdateStretch m) as [(ok1, n)| |] eqn:V; cbn [obind] in *; try discriminate E.
    destruct (UpdateStretch_shape _ _ _ _ V) as (th & l & ->). eexists; eexists. split; [reflexivity|]. auto. }
  destruct P as (n & ok1 & P1 & P2 & P3 & P4). rewrite P1 in E. cbn [obind] in E.
  destruct (base_key _ _ _ P2) as (C1 & C2 & C3).
  destruct ok1; [destruct (cm_upd_state n) eqn:W|].
  - injection E as <- <-. destruct (G2 (eq_trans (eq_sym P3) eq_refl)) as (b & r & H1 & H2 & H3).
    exists b, r. split; [congruence|]. split; [congruence|]. exact H3.
  - unfold UpdateState in E. destruct (deref (cm_state n)) as [s| |]; cbn [obind] in E; try discriminate E.
    destruct (cm_base n) as [b| |] eqn:B; cbn [obind] in E; try discriminate E.
    destruct (deref (cm_tref n)) as [t| |]; cbn [obind] in E; try discriminate E.
    destruct (limit_of b (st_type s)) as [l| |]; cbn [obind] in E; try discriminate E.
    unfold PointsRegions in E.
    match type of E with context [StrainPolynomial ?x1 ?x2 ?x3 l] =>
      destruct (StrainPolynomial x1 x2 x3 l) as [xe| |] end; cbn [obind] in E; try discriminate E.
    match type of E with context [StrainPolynomial ?x1 ?x2 ?x3 ?x4] =>
      destruct (StrainPolynomial x1 x2 x3 x4) as [xs| |] end; cbn [obind] in E; try discriminate E.
    injection E as <- <-. exists b. eexists. split; [congruence|]. split; [reflexivity|].
    cbn [rg_unloaded rg_start p2x p2y]. unfold StrainLinearExtension. cbn [p2x p2y]. rn. split; lra.
  - injection E as <- <-. rewrite U in P3. destruct (G2 (eq_sym P3)) as (b & r & H1 & H2 & H3).
    exists b, r. split; [congruence|]. split; [congruence|]. exact H3.
Qed.

Lemma cgood_query : forall (m : CompModel RNum) f v p, cgood m -> cm_query m f = Ok (v, p) -> cgood p.
Proof.
  intros m f v p G E. unfold cm_query in E. destruct (cm_Update m) as [(ok, n)| |] eqn:U; cbn [obind] in E; try discriminate E.
  pose proof (cgood_Update m n ok G U) as Gn.
  destruct ok; [|injection E as _ <-; exact Gn].
  destruct (deref (cm_state n)) as [s| |]; cbn [obind] in E; try discriminate E.
  destruct (cm_base n) as [b| |]; cbn [obind] in E; try discriminate E.
  destruct (cm_points n) as [r|]; [|discriminate E].
  destruct (f b (st_type s) r n) as [w| |]; cbn [obind] in E; try discriminate E. injection E as _ <-. exact Gn.
Qed.

Lemma cgood_call : forall (m p : CompModel RNum) c, cgood m -> cm_call m c = Ok p -> cgood p.
Proof.
  intros m p c G E. destruct c as [c|s|s|t|e|e|y| | |w]; cbn [cm_call] in E.
  - destruct c as [c|]; cbn [cm_set_component] in E.
    + destruct (deref (sk_base c)) as [b| |] eqn:B; cbn [obind] in E; try discriminate E.
      destruct (ModulusExtrapolate b (cc_creep b) (cc_limit_creep b)) as [mc| |] eqn:Mc; cbn [obind] in E; try discriminate E.
      destruct (ModulusExtrapolate b (cc_loadstrain b) (cc_limit_loadstrain b)) as [ml| |] eqn:Ml; cbn [obind] in E;
        try discriminate E.
      injection E as <-. split; [|cbn; discriminate]. intros b' H. unfold cm_base in H.
      cbn [cm_component deref obind] in H. rewrite B in H. injection H as <-. cbn [cm_mod_creep cm_mod_loadstrain].
      split; eapply ModulusExtrapolate_bound; eassumption.
    + injection E as <-. split; [|cbn; discriminate]. intros b H. discriminate H.
  - injection E as <-. apply (cgood_cleared m); auto.
  - injection E as <-. apply (cgood_cleared m); auto.
  - injection E as <-. apply (cgood_cleared m); auto.
  - destruct (cm_Load m e) as [(v, q)| |] eqn:Q; try discriminate E. injection E as <-. eapply cgood_query; eassumption.
  - destruct (cm_Slope m e) as [(v, q)| |] eqn:Q; try discriminate E. injection E as <-. eapply cgood_query; eassumption.
  - destruct (cm_Strain m y) as [(v, q)| |] eqn:Q; try discriminate E. injection E as <-. eapply cgood_query; eassumption.
  - unfold cm_StrainThermal in E. destruct (cm_Update m) as [(ok, q)| |] eqn:Q; try discriminate E. injection E as <-.
    eapply cgood_Update; eassumption.
  - unfold cm_PointsRegions in E. destruct (cm_Update m) as [(ok, q)| |] eqn:Q; try discriminate E.
    pose proof (cgood_Update _ _ _ G Q) as Gq. cbn [obind] in E.
    destruct ok; [destruct (cm_points q)|]; injection E as <-; exact Gq.
  - unfold cm_Validate in E. destruct (cm_inputs_valid m); [|injection E as <-; exact G].
    destruct (cm_Update m) as [(ok, q)| |] eqn:Q; try discriminate E. pose proof (cgood_Update _ _ _ G Q) as Gq.
    cbn [obind] in E. destruct ok; [|injection E as <-; exact Gq].
    destruct (cm_base q) as [b| |]; cbn [obind] in E; try discriminate E.
    destruct (polynomials_valid w b) as [x| |]; cbn [obind] in E; try discriminate E. injection E as <-. exact Gq.
Qed.

Lemma cgood_run : forall cs (m p : CompModel RNum), cgood m -> cm_run m cs = Ok p -> cgood p.
Proof.
  induction cs as [|c cs IH]; intros m p G E; cbn [cm_run] in E.
  { injection E as <-. exact G. }
  destruct (cm_call m c) as [n| |] eqn:C; cbn [obind] in E; try discriminate E.
  apply (IH n); [|exact E]. apply (cgood_call m n c); assumption.
Qed.

Lemma cgood_new : cgood CompModel_new.
Proof. split; [intros b H; discriminate H|cbn; discriminate]. Qed.

(** ** Strain undoes Load on the straight parts *)

Lemma div_back : forall x y : R, 0 < y -> x * y / y = x.
Proof. intros. field. lra. Qed.

Lemma LoadAt_StrainAt : forall (b : CableComponent RNum) (mc ml : R) t (r : Regions RNum) (thermal e : R),
  let pu := rg_unloaded r in let ps := rg_start r in let pe := rg_end r in
  t <> PTNull -> 0 < mc -> 0 < ml -> 0 < cc_modulus_compression b -> 0 < cc_modulus_tension b ->
  p2y pu = 0 -> p2x pu = p2x ps + (0 - p2y ps) / cc_modulus_tension b ->
  0 <= p2y ps < p2y pe -> e <= p2x ps \/ (p2x ps < e /\ p2x pe <= e) ->
  StrainAt b mc ml t r thermal (LoadAt b mc ml t r thermal e) = Ok e.
Proof.
  intros b mc ml t r thermal e pu ps pe T Pc Pl C E Yu Xu (Y1 & Y2) H.
  assert (Q : 0 <= p2y ps / cc_modulus_tension b).
  { unfold Rdiv. apply Rmult_le_pos; [exact Y1|]. left. apply Rinv_0_lt_compat. exact E. }
  assert (Xu' : p2x pu = p2x ps - p2y ps / cc_modulus_tension b). { rewrite Xu. rfield. lra. }
  assert (L : (p2x ps - p2x pu) * cc_modulus_tension b = p2y ps). { rewrite Xu'. rfield. lra. }
  unfold LoadAt. fold pu ps pe.
  destruct (fltb (e : RNum) (p2x pu)) eqn:D1.
  { (* compression *)
    apply Rltb_true in D1. unfold LoadLinearExtension. rn. set (v := p2y pu + (e - p2x pu) * cc_modulus_compression b).
    assert (V : v < 0). { unfold v. rewrite Yu. assert ((p2x pu - e) * cc_modulus_compression b > 0) by (apply Rmult_gt_0_compat; lra). lra. }
    unfold StrainAt. fold pu ps pe.
    assert (F : fltb (n := RNum) v (p2y pu) = true) by (apply Rltb_true; lra).
    rewrite F. f_equal. unfold StrainLinearExtension. rn. unfold v. rewrite Yu. rfield. lra. }
  apply Rltb_false in D1. destruct H as [H|(H1 & H2)].
  { (* stretched *)
    assert (F : andb (fleb (n := RNum) (p2x pu) e) (fleb (n := RNum) e (p2x ps)) = true).
    { apply andb_true_iff. split; apply Rleb_true; lra. }
    rewrite F. unfold LoadLinearExtension. rn. set (v := p2y ps + (e - p2x ps) * cc_modulus_tension b).
    assert (V : 0 <= v <= p2y ps).
    { unfold v. split.
      - assert ((e - p2x pu) * cc_modulus_tension b >= 0). { apply Rle_ge. apply Rmult_le_pos; lra. }
        replace (e - p2x ps) with ((e - p2x pu) - (p2x ps - p2x pu)) by rring. rewrite Rmult_minus_distr_r, L. lra.
      - assert ((p2x ps - e) * cc_modulus_tension b >= 0). { apply Rle_ge. apply Rmult_le_pos; lra. } lra. }
    unfold StrainAt. fold pu ps pe.
    assert (F1 : fltb (n := RNum) v (p2y pu) = false) by (apply Rltb_false; lra).
    assert (F2 : andb (fleb (n := RNum) (p2y pu) v) (fleb (n := RNum) v (p2y ps)) = true).
    { apply andb_true_iff. split; apply Rleb_true; lra. }
    rewrite F1, F2. f_equal. unfold StrainLinearExtension. rn. unfold v. rfield. lra. }
  (* extrapolated *)
  assert (F2 : andb (fleb (n := RNum) (p2x pu) e) (fleb (n := RNum) e (p2x ps)) = false).
  { apply andb_false_iff. right. apply Rleb_false. lra. }
  assert (F3 : andb (fltb (n := RNum) (p2x ps) e) (fltb (n := RNum) e (p2x pe)) = false).
  { apply andb_false_iff. right. apply Rltb_false. lra. }
  assert (F4 : fleb (n := RNum) (p2x pe) e = true) by (apply Rleb_true; lra).
  rewrite F2, F3, F4.
  assert (G : forall k : R, 0 < k -> (t = PTCreep -> k = mc) -> (t = PTLoadStrain -> k = ml) ->
    StrainAt b mc ml t r thermal (LoadLinearExtension pe k e) = Ok e).
  { intros k K1 K2 K3. unfold LoadLinearExtension. rn. set (v := p2y pe + (e - p2x pe) * k).
    assert (V : p2y pe <= v).
    { unfold v. assert (0 <= (e - p2x pe) * k) by (apply Rmult_le_pos; lra). lra. }
    unfold StrainAt. fold pu ps pe.
    assert (A1 : fltb (n := RNum) v (p2y pu) = false) by (apply Rltb_false; lra).
    assert (A2 : andb (fleb (n := RNum) (p2y pu) v) (fleb (n := RNum) v (p2y ps)) = false).
    { apply andb_false_iff. right. apply Rleb_false. lra. }
    assert (A3 : andb (fltb (n := RNum) (p2y ps) v) (fltb (n := RNum) v (p2y pe)) = false).
    { apply andb_false_iff. right. apply Rltb_false. lra. }
    assert (A4 : fleb (n := RNum) (p2y pe) v = true) by (apply Rleb_true; lra).
    rewrite A1, A2, A3, A4. unfold StrainLinearExtension. rn.
    destruct t; [contradiction|rewrite <- K2 by reflexivity|rewrite <- K3 by reflexivity]; f_equal; unfold v; rfield; lra. }
  destruct t; [contradiction|apply G; auto; discriminate|apply G; auto; discriminate].
Qed.

(** The loads on the straight parts. *)
Lemma LoadAt_straight : forall (b : CableComponent RNum) (mc ml : R) t (r : Regions RNum) (thermal e : R),
  let pu := rg_unloaded r in let ps := rg_start r in let pe := rg_end r in
  t <> PTNull -> 0 < cc_modulus_tension b ->
  p2y pu = 0 -> p2x pu = p2x ps + (0 - p2y ps) / cc_modulus_tension b -> 0 <= p2y ps ->
  let v : R := LoadAt b mc ml t r thermal e in
  (e <= p2x pu -> v = (e - p2x pu) * cc_modulus_compression b) /\
  (p2x pu <= e <= p2x ps -> v = (e - p2x pu) * cc_modulus_tension b) /\
  (p2x ps < p2x pe -> p2x pe <= e -> v = p2y pe + (e - p2x pe) * (match t with PTCreep => mc | _ => ml end)).
Proof.
  intros b mc ml t r thermal e pu ps pe T E Yu Xu Y1 v.
  assert (Q : 0 <= p2y ps / cc_modulus_tension b).
  { unfold Rdiv. apply Rmult_le_pos; [exact Y1|]. left. apply Rinv_0_lt_compat. exact E. }
  assert (Xu' : p2x pu = p2x ps - p2y ps / cc_modulus_tension b). { rewrite Xu. rfield. lra. }
  assert (Tens : p2x pu <= e <= p2x ps -> v = (e - p2x pu) * cc_modulus_tension b).
  { intros (H1 & H2). unfold v, LoadAt. fold pu ps pe.
    assert (F1 : fltb (n := RNum) e (p2x pu) = false) by (apply Rltb_false; lra).
    assert (F2 : andb (fleb (n := RNum) (p2x pu) e) (fleb (n := RNum) e (p2x ps)) = true).
    { apply andb_true_iff. split; apply Rleb_true; lra. }
    rewrite F1, F2. unfold LoadLinearExtension. rn. rewrite Xu'. rfield. lra. }
  split; [|split; [exact Tens|]].
  - intros H. destruct (Rle_lt_or_eq_dec _ _ H) as [L|L].
    + unfold v, LoadAt. fold pu ps pe. assert (F1 : fltb (n := RNum) e (p2x pu) = true) by (apply Rltb_true; lra).
      rewrite F1. unfold LoadLinearExtension. rn. rewrite Yu. rring.
    + rewrite Tens by lra. rewrite L. rring.
  - intros X H. unfold v, LoadAt. fold pu ps pe.
    assert (F1 : fltb (n := RNum) e (p2x pu) = false) by (apply Rltb_false; lra).
    assert (F2 : andb (fleb (n := RNum) (p2x pu) e) (fleb (n := RNum) e (p2x ps)) = false).
    { apply andb_false_iff. right. apply Rleb_false. lra. }
    assert (F3 : andb (fltb (n := RNum) (p2x ps) e) (fltb (n := RNum) e (p2x pe)) = false).
    { apply andb_false_iff. right. apply Rltb_false. lra. }
    assert (F4 : fleb (n := RNum) (p2x pe) e = true) by (apply Rleb_true; lra).
    rewrite F1, F2, F3, F4. unfold LoadLinearExtension. rn. destruct t; [contradiction|reflexivity|reflexivity].
Qed.

(** A component model with the inputs of a query. *)
Theorem component_straight : forall (cs : list (CmCall RNum)) m m1 b s pu ps pe,
  cm_run CompModel_new cs = Ok m -> cm_base m = Ok b -> cm_state m = Some s -> st_type s <> PTNull ->
  cc_creep b <> [] -> cc_loadstrain b <> [] ->
  0 < cc_modulus_compression b -> 0 < cc_modulus_tension b ->
  cm_PointsRegions m = Ok ([pu; ps; pe], m1) -> 0 <= p2y ps < p2y pe ->
  (forall e, e <= p2x ps \/ (p2x ps < e /\ p2x pe <= e) ->
     exists v m2 m3, cm_Load m e = Ok (v, m2) /\ cm_Strain m2 v = Ok (e, m3)) /\
  (exists modulus : R, 100000 <= modulus /\ forall e, exists v m2, cm_Load m e = Ok (v, m2) /\
     (e <= p2x pu -> v = (e - p2x pu) * cc_modulus_compression b) /\
     (p2x pu <= e <= p2x ps -> v = (e - p2x pu) * cc_modulus_tension b) /\
     (p2x ps < p2x pe -> p2x pe <= e -> v = p2y pe + (e - p2x pe) * modulus)).
Proof.
  intros cs m m1 b s pu ps pe R B S T Lc Ll C E P (Y1 & Y2).
  pose proof (cgood_run cs _ _ cgood_new R) as G.
  unfold cm_PointsRegions in P. destruct (cm_Update m) as [(ok, n)| |] eqn:U; cbn [obind] in P; try discriminate P.
  destruct ok.
  2: { exfalso. injection P as <- <- <- _. unfold Point2d_default in Y1. cbn [p2y] in Y1. rewrite ferr_R in Y1. lra. }
  pose proof (cgood_Update _ _ _ G U) as (G1 & G2). destruct (Update_shape _ _ _ _ U) as (K & F).
  destruct (F eq_refl) as (F1 & F2). destruct (ckey_split _ _ K) as (K1 & K2 & _).
  destruct (base_key _ _ _ K1) as (B1 & B2 & B3).
  destruct (G2 F1) as (b' & r & H1 & H2 & H3 & H4). rewrite B1, B in H1. injection H1 as <-.
  rewrite H2 in P. injection P as <- <- <- _.
  destruct (G1 b (eq_trans B1 B)) as (M1 & M2). specialize (M1 Lc). specialize (M2 Ll).
  assert (Sn : cm_state n = Some s) by congruence. assert (Bn : cm_base n = Ok b) by congruence.
  assert (QL : forall e, cm_Load m e = Ok (LoadAt b (cm_mod_creep n) (cm_mod_loadstrain n) (st_type s) r
                                             (cm_thermal_state n) e, n)).
  { intros e. unfold cm_Load, cm_query. rewrite U. cbn [obind]. rewrite Sn. cbn [deref obind]. rewrite Bn. cbn [obind].
    rewrite H2. reflexivity. }
  split.
  - intros e He. eexists; eexists; exists n. split; [apply QL|].
    unfold cm_Strain, cm_query. rewrite (Update_again _ _ _ U). cbn [obind]. rewrite Sn. cbn [deref obind].
    rewrite Bn. cbn [obind]. rewrite H2.
    rewrite (LoadAt_StrainAt b (cm_mod_creep n) (cm_mod_loadstrain n) (st_type s) r (cm_thermal_state n) e); try assumption;
      try lra.
    + reflexivity.
  - exists (match st_type s with PTCreep => cm_mod_creep n | _ => cm_mod_loadstrain n end).
    split; [destruct (st_type s); assumption|].
    intros e. eexists; exists n. split; [apply QL|].
    apply (LoadAt_straight b (cm_mod_creep n) (cm_mod_loadstrain n) (st_type s) r (cm_thermal_state n) e T E H3 H4 Y1).
Qed.

(** ** A change of the temperature shifts the curve *)

Definition shift_point (d : R) (p : Point2d RNum) : Point2d RNum := mkPoint2d (N := RNum) ((p2x p : R) + d) (p2y p).
Definition shift_regions (d : R) (r : Regions RNum) : Regions RNum :=
  mkRegions (N := RNum) (shift_point d (rg_unloaded r)) (shift_point d (rg_start r)) (shift_point d (rg_end r)).

Lemma Rltb_shift : forall x y d : R, Rltb (x + d) (y + d) = Rltb x y.
Proof.
  intros x y d. destruct (Rltb x y) eqn:E; [apply Rltb_true in E|apply Rltb_false in E];
    [apply Rltb_true|apply Rltb_false]; lra.
Qed.
Lemma Rleb_shift : forall x y d : R, Rleb (x + d) (y + d) = Rleb x y.
Proof.
  intros x y d. destruct (Rleb x y) eqn:E; [apply Rleb_true in E|apply Rleb_false in E];
    [apply Rleb_true|apply Rleb_false]; lra.
Qed.

Lemma ConvertToStrainPolynomial_shift : forall (b : CableComponent RNum) (th e d : R),
  ConvertToStrainPolynomial b (e + d) (th + d) = ConvertToStrainPolynomial b e th.
Proof. intros b th e d. unfold ConvertToStrainPolynomial. rn. f_equal. ring. Qed.

Lemma StrainPolynomial_shift : forall (b : CableComponent RNum) l (th d y : R),
  StrainPolynomial b l (th + d) y = omap (fun x : R => x + d) (StrainPolynomial b l th y).
Proof.
  intros b l th d y. unfold StrainPolynomial. destruct (poly_X l y) as [x| |]; cbn [obind omap]; try reflexivity.
  f_equal. unfold ConvertToStrain. rn. ring.
Qed.

Lemma StrainThermal_shift : forall (b : CableComponent RNum) (tref t1 t2 : R),
  StrainThermal b tref t2 = StrainThermal b tref t1 + cc_expansion b * (t2 - t1).
Proof. intros. unfold StrainThermal. rn. ring. Qed.

Lemma PointsRegions_shift : forall (b : CableComponent RNum) (tref : R) l (t1 t2 lim ls : R),
  PointsRegions b tref l t2 lim ls
  = omap (shift_regions (cc_expansion b * (t2 - t1))) (PointsRegions b tref l t1 lim ls).
Proof.
  intros b tref l t1 t2 lim ls. unfold PointsRegions. rewrite (StrainThermal_shift b tref t1 t2), !StrainPolynomial_shift.
  destruct (StrainPolynomial b l (StrainThermal b tref t1) lim) as [xe| |]; cbn [obind omap]; try reflexivity.
  destruct (StrainPolynomial b l (StrainThermal b tref t1) ls) as [xs| |]; cbn [obind omap]; try reflexivity.
  f_equal. unfold shift_regions, shift_point. cbn [rg_unloaded rg_start rg_end p2x p2y]. f_equal. f_equal.
  unfold StrainLinearExtension. cbn [p2x p2y]. rn. ring.
Qed.

Lemma LoadLinearExtension_shift : forall (p : Point2d RNum) (k e d : R),
  LoadLinearExtension (shift_point d p) k (e + d) = LoadLinearExtension p k e.
Proof. intros p k e d. unfold LoadLinearExtension, shift_point. cbn [p2x p2y]. rn. f_equal. f_equal. ring. Qed.
Lemma StrainLinearExtension_shift : forall (p : Point2d RNum) (k y d : R),
  StrainLinearExtension (shift_point d p) k y = StrainLinearExtension p k y + d.
Proof. intros p k y d. unfold StrainLinearExtension, shift_point. cbn [p2x p2y]. rn. ring. Qed.

Lemma LoadAt_shift : forall (b : CableComponent RNum) (mc ml : R) t (r : Regions RNum) (th e d : R),
  LoadAt b mc ml t (shift_regions d r) (th + d) (e + d) = LoadAt b mc ml t r th e.
Proof.
  intros b mc ml t r th e d. unfold LoadAt, shift_regions. cbn [rg_unloaded rg_start rg_end].
  unfold LoadPolynomial. rewrite !LoadLinearExtension_shift, ConvertToStrainPolynomial_shift.
  unfold shift_point. cbn [p2x p2y fltb fleb RNum]. rewrite !Rltb_shift, !Rleb_shift. reflexivity.
Qed.
Lemma SlopeAt_shift : forall (b : CableComponent RNum) (mc ml : R) t (r : Regions RNum) (th e d : R),
  SlopeAt b mc ml t (shift_regions d r) (th + d) (e + d) = SlopeAt b mc ml t r th e.
Proof.
  intros b mc ml t r th e d. unfold SlopeAt, shift_regions. cbn [rg_unloaded rg_start rg_end].
  unfold SlopePolynomial. rewrite ConvertToStrainPolynomial_shift.
  unfold shift_point. cbn [p2x p2y fltb fleb RNum]. rewrite !Rltb_shift, !Rleb_shift. reflexivity.
Qed.
Lemma StrainAt_shift : forall (b : CableComponent RNum) (mc ml : R) t (r : Regions RNum) (th y d x : R),
  t <> PTNull -> StrainAt b mc ml t r th y = Ok x -> StrainAt b mc ml t (shift_regions d r) (th + d) y = Ok (x + d).
Proof.
  intros b mc ml t r th y d x T. unfold StrainAt, shift_regions. cbn [rg_unloaded rg_start rg_end].
  rewrite !StrainLinearExtension_shift, !StrainPolynomial_shift. unfold shift_point. cbn [p2y].
  assert (H : forall u w : R, (Ok u : outcome R) = Ok w -> Ok (u + d) = Ok (w + d)) by (intros; congruence).
  destruct (fltb (n := RNum) y (p2y (rg_unloaded r))) eqn:A1; [apply H|].
  destruct (fleb (n := RNum) (p2y (rg_unloaded r)) y && fleb (n := RNum) y (p2y (rg_start r))) eqn:A2; [apply H|].
  assert (G : forall o, o = Ok x -> omap (fun x : R => x + d) o = Ok (x + d)) by (intros o ->; reflexivity).
  destruct (fltb (n := RNum) (p2y (rg_start r)) y && fltb (n := RNum) y (p2y (rg_end r))) eqn:A3.
  { destruct t; [contradiction|apply G|apply G]. }
  destruct (fleb (n := RNum) (p2y (rg_end r)) y) eqn:A4.
  { destruct t; [contradiction|apply H|apply H]. }
  exfalso. rn. apply Rltb_false in A1. apply Rleb_false in A4. apply andb_false_iff in A2. apply andb_false_iff in A3.
  destruct A2 as [A2|A2]; apply Rleb_false in A2; [lra|]. destruct A3 as [A3|A3]; apply Rltb_false in A3; lra.
Qed.

(** The two models after the update. *)
Definition shifted (d : R) (p q : CompModel RNum) : Prop :=
  skey p = skey q /\ stype p = stype q /\ cm_thermal_state q = cm_thermal_state p + d /\
  exists r s, cm_points p = Some r /\ cm_points q = Some (shift_regions d r) /\ cm_state p = Some s /\
    st_type s <> PTNull.

Lemma Update_shift : forall (m : CompModel RNum) b (s1 s2 : CableState RNum) ss,
  cm_base m = Ok b -> st_type s1 = st_type s2 ->
  orel (fun p q : bool * CompModel RNum => fst p = fst q /\
          (fst p = true -> shifted (cc_expansion b * (st_temperature s2 - st_temperature s1)) (snd p) (snd q)))
    (cm_Update (cm_set_stretch (cm_set_state m (Some s1)) ss))
    (cm_Update (cm_set_stretch (cm_set_state m (Some s2)) ss)).
Proof.
  intros m b s1 s2 ss B T.
  set (m1 := cm_set_stretch (cm_set_state m (Some s1)) ss). set (m2 := cm_set_stretch (cm_set_state m (Some s2)) ss).
  unfold cm_Update. cbn [cm_upd_stretch m1 m2 cm_set_stretch]. fold m1 m2.
  assert (K : skey m1 = skey m2) by reflexivity.
  assert (Ty : stype m1 = stype m2) by (unfold stype; cbn; congruence).
  pose proof (UpdateStretch_cong m1 m2 K Ty) as C.
  destruct (UpdateStretch m1) as [(ok, p)| |], (UpdateStretch m2) as [(ok', q)| |]; cbn [obind orel] in *;
    try contradiction; try exact I.
  destruct C as (C1 & C2 & (th & l & C3) & (th' & l' & C4)). cbn [fst snd] in *. subst ok' p q.
  destruct ok; [|cbn; split; [reflexivity|discriminate]]. specialize (C2 eq_refl). cbn in C2. subst l'.
  cbn [cm_upd_state with_flags with_stretch m1 m2 cm_set_stretch]. fold m1 m2.
  unfold UpdateState, cm_base in *. subst m1 m2.
  cbn [with_flags with_stretch cm_set_stretch cm_set_state cm_component cm_state cm_stretch cm_tref cm_load_stretch
       cm_mod_creep cm_mod_loadstrain cm_thermal_state cm_thermal_stretch cm_points cm_upd_state cm_upd_stretch] in *.
  cbn [deref obind] in *. rewrite B. cbn [obind]. destruct (deref (cm_tref m)) as [tr| |]; cbn [obind]; try exact I.
  rewrite <- T. destruct (limit_of b (st_type s1)) as [lim| |] eqn:L; cbn [obind]; try exact I.
  rewrite (PointsRegions_shift b tr _ (st_temperature s1) (st_temperature s2)).
  match goal with |- context [PointsRegions ?x1 ?x2 ?x3 ?x4 ?x5 ?x6] =>
    destruct (PointsRegions x1 x2 x3 x4 x5 x6) as [r| |] end; cbn [obind omap orel]; try exact I.
  cbn [fst snd]. split; [reflexivity|]. intros _. split; [reflexivity|]. split; [unfold stype; cbn; congruence|].
  split; [cbn; apply (StrainThermal_shift b tr)|]. exists r, s1. repeat split. intros X. rewrite X in L. discriminate L.
Qed.

Theorem temperature_shift : forall (m : CompModel RNum) b (s1 s2 : CableState RNum) ss,
  cm_base m = Ok b -> st_type s1 = st_type s2 ->
  let d := cc_expansion b * (st_temperature s2 - st_temperature s1) in
  let m1 := cm_set_stretch (cm_set_state m (Some s1)) ss in
  let m2 := cm_set_stretch (cm_set_state m (Some s2)) ss in
  (forall e : R, omap fst (cm_Load m2 (e + d)) = omap fst (cm_Load m1 e)) /\
  (forall e : R, omap fst (cm_Slope m2 (e + d)) = omap fst (cm_Slope m1 e)) /\
  (forall y x p, cm_Strain m1 y = Ok (x, p) -> x <> -999999 -> exists q, cm_Strain m2 y = Ok ((x : R) + d, q)).
Proof.
  intros m b s1 s2 ss B T d m1 m2. pose proof (Update_shift m b s1 s2 ss B T) as U. fold m1 m2 d in U.
  assert (B1 : forall p, skey p = skey m1 -> cm_base p = Ok b).
  { intros p K. destruct (base_key _ _ _ K) as (X & _). rewrite X. exact B. }
  unfold cm_Load, cm_Slope, cm_Strain, cm_query.
  destruct (cm_Update m1) as [(ok, p)| |] eqn:E1, (cm_Update m2) as [(ok', q)| |] eqn:E2; cbn [orel obind] in *;
    try contradiction; try (split; [reflexivity|split; [reflexivity|discriminate]]).
  destruct U as (U1 & U2). cbn [fst snd] in *. subst ok'. destruct ok.
  2: { split; [reflexivity|]. split; [reflexivity|]. intros y x r H X. exfalso. apply X. injection H as <- _. apply ferr_R. }
  specialize (U2 eq_refl). destruct U2 as (K & Ty & Th & r & s & P1 & P2 & S1 & S2).
  destruct (Update_shape _ _ _ _ E1) as (K1 & _). destruct (ckey_split _ _ K1) as (K1' & _).
  destruct (base_key _ _ _ K) as (_ & Mc & Ml).
  assert (Bp : cm_base p = Ok b) by auto. assert (Bq : cm_base q = Ok b) by (apply B1; congruence).
  assert (Sq : exists s', cm_state q = Some s' /\ st_type s' = st_type s).
  { unfold stype in Ty. rewrite S1 in Ty. destruct (cm_state q) as [s'|]; [|discriminate Ty]. exists s'. split; [reflexivity|].
    cbn in Ty. congruence. }
  destruct Sq as (s' & Sq & Tq). rewrite S1, Sq, P1, P2, Th, <- Mc, <- Ml. cbn [deref obind]. rewrite Bp, Bq, Tq. cbn [obind].
  split; [intros e; cbn [omap fst]; rewrite LoadAt_shift; reflexivity|].
  split; [intros e; cbn [omap fst]; rewrite SlopeAt_shift; reflexivity|].
  intros y x n H X. destruct (StrainAt _ _ _ _ _ _ y) as [v| |] eqn:V in H; cbn [obind] in H; try discriminate H.
  injection H as -> <-. rewrite (StrainAt_shift _ _ _ _ _ _ _ d _ S2 V). cbn [obind]. eexists. reflexivity.
Qed.
