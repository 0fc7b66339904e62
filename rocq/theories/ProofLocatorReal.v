(** The positions of a locator in exact arithmetic. *)
From Coq Require Import ZArith Bool List Reals Lra Lia Psatz.
From Verif Require Import Num NumFacts ModelBase ModelAlignment ModelLine ModelCatenary SpecCatenary SpecCatenary3 ModelThermal
  ModelLocator SpecLocator SpecVector ProofReal ProofVector ProofCatenary ProofCatenary3 ProofLine ProofLocator ProofLocatorShape.
Import ListNotations.
Open Scope R_scope.

(** ** The hardware *)
Lemma cable_point_R : forall (p : Point3d RNum) (h : Spherical RNum),
  let a := sp_angle_x h * (K / 180) in let z := sp_angle_z h * (K / 180) in
  cable_point p h = mkPoint3d (N := RNum) (sp_radius h * cos a * sin z + p3x p) (sp_radius h * sin a * sin z + p3y p)
    (sp_radius h * cos z + p3z p).
Proof. intros p h a z. unfold cable_point. rewrite !deg2rad_R. reflexivity. Qed.

Lemma cable_point_end : forall (p : Point3d RNum) (h : Spherical RNum), (sp_radius h : R) = 0 -> cable_point p h = p.
Proof.
  intros [x y z] h E. rewrite cable_point_R. cbn [p3x p3y p3z]. rewrite E.
  f_equal; rring.
Qed.

Lemma cable_point_distance : forall (p : Point3d RNum) (h : Spherical RNum), distance p (cable_point p h) = Rabs (sp_radius h).
Proof.
  intros p h. rewrite cable_point_R. unfold distance. cbn [p3x p3y p3z].
  set (a := sp_angle_x h * (K / 180)). set (z := sp_angle_z h * (K / 180)). set (r := sp_radius h : R).
  replace (_ + _ + _) with (Rsqr r * (Rsqr (sin z) * (Rsqr (sin a) + Rsqr (cos a)) + Rsqr (cos z))) by (unfold Rsqr, r; rring).
  rewrite sin2_cos2, Rmult_1_r, sin2_cos2, Rmult_1_r. apply sqrt_Rsqr_abs.
Qed.

Lemma Forall2_nth : forall (A B : Type) (r : A -> B -> Prop) a b, Forall2 r a b -> forall k x, nth_error a k = Some x ->
  exists y, nth_error b k = Some y /\ r x y.
Proof.
  intros A B r a b H. induction H as [|x y a b E H IH]; intros [|k] z Z; cbn [nth_error] in Z |- *; try discriminate Z.
  - injection Z as <-. eauto.
  - apply IH, Z.
Qed.

Section Locate.
Context {P : Type}.
Implicit Types (s : Locator RNum P) (l : Line RNum P).

(** The point of a connection, with the hardware point it started from. *)
Lemma point_of : forall ks s s' ps, pl_run (@Locator_new RNum P) ks = Ok s -> PointsCableAttachment s = Ok (Some ps, s') ->
  exists l cs sts hws, cable_connections s' l cs /\ length ps = length cs /\ length sts = length cs /\ length hws = length cs /\
    (forall k c, nth_error cs k = Some c -> exists p h, nth_error sts k = Some p /\ nth_error hws k = Some h /\ attached l c p /\ hangs_on l c h) /\
    (forall k p h0, nth_error sts k = Some p -> nth_error (InitializePointsHardware sts hws) k = Some h0 ->
       exists h, same_axis h0 h /\ nth_error ps k = Some (cable_point p h)).
Proof.
  intros ks s s' ps RUN H. unfold PointsCableAttachment in H. destruct (pl_ensure s) as [[ok t]| |] eqn:E; try discriminate H.
  cbn [obind] in H. destruct ok; [|discriminate H]. injection H as <- <-.
  destruct (update_shape _ _ (ensure_shape _ _ (run_current _ _ RUN) E)) as (l & c & sts & hws & hs & w & L & C & D & Z & W & PC & A).
  destruct (data_lengths _ _ _ _ D) as (D1 & D2).
  assert (LI : length (InitializePointsHardware sts hws) = length sts) by (apply init_length; congruence).
  exists l, (lc_connections c), sts, hws. split; [split; [exact L|exists c; auto]|].
  rewrite PC, cable_length by (rewrite (Forall2_length _ _ _ _ _ A); exact LI).
  split; [exact D1|]. split; [exact D1|]. split; [exact D2|]. split.
  - intros k c0 K0. destruct (lc_connections c) as [|c1 cs] eqn:EC; [destruct k; discriminate K0|].
    assert (U := data_updated (c1 :: cs) l _ l ltac:(discriminate) D). destruct (data_points _ _ _ _ U D) as (F1 & F2).
    destruct (Forall2_nth _ _ _ _ _ F1 _ _ K0) as (p & P1 & P2). destruct (Forall2_nth _ _ _ _ _ F2 _ _ K0) as (h & H1 & H2).
    exists p, h. auto.
  - intros k p h0 P0 H0. destruct (Forall2_nth _ _ _ _ _ A _ _ H0) as (h & H1 & H2). exists h. split; [exact H2|].
    apply cable_nth; assumption.
Qed.

Lemma rigid_hardware : forall ks s s' ps, pl_run (@Locator_new RNum P) ks = Ok s -> PointsCableAttachment s = Ok (Some ps, s') ->
  exists l cs, cable_connections s' l cs /\ length ps = length cs /\
    forall k c, nth_error cs k = Some c -> exists p q h,
      attached l c p /\ hangs_on l c h /\ nth_error ps k = Some q /\
      (k = 0%nat \/ S k = length cs -> q = p) /\
      ((0 < k)%nat -> (S k < length cs)%nat -> distance p q = Rabs (hw_length h)).
Proof.
  intros ks s s' ps RUN H. destruct (point_of ks s s' ps RUN H) as (l & cs & sts & hws & C & L1 & L2 & L3 & A & B).
  exists l, cs. split; [exact C|]. split; [exact L1|]. intros k c K0. destruct (A k c K0) as (p & h & P1 & H1 & P2 & H2).
  assert (I : nth_error (InitializePointsHardware sts hws) k = Some
    (match k with O => hardware_end | S j => match nth_error sts (S k) with None => hardware_end | Some a => hardware_start h (nth j sts p) p a end end)).
  { destruct k as [|j]; [exact (init_first _ _ _ _ P1 H1)|]. apply init_nth; [congruence| |]; assumption. }
  destruct (B k p _ P1 I) as (h' & (X1 & _) & Q). exists p, (cable_point p h'), h. split; [exact P2|]. split; [exact H2|]. split; [exact Q|]. split.
  - intros E. apply cable_point_end. rewrite X1. destruct k as [|j]; [unfold hardware_end; cbn [sp_radius]; rn; reflexivity|].
    destruct E as [E|E]; [discriminate E|]. replace (nth_error sts (S (S j))) with (@None (Point3d RNum))
      by (symmetry; apply nth_error_None; rewrite L2; lia). unfold hardware_end. cbn [sp_radius]. rn. reflexivity.
  - intros K1 K2. rewrite cable_point_distance, X1. destruct k as [|j]; [lia|].
    destruct (nth_error sts (S (S j))) as [a|] eqn:E; [reflexivity|]. apply nth_error_None in E. lia.
Qed.

(** ** Straight lines *)
Lemma Angle_zero : @Vector2d_Angle RNum (mkVector2d (N := RNum) 0 0) false = -999999.
Proof.
  unfold Vector2d_Angle. cbn [v2x v2y]. rn. unfold Reqb, Rltb.
  destruct (Req_EM_T 0 0) as [_|X]; [|congruence]. cbn [orb]. destruct (Rlt_dec 0 0) as [X|_]; [lra|]. unfold ferr. rn. reflexivity.
Qed.

Lemma straight_start : forall (h : Hardware RNum) (a b c : Point3d RNum) (t : R), 0 < t ->
  (p3x a : R) <> p3x b \/ (p3y a : R) <> p3y b ->
  (p3x c - p3x b : R) = t * (p3x b - p3x a) -> (p3y c - p3y b : R) = t * (p3y b - p3y a) ->
  (sp_angle_x (hardware_start h a b c) : R) = -999999.
Proof.
  intros h a b c t T NZ EX EY. unfold hardware_start. cbn [sp_angle_x]. rewrite !mag_R.
  unfold Vector2d_Scale. cbn [v2x v2y]. rn.
  set (u := mkVector2d (N := RNum) (p3x a - p3x b : R) (p3y a - p3y b : R)).
  assert (MU : 0 < mag u) by (apply mag_pos; unfold nz, u; cbn [v2x v2y]; lra).
  assert (MV : mag (mkVector2d (N := RNum) (p3x c - p3x b : R) (p3y c - p3y b : R)) = mag u * t).
  { replace (mkVector2d (N := RNum) (p3x c - p3x b : R) (p3y c - p3y b : R)) with (Vector2d_Scale u (- t : R)).
    - rewrite scale_mag, Rabs_Ropp, (Rabs_pos_eq t) by lra. reflexivity.
    - unfold Vector2d_Scale, u. cbn [v2x v2y]. rn. rewrite EX, EY. f_equal; rring. }
  rewrite MV. rewrite EX, EY.
  transitivity (@Vector2d_Angle RNum (mkVector2d (N := RNum) 0 0) false); [|exact Angle_zero]. f_equal.
  f_equal; rfield; lra.
Qed.

Lemma swing_plane : forall ks s s' ps, pl_run (@Locator_new RNum P) ks = Ok s -> PointsCableAttachment s = Ok (Some ps, s') ->
  exists l cs, cable_connections s' l cs /\
    forall k c0 c1 c2 p0 p1 p2 q t, nth_error cs k = Some c0 -> nth_error cs (S k) = Some c1 -> nth_error cs (S (S k)) = Some c2 ->
      attached l c0 p0 -> attached l c1 p1 -> attached l c2 p2 -> nth_error ps (S k) = Some q ->
      ((p3x p0 : R) <> p3x p1 \/ (p3y p0 : R) <> p3y p1) -> 0 < t ->
      (p3x p2 - p3x p1 : R) = t * (p3x p1 - p3x p0) -> (p3y p2 - p3y p1 : R) = t * (p3y p1 - p3y p0) ->
      exists phi r, Rabs (phi - 81 * PI / 180) <= 1 / 10000000000 /\ (p3x q - p3x p1 : R) = r * cos phi /\ (p3y q - p3y p1 : R) = r * sin phi.
Proof.
  intros ks s s' ps RUN H. destruct (point_of ks s s' ps RUN H) as (l & cs & sts & hws & C & L1 & L2 & L3 & A & B).
  exists l, cs. split; [exact C|]. intros k c0 c1 c2 p0 p1 p2 q t K0 K1 K2 A0 A1 A2 Q NZ T EX EY.
  destruct (A _ _ K0) as (x0 & h0 & S0 & H0 & X0 & _). destruct (A _ _ K1) as (x1 & h1 & S1 & H1 & X1 & _).
  destruct (A _ _ K2) as (x2 & h2 & S2 & H2 & X2 & _). unfold attached in *.
  assert (x0 = p0) by congruence. assert (x1 = p1) by congruence. assert (x2 = p2) by congruence. subst x0 x1 x2.
  assert (I := init_nth sts hws k p1 h1 ltac:(congruence) S1 H1). rewrite S2 in I.
  rewrite (nth_error_nth sts k p1 S0) in I.
  destruct (B _ _ _ S1 I) as (h & (_ & AX) & Q'). rewrite Q' in Q. injection Q as <-.
  rewrite (straight_start h1 p0 p1 p2 t T NZ EX EY) in AX. rewrite cable_point_R, AX. cbn [p3x p3y].
  exists (-999999 * (K / 180) + 2 * IZR 2778 * PI), (sp_radius h * sin (sp_angle_z h * (K / 180))). split; [|split].
  - assert (PK := PI_K). replace (_ - _) with (999999 / 180 * (PI - K)) by (simpl IZR; field). rewrite Rabs_pos_eq by lra. lra.
  - replace 2778 with (INR 2778) by (rewrite INR_IZR_INZ; reflexivity). rewrite cos_period. rring.
  - replace 2778 with (INR 2778) by (rewrite INR_IZR_INZ; reflexivity). rewrite sin_period. rring.
Qed.

(** ** The ends of a span *)
Lemma span_nth : forall c b (a i : R) n (f : R) j, (j < n)%nat ->
  nth_error (span_points (N := RNum) c b a i n f) j = Some
    (let p := c3_Coordinate c (f + INR j * i : R) in
     let v := Vector2d_Rotate (mkVector2d (N := RNum) (p3x p) (p3y p)) a in
     mkPoint3d (N := RNum) (p3x b + v2x v) (p3y b + v2y v) (p3z b + p3z p)).
Proof.
  intros c b a i. induction n as [|n IH]; intros f j J; [lia|]. destruct j as [|j].
  - cbn [span_points nth_error INR]. rn. rewrite Rmult_0_l, Rplus_0_r. reflexivity.
  - cbn [span_points nth_error]. rn. rewrite IH by lia. rewrite S_INR. replace (f + i + INR j * i) with (f + (INR j + 1) * i) by ring. reflexivity.
Qed.

Lemma rotated_end : forall (v : Vector2d RNum) (e tol : R), nz v -> Rabs (e - mag v) <= tol -> mag v / 1000000 <= tol ->
  let u := Vector2d_Rotate (mkVector2d (N := RNum) e 0) (Vector2d_Angle v false) in
  Rabs (v2x u - v2x v) <= 2 * tol /\ Rabs (v2y u - v2y v) <= 2 * tol.
Proof.
  intros v e tol NZ E T u. destruct (Angle_direction v NZ) as (t & VX & VY & TB & TA). assert (PK := PI_K).
  set (a := @Vector2d_Angle RNum v false) in *. assert (AR := Angle_range v NZ). fold a in AR.
  assert (X : exists phi, Rabs (phi - t) <= 1 / 1000000 /\ (v2x u : R) = e * cos phi /\ (v2y u : R) = e * sin phi).
  { destruct (Rlt_dec (Rabs a) (5 / 100000)) as [S|S].
    - exists 0. unfold u. rewrite (Rotate_small _ _ S). cbn [v2x v2y]. rewrite cos_0, sin_0. split; [|split; ring].
      rewrite (Rabs_pos_eq a) in S by lra. apply Rabs_both in TA. assert (PB := PI_RGT_0). assert (PI < 32 / 10) by (unfold K in PK; lra).
      assert (0 <= a * (PI / 180) <= 5 / 100000 * (32 / 10 / 180)) by (split; [apply Rmult_le_pos; lra|apply Rmult_le_compat; lra]).
      apply Rabs_le. unfold K in *. split; lra.
    - destruct (Rotate_turned (mkVector2d (N := RNum) e 0) a ltac:(lra)) as (phi & PH & TX & TY). exists phi. cbn [v2x v2y] in TX, TY.
      unfold u. rewrite TX, TY. split; [|split; ring]. unfold about_degrees in PH. rewrite (Rabs_pos_eq a) in PH by lra.
      apply Rabs_both in PH. apply Rabs_both in TA. apply Rabs_le. unfold K in *. split; lra. }
  destruct X as (phi & PH & UX & UY). rewrite UX, UY. rewrite VX, VY.
  assert (M := mag_nonneg v). set (m := mag v) in *.
  assert (G : forall f g : R, Rabs (f - g) <= Rabs (phi - t) -> Rabs f <= 1 -> Rabs (e * f - m * g) <= 2 * tol).
  { intros f g FG F1. replace (e * f - m * g) with ((e - m) * f + m * (f - g)) by ring.
    eapply Rle_trans; [apply Rabs_triang|]. rewrite !Rabs_mult, (Rabs_pos_eq m) by exact M.
    assert (Rabs (e - m) * Rabs f <= tol * 1) by (apply Rmult_le_compat; try apply Rabs_pos; lra).
    assert (m * Rabs (f - g) <= m * (1 / 1000000)) by (apply Rmult_le_compat_l; lra). lra. }
  split; apply G; [apply cos_lip|apply Rabs_le, COS_bound|apply sin_lip|apply Rabs_le, SIN_bound].
Qed.

Lemma span_ends : forall ks s s' ps, pl_run (@Locator_new RNum P) ks = Ok s -> PointsCableAttachment s = Ok (Some ps, s') ->
  forall index num a b w, (0 <= index)%Z -> (2 <= num)%Z ->
    nth_error ps (Z.to_nat index) = Some a -> nth_error ps (S (Z.to_nat index)) = Some b ->
    ((p3x a : R) <> p3x b \/ (p3y a : R) <> p3y b) ->
    pl_weight s' = Some w -> (v3x w : R) = 0 -> 0 <= v3y w -> 0 < v3z w -> 0 < pl_tension s' ->
    exists qs e, PointsCable s index num = Ok (qs, s') /\ length qs = Z.to_nat num /\
      nth_error qs 0 = Some a /\ nth_error qs (Z.to_nat num - 1) = Some e /\
      let tol := 2 * (distance a b / 1000000) in
      Rabs (p3x e - p3x b) <= tol /\ Rabs (p3y e - p3y b) <= tol /\ Rabs (p3z e - p3z b) <= tol.
Proof.
  intros ks s s' ps RUN H index num a b w I NU PA PB NZ W W1 W2 W3 T.
  unfold PointsCableAttachment in H. destruct (pl_ensure s) as [[ok t]| |] eqn:E; try discriminate H.
  cbn [obind] in H. destruct ok; [|discriminate H]. injection H as <- <-. unfold PointsCable. rewrite E. cbn [obind negb].
  destruct (update_length _ _ (ensure_shape _ _ (run_current _ _ RUN) E)) as (Z & _). rewrite Z.
  assert (B1 : (S (Z.to_nat index) < length (pl_cable t))%nat) by (apply nth_error_Some; congruence).
  replace ((index <? 0)%Z || (Z.of_nat (length (pl_cable t)) - 1 <? index)%Z)%bool with false
    by (symmetry; apply orb_false_intro; apply Z.ltb_ge; lia).
  assert (GA : vec_get (pl_cable t) index = Ok a).
  { unfold vec_get, next_deref. destruct (Z.ltb_spec index 0); [lia|]. rewrite PA. reflexivity. }
  assert (GB : vec_get (pl_cable t) (index + 1) = Ok b).
  { unfold vec_get, next_deref. destruct (Z.ltb_spec (index + 1) 0); [lia|].
    replace (Z.to_nat (index + 1)) with (S (Z.to_nat index)) by lia. rewrite PB. reflexivity. }
  rewrite GA, GB, W. cbn [obind deref]. rewrite mag_R.
  set (v := mkVector2d (N := RNum) (fsub (p3x b) (p3x a)) (fsub (p3y b) (p3y a))).
  assert (NV : nz v) by (unfold nz, v; cbn [v2x v2y]; rn; lra).
  assert (MV : 0 < mag v) by (apply mag_pos; exact NV).
  rn.
  set (sp := mkVector3d (N := RNum) (mag v) 0 (p3z b - p3z a)).
  set (c := c3_set_weight _ w).
  assert (RC : c = c3_run (@Catenary3d_default RNum) [C3SetDirection (pl_direction t); C3SetSpacing sp; C3SetTension (N := RNum) (pl_tension t); C3SetWeight w])
    by reflexivity.
  assert (US : usable3 c).
  { unfold usable3, c. cbn. rn. repeat split; try assumption; lra. }
  assert (CU := run3_usable [C3SetDirection (pl_direction t); C3SetSpacing sp; C3SetTension (N := RNum) (pl_tension t); C3SetWeight w]).
  rewrite <- RC in CU. destruct (curve3_ends c CU US) as (C0 & C1).
  set (tol := distance a b / 1000000).
  assert (DT : length3 (v3x (c3_spacing c)) (v3y (c3_spacing c)) (v3z (c3_spacing c)) / 1000000 = tol).
  { unfold tol, length3, distance, c. cbn [c3_spacing c3_set_weight c3_set_tension c3_set_spacing v3x v3y v3z sp]. f_equal. f_equal.
    assert (Q := mag_sq v). unfold v in Q at 3 4 5 6. cbn [v2x v2y] in Q. rn. rewrite Q. rring. }
  cbv zeta in C1. rewrite DT in C1.
  assert (SX : (v3x (c3_spacing c) : R) = mag v /\ (v3y (c3_spacing c) : R) = 0 /\ (v3z (c3_spacing c) : R) = p3z b - p3z a) by (repeat split).
  destruct SX as (SX & SY & SZ). rewrite SX, SY, SZ in C1. destruct C1 as (E1 & E2 & E3).
  assert (NM : (Z.to_nat num - 1 < Z.to_nat num)%nat) by lia.
  eexists. eexists. split; [reflexivity|]. split; [apply span_length|]. split; [|split; [apply (span_nth _ _ _ _ _ _ _ NM)|]].
  - rewrite span_nth by lia. cbn [INR]. rewrite Rmult_0_l, Rplus_0_r, C0. cbn [p3x p3y p3z].
    assert (RZ : Vector2d_Rotate (mkVector2d (N := RNum) 0 0) (Vector2d_Angle v false) = mkVector2d (N := RNum) 0 0).
    { rewrite Rotate_R. destruct Rlt_dec; [reflexivity|]. unfold mag. cbn [v2x v2y]. replace (0 * 0 + 0 * 0) with 0 by rring. rewrite sqrt_0. f_equal; rring. }
    rewrite RZ. cbn [v2x v2y]. destruct a as [ax ay az]. cbn [p3x p3y p3z]. rewrite !Rplus_0_r. reflexivity.
  - cbv zeta. assert (FR : 0 + INR (Z.to_nat num - 1) * (1 / (fofZ (N := RNum) num - 1)) = 1).
    { rn. rewrite INR_IZR_INZ. replace (Z.of_nat (Z.to_nat num - 1)) with (num - 1)%Z by lia. rewrite minus_IZR.
      assert (2 <= IZR num) by (apply (IZR_le 2); lia). field. lra. }
    rn. rewrite FR. cbn [p3x p3y p3z]. set (q := c3_Coordinate c 1) in *.
    assert (TM : mag v / 1000000 <= tol).
    { unfold tol. apply Rmult_le_compat_r; [lra|]. unfold distance. apply sqrt_le_1_alt. unfold v. cbn [v2x v2y]. rn. assert (SQ := Rle_0_sqr (p3z b - p3z a)). unfold Rsqr in SQ. lra. }
    change (@eq R (p3y q) 0) in E2. rewrite E2.
    destruct (rotated_end v (p3x q) tol NV E1 TM) as (V1 & V2).
    assert (VX : (v2x v : R) = p3x b - p3x a) by reflexivity. assert (VY : (v2y v : R) = p3y b - p3y a) by reflexivity.
    rewrite VX in V1. rewrite VY in V2. apply Rabs_both in V1. apply Rabs_both in V2. apply Rabs_both in E3.
    assert (0 <= tol) by (eapply Rle_trans; [|exact TM]; lra).
    set (u := Vector2d_Rotate _ _) in *. repeat split; apply Rabs_le; lra.
Qed.
End Locate.
