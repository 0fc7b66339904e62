(** The equilibrium angle balances the cable forces, in exact arithmetic. *)
From Coq Require Import ZArith Bool List Reals Lra Lia Psatz.
From Verif Require Import Num NumFacts ModelBase ModelCatenary SpecCatenary SpecCatenary3 ModelThermal
  ModelLocator SpecLocator SpecVector ProofLocator ProofReal ProofVector ProofCatenary ProofCatenary3 ProofLocatorCase.
Import ListNotations.
Open Scope R_scope.

Lemma rotate_near : forall (v : Vector3d RNum) pl (a : R) ax1 ax2 ax3, plane_axes pl = Some (ax1, ax2, ax3) -> Rabs a <= 400 ->
  component (Vector3d_Rotate v pl a) ax3 = component v ax3 /\
  exists phi, Rabs (phi - a * PI / 180) <= 1 / 1000000 /\
    turned (component v ax1) (component v ax2) phi (component (Vector3d_Rotate v pl a) ax1) (component (Vector3d_Rotate v pl a) ax2).
Proof.
  intros v pl a ax1 ax2 ax3 Hp Ha. assert (PK := PI_K). assert (PB : 0 < PI < 32 / 10) by (unfold K in PK; lra).
  destruct (Rlt_dec (Rabs a) (5 / 100000)) as [l|l].
  - assert (E : Vector3d_Rotate v pl a = v).
    { unfold Vector3d_Rotate. rn. rewrite flit_R.
      replace (IZR 5 * powerRZ 10 (-5)) with (5 / 100000) by (simpl; lra).
      unfold Rltb. destruct Rlt_dec; [reflexivity|contradiction]. }
    rewrite E. split; [reflexivity|]. exists 0. split; [|apply turned_0].
    replace (0 - a * PI / 180) with (- (a * (PI / 180))) by field. rewrite Rabs_Ropp, Rabs_mult, (Rabs_pos_eq (PI / 180)) by lra.
    assert (Rabs a * (PI / 180) <= 5 / 100000 * (32 / 10 / 180)) by (apply Rmult_le_compat; try apply Rabs_pos; lra). lra.
  - destruct (Rotate3_turned v pl a ax1 ax2 ax3 Hp ltac:(lra)) as (E & phi & A & T).
    split; [exact E|]. exists phi. split; [|exact T]. unfold about_degrees in A. lra.
Qed.

(** The sum of two forces in a plane. *)
Lemma hardware_size : forall (a : R) d (m : R), 0 <= m ->
  (Vector3d_Magnitude (hardware_tension (N := RNum) a d m) : R) = m.
Proof.
  intros a d m M. unfold hardware_tension. rewrite turned_mag3. set (u := Vector3d_Rotate _ _ _).
  assert (MU : (Vector3d_Magnitude u : R) = 1).
  { unfold u. rewrite turned_mag3, mag3_R. cbn [v3x v3y v3z]. unfold length3. rn. replace (_ + _ + _) with 1 by ring. apply sqrt_1. }
  rewrite mag3_R in MU |- *. cbn [v3x v3y v3z]. unfold length3 in *. rn.
  replace (_ + _ + _) with ((v3x u * v3x u + v3y u * v3y u + v3z u * v3z u) * (m * m)) by rring.
  assert (SQX := Rle_0_sqr (v3x u)). assert (SQY := Rle_0_sqr (v3y u)). assert (SQZ := Rle_0_sqr (v3z u)). unfold Rsqr in *.
  rewrite sqrt_mult_alt by lra. rewrite MU, sqrt_square by lra. apply Rmult_1_l.
Qed.

Section Balance.
Variable c : Catenary3d RNum.
Hypothesis cur : c3_current c.
Hypothesis use : usable3 c.
Hypothesis calm : (v3y (c3_weight c) : R) = 0.

Lemma calm_force : forall (p : R) dir, dir <> ADNull -> exists z : R,
  c3_TensionVector c p dir = mkVector3d (N := RNum) (dsign dir * c3_tension_horizontal c) 0 z /\ Rabs z <= c3_Tension c p /\
  c3_tension_horizontal c <= c3_Tension c p /\ z = dsign dir * (W3 c * s3 c p).
Proof using cur use calm.
  intros p dir Hd. assert (M := tension3_mag c cur use p dir Hd). assert (TV := tensionvector3 c p dir).
  set (d := c3_catenary_2d (c3_ensure c)) in *.
  assert (T : c3_TangentVector c p dir = mkVector3d (N := RNum) (v2x (c2_TangentVector d p dir)) (0 : R) (v2y (c2_TangentVector d p dir))).
  { unfold c3_TangentVector. fold d. rewrite (e_weight c cur), (e_spacing c cur). rn. rewrite calm, Reqb_refl.
    cbn [negb]. rewrite andb_false_r. reflexivity. }
  destruct (force2 c cur use p dir Hd) as (F1 & F2). fold d in F1, F2.
  exists (v2y (c2_TangentVector d p dir) * c2_Tension d p).
  assert (E : c3_TensionVector c p dir = mkVector3d (N := RNum) (dsign dir * c3_tension_horizontal c) 0 (v2y (c2_TangentVector d p dir) * c2_Tension d p)).
  { rewrite TV, T. unfold Vector3d_Scale. cbn [v3x v3y v3z]. rn. rewrite F1. f_equal. apply Rmult_0_l. }
  split; [exact E|]. rewrite E in M. rewrite mag3_R in M. cbn [v3x v3y v3z] in M.
  match type of M with length3 ?x ?y ?z = _ => destruct (length3_ge x y z) as (G1 & _ & G3) end. rewrite M in G1, G3.
  split; [exact G3|]. split; [|exact F2]. rewrite Rabs_mult in G1. assert (H0 : 0 < c3_tension_horizontal c) by apply use.
  rewrite (Rabs_pos_eq (c3_tension_horizontal c)) in G1 by lra.
  replace (Rabs (dsign dir)) with 1 in G1; [lra|]. destruct dir; [contradiction| |]; cbn [dsign]; [rewrite Rabs_left; lra|symmetry; apply Rabs_R1].
Qed.
End Balance.

(** The sum of the cable forces has (almost) no component along the bisected direction. *)
Lemma cable_along : forall (back ahead : Catenary3d RNum) (a : R) d,
  c3_current back -> usable3 back -> c3_current ahead -> usable3 ahead ->
  (v3y (c3_weight back) : R) = 0 -> (v3y (c3_weight ahead) : R) = 0 ->
  (c3_tension_horizontal back : R) = c3_tension_horizontal ahead -> 0 <= a <= 180 ->
  let cab := cable_tension (N := RNum) a d back ahead in
  let B := c3_Tension back (1 : R) + c3_Tension ahead (0 : R) in
  Rabs (v3x cab) <= B / 1000000 /\ length3 (v3x cab) (v3y cab) (v3z cab) <= 2 * B.
Proof.
  intros back ahead a d CB UB CA UA WB WA HH RA cab B.
  destruct (calm_force back CB UB WB (1 : R) ADNegative ltac:(discriminate)) as (zb & EB & ZB & HB & _).
  destruct (calm_force ahead CA UA WA (0 : R) ADPositive ltac:(discriminate)) as (za & EA & ZA & HA & _).
  cbn [dsign] in EB, EA. rewrite <- HH in EA, HA. set (h := c3_tension_horizontal back : R) in *.
  assert (H0 : 0 < h) by apply UB.
  unfold cab, cable_tension. cbn [v3x v3y v3z]. 
  set (x := (180 - a) / 2). assert (RX : 0 <= x <= 90) by (unfold x; lra).
  assert (TB := tension3_mag back CB UB (1 : R) ADNegative ltac:(discriminate)).
  assert (TA := tension3_mag ahead CA UA (0 : R) ADPositive ltac:(discriminate)).
  set (rb := if ae_positive d then _ else _). set (ra := if ae_positive d then _ else _).
  assert (RB : (rb : R) = - ra /\ Rabs ra <= 90).
  { unfold rb, ra. rn. fold x. destruct (ae_positive d); (split; [rring|apply Rabs_le; lra]). }
  destruct RB as (RB & RB'). rn.
  set (tb := Vector3d_Rotate (N := RNum) _ _ rb). set (ta := Vector3d_Rotate (N := RNum) _ _ ra).
  assert (MB : (Vector3d_Magnitude tb : R) = c3_Tension back (1 : R)) by (unfold tb; rewrite turned_mag3; exact TB).
  assert (MA : (Vector3d_Magnitude ta : R) = c3_Tension ahead (0 : R)) by (unfold ta; rewrite turned_mag3; exact TA).
  destruct (rotate_near (c3_TensionVector back (1 : R) ADNegative) PlXy rb AxX AxY AxZ eq_refl) as (_ & p1 & P1 & T1 & _);
    [rewrite RB, Rabs_Ropp; lra|].
  destruct (rotate_near (c3_TensionVector ahead (0 : R) ADPositive) PlXy ra AxX AxY AxZ eq_refl) as (_ & p2 & P2 & T2 & _); [lra|].
  fold tb in T1. fold ta in T2. cbn [component] in T1, T2. rewrite EB in T1. rewrite EA in T2. cbn [v3x v3y] in T1, T2.
  split.
  - rewrite T1, T2. replace (_ + _) with (h * (cos p2 - cos (- p1))) by (rewrite cos_neg; rring).
    rewrite Rabs_mult, (Rabs_pos_eq h) by lra. assert (L := cos_lip p2 (- p1)).
    assert (D : Rabs (p2 - - p1) <= 2 / 1000000).
    { rewrite RB in P1. apply Rabs_both in P1. apply Rabs_both in P2. unfold Rdiv in P1. rewrite !Ropp_mult_distr_l_reverse in P1. apply Rabs_le. unfold Rdiv in *. lra. }
    apply Rle_trans with (h * (2 / 1000000)); [apply Rmult_le_compat_l; lra|]. unfold B. fold h in HB. lra.
  - rewrite mag3_R in MB, MA. destruct (length3_ge (v3x tb) (v3y tb) (v3z tb)) as (B1 & B2 & B3). destruct (length3_ge (v3x ta) (v3y ta) (v3z ta)) as (A1 & A2 & A3).
    rewrite MB in B1, B2, B3. rewrite MA in A1, A2, A3. unfold B.
    apply length3_le; (eapply Rle_trans; [apply Rabs_triang|]); lra.
Qed.

(** A force whose x component is small is balanced at its angle. *)
Lemma balanced : forall (v : Vector3d RNum) d (B : R), Rabs (v3x v) <= B / 1000000 -> length3 (v3x v) (v3y v) (v3z v) <= 2 * B ->
  let m := Vector3d_Magnitude v in
  let a := Vector3d_Angle v PlZy false in
  let a := if ae_positive d then a else (fofZ 360 - a)%num in
  let h := hardware_tension a d m in
  length3 (v3x h + v3x v) (v3y h + v3y v) (v3z h + v3z v) <= B / 50000.
Proof.
  intros v d B VX VM m a0 a h.
  assert (EM : (m : R) = length3 (v3x v) (v3y v) (v3z v)) by apply mag3_R.
  assert (M0 : 0 <= m) by (rewrite EM; apply sqrt_pos). assert (B0 : 0 <= B) by lra.
  assert (HS := hardware_size a d m M0). fold h in HS. rewrite mag3_R in HS.
  replace (B / 50000) with (2 * (B / 100000)) by field.
  set (g := mkVector2d (N := RNum) (v3z v) (v3y v)).
  destruct (Req_EM_T (mag g) 0) as [Z|Z].
  - assert (ZZ : (v3z v : R) = 0 /\ (v3y v : R) = 0).
    { assert (Q := mag_sq g). rewrite Z in Q. unfold g in Q. cbn [v2x v2y] in Q. change (F RNum) with R in *. split; nra. }
    destruct ZZ as (Z1 & Z2). rewrite Z1, Z2 in EM. unfold length3 in EM. replace (_ + _ + _) with (Rsqr (v3x v)) in EM by (unfold Rsqr; rring).
    rewrite sqrt_Rsqr_abs in EM. destruct (length3_ge (v3x h) (v3y h) (v3z h)) as (G1 & G2 & G3). rewrite HS in G1, G2, G3.
    rewrite Z1, Z2. assert (N0 : Rabs 0 = 0) by apply Rabs_R0.
    apply length3_le; (eapply Rle_trans; [apply Rabs_triang|]); rewrite ?N0; lra.
  - assert (NG : nz g) by (apply mag_pos; assert (Q := mag_nonneg g); lra).
    destruct (Angle_spec g NG) as (t & TX & TY & T0 & TA). rewrite mag_R in TX, TY. change (v2x g) with (v3z v) in TX. change (v2y g) with (v3y v) in TY.
    assert (AR := Angle_range g NG).
    assert (EA : a0 = Vector2d_Angle g false) by reflexivity. set (th := Vector2d_Angle g false : R) in *.
    assert (EH : (if ae_positive d then a else (fofZ 360 - a)%num) = th).
    { unfold a. rewrite EA. destruct (ae_positive d); [reflexivity|]. rn. rring. }
    unfold h, hardware_tension in *. rewrite EH in *.
    destruct (rotate_near (mkVector3d (N := RNum) 0 0 1) PlZy th AxZ AxY AxX eq_refl) as (U1 & p & PH & U2 & U3); [rewrite Rabs_pos_eq; lra|].
    cbn [component v3x v3y v3z] in U1, U2, U3. rn. set (u := Vector3d_Rotate (N := RNum) _ PlZy th) in *.
    match goal with |- context [Vector3d_Rotate ?w PlZy 180] => destruct (rotate_near w PlZy 180 AxZ AxY AxX eq_refl) as (W1 & p' & PH' & W2 & W3);
      [rewrite Rabs_pos_eq; lra|]; set (k := Vector3d_Rotate w PlZy 180) in * end.
    cbn [component v3x v3y v3z] in W1, W2, W3. rewrite U1 in W1. rewrite U2, U3 in W2, W3.
    assert (PS : Rabs (p + p' - PI - t) <= 3 / 1000000).
    { apply Rabs_both in PH. apply Rabs_both in PH'. apply Rabs_both in TA. apply Rabs_le. unfold Rdiv in *. lra. }
    assert (MG : Rabs (m - mag g) <= Rabs (v3x v)).
    { assert (Q := mag_sq g). unfold g in Q at 3 4 5 6. cbn [v2x v2y] in Q. assert (Q0 := mag_nonneg g).
      assert (Q1 : m * m = v3x v * v3x v + mag g * mag g).
      { rewrite EM, Q. unfold length3. rewrite sqrt_sqrt; [rring|]. assert (SQX := Rle_0_sqr (v3x v)). assert (SQY := Rle_0_sqr (v3y v)). assert (SQZ := Rle_0_sqr (v3z v)). unfold Rsqr in *. lra. }
      assert (AX := Rabs_pos (v3x v)). assert (XX : Rabs (v3x v) * Rabs (v3x v) = v3x v * v3x v) by (rewrite <- Rabs_mult, Rabs_pos_eq; [reflexivity|apply Rle_0_sqr]).
      change (F RNum) with R in *. apply Rabs_le. split; nra. }
    assert (KZ : (v3z k : R) = - (m * cos (p + p' - PI)) /\ (v3y k : R) = - (m * sin (p + p' - PI))).
    { rewrite W2, W3, sin_minus, cos_minus, sin_PI, cos_PI, sin_plus, cos_plus. split; rring. }
    destruct KZ as (KZ & KY). rewrite KZ, KY, TX, TY, W1. set (q := p + p' - PI) in *.
    assert (G : forall x y, Rabs (x - y) <= Rabs (q - t) -> Rabs y <= 1 -> Rabs (- (m * x) + mag g * y) <= B / 100000).
    { intros x y XY Y. replace (- (m * x) + mag g * y) with (- (m * (x - y) + (m - mag g) * y)) by ring.
      rewrite Rabs_Ropp. eapply Rle_trans; [apply Rabs_triang|]. rewrite !Rabs_mult, (Rabs_pos_eq m) by exact M0.
      assert (m * Rabs (x - y) <= 2 * B * (3 / 1000000)) by (apply Rmult_le_compat; try apply Rabs_pos; lra).
      assert (Rabs (m - mag g) * Rabs y <= B / 1000000 * 1) by (apply Rmult_le_compat; try apply Rabs_pos; lra). lra. }
    apply length3_le.
    + rewrite Rmult_0_l, Rplus_0_l. lra.
    + apply G; [apply sin_lip|apply Rabs_le, SIN_bound].
    + apply G; [apply cos_lip|apply Rabs_le, COS_bound].
Qed.

Lemma equilibrium_balances : forall (ks : list (AeCall RNum)) s back ahead x s1 kb ka, ae_run Equilibrium_new ks = Ok s ->
  ae_back s = Some back -> ae_ahead s = Some ahead ->
  back = c3_run (@Catenary3d_default RNum) kb -> ahead = c3_run (@Catenary3d_default RNum) ka -> usable3 back -> usable3 ahead ->
  (v3y (c3_weight back) : R) = 0 -> (v3y (c3_weight ahead) : R) = 0 ->
  (c3_tension_horizontal back : R) = c3_tension_horizontal ahead -> 0 <= ae_angle_catenaries s <= 180 ->
  ae_AngleEquilibrium s = Ok (x, s1) ->
  exists t s2, ae_TensionImbalance (ae_set_angle_hardware s1 x) = Ok (t, s2) /\
    0 <= t <= (c3_Tension back (1 : R) + c3_Tension ahead (0 : R)) / 50000.
Proof.
  intros ks s back ahead x s1 kb ka RUN EB EA KB KA UB UA WB WA HH RA AN.
  assert (C : ae_current s) by (apply (ae_run_current ks Equilibrium_new s ltac:(intros U; discriminate U) RUN)).
  assert (CB : c3_current back) by (rewrite KB; apply run3_usable). assert (CA : c3_current ahead) by (rewrite KA; apply run3_usable).
  assert (S1 : ae_back s1 = Some back /\ ae_ahead s1 = Some ahead /\ ae_angle_catenaries s1 = ae_angle_catenaries s /\ ae_direction s1 = ae_direction s /\
    x = (let a := Vector3d_Angle (cable_tension (ae_angle_catenaries s) (ae_direction s) back ahead) PlZy false in
         if ae_positive (ae_direction s) then a else (fofZ 360 - a)%num)).
  { unfold ae_AngleEquilibrium in AN. rewrite (ae_ensure_current s C) in AN.
    unfold ae_ensure in AN. change (ae_updated (ae_renew s)) with false in AN. cbn match in AN. rewrite ae_Update_renew in AN.
    unfold ae_Update in AN. rewrite EB, EA in AN. cbn [deref obind] in AN. injection AN as <- <-. auto. }
  destruct S1 as (E1 & E2 & E3 & E4 & E5).
  unfold ae_TensionImbalance, ae_ensure. change (ae_updated (ae_set_angle_hardware s1 x)) with false. cbn match. unfold ae_Update.
  change (ae_back (ae_set_angle_hardware s1 x)) with (ae_back s1). change (ae_ahead (ae_set_angle_hardware s1 x)) with (ae_ahead s1).
  change (ae_angle_catenaries (ae_set_angle_hardware s1 x)) with (ae_angle_catenaries s1).
  change (ae_direction (ae_set_angle_hardware s1 x)) with (ae_direction s1). change (ae_angle_hardware (ae_set_angle_hardware s1 x)) with x.
  rewrite E1, E2, E3, E4. cbn [deref obind]. eexists. eexists. split; [reflexivity|]. cbn [ae_imbalance].
  destruct (cable_along back ahead (ae_angle_catenaries s) (ae_direction s) CB UB CA UA WB WA HH RA) as (X & M).
  set (cab := cable_tension (ae_angle_catenaries s) (ae_direction s) back ahead) in *.
  assert (BAL := balanced cab (ae_direction s) _ X M). cbv zeta in BAL, E5. rewrite <- E5 in BAL.
  set (hd := hardware_tension x (ae_direction s) (Vector3d_Magnitude cab)) in *.
  rewrite mag3_R. cbn [v3x v3y v3z]. rn. split; [apply sqrt_pos|].
  replace (length3 _ _ _) with (length3 (v3x hd + v3x cab) (v3y hd + v3y cab) (v3z hd + v3z cab)); [exact BAL|].
  unfold length3. f_equal. rring.
Qed.

(** ** The range of the angle *)
Lemma Rotate_xy_z : forall (v : Vector3d RNum) (a : R), (v3z (Vector3d_Rotate v PlXy a) : R) = v3z v.
Proof. intros v a. unfold Vector3d_Rotate. cbn [Vector3d_plane]. destruct (_ <? _)%num; reflexivity. Qed.

Lemma angle_down : forall x y : R, x < 0 ->
  90 - 1 / 1000000000 <= Vector2d_Angle (mkVector2d (N := RNum) x y) false <= 270 + 1 / 1000000000.
Proof.
  intros x y X. set (g := mkVector2d (N := RNum) x y). assert (NG : nz g) by (unfold nz, g; cbn [v2x v2y]; left; lra).
  destruct (Angle_spec g NG) as (t & TX & _ & T0 & TA). set (th := Vector2d_Angle g false : R) in *. rewrite mag_R in TX.
  cbn [g v2x] in TX. assert (MG := proj1 (mag_pos g) NG). fold g in TX.
  assert (C : cos t < 0). { destruct (Rlt_le_dec (cos t) 0) as [G|G]; [exact G|]. assert (0 <= mag g * cos t) by (apply Rmult_le_pos; lra). lra. }
  assert (P0 := PI_RGT_0). assert (PK := PI_K). unfold K in PK.
  assert (T : PI / 2 <= t <= 3 * (PI / 2)).
  { split.
    - destruct (Rle_dec (PI / 2) t) as [G|G]; [exact G|]. assert (0 < cos t) by (apply cos_gt_0; lra). lra.
    - destruct (Rle_dec t (3 * (PI / 2))) as [G|G]; [exact G|].
      assert (Q : 0 < cos (t - 2 * PI)) by (apply cos_gt_0; lra).
      rewrite <- (cos_period (t - 2 * PI) 1) in Q. cbn [INR] in Q. replace (t - 2 * PI + 2 * 1 * PI) with t in Q by ring. lra. }
  apply Rabs_both in TA.
  assert (D : forall u v : R, u * PI / 180 <= v * PI / 180 + 1 / 100000000000 -> u <= v + 1 / 1000000000).
  { intros u v UV. apply Rmult_le_reg_r with (PI / 180); [lra|]. rewrite Rmult_plus_distr_r.
    assert (1 / 1000000000 * (3 / 180) <= 1 / 1000000000 * (PI / 180)) by (apply Rmult_le_compat_l; lra).
    replace (u * (PI / 180)) with (u * PI / 180) by field. replace (v * (PI / 180)) with (v * PI / 180) by field. lra. }
  split.
  - assert (G := D 90 th). lra.
  - apply D. lra.
Qed.

Lemma equilibrium_range : forall (ks : list (AeCall RNum)) s back ahead x s1, ae_run Equilibrium_new ks = Ok s ->
  ae_back s = Some back -> ae_ahead s = Some ahead ->
  (v3z (c3_TensionVector back (1 : R) ADNegative) + v3z (c3_TensionVector ahead (0 : R) ADPositive) < 0) ->
  ae_AngleEquilibrium s = Ok (x, s1) -> 90 - 1 / 1000000000 <= x <= 270 + 1 / 1000000000.
Proof.
  intros ks s back ahead x s1 RUN EB EA V AN.
  assert (C : ae_current s) by (apply (ae_run_current ks Equilibrium_new s ltac:(intros U; discriminate U) RUN)).
  unfold ae_AngleEquilibrium in AN. rewrite (ae_ensure_current s C) in AN.
  unfold ae_ensure in AN. change (ae_updated (ae_renew s)) with false in AN. cbn match in AN. rewrite ae_Update_renew in AN.
  unfold ae_Update in AN. rewrite EB, EA in AN. cbn [deref obind] in AN. injection AN as <- _.
  set (cab := cable_tension _ _ _ _).
  assert (Z : (v3z cab : R) < 0).
  { unfold cab, cable_tension. cbn [v3z]. rn. rewrite !Rotate_xy_z. exact V. }
  assert (G := angle_down (v3z cab) (v3y cab) Z).
  change (Vector3d_Angle cab PlZy false) with (Vector2d_Angle (mkVector2d (N := RNum) (v3z cab) (v3y cab)) false).
  destruct (ae_positive _); [exact G|]. rn. lra.
Qed.

(** ** A case *)
Definition e_calls : list (C3Call RNum) :=
  [C3SetDirection ADPositive; C3SetSpacing (mkVector3d (N := RNum) 1000 0 0); C3SetTension (N := RNum) 5000;
   C3SetWeight (mkVector3d (N := RNum) 0 0 1)].
Definition e_span : Catenary3d RNum := c3_run (@Catenary3d_default RNum) e_calls.
Definition e_solver : list (AeCall RNum) :=
  [AeSetAngleCatenaries (N := RNum) 150; AeSetAngleHardware (N := RNum) 180; AeSetBack (Some e_span); AeSetAhead (Some e_span);
   AeSetDirection ADPositive; AeTensionImbalance].
Lemma e_down : forall c, c3_current c -> usable3 c -> (v3y (c3_weight c) : R) = 0 ->
  v3z (c3_TensionVector c (1 : R) ADNegative) + v3z (c3_TensionVector c (0 : R) ADPositive) < 0.
Proof.
  intros c CU US WY. destruct (calm_force c CU US WY (1 : R) ADNegative ltac:(discriminate)) as (z1 & -> & _ & _ & Z1).
  destruct (calm_force c CU US WY (0 : R) ADPositive ltac:(discriminate)) as (z0 & -> & _ & _ & Z0). cbn [v3z dsign] in *.
  rewrite Z1, Z0. assert (L := len3 c CU US). assert (LP := len3_pos c CU US). rewrite L in LP. assert (WP := W3_pos c US).
  assert (0 < W3 c * (s3 c 1 - s3 c 0)) by (apply Rmult_lt_0_compat; assumption). lra.
Qed.
Lemma e_case : exists s x s1, ae_run (@Equilibrium_new RNum) e_solver = Ok s /\ ae_back s = Some e_span /\ ae_ahead s = Some e_span /\
  usable3 e_span /\ (v3z (c3_TensionVector e_span (1 : R) ADNegative) + v3z (c3_TensionVector e_span (0 : R) ADPositive) < 0) /\
  (v3y (c3_weight e_span) : R) = 0 /\ (ae_angle_catenaries s : R) = 150 /\ ae_AngleEquilibrium s = Ok (x, s1).
Proof.
  destruct (ae_defined (N := RNum) 150 180 (Some e_span) (Some e_span) ADPositive) as (A & _).
  destruct (ae_AngleEquilibrium (ae_fresh (N := RNum) 150 180 (Some e_span) (Some e_span) ADPositive)) as [[x s1]| |] eqn:E; try discriminate A.
  assert (US : usable3 e_span). { split; [change (0 < 1000); lra|]. split; [reflexivity|]. split; [reflexivity|]. split; [change (0 <= 0); lra|].
    split; [change (0 < 1)|change (0 < 5000)]; lra. }
  unfold ae_AngleEquilibrium in E. destruct (ae_ensure _) as [t| |] eqn:U; try discriminate E. cbn [obind] in E.
  assert (W := U). unfold ae_ensure in W. change (ae_updated _) with false in W. cbn match in W.
  destruct (ae_Update_again _ _ W) as (_ & W2 & W3). assert (W4 := f_equal ae_angle_catenaries W3).
  assert (W6 := f_equal ae_back W3). assert (W7 := f_equal ae_ahead W3).
  change (ae_angle_catenaries (ae_renew t)) with (ae_angle_catenaries t) in W4. change (ae_back (ae_renew t)) with (ae_back t) in W6.
  change (ae_ahead (ae_renew t)) with (ae_ahead t) in W7. injection E as <- <-.
  exists t, (ae_angle t), t. split.
  - unfold e_solver. cbn [ae_run ae_call obind]. unfold ae_TensionImbalance. unfold ae_fresh in U. rewrite U. reflexivity.
  - split; [exact W6|]. split; [exact W7|]. split; [exact US|]. split; [exact (e_down e_span (run3_usable _) US eq_refl)|]. split; [reflexivity|]. split; [exact W4|].
    unfold ae_AngleEquilibrium, ae_ensure. rewrite W2. reflexivity.
Qed.
