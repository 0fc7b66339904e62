(** A straight line with three structures and a light cable, in exact arithmetic. *)
From Coq Require Import ZArith Bool List Reals Lra Lia Psatz.
From Verif Require Import Num NumFacts ModelBase ModelAlignment ModelLine ModelCatenary SpecCatenary SpecCatenary3 ModelThermal
  ModelLocator SpecLocator SpecVector ProofReal ProofVector ProofCatenary ProofCatenary3 ProofLine ProofLineGeom ProofLocator ProofLocatorShape
  ProofLocatorReal HypFacts.
Import ListNotations.
Open Scope R_scope.

Definition r_st : Structure RNum := mkStructure (N := RNum) [mkAttachment (N := RNum) 0 0 0] 100.
Definition r_hw (t : HardwareType) : Hardware RNum := mkHardware (N := RNum) 1 10 t 100.
Definition r_ls (t : HardwareType) (s : Z) : LineStructure RNum := mkLS (N := RNum) [Some (r_hw t)] 0 0 0 (IZR s) (Some r_st).
Definition r_ap (s : Z) : AlignmentPoint RNum := mkAP (N := RNum) 0 0 (IZR s).
Definition r_cs : list (Connection RNum) :=
  [mkConn (N := RNum) 0 (SOwned 0); mkConn (N := RNum) 0 (SOwned 1); mkConn (N := RNum) 0 (SOwned 2)].
Definition r_line : Line RNum unit := mkLine (N := RNum) [r_ap 0; r_ap 1000; r_ap 2000] [mkLC (N := RNum) r_cs tt]
  [(0%nat, r_ls DeadEnd 0); (1%nat, r_ls Suspension 1000); (2%nat, r_ls DeadEnd 2000)]
  (mkPoint3d (N := RNum) 0 0 0) false false [] [] 9.

Definition pt (x y z : R) : Point3d RNum := mkPoint3d (N := RNum) x y z.
Definition r_updated : Line RNum unit := mkLine (N := RNum) [r_ap 0; r_ap 1000; r_ap 2000] [mkLC (N := RNum) r_cs tt]
  [(0%nat, r_ls DeadEnd 0); (1%nat, r_ls Suspension 1000); (2%nat, r_ls DeadEnd 2000)]
  (mkPoint3d (N := RNum) 0 0 0) true true [pt 0 0 0; pt 1000 0 0; pt 2000 0 0] [pt 0 0 0; pt 1000 0 0; pt 2000 0 0] 9.

Lemma rotate_0 : forall v : Vector2d RNum, Vector2d_Rotate v (0 : R) = v.
Proof. intros v. apply Rotate_small. rewrite Rabs_R0. lra. Qed.
Lemma mag_x : forall x : R, 0 < x -> (Vector2d_Magnitude (mkVector2d (N := RNum) x 0) : R) = x.
Proof. intros x H. rewrite mag_R. unfold mag. cbn [v2x v2y]. replace (x * x + 0 * 0) with (x * x) by ring. apply sqrt_square. lra. Qed.
Lemma angle_x : forall x : R, 0 < x -> @Vector2d_Angle RNum (mkVector2d (N := RNum) x 0) false = 0.
Proof.
  intros x H. unfold Vector2d_Angle. cbn [v2x v2y]. rn. unfold Reqb, Rltb.
  destruct (Req_EM_T x 0) as [X|_]; [lra|]. destruct (Req_EM_T 0 0) as [_|X]; [|congruence]. cbn [orb].
  destruct (Rlt_dec 0 x) as [_|X]; [|lra]. rewrite andb_false_r. reflexivity.
Qed.

Lemma from_vector : forall (p : Point3d RNum) (s v : R), 0 < v ->
  PointXyzAlignmentFromVector (N := RNum) p s (0 : R) (0 : R) (mkVector2d (N := RNum) v 0) =
  (pt (p3x p + s) (p3y p + 0) (p3z p + 0), mkVector2d (N := RNum) s 0).
Proof.
  intros p s v H. unfold PointXyzAlignmentFromVector. rewrite rotate_0, mag_x by exact H. unfold Vector2d_Scale. cbn [v2x v2y]. rn.
  replace (v * (s / v)) with s by (field; lra). replace (0 * (s / v)) with 0 by (field; lra). reflexivity.
Qed.

Lemma r_points : PointsAlignment (tl_origin r_line) (tl_alignment r_line) = [pt 0 0 0; pt 1000 0 0; pt 2000 0 0].
Proof.
  unfold PointsAlignment, r_line. cbn [tl_origin tl_alignment UpdatePointsXyzAlignment_loop ap_station ap_elevation ap_rotation r_ap]. rn.
  replace (0 - 0) with 0 by ring. rewrite from_vector by lra. cbn [p3x p3y p3z].
  replace (1000 - 0) with 1000 by ring. rewrite from_vector by lra. cbn [p3x p3y p3z]. unfold pt.
  cbn [p3x p3y p3z]. replace (0 + 1000) with 1000 by ring. replace (1000 + (2000 - 1000)) with 2000 by ring. rewrite !Rplus_0_r. reflexivity.
Qed.

Ltac zb := repeat (progress (rewrite ?Rleb_Z, ?Rltb_Z, ?Reqb_Z; change (Pos.to_nat 1) with 1%nat; change (Pos.to_nat 2) with 2%nat); cbn -[IZR Rleb Rltb Reqb Vector2d_Rotate Vector2d_Angle Vector2d_Magnitude Vector2d_Scale]).

Lemma r_update : Update r_line = (r_updated, Ok true).
Proof.
  unfold Update. rewrite r_points. unfold r_line, with_points, with_flags.
  cbn [tl_is_updated_alignment tl_is_updated_structures tl_alignment tl_points_alignment tl_line_structures UpdatePointsXyzLineStructures_loop].
  assert (A : forall t s k, (s = 0 /\ k = 0 \/ s = 1000 /\ k = 1 \/ s = 2000 /\ k = 2)%Z ->
    PointXyzAlignmentFromStation (N := RNum) [r_ap 0; r_ap 1000; r_ap 2000] [pt 0 0 0; pt 1000 0 0; pt 2000 0 0] (ls_station (r_ls t s)) =
    Ok (pt (IZR s) 0 0)).
  { intros t s k [(-> & ->)|[(-> & ->)|(-> & ->)]]; unfold PointXyzAlignmentFromStation, IndexSegment, IsValidStation, r_ls, r_ap;
    cbn -[IZR Rleb Rltb Reqb]; zb; reflexivity. }
  rewrite (A DeadEnd 0%Z 0%Z), (A Suspension 1000%Z 1%Z), (A DeadEnd 2000%Z 2%Z) by auto. reflexivity.
Qed.

Lemma scale_1 : forall x : R, 0 < x -> Vector2d_Scale (mkVector2d (N := RNum) x 0) (1 / x : R) = mkVector2d (N := RNum) 1 0.
Proof. intros x H. unfold Vector2d_Scale. cbn [v2x v2y]. rn. f_equal; rfield; lra. Qed.

Lemma r_attachment : forall k, (k = 0 \/ k = 1 \/ k = 2)%Z ->
  PointXyzLineStructureAttachment r_updated k 0 = (r_updated, Ok (pt (1000 * IZR k) 0 100)).
Proof.
  intros k H. unfold PointXyzLineStructureAttachment. rewrite query_settled by reflexivity. f_equal.
  assert (V : forall t s, (s = 0 \/ s = 1000 \/ s = 2000)%Z -> exists x, 0 < x /\
    VectorXyAlignmentStructure (N := RNum) [r_ap 0; r_ap 1000; r_ap 2000] [pt 0 0 0; pt 1000 0 0; pt 2000 0 0] (r_ls t s) = Ok (mkVector2d (N := RNum) x 0)).
  { intros t s [-> | [-> | ->]]; unfold VectorXyAlignmentStructure, IndexSegment, IsValidStation, r_ls, r_ap, VectorXyAlignmentSegment;
    cbn -[IZR Rleb Rltb Reqb Vector2d_Magnitude Vector2d_Scale]; zb; rn;
    replace (1000 - 0) with 1000 by ring; replace (2000 - 1000) with 1000 by ring; replace (0 - 0) with 0 by ring;
    rewrite ?mag_x by lra; replace (1 * 1) with 1 by ring; rewrite ?scale_1 by lra.
    - exists 1. split; [lra|reflexivity].
    - cbn [v2x v2y]. rn. replace (1 + 1) with 2 by ring. replace (0 + 0) with 0 by ring. rewrite mag_x, scale_1 by lra. exists 1. split; [lra|reflexivity].
    - exists 1. split; [lra|reflexivity]. }
  destruct H as [-> | [-> | ->]]; [destruct (V DeadEnd 0%Z) as (x & X & E)|destruct (V Suspension 1000%Z) as (x & X & E)|destruct (V DeadEnd 2000%Z) as (x & X & E)];
    auto; cbn -[IZR VectorXyAlignmentStructure Vector2d_Rotate Vector2d_Angle]; change (Pos.to_nat 1) with 1%nat; change (Pos.to_nat 2) with 2%nat;
    cbn -[IZR VectorXyAlignmentStructure Vector2d_Rotate Vector2d_Angle]; rewrite E;
    cbn -[IZR VectorXyAlignmentStructure Vector2d_Rotate Vector2d_Angle]; rewrite angle_x by exact X; rn; rewrite !rotate_0; cbn [v2x v2y];
    unfold pt; f_equal; f_equal; rring.
Qed.

Definition r_hws : list (Hardware RNum) := [r_hw DeadEnd; r_hw Suspension; r_hw DeadEnd].
Definition r_sts : list (Point3d RNum) := [pt 0 0 100; pt 1000 0 100; pt 2000 0 100].
Lemma r_data : connection_data r_line r_cs = Ok (Some (r_sts, r_hws), r_updated).
Proof.
  assert (E : PointXyzLineStructureAttachment r_line 0 0 = PointXyzLineStructureAttachment r_updated 0 0).
  { unfold PointXyzLineStructureAttachment. rewrite (query_settled _ r_updated) by reflexivity. unfold query. rewrite r_update. reflexivity. }
  unfold r_cs. cbn [connection_data cn_line_structure cn_index_attachment].
  change (IndexLineStructure r_line (SOwned 0)) with 0%Z. rewrite E, r_attachment by auto. cbn [obind]. 
  change (IndexLineStructure r_updated (SOwned 1)) with 1%Z. rewrite r_attachment by auto. cbn [obind].
  change (IndexLineStructure r_updated (SOwned 2)) with 2%Z. rewrite r_attachment by auto. cbn [obind].
  cbn [pt p3x]. unfold ferr. rn.
  assert (Q : forall x, 0 <= x -> Reqb x (-999999) = false) by (intros x X; unfold Reqb; destruct Req_EM_T; [lra|reflexivity]).
  rewrite !Q by lra.
  unfold r_sts, pt. replace (1000 * 0) with 0 by ring. replace (1000 * 1) with 1000 by ring. replace (1000 * 2) with 2000 by ring. reflexivity.
Qed.

(** ** Bounds of the forces *)
Lemma length3_le : forall x y z B : R, Rabs x <= B -> Rabs y <= B -> Rabs z <= B -> length3 x y z <= 2 * B.
Proof.
  intros x y z B X Y Z. assert (B0 : 0 <= B) by (assert (G := Rabs_pos x); lra). unfold length3.
  rewrite <- (sqrt_square (2 * B)) by lra. apply sqrt_le_1_alt.
  assert (G : forall t, Rabs t <= B -> t * t <= B * B).
  { intros t T. rewrite <- (Rabs_pos_eq (t * t)) by apply Rle_0_sqr. rewrite Rabs_mult. apply Rmult_le_compat; try apply Rabs_pos; exact T. }
  apply G in X. apply G in Y. apply G in Z. assert (0 <= B * B) by (apply Rle_0_sqr). lra.
Qed.
Lemma length3_ge : forall x y z : R, Rabs x <= length3 x y z /\ Rabs y <= length3 x y z /\ Rabs z <= length3 x y z.
Proof.
  intros x y z. assert (G := Rle_0_sqr x). assert (G1 := Rle_0_sqr y). assert (G2 := Rle_0_sqr z). unfold Rsqr in *.
  unfold length3. rewrite <- !sqrt_Rsqr_abs. unfold Rsqr. repeat split; apply sqrt_le_1_alt; lra.
Qed.

Lemma tension_light : forall c : Catenary3d RNum, c3_current c -> usable3 c -> (v3y (c3_weight c) : R) = 0 ->
  Rabs (v3z (c3_spacing c)) <= v3x (c3_spacing c) -> v3x (c3_spacing c) * v3z (c3_weight c) <= 2 * c3_tension_horizontal c ->
  forall p : R, p = 0 \/ p = 1 -> c3_Tension c p <= 9 * c3_tension_horizontal c.
Proof.
  intros c CU US WY SZ LI p HP. unfold c3_Tension. set (d := c3_catenary_2d (c3_ensure c)).
  assert (H0 := d_h_pos c CU US). assert (W0 := d_w_pos c CU US). assert (A0 := d_a_pos c CU US). fold d in H0, W0, A0.
  assert (WZ := use_wz c US). assert (SX := use_sx c US).
  assert (WW : W3 c = v3z (c3_weight c)).
  { unfold W3. rewrite WY. replace (0 * 0 + _) with (v3z (c3_weight c) * v3z (c3_weight c)) by rring. apply sqrt_square. lra. }
  assert (BB : b3 c = v3z (c3_spacing c)). { unfold b3. rewrite WW. field. lra. }
  assert (AA : a3 c = v3x (c3_spacing c)).
  { unfold a3. rewrite (S3_sq c), BB. replace (_ - _) with (v3x (c3_spacing c) * v3x (c3_spacing c)) by rring. apply sqrt_square. lra. }
  rewrite (tension_R d (d_current c CU) H0 W0).
  assert (DT : c2_tension d = c3_tension_horizontal c) by apply (d_tension c CU). rewrite <- DT in LI |- *.
  assert (DW : (c2_weight d : R) = v3z (c3_weight c)) by (rewrite <- WW; apply (d_weight c CU US)).
  assert (DS := d_spacing c CU US). fold d in DS. rewrite AA, BB in DS.
  assert (CZ : 0 < cz d <= 1).
  { split; [apply cz_pos; assumption|]. unfold cz, ck. rewrite DS, DW. cbn [v2x].
    apply Rmult_le_reg_r with (2 * c2_tension d); [lra|].
    replace (_ * _) with (v3x (c3_spacing c) * v3z (c3_weight c)) by (rfield; lra). lra. }
  assert (SC := sinh_gt (cz d) ltac:(lra)).
  assert (SU : Rabs (sinh (cu d)) <= 1).
  { unfold cu. rewrite sinh_arcsinh, DS. cbn [v2x v2y]. unfold Rdiv. rewrite !Rabs_mult, Rabs_inv, !Rabs_mult.
    rewrite (Rabs_pos_eq (cz d)), (Rabs_pos_eq (sinh (cz d))), (Rabs_pos_eq (v3x (c3_spacing c))) by lra.
    assert (Q : 0 < v3x (c3_spacing c) * sinh (cz d)) by (apply Rmult_lt_0_compat; lra).
    apply Rmult_le_reg_r with (v3x (c3_spacing c) * sinh (cz d)); [exact Q|].
    rewrite Rmult_assoc, Rinv_l, Rmult_1_r, Rmult_1_l by lra. apply Rmult_le_compat; try apply Rabs_pos; lra. }
  assert (CU2 : 0 < cosh (cu d) <= 2).
  { split; [apply cosh_pos|]. rewrite cosh_sqrt. rewrite <- (sqrt_square 2) by lra. apply sqrt_le_1_alt.
    assert (sinh (cu d) * sinh (cu d) <= 1 * 1).
    { rewrite <- (Rabs_pos_eq (_ * _)) by apply Rle_0_sqr. rewrite Rabs_mult. apply Rmult_le_compat; try apply Rabs_pos; exact SU. }
    lra. }
  assert (CH : 0 < cosh (cz d) <= 3 /\ sinh (cz d) <= 3).
  { assert (E := exp_le_3). assert (X : exp (cz d) <= 3).
    { destruct (Rle_lt_or_eq_dec (cz d) 1 ltac:(lra)) as [G|G]; [apply exp_increasing in G; lra|rewrite G; exact E]. }
    assert (Y : exp (- cz d) <= 3) by (assert (G : - cz d < cz d) by lra; apply exp_increasing in G; lra).
    assert (Y0 := exp_pos (- cz d)). split; [split; [apply cosh_pos|unfold cosh; lra]|unfold sinh; lra]. }
  destruct CH as (CH & SH). rewrite (Rmult_comm 9). apply Rmult_le_compat_l; [lra|].
  assert (G1 : cosh (cu d) * cosh (cz d) <= 2 * 3) by (apply Rmult_le_compat; lra).
  assert (G2 : Rabs (sinh (cu d) * sinh (cz d)) <= 1 * 3).
  { rewrite Rabs_mult, (Rabs_pos_eq (sinh (cz d))) by lra. apply Rmult_le_compat; try apply Rabs_pos; lra. }
  apply Rabs_both in G2.
  destruct HP as [-> | ->]; [rewrite ct_0, cosh_minus|rewrite ct_1, cosh_plus]; lra.
Qed.

(** The imbalance is at most eight times the sum of the tensions. *)
Lemma imbalance_le : forall (s : Equilibrium RNum) back ahead B, ae_updated s = false -> ae_back s = Some back -> ae_ahead s = Some ahead ->
  c3_current back -> usable3 back -> c3_current ahead -> usable3 ahead ->
  c3_Tension back (1 : R) + c3_Tension ahead (0 : R) <= B ->
  exists s', ae_ensure s = Ok s' /\ 0 <= Vector3d_Magnitude (ae_imbalance s') <= 8 * B.
Proof.
  intros s back ahead B U EB EA CB UB CA UA T. unfold ae_ensure, ae_Update. rewrite U, EB, EA. cbn [deref obind].
  eexists. split; [reflexivity|]. cbn [ae_imbalance].
  set (cab := cable_tension _ _ _ _). set (hd := hardware_tension _ _ _).
  assert (TB := tension3_mag back CB UB (1 : R) ADNegative ltac:(discriminate)).
  assert (TA := tension3_mag ahead CA UA (0 : R) ADPositive ltac:(discriminate)).
  assert (M : 0 <= Vector3d_Magnitude cab <= 2 * B).
  { split; [rewrite mag3_R; apply sqrt_pos|]. rewrite mag3_R. unfold cab, cable_tension. cbn [v3x v3y v3z].
    set (tb := Vector3d_Rotate _ _ _). set (ta := Vector3d_Rotate _ _ _).
    assert (MB : (Vector3d_Magnitude tb : R) = c3_Tension back (1 : R)) by (unfold tb; rewrite turned_mag3; rn; exact TB).
    assert (MA : (Vector3d_Magnitude ta : R) = c3_Tension ahead (0 : R)) by (unfold ta; rewrite turned_mag3; rn; exact TA).
    rewrite mag3_R in MB, MA. destruct (length3_ge (v3x tb) (v3y tb) (v3z tb)) as (B1 & B2 & B3). destruct (length3_ge (v3x ta) (v3y ta) (v3z ta)) as (A1 & A2 & A3).
    rewrite MB in B1, B2, B3. rewrite MA in A1, A2, A3. rn.
    apply length3_le; (eapply Rle_trans; [apply Rabs_triang|]); lra. }
  assert (MH : (Vector3d_Magnitude hd : R) = Vector3d_Magnitude cab).
  { unfold hd, hardware_tension. rewrite turned_mag3. set (u := Vector3d_Rotate _ _ _).
    assert (MU : (Vector3d_Magnitude u : R) = 1).
    { unfold u. rewrite turned_mag3, mag3_R. cbn [v3x v3y v3z]. unfold length3. rn. replace (_ + _ + _) with 1 by ring. apply sqrt_1. }
    rewrite mag3_R in MU |- *. cbn [v3x v3y v3z]. fold cab. set (m := Vector3d_Magnitude cab : R) in *. unfold length3 in *. rn.
    replace (_ + _ + _) with ((v3x u * v3x u + v3y u * v3y u + v3z u * v3z u) * (m * m)) by rring.
    assert (SQX := Rle_0_sqr (v3x u)). assert (SQY := Rle_0_sqr (v3y u)). assert (SQZ := Rle_0_sqr (v3z u)). unfold Rsqr in *.
    rewrite sqrt_mult_alt by lra. rewrite MU, sqrt_square by lra. apply Rmult_1_l. }
  split; [rewrite mag3_R; apply sqrt_pos|]. rewrite mag3_R. cbn [v3x v3y v3z]. rn. 
  assert (MC := mag3_R cab). rewrite mag3_R in MH. rewrite MC in MH, M.
  destruct (length3_ge (v3x hd) (v3y hd) (v3z hd)) as (B1 & B2 & B3). destruct (length3_ge (v3x cab) (v3y cab) (v3z cab)) as (A1 & A2 & A3).
  rewrite MH in B1, B2, B3. set (m := length3 (v3x cab) (v3y cab) (v3z cab)) in *.
  replace (8 * B) with (2 * (4 * B)) by ring.
  apply length3_le; rewrite Rabs_mult, (Rabs_left (-1)) by lra; match goal with |- _ * Rabs (?x + ?y) <= _ => assert (G := Rabs_triang x y) end; lra.
Qed.

(** ** The locator *)
Definition r_weight : Vector3d RNum := mkVector3d (N := RNum) 0 0 (1 / 100000).
Definition r_calls : list (PlCall RNum unit) :=
  [PlSetDirection ADPositive; PlSetIndex 0; PlSetLine (Some r_line); PlSetTension (N := RNum) (1 / 100); PlSetWeight (Some r_weight)].
Definition r_loc : Locator RNum unit := pl_fresh ADPositive 0 (Some r_line) (1 / 100 : RNum) (Some r_weight).
Lemma r_run : pl_run (@Locator_new RNum unit) r_calls = Ok r_loc. Proof. reflexivity. Qed.

Definition r_inner (z : R) : Spherical RNum := mkSpherical (N := RNum) 10 (-999999) z.
Lemma r_hardware : InitializePointsHardware r_sts r_hws = [hardware_end; r_inner 180; hardware_end].
Proof.
  unfold r_sts, r_hws, InitializePointsHardware. cbn [hardware_points].
  assert (A := straight_start (r_hw Suspension) (pt 0 0 100) (pt 1000 0 100) (pt 2000 0 100) 1 ltac:(lra)
    ltac:(cbn [pt p3x p3y]; left; lra) ltac:(cbn [pt p3x p3y]; lra) ltac:(cbn [pt p3x p3y]; lra)).
  replace (hardware_start (r_hw Suspension) (pt 0 0 100) (pt 1000 0 100) (pt 2000 0 100)) with (r_inner 180); [reflexivity|].
  unfold r_inner. set (s := hardware_start _ _ _ _) in *. rewrite <- A. unfold s, hardware_start. cbn [sp_angle_x]. rn. reflexivity.
Qed.
Lemma r_point : forall z : R, exists q, cable_point (pt 1000 0 100) (r_inner z) = q /\
  Rabs (p3x q - 1000) <= 10 /\ Rabs (p3y q) <= 10 /\ Rabs (p3z q - 100) <= 10.
Proof.
  intros z. eexists. split; [reflexivity|]. rewrite cable_point_R. cbn [r_inner sp_radius sp_angle_x sp_angle_z pt p3x p3y p3z].
  assert (G : forall u v, Rabs u <= 1 -> Rabs v <= 1 -> Rabs (10 * u * v) <= 10).
  { intros u v U V. rewrite !Rabs_mult, (Rabs_pos_eq 10) by lra. replace 10 with (10 * 1 * 1) at 2 by ring.
    apply Rmult_le_compat; try apply Rabs_pos; try exact V; [apply Rmult_le_pos; [lra|apply Rabs_pos]|]. lra. }
  assert (CB : forall x, Rabs (cos x) <= 1) by (intros x; apply Rabs_le, COS_bound).
  assert (SB : forall x, Rabs (sin x) <= 1) by (intros x; apply Rabs_le, SIN_bound).
  repeat split.
  - replace (_ - 1000) with (10 * cos (-999999 * (K / 180)) * sin (z * (K / 180))) by rring. apply G; auto.
  - rewrite Rplus_0_r. apply G; auto.
  - replace (_ - 100) with (10 * cos (z * (K / 180)) * 1) by rring. apply G; auto. rewrite Rabs_R1. lra.
Qed.

Lemma span_facts : forall a b : Point3d RNum, (Rabs (p3x b - p3x a - 1000) <= 10) -> Rabs (p3y b - p3y a) <= 10 -> Rabs (p3z b - p3z a) <= 10 ->
  let c := c3_set_spacing (span_catenary ADPositive (1 / 100 : RNum) r_weight) (span_spacing a b) in
  c3_current c /\ usable3 c /\ (c3_Tension c (0 : R) <= 9 / 100) /\ (c3_Tension c (1 : R) <= 9 / 100).
Proof.
  intros a b X Y Z c. apply Rabs_both in X. apply Rabs_both in Y.
  assert (CU : c3_current c) by (apply (run3_usable [C3SetDirection ADPositive; C3SetTension (N := RNum) (1 / 100); C3SetWeight r_weight; C3SetSpacing (span_spacing a b)])).
  set (v := mkVector2d (N := RNum) (fsub (p3x b) (p3x a)) (fsub (p3y b) (p3y a))).
  assert (SX : (v3x (c3_spacing c) : R) = mag v) by (unfold c, span_spacing; cbn [c3_spacing c3_set_spacing v3x]; rewrite mag_R; reflexivity).
  assert (SZ : (v3z (c3_spacing c) : R) = p3z b - p3z a) by reflexivity.
  assert (M : 990 <= mag v <= 1100).
  { unfold mag. cbn [v v2x v2y]. rn. split.
    - rewrite <- (sqrt_square 990) by lra. apply sqrt_le_1_alt. assert (SQ := Rle_0_sqr (p3y b - p3y a)). unfold Rsqr in SQ.
      assert (990 * 990 <= (p3x b - p3x a) * (p3x b - p3x a)) by (apply Rmult_le_compat; lra). lra.
    - rewrite <- (sqrt_square 1100) by lra. apply sqrt_le_1_alt.
      assert ((p3x b - p3x a) * (p3x b - p3x a) <= 1010 * 1010) by (apply Rmult_le_compat; lra).
      assert ((p3y b - p3y a) * (p3y b - p3y a) <= 10 * 10).
      { rewrite <- (Rabs_pos_eq (_ * _)) by apply Rle_0_sqr. rewrite Rabs_mult. apply Rmult_le_compat; try apply Rabs_pos; apply Rabs_le; lra. }
      lra. }
  assert (US : usable3 c).
  { unfold usable3. rewrite SX. unfold c, span_spacing. cbn [c3_spacing c3_set_spacing c3_weight span_catenary c3_set_weight v3x v3y v3z c3_tension_horizontal c3_set_tension c3_set_direction].
    unfold r_weight. cbn [v3x v3y v3z]. rn. change (F RNum) with R in *. repeat split; try reflexivity; try lra. change (0 < 1 / 100)%R. lra. }
  split; [exact CU|]. split; [exact US|].
  assert (T := tension_light c CU US eq_refl ltac:(rewrite SX, SZ; lra)).
  assert (TH : (c3_tension_horizontal c : R) = 1 / 100) by reflexivity. assert (TW : (v3z (c3_weight c) : R) = 1 / 100000) by reflexivity.
  rewrite TH, TW, SX in T. specialize (T ltac:(lra)).
  split; eapply Rle_trans; [apply (T 0); auto|lra|apply (T 1); auto|lra].
Qed.

Lemma r_located : exists z s', PointsCableAttachment r_loc = Ok (Some [pt 0 0 100; cable_point (pt 1000 0 100) (r_inner z); pt 2000 0 100], s') /\
  pl_line s' = Some r_updated /\ pl_index s' = 0%Z /\ pl_weight s' = Some r_weight /\ (pl_tension s' : R) = 1 / 100.
Proof.
  unfold PointsCableAttachment, pl_ensure. change (pl_updated r_loc) with false.
  unfold pl_Update. change (pl_line r_loc) with (Some r_line). cbn [deref obind].
  change (next_deref (tl_line_cables r_line) (pl_index r_loc)) with (@Ok (LineCable RNum unit) (mkLC (N := RNum) r_cs tt)). cbn [obind lc_connections].
  rewrite r_data. cbn [obind]. rewrite r_hardware. change (pl_weight r_loc) with (Some r_weight). cbn [deref obind].
  change (pl_direction r_loc) with ADPositive. change (pl_tension r_loc) with (1 / 100). 
  set (c := span_catenary ADPositive (1 / 100 : RNum) r_weight).
  assert (CB : forall z, UpdatePointsCable r_sts [hardware_end; r_inner z; hardware_end] = [pt 0 0 100; cable_point (pt 1000 0 100) (r_inner z); pt 2000 0 100]).
  { intros z. unfold r_sts. cbn [UpdatePointsCable]. rewrite !(cable_point_end _ hardware_end) by (unfold hardware_end; cbn [sp_radius]; rn; reflexivity). reflexivity. }
  rewrite CB. destruct (r_point 180) as (q & EQ & QX & QY & QZ). rewrite EQ.
  assert (ST : exists z im, UpdatePointsHardware c [pt 0 0 100; q; pt 2000 0 100] [hardware_end; r_inner 180; hardware_end] =
    Ok ([hardware_end; r_inner z; hardware_end], im) /\ 0 <= im < 5).
  { unfold UpdatePointsHardware. cbn [hardware_loop].
    set (s := attachment_solver _ _ _ _ _).
    destruct (span_facts (pt 0 0 100) q) as (C1 & U1 & _ & T1); cbn [pt p3x p3y p3z]; [rewrite Rminus_0_r; exact QX|rewrite Rminus_0_r; exact QY|exact QZ|].
    destruct (span_facts q (pt 2000 0 100)) as (C2 & U2 & T2 & _); cbn [pt p3x p3y p3z].
    { rewrite <- Rabs_Ropp. replace (- _) with (p3x q - 1000) by rring. exact QX. }
    { rewrite <- Rabs_Ropp. replace (- _) with (p3y q : R) by rring. exact QY. }
    { rewrite <- Rabs_Ropp. replace (- _) with (p3z q - 100) by rring. exact QZ. }
    destruct (imbalance_le s _ _ (18 / 100) eq_refl eq_refl eq_refl C1 U1 C2 U2) as (s' & ES & I0); [eapply Rle_trans; [apply Rplus_le_compat; [exact T1|exact T2]|lra]|].
    assert (US : ae_updated s' = true).
    { unfold ae_ensure in ES. change (ae_updated s) with false in ES. unfold ae_Update in ES.
      destruct (deref (ae_back s)); [|discriminate ES|discriminate ES]. destruct (deref (ae_ahead s)); [|discriminate ES|discriminate ES].
      cbn [obind] in ES. injection ES as <-. reflexivity. }
    unfold ae_AngleEquilibrium, ae_TensionImbalance. rewrite ES. cbn [obind]. unfold ae_ensure. rewrite US. cbn [obind].
    eexists. eexists. split; [reflexivity|]. rn. unfold Rltb. destruct Rlt_dec; lra. }
  destruct ST as (z & im & ST & IM).
  change (Z.to_nat 101) with (S (S 99)). cbn [position_loop].
  assert (B1 : ((fofZ 5 <=? @fabs RNum (@ferr RNum))%num && (0 <? 100)%Z)%bool = true).
  { unfold ferr. rn. rewrite (Rabs_left (-999999)) by lra. unfold Rleb. destruct Rle_dec; [reflexivity|lra]. }
  rewrite B1, ST. cbn [obind]. rewrite CB.
  assert (B2 : ((fofZ 5 <=? @fabs RNum im)%num && (0 + 1 <? 100)%Z)%bool = false).
  { rn. rewrite (Rabs_pos_eq im) by lra. unfold Rleb. destruct Rle_dec; [lra|reflexivity]. }
  rewrite B2. cbn [obind]. change (0 + 1 <? 100)%Z with true. cbn [obind].
  exists z. eexists. split; [reflexivity|]. repeat split.
Qed.
