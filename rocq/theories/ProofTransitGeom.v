(** The transit sagger in exact arithmetic: the low point, the control factor and the target. *)
From Coq Require Import ZArith Bool List Reals Lra Lia Psatz.
From Verif Require Import Num NumFacts ModelBase ModelCatenary SpecCatenary SpecCatenary3 ModelSagtension ModelSagging SpecSagging
  HypFacts ProofReal ProofVector ProofCatenary ProofCatenary3 ProofSearch ProofSagging ProofTransit.
Import ListNotations.
Open Scope R_scope.

(** ** What an update leaves *)
Section Update.
Context {N : Num}.

Lemma Update_facts : forall s s' : Transit N, ts_Update s = Ok (true, s') ->
  exists r, search (sight s) search_fuel Search_start = Ok (Some r) /\
    feqb (se_position r) (fofZ 0) = false /\ feqb (se_position r) (fofZ 1) = false /\
    ts_position s' = se_position r /\ ts_low s' = c3_Coordinate (ts_catenary s) (se_position r) /\
    ts_angle s' = sight s (se_position r) /\ ts_catenary s' = ts_catenary s /\ ts_transit s' = ts_transit s.
Proof.
  intros s s' H. unfold ts_Update, UpdatePointCatenaryLow in H.
  destruct (search (sight s) search_fuel Search_start) as [[r|]| |] eqn:E; cbn [obind] in H; try discriminate H.
  destruct (feqb (se_position r) (fofZ 0) || feqb (se_position r) (fofZ 1))%bool eqn:P; cbn [obind] in H; [discriminate H|].
  apply orb_false_elim in P. destruct P as (P0 & P1).
  injection H as A <-. rewrite A. exists r. repeat split; auto.
Qed.

Lemma ensure_facts : forall s s' : Transit N, ts_current s -> ts_ensure s = Ok (true, s') -> ts_Update s = Ok (true, s').
Proof.
  intros s s' C H. unfold ts_ensure in H. destruct (ts_updated s) eqn:U; [|exact H].
  injection H as <-. exact (C U).
Qed.
End Update.

(** ** Sights *)
Lemma Vertical_R : forall q p : Point3d RNum, 0 < away q p ->
  AngleVertical (N := RNum) q p = @rad2deg RNum (atan (rise q p)).
Proof.
  intros q p A. unfold AngleVertical.
  assert (M : Vector2d_Magnitude (mkVector2d (N := RNum) (fsub (n := RNum) (p3x p) (p3x q)) (fsub (n := RNum) (p3y p) (p3y q))) = away q p)
    by (rewrite mag_R; reflexivity).
  rewrite M. rn. assert (Q := angle_atan (away q p) (p3z p - p3z q) A).
  unfold rise. rewrite <- Q. rewrite rad2deg_R, deg2rad_R. assert (KP := K_pos).
  assert (G : forall x, x = x * (K / 180) * (180 / K)) by (intro x; field; lra). apply G.
Qed.

Lemma Vertical_lt : forall q p p' : Point3d RNum, 0 < away q p -> 0 < away q p' ->
  (AngleVertical (N := RNum) q p < AngleVertical (N := RNum) q p' <-> rise q p < rise q p').
Proof.
  intros q p p' A A'. rewrite !Vertical_R, !rad2deg_R by assumption.
  assert (KP := K_pos). assert (P : 0 < 180 / K) by (apply Rdiv_lt_0_compat; lra). split; intros H.
  - apply Rmult_lt_reg_r in H; [|exact P]. destruct (Rlt_or_le (rise q p) (rise q p')) as [L|L]; [exact L|].
    exfalso. destruct L as [L|L]; [apply atan_increasing in L; lra|rewrite L in H; lra].
  - apply Rmult_lt_compat_r; [exact P|]. apply atan_increasing, H.
Qed.

Lemma Vertical_le : forall q p p' : Point3d RNum, 0 < away q p -> 0 < away q p' ->
  (AngleVertical (N := RNum) q p <= AngleVertical (N := RNum) q p' <-> rise q p <= rise q p').
Proof.
  intros q p p' A A'. generalize (Vertical_lt q p' p A' A).
  intros (H1 & H2). split; intros H.
  - destruct (Rle_or_lt (rise q p) (rise q p')) as [L|L]; [exact L|]. apply H2 in L. lra.
  - destruct (Rle_or_lt (AngleVertical (N := RNum) q p) (AngleVertical (N := RNum) q p')) as [L|L]; [exact L|]. apply H1 in L. lra.
Qed.

(** No sight is above 999999, so the search always finds a position. *)
Lemma Vertical_bound : forall q p : Point3d RNum, AngleVertical (N := RNum) q p <= 180.
Proof.
  intros q p. unfold AngleVertical. set (v := mkVector2d _ _) at 1.
  destruct (Req_dec (v2x v) 0) as [X|X]; [destruct (Req_dec (v2y v) 0) as [Y|Y]|].
  - unfold Vector2d_Angle. rn. rewrite X, Y. rewrite Reqb_refl. cbn [orb].
    rewrite (proj2 (Rltb_false 0 0)) by lra. unfold ferr. rewrite Rlit0. lra.
  - apply Angle_negative_range. right. exact Y.
  - apply Angle_negative_range. left. exact X.
Qed.

Lemma lowest_some : forall (angle : R -> R) ps low q, exists r, lowest (N := RNum) angle ps low (Some q) = Some r.
Proof.
  intros angle. induction ps as [|p ps IH]; intros low q; cbn [lowest]; [eauto|]. destruct (fltb _ _); apply IH.
Qed.

Lemma pass_ok : forall (angle : R -> R) s, (forall p, angle p < 999999) -> search_pass (N := RNum) angle s <> UB.
Proof.
  intros angle s B H. unfold search_pass, PositionCatenaryLowAngle in H. rewrite positions_R in H.
  change (seq 0 11) with (0%nat :: seq 1 10) in H. rewrite map_cons in H. set (ps := map _ (seq 1 10)) in H.
  set (q := point _ _ 0) in H.
  assert (E : lowest (N := RNum) angle (q :: ps) (fofZ 999999) None = lowest (N := RNum) angle ps (angle q) (Some q)).
  { cbn [lowest]. rn. rewrite (proj2 (Rltb_true _ _)) by apply B. reflexivity. }
  rewrite E in H. destruct (lowest_some angle ps (angle q) q) as (r & W).
  match type of H with context [@lowest RNum ?a ?b ?c ?d] => change (@lowest RNum a b c d = Some r) in W end. rewrite W in H. discriminate H.
Qed.

Lemma search_ok : forall (angle : R -> R) fuel s, (forall p, angle p < 999999) -> search (N := RNum) angle fuel s <> UB.
Proof.
  intros angle fuel. induction fuel as [|fuel IH]; intros s B H; cbn [search] in H; destruct (fltb _ _); try discriminate H.
  destruct (search_pass (N := RNum) angle s) as [s'| |] eqn:E; cbn [obind] in H; try discriminate H.
  - exact (IH s' B H).
  - exact (pass_ok angle s B E).
Qed.

Lemma Update_ok : forall s : Transit RNum, is_ok (ts_Update s) = true.
Proof.
  intros s. unfold ts_Update, UpdatePointCatenaryLow.
  assert (A := search_all RNum_round (sight s) search_fuel ltac:(unfold search_fuel; lia)). destruct A as (A & _).
  assert (B : forall p, sight s p < 999999) by (intros p; assert (X := Vertical_bound (ts_transit s) (c3_Coordinate (ts_catenary s) p)); unfold sight; lra).
  assert (D := search_ok (sight s) search_fuel Search_start B).
  destruct (search (sight s) search_fuel Search_start) as [[r|]| |]; cbn [obind found] in *; try contradiction.
  destruct (feqb _ _ || feqb _ _)%bool; reflexivity.
Qed.

(** ** The low point *)
Section Low.
Variable s s' : Transit RNum.
Hypothesis up : ts_Update s = Ok (true, s').
Let c := ts_catenary s.
Let q := ts_transit s.
Let t : R := ts_position s'.

Lemma low_settled : exists r, settled_at (sight s) r /\ se_tolerance r <= 1 / 100000 /\ se_position r = t /\ 0 < t < 1 /\
  ts_low s' = c3_Coordinate c t /\ ts_angle s' = AngleVertical q (c3_Coordinate c t).
Proof using up.
  destruct (Update_facts s s' up) as (r & S & P0 & P1 & T & L & A & _ & _).
  destruct (search_found (sight s) _ r S) as (G & TOL). exists r. split; [exact G|]. split; [exact TOL|].
  unfold t, c, q. rewrite T. split; [reflexivity|]. split; [|split; [exact L|exact A]].
  rn. apply Reqb_false in P0. apply Reqb_false in P1. generalize (st_pos _ _ G). intros. lra.
Qed.

Lemma low_local : 0 < t < 1 /\ ts_low s' = c3_Coordinate c t /\
  (0 < away q (c3_Coordinate c t) -> ts_angle s' = @rad2deg RNum (atan (rise q (c3_Coordinate c t)))) /\
  ((forall p : R, 0 < p < 1 -> 0 < away q (c3_Coordinate c p)) ->
    (forall i, (1 <= i <= 9)%nat -> rise q (c3_Coordinate c t) <= rise q (c3_Coordinate c (INR i / 10 : R))) /\
    exists step, 0 < step <= 1 / 100000 /\
      (0 < t - step -> rise q (c3_Coordinate c t) < rise q (c3_Coordinate c (t - step : R))) /\
      (t + step < 1 -> rise q (c3_Coordinate c t) <= rise q (c3_Coordinate c (t + step : R)))).
Proof using up.
  destruct low_settled as (r & G & TOL & T & R & L & A). split; [exact R|]. split; [exact L|]. split.
  - intros W. rewrite A. apply Vertical_R, W.
  - intros W. assert (W1 := W t R). split.
    + intros i I. assert (X := st_grid _ _ G i ltac:(lia)). rewrite T in X. unfold sight in X. fold c q in X.
      apply Vertical_le; [exact W1|apply W|exact X].
      assert (INR 1 <= INR i <= INR 9) by (split; apply le_INR; lia). cbn [INR] in H. lra.
    + exists (se_tolerance r). split; [split; [apply G|exact TOL]|]. split; intros X.
      * destruct (st_back _ _ G) as [(Q & _)|(Q & _ & Y)]; [lra|]. rewrite Q, T in Y. unfold sight in Y. fold c q in Y.
        apply Vertical_lt; [exact W1|apply W|exact Y]. generalize (st_tol _ _ G). lra.
      * destruct (st_ahead _ _ G) as [(Q & _)|(Q & _ & Y)]; [lra|]. rewrite Q, T in Y. unfold sight in Y. fold c q in Y.
        apply Vertical_le; [exact W1|apply W|exact Y]. generalize (st_tol _ _ G). lra.
Qed.

(** *** A transit in the plane of the cable *)
Hypothesis cur : c3_current c.
Hypothesis use : usable3 c.
Hypothesis calm : (v3y (c3_weight c) : R) = 0.
Let d : Catenary2d RNum := c3_catenary_2d (c3_ensure c).
Let X (p : R) : R := ck d * (ct d p - ct d 0).
Let Z (p : R) : R := ck d * (cosh (ct d p) - cosh (ct d 0)).

Lemma calm_W : W3 c = v3z (c3_weight c).
Proof using use calm.
  unfold W3. rewrite calm. replace (0 * 0 + v3z (c3_weight c) * v3z (c3_weight c)) with (v3z (c3_weight c) * v3z (c3_weight c)) by ring.
  apply sqrt_square. left. apply use.
Qed.
Lemma calm_b : b3 c = v3z (c3_spacing c).
Proof using use calm.
  unfold b3. rewrite calm_W. assert (P : 0 < v3z (c3_weight c)) by apply use. req. field. lra.
Qed.
Lemma calm_a : a3 c = v3x (c3_spacing c).
Proof using use calm.
  unfold a3. rewrite (S3_sq c), calm_b. assert (P : 0 < v3x (c3_spacing c)) by apply use.
  match goal with |- sqrt ?x = _ => replace x with (v3x (c3_spacing c) * v3x (c3_spacing c)) by ring end.
  apply sqrt_square. lra.
Qed.
Lemma calm_delta : delta3 c = 0.
Proof using use calm.
  unfold delta3. rewrite calm_a, calm_b. unfold Vector3d_Angle. cbn [Vector3d_plane]. req. ring.
Qed.

Lemma calm_curve : forall p : R, c3_Coordinate c p = mkPoint3d (N := RNum) (X p) (0 : R) (Z p).
Proof using cur use calm.
  intros p. unfold c3_Coordinate. fold d.
  assert (Q : c3_CoordinateChord (c3_ensure c) p = c3_CoordinateChord c p).
  { unfold c3_CoordinateChord. rewrite ensure3_idem. reflexivity. }
  rewrite Q, (chord3_R c cur use). unfold d. rewrite (chord2_R c cur use), (curve2_R c cur use). fold d.
  assert (DS := d_spacing c cur use). fold d in DS. rewrite (e_spacing c cur), (e_weight c cur), DS.
  assert (DEL : fsub (n := RNum) (Vector3d_Angle (c3_spacing c) PlXz false) (Vector2d_Angle (mkVector2d (N := RNum) (a3 c) (b3 c)) false) = delta3 c)
    by reflexivity.
  rewrite DEL, calm_delta. cbn [p2x p2y]. rn.
  assert (WA : Vector3d_Angle (c3_weight c) PlZy false = (0 : R)).
  { unfold Vector3d_Angle. cbn [Vector3d_plane]. unfold Vector2d_Angle. cbn [v2x v2y]. rn. rewrite calm.
    assert (P : 0 < v3z (c3_weight c)) by apply use. rewrite Reqb_refl, orb_true_r.
    destruct (Reqb (v3z (c3_weight c)) 0) eqn:E; [apply Reqb_true in E; lra|].
    rewrite (proj2 (Rltb_true 0 _)) by exact P. rewrite andb_false_r. reflexivity. }
  rewrite WA.
  assert (ANG : (match c3_direction (c3_ensure c) with ADNegative => 0 * -1 | _ => 0 end) = 0) by (destruct (c3_direction _); ring).
  rewrite ANG. rewrite Rotate_xz. destruct Rlt_dec as [l|l]; [|exfalso; apply l; rewrite Rabs_R0; lra].
  cbn [v3x v3y v3z].
  assert (ID : forall v : Vector3d RNum, Vector3d_Rotate v PlYz (0 : R) = v).
  { intros v. unfold Vector3d_Rotate. rn. rewrite flit_R. rewrite Rabs_R0, (proj2 (Rltb_true _ _)) by (simpl; lra). reflexivity. }
  rewrite Rotate_xz. destruct Rlt_dec as [l'|l']; [|exfalso; apply l'; rewrite Rabs_R0; lra].
  rewrite ID. cbn [v3x v3y v3z].
  assert (FX := frac3_x c cur use p). fold d in FX.
  assert (HH := d_h_pos c cur use). assert (WW := d_w_pos c cur use). assert (AA := d_a_pos c cur use). fold d in HH, WW, AA.
  assert (CU := d_current c cur). fold d in CU.
  assert (C2 := curve2_R c cur use p). fold d in C2. rewrite (coordinate_shifted_R d CU HH WW p) in C2.
  assert (C2y := f_equal p2y C2). assert (C2x := f_equal p2x C2). cbn [p2x p2y] in C2x, C2y.
  unfold X, Z. rewrite (ct_0 d). change (F RNum) with R in *.
  cbn [p3x p3y p3z]. f_equal; lra.
Qed.

Lemma X_lt : forall p p' : R, p < p' -> X p < X p'.
Proof using cur use.
  intros p p' H. unfold X. apply Rmult_lt_compat_l; [apply (ck_pos d (d_h_pos c cur use) (d_w_pos c cur use))|].
  assert (L := ct_lt d (d_h_pos c cur use) (d_w_pos c cur use) (d_a_pos c cur use) p p' H). fold d in L. lra.
Qed.
Lemma X_0 : X 0 = 0.
Proof. unfold X. ring. Qed.
Lemma X_1 : X 1 = v3x (c3_spacing c).
Proof using cur use calm.
  assert (FX := frac3_x c cur use 1). fold d in FX. rewrite (frac3_1 c cur use), calm_a in FX. unfold X. rewrite ct_0. lra.
Qed.

(** The curve is strictly convex. *)
Lemma curve_convex : forall p1 p2 p3 : R, p1 < p2 -> p2 < p3 -> (Z p2 - Z p1) * (X p3 - X p2) < (Z p3 - Z p2) * (X p2 - X p1).
Proof using cur use.
  intros p1 p2 p3 L1 L2.
  assert (A := X_lt p1 p2 L1). assert (B := X_lt p2 p3 L2).
  assert (KP := ck_pos d (d_h_pos c cur use) (d_w_pos c cur use)).
  assert (T1 := ct_lt d (d_h_pos c cur use) (d_w_pos c cur use) (d_a_pos c cur use) p1 p2 L1).
  assert (T2 := ct_lt d (d_h_pos c cur use) (d_w_pos c cur use) (d_a_pos c cur use) p2 p3 L2). fold d in T1, T2.
  assert (C1 := cosh_tangent_lt (ct d p2) (ct d p1) ltac:(lra)).
  assert (C3 := cosh_tangent_lt (ct d p2) (ct d p3) ltac:(lra)).
  set (m := sinh (ct d p2)) in *.
  assert (D1 : Z p2 - Z p1 < m * (X p2 - X p1)).
  { unfold Z, X. replace (ck d * (cosh (ct d p2) - cosh (ct d 0)) - ck d * (cosh (ct d p1) - cosh (ct d 0))) with (ck d * (cosh (ct d p2) - cosh (ct d p1))) by ring.
    replace (m * (ck d * (ct d p2 - ct d 0) - ck d * (ct d p1 - ct d 0))) with (ck d * (m * (ct d p2 - ct d p1))) by ring.
    apply Rmult_lt_compat_l; [exact KP|]. lra. }
  assert (D3 : m * (X p3 - X p2) < Z p3 - Z p2).
  { unfold Z, X. replace (ck d * (cosh (ct d p3) - cosh (ct d 0)) - ck d * (cosh (ct d p2) - cosh (ct d 0))) with (ck d * (cosh (ct d p3) - cosh (ct d p2))) by ring.
    replace (m * (ck d * (ct d p3 - ct d 0) - ck d * (ct d p2 - ct d 0))) with (ck d * (m * (ct d p3 - ct d p2))) by ring.
    apply Rmult_lt_compat_l; [exact KP|]. lra. }
  apply Rlt_trans with (m * (X p2 - X p1) * (X p3 - X p2)).
  - apply Rmult_lt_compat_r; lra.
  - replace (m * (X p2 - X p1) * (X p3 - X p2)) with (m * (X p3 - X p2) * (X p2 - X p1)) by ring. apply Rmult_lt_compat_r; lra.
Qed.

Hypothesis plane : (p3y q : R) = 0.
Hypothesis outside : p3x q <= 0 \/ v3x (c3_spacing c) <= p3x q.

Lemma plane_away : forall p : R, away q (c3_Coordinate c p) = Rabs (X p - p3x q).
Proof using cur use calm plane.
  intros p. unfold away. rewrite calm_curve. cbn [p3x p3y]. rewrite plane.
  match goal with |- sqrt ?x = _ => replace x with (Rsqr (X p - p3x q)) by (unfold Rsqr; ring) end. apply sqrt_Rsqr_abs.
Qed.

Lemma inside_X : forall p : R, 0 < p < 1 -> 0 < X p < v3x (c3_spacing c).
Proof using cur use calm. intros p (A & B). apply X_lt in A. apply X_lt in B. rewrite X_0 in A. rewrite X_1 in B. auto. Qed.

Lemma plane_away_pos : forall p : R, 0 < p < 1 -> 0 < away q (c3_Coordinate c p).
Proof using cur use calm plane outside.
  intros p P. rewrite plane_away. apply Rabs_pos_lt. generalize (inside_X p P). lra.
Qed.

(** Between two sights there is none as high as both. *)
Lemma rise_between : forall p1 p2 p3 : R, 0 < p1 -> p1 < p2 -> p2 < p3 -> p3 < 1 ->
  rise q (c3_Coordinate c p2) < rise q (c3_Coordinate c p1) \/ rise q (c3_Coordinate c p2) < rise q (c3_Coordinate c p3).
Proof using cur use calm plane outside.
  intros p1 p2 p3 H0 H1 H2 H3.
  assert (A1 := plane_away_pos p1 ltac:(lra)). assert (A2 := plane_away_pos p2 ltac:(lra)). assert (A3 := plane_away_pos p3 ltac:(lra)).
  assert (CV := curve_convex p1 p2 p3 H1 H2).
  assert (L1 := X_lt p1 p2 H1). assert (L2 := X_lt p2 p3 H2).
  assert (I1 := inside_X p1 ltac:(lra)). assert (I3 := inside_X p3 ltac:(lra)).
  destruct (Rlt_or_le (rise q (c3_Coordinate c p2)) (rise q (c3_Coordinate c p1))) as [G|G]; [left; exact G|].
  destruct (Rlt_or_le (rise q (c3_Coordinate c p2)) (rise q (c3_Coordinate c p3))) as [G'|G']; [right; exact G'|]. exfalso.
  set (k := rise q (c3_Coordinate c p2)) in *.
  assert (E : forall p, 0 < away q (c3_Coordinate c p) -> p3z (c3_Coordinate c p) - p3z q = rise q (c3_Coordinate c p) * away q (c3_Coordinate c p)).
  { intros p P. unfold rise. field. lra. }
  assert (E1 := E p1 A1). assert (E2 := E p2 A2). assert (E3 := E p3 A3). fold k in E2.
  assert (B1 : p3z (c3_Coordinate c p1) - p3z q <= k * away q (c3_Coordinate c p1)) by (rewrite E1; apply Rmult_le_compat_r; lra).
  assert (B3 : p3z (c3_Coordinate c p3) - p3z q <= k * away q (c3_Coordinate c p3)) by (rewrite E3; apply Rmult_le_compat_r; lra).
  rewrite !plane_away, !calm_curve in *. cbn [p3z] in *.
  assert (S : exists e : R, (e = 1 \/ e = -1) /\ Rabs (X p1 - p3x q) = e * (X p1 - p3x q) /\ Rabs (X p2 - p3x q) = e * (X p2 - p3x q) /\
    Rabs (X p3 - p3x q) = e * (X p3 - p3x q)).
  { destruct outside as [O|O].
    - exists 1. rewrite !Rabs_pos_eq by lra. repeat split; auto; ring.
    - exists (-1). rewrite !Rabs_left1 by lra. repeat split; auto; ring. }
  destruct S as (e & EE & S1 & S2 & S3'). rewrite S1 in B1. rewrite S2 in E2. rewrite S3' in B3.
  change (ModelBase.p3z q) with (p3z q) in *.
  assert (U1 : k * e * (X p2 - X p1) <= Z p2 - Z p1) by lra.
  assert (U3 : Z p3 - Z p2 <= k * e * (X p3 - X p2)) by lra.
  assert (V1 : k * e * (X p2 - X p1) * (X p3 - X p2) <= (Z p2 - Z p1) * (X p3 - X p2)) by (apply Rmult_le_compat_r; lra).
  assert (V3 : (Z p3 - Z p2) * (X p2 - X p1) <= k * e * (X p3 - X p2) * (X p2 - X p1)) by (apply Rmult_le_compat_r; lra).
  lra.
Qed.

Lemma low_lowest : forall p : R, 0 < p < 1 -> 1 / 100000 < Rabs (p - t) ->
  rise q (c3_Coordinate c t) < rise q (c3_Coordinate c p).
Proof using up cur use calm plane outside.
  intros p P FAR. destruct low_settled as (r & G & TOL & T & TR & _ & _).
  assert (W1 := plane_away_pos t TR). assert (TP := st_tol _ _ G). set (step := se_tolerance r) in *.
  destruct (Rle_or_lt p t) as [L|L].
  - rewrite Rabs_left1 in FAR by lra.
    destruct (st_back _ _ G) as [(Q & _)|(Q & _ & Y)]; [lra|]. rewrite Q, T in Y. fold step in Y. unfold sight in Y. fold c q in Y.
    apply Vertical_lt in Y; [|exact W1|apply plane_away_pos; lra].
    destruct (rise_between p (t - step) t); lra.
  - rewrite Rabs_pos_eq in FAR by lra.
    destruct (st_ahead _ _ G) as [(Q & _)|(Q & _ & Y)]; [lra|]. rewrite Q, T in Y. fold step in Y. unfold sight in Y. fold c q in Y.
    apply Vertical_le in Y; [|exact W1|apply plane_away_pos; lra].
    destruct (rise_between t (t + step) p); lra.
Qed.
End Low.
