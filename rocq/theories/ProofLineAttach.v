(** Coordinates of structures and attachments in exact real arithmetic. *)
From Coq Require Import ZArith Bool List Reals Lra Lia Psatz Sorted.
From Verif Require Import Num NumFacts ModelBase ModelAlignment ModelLine SpecLine SpecTransmission
  ListFacts ProofAlignment ProofLine ProofLineInv ProofLineCoord ProofLineSafe ProofReal SpecVector ProofVector
  SpecGeom ProofLineGeom.
Import ListNotations.
Open Scope R_scope.

(** Rotating by the angle of a vector. *)
Lemma Rotate_by_angle : forall (w d : V2), nz d ->
  exists t m phi, 0 < m /\ (v2x d : R) = m * cos t /\ (v2y d : R) = m * sin t /\ Rabs (phi - t) <= 1 / 1000000 /\
    turned (v2x w) (v2y w) phi (v2x (@Vector2d_Rotate RNum w (@Vector2d_Angle RNum d false)))
                               (v2y (@Vector2d_Rotate RNum w (@Vector2d_Angle RNum d false))).
Proof.
  intros w d H. destruct (Angle_spec d H) as (t & E1 & E2 & _ & B).
  assert (Rg := Angle_range d H). rewrite mag_R in *.
  revert B Rg. generalize (@Vector2d_Angle RNum d false). intros a B Rg.
  exists t, (mag d).
  assert (PK := PI_K). assert (Pb : 3 < PI < 32 / 10) by (unfold K in PK; lra).
  destruct (Rlt_dec (Rabs a) (5 / 100000)) as [S|S].
  - exists 0. split; [apply mag_pos; exact H|]. split; [exact E1|]. split; [exact E2|]. split.
    + change (0 <= a < 360) in Rg. rewrite Rabs_pos_eq in S by lra.
      assert (0 <= a * PI / 180 <= 5 / 100000 * (315 / 100) / 180).
      { split; [apply Rmult_le_pos; [apply Rmult_le_pos; lra|lra]|].
        apply Rmult_le_compat_r; [lra|]. apply Rmult_le_compat; unfold K in PK; lra. }
      apply Rabs_le. assert (Q : Rabs (a * PI / 180 - t) <= 16 / 1000000000000000) by exact B.
      apply Rabs_both in Q. lra.
    + rewrite Rotate_small by exact S. apply turned_0.
  - destruct (Rotate_turned w a ltac:(lra)) as (phi & A & T). exists phi.
    split; [apply mag_pos; exact H|]. split; [exact E1|]. split; [exact E2|]. split; [|exact T].
    unfold about_degrees in A. change (0 <= a < 360) in Rg. rewrite (Rabs_pos_eq a) in A by lra.
    assert (Q : Rabs (a * PI / 180 - t) <= 16 / 1000000000000000) by exact B.
    apply Rabs_both in Q. apply Rabs_both in A. apply Rabs_le. lra.
Qed.

Lemma Rotate_turned_any : forall (v : V2) (a : R),
  exists phi, rotation_angle a phi /\
    turned (v2x v) (v2y v) phi (v2x (@Vector2d_Rotate RNum v a)) (v2y (@Vector2d_Rotate RNum v a)).
Proof.
  intros v a. destruct (Rlt_dec (Rabs a) (5 / 100000)) as [S|S].
  - exists 0. split; [left; split; [exact S|reflexivity]|]. rewrite Rotate_small by exact S. apply turned_0.
  - destruct (Rotate_turned v a ltac:(lra)) as (phi & A & T). exists phi. split; [right; split; [lra|exact A]|exact T].
Qed.

Section S.
Variables (o : P3) (al : list AP).
Hypothesis HS : sorted_pts (N := RNum) tr al.
Let pts := @PointsAlignment RNum o al.

Lemma seg_step : forall k a b pa pb, nth_error al k = Some a -> nth_error al (S k) = Some b ->
  nth_error pts k = Some pa -> nth_error pts (S k) = Some pb ->
  mag (vxy pa pb) = (ap_station b - ap_station a)%R /\ (ap_station a < ap_station b)%R.
Proof.
  intros k a b pa pb Ha Hb Hpa Hpb.
  destruct (points_steps o al HS k a b pa pb Ha Hb Hpa Hpb) as [S0 SS].
  assert (Hab := sorted_adj _ k a b HS Ha Hb). split; [|exact Hab].
  assert (S : exists v, step_ok a b pa pb v).
  { destruct k as [|j]; [exists v10; apply S0; reflexivity|].
    destruct (nth_error_exists _ pts j) as [pj Hpj].
    { assert (K : nth_error pts (S j) <> None) by congruence. apply nth_error_Some in K. lia. }
    exists (vxy pj pa). apply (SS j pj eq_refl Hpj). }
  destruct S as [v S]. exact (step_dist a b pa pb v S Hab).
Qed.

Lemma segment_R : forall k ux uy, segment_direction al pts k ux uy ->
  @VectorXyAlignmentSegment RNum pts (Z.of_nat k) = Ok (mkVector2d (N := RNum) ux uy) /\
  ux * ux + uy * uy = 1.
Proof.
  intros k ux uy (a & b & pa & pb & Ha & Hb & Hpa & Hpb & Ex & Ey).
  destruct (seg_step k a b pa pb Ha Hb Hpa Hpb) as [D Hab].
  assert (VA : forall m q, nth_error pts m = Some q -> vec_at pts (Z.of_nat m) = Ok q).
  { intros m q Hq. unfold vec_at. destruct (Z.ltb_spec (Z.of_nat m) 0); [lia|]. rewrite Nat2Z.id, Hq. reflexivity. }
  unfold VectorXyAlignmentSegment. replace (Z.of_nat k + 1)%Z with (Z.of_nat (S k)) by lia.
  rewrite (VA k pa Hpa), (VA (S k) pb Hpb). cbn [obind]. rn. rewrite mag_R.
  change (mkVector2d (N := RNum) (p3x pb - p3x pa) (p3y pb - p3y pa)) with (vxy pa pb). rewrite D.
  set (d := (ap_station b - ap_station a)%R) in *. assert (Hd : 0 < d) by (unfold d; lra).
  assert (Q := mag_sq (vxy pa pb)). rewrite D in Q. unfold vxy in Q |- *. cbn [v2x v2y] in Q. split.
  - unfold Vector2d_Scale. cbn [v2x v2y]. rn. f_equal. rewrite <- Ex, <- Ey. f_equal; rfield; lra.
  - assert (Q' : d * d = ux * d * (ux * d) + uy * d * (uy * d)) by (rewrite Ex, Ey; exact Q).
    apply Rmult_eq_reg_r with (d * d); [|nra]. rewrite Rmult_1_l. rewrite Q' at 2. ring.
Qed.

Lemma index_of : forall (st : R) k a b, nth_error al k = Some a -> nth_error al (S k) = Some b ->
  (ap_station a < st <= ap_station b)%R \/ (k = 0%nat /\ (st = ap_station a)%R) ->
  @IndexSegment RNum al st = Ok (Z.of_nat k).
Proof.
  intros st k a b Ha Hb H.
  assert (Hab := sorted_adj _ k a b HS Ha Hb).
  assert (Lb : (S k < length al)%nat) by (apply nth_error_Some; congruence).
  destruct (nth_error_exists _ al 0) as [pf Hf]; [lia|].
  destruct (nth_error_exists _ al (length al - 1)) as [pl Hl]; [lia|].
  destruct (IndexSegment_spec (N := RNum) tr RNum_ord al st pf pl HS I ltac:(lia) Hf Hl) as (i & E & E1 & Q).
  rewrite E. f_equal.
  assert (LE : forall n m x y, nth_error al n = Some x -> nth_error al m = Some y -> (n <= m)%nat ->
            (ap_station x <= ap_station y)%R).
  { intros n m x y Hx Hy Hnm. destruct (Rle_dec (ap_station x) (ap_station y)) as [q|q]; [exact q|].
    assert (Z := nth_sorted_unique al m n y x HS Hy Hx ltac:(lra)). lia. }
  assert (A1 := LE 0%nat k pf a Hf Ha ltac:(lia)). assert (A2 := LE (S k) _ b pl Hb Hl ltac:(lia)).
  assert (Hi : i <> (-1)%Z).
  { intro Z. apply E1 in Z. rn. destruct Z; rbool; destruct H as [H|[_ H]]; lra. }
  destruct (Q Hi) as (Hr & a' & b' & Ha' & Hb' & Hsb & Hsa). rn. rbool.
  set (n := Z.to_nat i) in *. replace (n + 1)%nat with (S n) in Hb' by lia.
  assert (Ei : i = Z.of_nat n) by (unfold n; lia). rewrite Ei. f_equal.
  destruct H as [H|[H0 H]].
  - destruct (Nat.lt_trichotomy n k) as [L|[L|L]]; [|exact L|]; exfalso.
    + assert (W := LE (S n) k b' a Hb' Ha ltac:(lia)). lra.
    + assert (W := LE (S k) n b a' Hb Ha' ltac:(lia)).
      destruct Hsa as [Z|[Z1 Z2]]; rbool; [lra|]. unfold n in L. lia.
  - subst k. destruct n as [|n']; [reflexivity|exfalso].
    destruct Hsa as [Z|[Z1 Z2]]; rbool; [|lia].
    assert (W := LE 0%nat (S n') a a' Ha Ha' ltac:(lia)). lra.
Qed.

Lemma front_R : forall pf, nth_error al 0 = Some pf -> front al = Ok pf.
Proof. intros pf H. destruct al; simpl in *; [discriminate|congruence]. Qed.
Lemma back_R : forall pl, nth_error al (length al - 1) = Some pl -> back al = Ok pl.
Proof.
  intros pl H. destruct al as [|x rest]; [discriminate|]. unfold back. simpl length in H.
  replace (S (length rest) - 1)%nat with (length rest) in H by lia.
  rewrite last_nth_error in H. congruence.
Qed.

Lemma direction_R : forall (s : LineStructure RNum) dx dy, direction_at al pts (ls_station s) dx dy ->
  nz (mkVector2d (N := RNum) dx dy) ->
  exists k, 0 < k /\ @VectorXyAlignmentStructure RNum al pts s = Ok (Vector2d_Scale (mkVector2d (N := RNum) dx dy) k).
Proof.
  intros s dx dy D NZ. set (st := ls_station s) in *.
  assert (LE : forall n m x y, nth_error al n = Some x -> nth_error al m = Some y -> (n <= m)%nat ->
            (ap_station x <= ap_station y)%R).
  { intros n m x y Hx Hy Hnm. destruct (Rle_dec (ap_station x) (ap_station y)) as [q|q]; [exact q|].
    assert (Z := nth_sorted_unique al m n y x HS Hy Hx ltac:(lra)). lia. }
  assert (one : forall (v : V2), Vector2d_Scale v 1 = v).
  { intros [x y]. unfold Vector2d_Scale. cbn [v2x v2y]. rn. f_equal; rring. }
  inversion D as [k a b ux uy Ha Hb Hst SD E1 E2|k b ux uy wx wy Hb Hlen Hst SD1 SD2 E1 E2]; subst.
  - destruct (segment_R k dx dy SD) as [V _].
    assert (Hab := sorted_adj _ k a b HS Ha Hb).
    assert (Lb : (S k < length al)%nat) by (apply nth_error_Some; congruence).
    destruct (nth_error_exists _ al 0) as [pf Hf]; [lia|].
    destruct (nth_error_exists _ al (length al - 1)) as [pl Hl]; [lia|].
    assert (IX : @IndexSegment RNum al st = Ok (Z.of_nat k)).
    { apply (index_of st k a b Ha Hb). destruct Hst as [H|[H|[_ H]]]; [left; lra|right; exact H|left; lra]. }
    exists 1. split; [lra|]. rewrite one.
    unfold VectorXyAlignmentStructure. fold st. rewrite IX, (front_R pf Hf), (back_R pl Hl). cbn [obind].
    rewrite V.
    match goal with |- (if ?c then _ else _) = _ => destruct c eqn:C; [reflexivity|] end.
    match goal with |- (if ?c then _ else _) = _ => destruct c eqn:C2; [reflexivity|] end.
    exfalso. apply negb_false_iff in C2. apply existsb_exists in C2 as (p & Hp & Ep). rn. rbool.
    apply In_nth_error in Hp as [n Hn].
    apply orb_false_iff in C as [C3 C4]. rbool.
    destruct Hst as [H|[[H0 H]|[H0 H]]].
    + destruct (Nat.le_gt_cases n k) as [L|L].
      * assert (W := LE n k p a Hn Ha L). lra.
      * assert (W := LE (S k) n b p Hb Hn L). lra.
    + subst k. rewrite Ha in Hf. injection Hf as <-. contradiction.
    + rewrite H0 in Hl. replace (S (S k) - 1)%nat with (S k) in Hl by lia. rewrite Hb in Hl. injection Hl as <-. contradiction.
  - destruct (segment_R k ux uy SD1) as [V1 N1]. destruct (segment_R (S k) wx wy SD2) as [V2' N2].
    destruct (nth_error_exists _ al k) as [a Ha]; [lia|].
    destruct (nth_error_exists _ al (S (S k))) as [c Hc]; [lia|].
    assert (Hab := sorted_adj _ k a b HS Ha Hb). assert (Hbc := sorted_adj _ (S k) b c HS Hb Hc).
    destruct (nth_error_exists _ al 0) as [pf Hf]; [lia|].
    destruct (nth_error_exists _ al (length al - 1)) as [pl Hl]; [lia|].
    assert (IX : @IndexSegment RNum al st = Ok (Z.of_nat k)).
    { apply (index_of st k a b Ha Hb). left. rewrite Hst. lra. }
    assert (F1 := LE 0%nat k pf a Hf Ha ltac:(lia)). assert (F2 := LE (S (S k)) _ c pl Hc Hl ltac:(lia)).
    set (sum := mkVector2d (N := RNum) (ux + wx) (uy + wy)) in *.
    assert (Hm : 0 < mag sum) by (apply mag_pos; exact NZ).
    exists (1 / mag sum). split; [apply Rdiv_lt_0_compat; lra|].
    unfold VectorXyAlignmentStructure. fold st. rewrite IX, (front_R pf Hf), (back_R pl Hl). cbn [obind].
    match goal with |- (if ?c then _ else _) = _ => destruct c eqn:C end.
    { exfalso. apply orb_prop in C as [C|C]; rn; rbool; rewrite Hst in C; lra. }
    match goal with |- (if ?c then _ else _) = _ => destruct c eqn:C2 end.
    { exfalso. apply negb_true_iff in C2. assert (W : existsb (fun p : AP => @feqb RNum st (ap_station p)) al = true).
      { apply existsb_exists. exists b. split; [eapply nth_error_In; exact Hb|]. rn. unfold Reqb. destruct Req_EM_T; [reflexivity|contradiction]. }
      congruence. }
    replace (Z.of_nat k + 1)%Z with (Z.of_nat (S k)) by lia. rewrite V1, V2'. cbn [obind v2x v2y]. rn. rewrite mag_R. reflexivity.
Qed.

End S.

Lemma loop_nth : forall (N : Num) (al : list (AlignmentPoint N)) pts structs i id s,
  snd (UpdatePointsXyzLineStructures_loop al pts structs) = Ok tt -> nth_error structs i = Some (id, s) ->
  exists p, PointXyzAlignmentFromStation al pts (ls_station s) = Ok p /\
    nth_error (fst (UpdatePointsXyzLineStructures_loop al pts structs)) i = Some p.
Proof.
  intros N al pts structs. induction structs as [|[id0 s0] rest IH]; intros i id s H Hi; [destruct i; discriminate|].
  simpl in H |- *. destruct (PointXyzAlignmentFromStation al pts (ls_station s0)) as [p0| |] eqn:E; try discriminate.
  destruct (UpdatePointsXyzLineStructures_loop al pts rest) as [ps r] eqn:EL. simpl in H. subst r.
  destruct i as [|i]; simpl in Hi |- *.
  - injection Hi as <- <-. exists p0. split; [exact E|reflexivity].
  - apply (IH i id s eq_refl Hi).
Qed.

Section C.
Context {P : Type}.
Implicit Types l : Line RNum P.

Lemma attach_geom : forall l i (s : LineStructure RNum) k (a b : AP) pts pa pb,
  reachable (N := RNum) tr l -> fresh_line l ->
  nth_error (structures_of l) i = Some s ->
  snd (PointsXyzAlignment l) = Ok (Some pts) ->
  nth_error (tl_alignment l) k = Some a -> nth_error (tl_alignment l) (S k) = Some b ->
  nth_error pts k = Some pa -> nth_error pts (S k) = Some pb ->
  (ap_station a <= ls_station s <= ap_station b)%R ->
  exists base, snd (PointXyzLineStructure l (Z.of_nat i)) = Ok base /\
    between ((ls_station s - ap_station a) / (ap_station b - ap_station a)) pa pb base /\
    forall st j sa dx dy, ls_structure s = Some st -> nth_error (st_attachments st) j = Some sa ->
      direction_at (tl_alignment l) pts (ls_station s) dx dy -> dx <> 0 \/ dy <> 0 ->
      exists q t m phi psi x1 y1,
        snd (PointXyzLineStructureAttachment l (Z.of_nat i) (Z.of_nat j)) = Ok q /\
        (p3z q = p3z base + (ls_height_adjustment s + st_height st + sa_offset_vertical_top sa))%R /\
        0 < m /\ dx = m * cos t /\ dy = m * sin t /\ Rabs (phi - t) <= 1 / 1000000 /\
        rotation_angle (ls_rotation s) psi /\
        turned (sa_offset_longitudinal sa) (- sa_offset_transverse sa) psi x1 y1 /\
        turned x1 (y1 - ls_offset s) phi (p3x q - p3x base) (p3y q - p3y base).
Proof.
  intros l i s k a b pts pa pb HR HF Hs E Ha Hb Hpa Hpb Hst.
  assert (Q := geom_points l pts HR E). subst pts.
  destruct (constr_facts l HR) as [I J].
  assert (H2 : two_points l).
  { unfold two_points. assert (Z : nth_error (tl_alignment l) (S k) <> None) by congruence. apply nth_error_Some in Z. lia. }
  destruct (fresh_answers (N := RNum) tr RNum_ord l H2 I l HF ltac:(repeat split)) as (_ & FS & FA).
  set (pts := PointsAlignment (tl_origin l) (tl_alignment l)) in *.
  assert (HI := I). destruct HI as (I1 & I2 & _).
  assert (LK := structures_loop_ok (N := RNum) tr RNum_ord (tl_alignment l) pts
                 (tl_line_structures l) I1 H2 (PointsAlignment_length _ _) (proj1 I2)).
  unfold structures_of in Hs.
  destruct (nth_error (tl_line_structures l) i) as [[id s']|] eqn:Ei.
  2:{ exfalso. rewrite nth_error_map, Ei in Hs. discriminate. }
  assert (s' = s) by (rewrite nth_error_map, Ei in Hs; simpl in Hs; congruence). subst s'.
  destruct (loop_nth RNum (tl_alignment l) pts (tl_line_structures l) i id s) as (base & EB & NB).
  { exact (proj1 LK). } { exact Ei. }
  destruct (FromStation_between (tl_origin l) (tl_alignment l) k a b pa pb (ls_station s) I1 Ha Hb Hpa Hpb Hst)
    as (p & Ep & B). fold pts in Ep. assert (p = base) by congruence. subst p.
  assert (VI : valid_index (tl_line_structures l) (Z.of_nat i) = true).
  { unfold valid_index. assert (Z : nth_error (tl_line_structures l) i <> None) by congruence. apply nth_error_Some in Z.
    apply andb_true_iff. split; [apply Z.leb_le|apply Z.ltb_lt]; lia. }
  assert (VB : vec_at (struct_points (tl_origin l) (tl_alignment l) (tl_line_structures l)) (Z.of_nat i) = Ok base).
  { unfold vec_at. destruct (Z.ltb_spec (Z.of_nat i) 0); [lia|]. rewrite Nat2Z.id. unfold struct_points. fold pts. rewrite NB. reflexivity. }
  exists base. split; [rewrite FS, VI; exact VB|]. split; [exact B|].
  intros st j sa dx dy Est Esa D NZ.
  destruct (direction_R (tl_origin l) (tl_alignment l) I1 s dx dy D NZ) as (f & Hf & ED). fold pts in ED.
  destruct (Rotate_turned_any (mkVector2d (N := RNum) (sa_offset_longitudinal sa) (- sa_offset_transverse sa)%R) (ls_rotation s))
    as (psi & A & T1). cbn [v2x v2y] in T1.
  set (v1 := @Vector2d_Rotate RNum (mkVector2d (N := RNum) (sa_offset_longitudinal sa) (- sa_offset_transverse sa)%R) (ls_rotation s)) in *.
  set (dv := mkVector2d (N := RNum) dx dy) in *.
  assert (NZ2 : nz (Vector2d_Scale dv f)).
  { apply mag_pos. rewrite mag_scale by exact Hf. apply Rmult_lt_0_compat; [|exact Hf]. apply mag_pos. exact NZ. }
  destruct (Rotate_by_angle (mkVector2d (N := RNum) (v2x v1) (v2y v1 - ls_offset s)%R) (Vector2d_Scale dv f) NZ2)
    as (t & m & phi & Hm & M1 & M2 & Hphi & T2).
  eexists _, t, (m / f), phi, psi, (v2x v1), (v2y v1).
  split.
  { rewrite FA. unfold PointXyzLineStructureAttachment, query, IsUpdated.
    cbn [tl_is_updated_alignment tl_is_updated_structures orb snd].
    unfold IsValidLineStructureIndex. cbn [tl_line_structures]. rewrite VI. cbn [negb].
    unfold next_deref. destruct (Z.ltb_spec (Z.of_nat i) 0); [lia|]. rewrite Nat2Z.id, Ei. cbn [obind snd].
    rewrite Est.
    assert (VJ : valid_index (st_attachments st) (Z.of_nat j) = true).
    { unfold valid_index. assert (Z : nth_error (st_attachments st) j <> None) by congruence. apply nth_error_Some in Z.
      apply andb_true_iff. split; [apply Z.leb_le|apply Z.ltb_lt]; lia. }
    rewrite VJ. cbn [negb].
    assert (VS : vec_at (st_attachments st) (Z.of_nat j) = Ok sa).
    { unfold vec_at. destruct (Z.ltb_spec (Z.of_nat j) 0); [lia|]. rewrite Nat2Z.id, Esa. reflexivity. }
    rewrite VS. cbn [obind tl_alignment tl_points_alignment tl_points_structures]. fold pts. rewrite ED. cbn [obind].
    rewrite VB. cbn [obind]. rn. fold v1. reflexivity. }
  cbn [p3x p3y p3z].
  replace (0 + v2x v1)%R with (v2x v1 : R) by rring.
  replace (0 + (v2y v1 - ls_offset s))%R with (v2y v1 - ls_offset s : R)%R by rring.
  split; [rring|]. split; [apply Rdiv_lt_0_compat; lra|].
  unfold dv, Vector2d_Scale in M1, M2. cbn [v2x v2y] in M1, M2. rn.
  split; [apply Rmult_eq_reg_r with f; [|lra]; rewrite M1; field; lra|].
  split; [apply Rmult_eq_reg_r with f; [|lra]; rewrite M2; field; lra|].
  split; [exact Hphi|]. split; [exact A|]. split; [exact T1|].
  cbn [v2x v2y] in T2.
  unfold turned in T2 |- *. destruct T2 as [T2 T3].
  split; [rewrite <- T2|rewrite <- T3]; rring.
Qed.

End C.

Lemma geometry_case_fact : exists (l : Line RNum unit) pts p0 p1 p2,
  reachable (N := RNum) tr l /\ fresh_line l /\
  tl_alignment l = [gp 10 0 0; gp 20 30 100; gp 15 (-20) 250] /\ structures_of l = [g_ls 40; g_ls 100] /\
  snd (PointsXyzAlignment l) = Ok (Some pts) /\ pts = [p0; p1; p2] /\
  (p3x p0 : R) = 1000 /\ (p3y p0 : R) = 2000 /\ (p3x p1 : R) = 1100 /\ (p3y p1 : R) = 2000 /\ (p3z p1 : R) = 20 /\
  ls_structure (g_ls 100) = Some g_st /\ nth_error (st_attachments g_st) 0 <> None /\
  (exists dx dy, direction_at (tl_alignment l) pts 40 dx dy /\ (dx <> 0 \/ dy <> 0)) /\
  (exists dx dy, direction_at (tl_alignment l) pts 100 dx dy /\ (dx <> 0 \/ dy <> 0)).
Proof.
  destruct g_line as (l & _ & HR & HF & Ea & Eo & Es).
  assert (H2 : (2 <= length (tl_alignment l))%nat) by (rewrite Ea; simpl; lia).
  destruct (geom_total l HR H2) as (pts & Ep & Lp & E0). rewrite Ea in Lp. rewrite Eo in E0.
  destruct pts as [|p0 [|p1 [|p2 [|? ?]]]]; try discriminate. simpl in E0. injection E0 as E0.
  assert (X0 : (p3x p0 : R) = 1000) by (rewrite E0; reflexivity).
  assert (Y0 : (p3y p0 : R) = 2000) by (rewrite E0; reflexivity).
  assert (Z0 : (p3z p0 : R) = 10) by (rewrite E0; reflexivity). clear E0.
  assert (N0 : nth_error (tl_alignment l) 0 = Some (gp 10 0 0)) by (rewrite Ea; reflexivity).
  assert (N1 : nth_error (tl_alignment l) 1 = Some (gp 20 30 100)) by (rewrite Ea; reflexivity).
  assert (N2 : nth_error (tl_alignment l) 2 = Some (gp 15 (-20) 250)) by (rewrite Ea; reflexivity).
  destruct (geom_bearing l _ 0 _ _ p0 p1 HR Ep N0 N1 eq_refl eq_refl) as (phi & ux & uy & A & (-> & ->) & T).
  destruct (geom_steps l _ 0 _ _ p0 p1 HR Ep N0 N1 eq_refl eq_refl) as [_ DZ].
  destruct (geom_bearing l _ 1 _ _ p1 p2 HR Ep N1 N2 eq_refl eq_refl) as (phi2 & vx & vy & A2 & (z & pz & Nz & Npz & V1 & V2) & T2).
  rewrite N0 in Nz. injection Nz as <-. simpl in Npz. injection Npz as <-.
  unfold gp in *. cbn [ap_station ap_rotation ap_elevation] in *.
  assert (Hphi : phi = 0).
  { destruct A as [[_ A]|[A _]]; [exact A|]. rewrite Rabs_R0 in A. lra. }
  subst phi. unfold turned in T. rewrite cos_0, sin_0 in T. destruct T as [TX TY].
  assert (X1 : (p3x p1 : R) = 1100) by lra. assert (Y1 : (p3y p1 : R) = 2000) by lra.
  assert (Z1 : (p3z p1 : R) = 20) by lra.
  assert (W1 : vx = 1) by lra. assert (W2 : vy = 0) by lra. subst vx vy.
  destruct T2 as [T2 T3].
  assert (C : 0 < cos phi2).
  { destruct A2 as [[A2 _]|[_ A2]]; [rewrite Rabs_pos_eq in A2 by lra; lra|].
    unfold about_degrees in A2. rewrite (Rabs_pos_eq 30) in A2 by lra. apply Rabs_both in A2.
    assert (PK := PI_K). unfold K in PK. apply cos_gt_0; lra. }
  assert (D0 : segment_direction (tl_alignment l) [p0; p1; p2] 0 1 0).
  { eexists _, _, p0, p1. split; [exact N0|]. split; [exact N1|]. split; [reflexivity|]. split; [reflexivity|].
    cbn [ap_station]. split; lra. }
  assert (D1 : segment_direction (tl_alignment l) [p0; p1; p2] 1 (cos phi2) (sin phi2)).
  { eexists _, _, p1, p2. split; [exact N1|]. split; [exact N2|]. split; [reflexivity|]. split; [reflexivity|].
    cbn [ap_station]. split; lra. }
  exists l, [p0; p1; p2], p0, p1, p2.
  split; [exact HR|]. split; [exact HF|]. split; [exact Ea|]. split; [exact Es|]. split; [exact Ep|].
  split; [reflexivity|]. split; [exact X0|]. split; [exact Y0|]. split; [exact X1|]. split; [exact Y1|].
  split; [exact Z1|]. split; [reflexivity|]. split; [discriminate|]. split.
  - exists 1, 0. split; [|left; lra].
    eapply direction_segment; [exact N0|exact N1| |exact D0]. left. cbn [ap_station]. lra.
  - exists (1 + cos phi2), (0 + sin phi2). split; [|left; lra].
    eapply direction_bisector; [exact N1| |reflexivity|exact D0|exact D1]. rewrite Ea. simpl. lia.
Qed.
