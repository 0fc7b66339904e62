(** Coordinates of the alignment in exact real arithmetic. *)
From Coq Require Import ZArith Bool List Reals Lra Lia Psatz Sorted.
From Verif Require Import Num NumFacts ModelBase ModelAlignment ModelLine SpecLine SpecTransmission
  ListFacts ProofAlignment ProofLine ProofLineInv ProofLineCoord ProofLineSafe ProofReal SpecVector ProofVector.
Import ListNotations.
Open Scope R_scope.

Notation V2 := (Vector2d RNum).
Notation P3 := (Point3d RNum).
Notation AP := (AlignmentPoint RNum).
Definition vxy (p q : P3) : V2 := mkVector2d (N := RNum) (p3x q - p3x p) (p3y q - p3y p).

(** The vector from one point to the next. *)
Definition seg (v : V2) (rot d : R) : V2 :=
  Vector2d_Scale (@Vector2d_Rotate RNum v rot) (d / mag (@Vector2d_Rotate RNum v rot)).

Lemma seg_mag : forall v rot d, nz v -> 0 <= d -> mag (seg v rot d) = d.
Proof.
  intros v rot d H Hd. unfold seg. rewrite scale_mag, Rotate_mag.
  apply mag_pos in H. rewrite Rabs_pos_eq by (apply Rmult_le_pos; [lra|left; apply Rinv_0_lt_compat; lra]).
  field. lra.
Qed.

Lemma seg_nz : forall v rot d, nz v -> 0 < d -> nz (seg v rot d).
Proof. intros v rot d H Hd. apply mag_pos. rewrite seg_mag; lra || assumption. Qed.

Lemma mag_scale : forall (v : V2) (k : R), 0 < k -> mag (Vector2d_Scale v k) = mag v * k.
Proof. intros v k Hk. rewrite scale_mag, Rabs_pos_eq; lra. Qed.

(** Only the direction of the vector matters. *)
Lemma seg_scale : forall v (k : R) rot d, nz v -> 0 < k -> seg (Vector2d_Scale v k) rot d = seg v rot d.
Proof.
  intros v k rot d H Hk. unfold seg. rewrite Rotate_scale by assumption.
  rewrite mag_scale by assumption. set (w := @Vector2d_Rotate RNum v rot).
  assert (Hw : 0 < mag w) by (unfold w; rewrite Rotate_mag; apply mag_pos; exact H).
  unfold Vector2d_Scale. cbn [v2x v2y]. rn. f_equal; rfield; lra.
Qed.

(** The length of a segment is a factor. *)
Lemma seg_factor : forall v rot d t, nz v -> seg v rot (d * t) = Vector2d_Scale (seg v rot d) t.
Proof.
  intros v rot d t H. unfold seg. set (w := @Vector2d_Rotate RNum v rot).
  assert (Hw : 0 < mag w) by (unfold w; rewrite Rotate_mag; apply mag_pos; exact H).
  unfold Vector2d_Scale. cbn [v2x v2y]. rn. f_equal; rfield; lra.
Qed.

Lemma FromVector_R : forall (p : P3) (d e rot : R) (v : V2),
  @PointXyzAlignmentFromVector RNum p d e rot v =
  (mkPoint3d (N := RNum) (p3x p + v2x (seg v rot d)) (p3y p + v2y (seg v rot d)) (p3z p + e), seg v rot d).
Proof.
  intros p d e rot v. unfold PointXyzAlignmentFromVector. rewrite mag_R. reflexivity.
Qed.

(** One step of the coordinates, for a loop that starts with any vector. *)
Definition step_ok (a b : AP) (pa pb : P3) (v : V2) : Prop :=
  nz v /\ vxy pa pb = seg v (ap_rotation a) (ap_station b - ap_station a) /\
  (p3z pb - p3z pa : R) = ap_elevation b - ap_elevation a.

Lemma loop_steps : forall (rest : list AP) a p v, nz v ->
  StronglySorted (lt (N := RNum)) (map ap_station (a :: rest)) ->
  forall i x y px py,
    nth_error (a :: rest) i = Some x -> nth_error (a :: rest) (S i) = Some y ->
    nth_error (p :: @UpdatePointsXyzAlignment_loop RNum a p v rest) i = Some px ->
    nth_error (p :: @UpdatePointsXyzAlignment_loop RNum a p v rest) (S i) = Some py ->
    (i = 0%nat -> step_ok x y px py v) /\
    (forall j pj, i = S j -> nth_error (p :: @UpdatePointsXyzAlignment_loop RNum a p v rest) j = Some pj ->
       step_ok x y px py (vxy pj px)).
Proof.
  induction rest as [|b rest IH]; intros a p v Hv HS i x y px py Hx Hy Hpx Hpy.
  - destruct i; simpl in Hy; [discriminate|destruct i; discriminate].
  - cbn [map] in HS. apply StronglySorted_inv in HS as [HS Ha].
    assert (Hd : 0 < ap_station b - ap_station a).
    { inversion Ha; subst. unfold lt in *. rn. rbool. lra. }
    cbn [UpdatePointsXyzAlignment_loop] in *. rn. rewrite FromVector_R in *.
    set (d := (ap_station b - ap_station a)%R) in *.
    set (w := seg v (ap_rotation a) d) in *.
    set (pb := mkPoint3d (N := RNum) (p3x p + v2x w) (p3y p + v2y w) (p3z p + (ap_elevation b - ap_elevation a))) in *.
    assert (Hw : nz w) by (apply seg_nz; assumption).
    assert (E : vxy p pb = w).
    { unfold vxy, pb. cbn [p3x p3y]. destruct w as [wx wy]. cbn [v2x v2y]. f_equal; rring. }
    destruct i as [|i].
    + simpl in Hx, Hy, Hpx, Hpy. injection Hx as <-. injection Hy as <-. injection Hpx as <-. injection Hpy as <-.
      split; [|intros j pj Hj; discriminate]. intros _. split; [exact Hv|]. split; [exact E|].
      unfold pb. cbn [p3z]. rring.
    + split; [discriminate|]. intros j pj Hj Hpj. injection Hj as <-.
      assert (HS' : StronglySorted (lt (N := RNum)) (map ap_station (b :: rest))) by exact HS.
      destruct (IH b pb w Hw HS' i x y px py Hx Hy Hpx Hpy) as [I1 I2].
      destruct i as [|i].
      * simpl in Hpj. injection Hpj as <-. simpl in Hpx. injection Hpx as <-. rewrite E. apply I1. reflexivity.
      * apply (I2 i pj eq_refl). exact Hpj.
Qed.

Definition v10 : V2 := mkVector2d (N := RNum) 1 0.
Lemma v10_nz : nz v10. Proof. left. cbn. lra. Qed.
Lemma v10_lit : mkVector2d (N := RNum) (@fofZ RNum 1) (@fofZ RNum 0) = v10.
Proof. rewrite !Rlit0. reflexivity. Qed.

Definition tr : R -> Prop := fun _ => True.

Lemma points_steps : forall (o : P3) (al : list AP), sorted_pts (N := RNum) tr al ->
  forall i x y px py,
    nth_error al i = Some x -> nth_error al (S i) = Some y ->
    nth_error (@PointsAlignment RNum o al) i = Some px -> nth_error (@PointsAlignment RNum o al) (S i) = Some py ->
    (i = 0%nat -> step_ok x y px py v10) /\
    (forall j pj, i = S j -> nth_error (@PointsAlignment RNum o al) j = Some pj -> step_ok x y px py (vxy pj px)).
Proof.
  intros o al [_ HS] i x y px py Hx Hy Hpx Hpy. destruct al as [|a rest]; [destruct i; discriminate|].
  unfold PointsAlignment in *. rewrite v10_lit in *.
  exact (loop_steps rest a o v10 v10_nz HS i x y px py Hx Hy Hpx Hpy).
Qed.

Lemma step_dist : forall a b pa pb v, step_ok a b pa pb v -> (ap_station a < ap_station b)%R ->
  sqrt ((p3x pb - p3x pa) * (p3x pb - p3x pa) + (p3y pb - p3y pa) * (p3y pb - p3y pa)) = ap_station b - ap_station a.
Proof.
  intros a b pa pb v (Hv & E & _) H. change (mag (vxy pa pb) = (ap_station b - ap_station a)%R). rewrite E. apply seg_mag; [exact Hv|lra].
Qed.

Lemma sorted_adj : forall (al : list AP) i x y, sorted_pts (N := RNum) tr al ->
  nth_error al i = Some x -> nth_error al (S i) = Some y -> (ap_station x < ap_station y)%R.
Proof.
  intros al i x y [_ HS] Hx Hy.
  revert i Hx Hy. induction al as [|a al IH]; intros i Hx Hy; [destruct i; discriminate|].
  cbn [map] in HS. apply StronglySorted_inv in HS as [HS Ha].
  destruct i as [|i].
  - simpl in Hx. change (nth_error al 0 = Some y) in Hy. injection Hx as <-. rewrite Forall_forall in Ha.
    assert (K := Ha (ap_station y) ltac:(apply in_map; eapply nth_error_In; exact Hy)).
    unfold lt in K. rn. rbool. exact K.
  - apply (IH HS i Hx Hy).
Qed.

(** The point of a station inside a segment. *)
Definition between (t : R) (p q r : P3) : Prop :=
  (p3x r = p3x p + t * (p3x q - p3x p))%R /\ (p3y r = p3y p + t * (p3y q - p3y p))%R /\
  (p3z r = p3z p + t * (p3z q - p3z p))%R.

Lemma between_0 : forall p q, between 0 p q p.
Proof. intros p q. unfold between. repeat split; rring. Qed.
Lemma between_1 : forall p q, between 1 p q q.
Proof. intros p q. unfold between. repeat split; rring. Qed.

Lemma step_between : forall a b pa pb v (s : R), step_ok a b pa pb v -> (ap_station a < ap_station b)%R ->
  between ((s - ap_station a) / (ap_station b - ap_station a)) pa pb
    (fst (@PointXyzAlignmentFromVector RNum pa (s - ap_station a)%R
       ((ap_elevation b - ap_elevation a) / (ap_station b - ap_station a) * (s - ap_station a))%R (ap_rotation a) v)).
Proof.
  intros a b pa pb v s (Hv & E & Ez) H. rewrite FromVector_R. cbn [fst].
  set (d := (ap_station b - ap_station a)%R) in *. assert (Hd : d <> 0) by (unfold d; lra).
  set (t := ((s - ap_station a) / d)%R).
  replace (s - ap_station a)%R with (d * t)%R by (unfold t; rfield; assumption).
  rewrite seg_factor by assumption. rewrite <- E.
  unfold between, Vector2d_Scale, vxy. cbn [p3x p3y p3z v2x v2y]. rn.
  assert (Ez' : (ap_elevation b - ap_elevation a)%R = (p3z pb - p3z pa)%R) by (symmetry; exact Ez).
  rewrite Ez'. repeat split; try rring. rfield. assumption.
Qed.

Lemma nth_sorted_unique : forall (al : list AP) i j x y, sorted_pts (N := RNum) tr al ->
  nth_error al i = Some x -> nth_error al j = Some y -> (ap_station x < ap_station y)%R -> (i < j)%nat.
Proof.
  intros al i j x y HS Hx Hy H.
  destruct (Nat.lt_trichotomy i j) as [L|[L|L]]; [exact L| |]; exfalso.
  - subst j. rewrite Hx in Hy. injection Hy as <-. lra.
  - assert (G : forall n m u w, (n < m)%nat -> nth_error al n = Some u -> nth_error al m = Some w ->
              (ap_station u < ap_station w)%R).
    { intros n m u w Hnm Hu. revert w. induction Hnm as [|m Hnm IH]; intros w Hw.
      - apply (sorted_adj al n u w HS Hu Hw).
      - assert (Lm : (m < length al)%nat) by (assert (K : nth_error al (S m) <> None) by congruence; apply nth_error_Some in K; lia).
        destruct (nth_error_exists _ al m Lm) as [z Hz]. specialize (IH z Hz).
        assert (K := sorted_adj al m z w HS Hz Hw). lra. }
    assert (K := G j i y x L Hy Hx). lra.
Qed.

Lemma FromStation_between : forall (o : P3) (al : list AP) i a b pa pb (s : R),
  sorted_pts (N := RNum) tr al ->
  nth_error al i = Some a -> nth_error al (S i) = Some b ->
  nth_error (@PointsAlignment RNum o al) i = Some pa -> nth_error (@PointsAlignment RNum o al) (S i) = Some pb ->
  (ap_station a <= s <= ap_station b)%R ->
  exists p, @PointXyzAlignmentFromStation RNum al (@PointsAlignment RNum o al) s = Ok p /\
    between ((s - ap_station a) / (ap_station b - ap_station a)) pa pb p.
Proof.
  intros o al i a b pa pb s HS Ha Hb Hpa Hpb Hs.
  assert (Hab := sorted_adj al i a b HS Ha Hb).
  assert (Lb : (S i < length al)%nat) by (apply nth_error_Some; congruence).
  destruct (nth_error_exists _ al 0) as [pf Hf]; [lia|].
  destruct (nth_error_exists _ al (length al - 1)) as [pl Hl]; [lia|].
  destruct (IndexSegment_spec (N := RNum) tr RNum_ord al s pf pl HS I ltac:(lia) Hf Hl) as (k & E & E1 & K).
  assert (Hfa : (ap_station pf <= ap_station a)%R).
  { destruct i; [rewrite Ha in Hf; injection Hf as <-; lra|].
    destruct (Rle_dec (ap_station pf) (ap_station a)) as [q|q]; [exact q|].
    assert (Q := nth_sorted_unique al (S i) 0 a pf HS Ha Hf ltac:(lra)). lia. }
  assert (Hlb : (ap_station b <= ap_station pl)%R).
  { destruct (Rle_dec (ap_station b) (ap_station pl)) as [q|q]; [exact q|].
    assert (Q := nth_sorted_unique al _ (S i) pl b HS Hl Hb ltac:(lra)). lia. }
  assert (Hk : k <> (-1)%Z).
  { intro Q. apply E1 in Q. rn. destruct Q; rbool; lra. }
  destruct (K Hk) as (Hr & a' & b' & Ha' & Hb' & Hsb & Hsa).
  assert (LP := PointsAlignment_length o al).
  unfold PointXyzAlignmentFromStation. rewrite E. cbn [obind].
  destruct (Z.eqb_spec k (-1)) as [Q|_]; [contradiction|].
  set (n := Z.to_nat k) in *. replace (n + 1)%nat with (S n) in Hb' by lia.
  assert (Hab' := sorted_adj al n a' b' HS Ha' Hb').
  rn. apply Rleb_true in Hsb.
  assert (Hsa' : (ap_station a' < s)%R \/ (n = 0%nat /\ (s = ap_station a')%R)).
  { destruct Hsa as [Q|[Q1 Q2]]; rbool; [left; exact Q|]. right. split; [unfold n; lia|].
    assert (Z0 : n = 0%nat) by (unfold n; lia). rewrite Z0 in Ha'. rewrite Hf in Ha'. injection Ha' as <-. exact Q2. }
  (* which segment was found *)
  assert (Which : n = i \/ (S n = i /\ (s = ap_station a)%R)).
  { destruct (Nat.lt_trichotomy n i) as [L|[L|L]]; [|left; exact L|].
    - assert (Hba : (ap_station b' <= ap_station a)%R).
      { destruct (Rle_dec (ap_station b') (ap_station a)) as [q|q]; [exact q|].
        assert (Q := nth_sorted_unique al i (S n) a b' HS Ha Hb' ltac:(lra)). lia. }
      right. assert (Es : (s = ap_station a)%R) by lra. split; [|exact Es].
      destruct (Nat.eq_dec (S n) i) as [q|q]; [exact q|exfalso].
      assert (Q : (S n < i)%nat) by lia.
      destruct (Rlt_dec (ap_station b') (ap_station a)) as [r|r]; [lra|].
      assert (W : (ap_station b' < ap_station a)%R); [|lra].
      destruct (nth_error_exists _ al (S (S n))) as [c Hc]; [lia|].
      assert (W1 := sorted_adj al (S n) b' c HS Hb' Hc).
      destruct (Rle_dec (ap_station c) (ap_station a)) as [z|z]; [lra|].
      assert (W2 := nth_sorted_unique al i (S (S n)) a c HS Ha Hc ltac:(lra)). lia.
    - exfalso. assert (Hba : (ap_station b <= ap_station a')%R).
      { destruct (Rle_dec (ap_station b) (ap_station a')) as [q|q]; [exact q|].
        assert (Q := nth_sorted_unique al n (S i) a' b HS Ha' Hb ltac:(lra)). lia. }
      destruct Hsa' as [Q|[Q _]]; [lra|lia]. }
  assert (Ek : k = Z.of_nat n) by (unfold n; lia).
  assert (VA : forall m q, nth_error (@PointsAlignment RNum o al) m = Some q ->
            vec_at (@PointsAlignment RNum o al) (Z.of_nat m) = Ok q).
  { intros m q Hq. unfold vec_at. destruct (Z.ltb_spec (Z.of_nat m) 0); [lia|]. rewrite Nat2Z.id, Hq. reflexivity. }
  assert (ND : forall m q, nth_error al m = Some q -> next_deref al (Z.of_nat m) = Ok q).
  { intros m q Hq. unfold next_deref. destruct (Z.ltb_spec (Z.of_nat m) 0); [lia|]. rewrite Nat2Z.id, Hq. reflexivity. }
  destruct (nth_error_exists _ (@PointsAlignment RNum o al) n) as [qa Hqa]; [lia|].
  destruct (nth_error_exists _ (@PointsAlignment RNum o al) (S n)) as [qb Hqb]; [lia|].
  rewrite Ek. replace (Z.of_nat n + 1)%Z with (Z.of_nat (S n)) by lia.
  rewrite (VA n qa Hqa), (VA (S n) qb Hqb), (ND n a' Ha'). cbn [obind].
  destruct (points_steps o al HS n a' b' qa qb Ha' Hb' Hqa Hqb) as [S0 SS].
  destruct Which as [W|[W1 W2]].
  - (* the segment itself *)
    assert (a' = a /\ b' = b /\ qa = pa /\ qb = pb) as (-> & -> & -> & ->).
    { rewrite W in *. repeat split; congruence. }
    unfold Reqb at 1. destruct (Req_EM_T s (ap_station a)) as [Es|Es].
    { exists pa. split; [reflexivity|]. rewrite Es. replace ((ap_station a - ap_station a) / (ap_station b - ap_station a))%R with 0%R by (rfield; lra).
      apply between_0. }
    rewrite (ND (S n) b Hb'). cbn [obind].
    unfold Reqb at 1. destruct (Req_EM_T s (ap_station b)) as [Eb|Eb].
    { exists pb. split; [reflexivity|]. rewrite Eb.
      replace ((ap_station b - ap_station a) / (ap_station b - ap_station a))%R with 1%R by (rfield; lra). apply between_1. }
    destruct (Z.eqb_spec (Z.of_nat n) 0) as [Zn|Zn].
    + cbn [obind]. change (mkVector2d (N := RNum) 1 0) with v10. eexists. split; [reflexivity|].
      apply step_between; [apply S0; lia|exact Hab].
    + destruct n as [|m]; [lia|].
      destruct (nth_error_exists _ (@PointsAlignment RNum o al) m) as [qm Hqm]; [lia|].
      unfold VectorXyAlignmentSegment. replace (Z.of_nat (S m) - 1)%Z with (Z.of_nat m) by lia.
      replace (Z.of_nat m + 1)%Z with (Z.of_nat (S m)) by lia.
      rewrite (VA m qm Hqm), (VA (S m) pa Hqa). cbn [obind].
      assert (St := SS m qm eq_refl Hqm). assert (Hv := proj1 St).
      rn. rewrite mag_R. change (mkVector2d (N := RNum) (p3x pa - p3x qm) (p3y pa - p3y qm)) with (vxy qm pa).
      set (v := vxy qm pa) in *. assert (Hm : 0 < mag v) by (apply mag_pos; exact Hv).
      eexists. split; [reflexivity|].
      assert (SC : forall d e rot, @PointXyzAlignmentFromVector RNum pa d e rot (Vector2d_Scale v (1 / mag v)) =
                             @PointXyzAlignmentFromVector RNum pa d e rot v).
      { intros d e rot. rewrite !FromVector_R, seg_scale; [reflexivity|exact Hv|]. apply Rdiv_lt_0_compat; lra. }
      rewrite SC. apply step_between; [exact St|exact Hab].
  - (* the station of a, found as the end of the segment before *)
    assert (b' = a /\ qb = pa) as [-> ->] by (rewrite W1 in *; split; congruence).
    unfold Reqb at 1. destruct (Req_EM_T s (ap_station a')) as [Es|Es]; [lra|].
    rewrite (ND (S n) a Hb'). cbn [obind].
    unfold Reqb at 1. destruct (Req_EM_T s (ap_station a)) as [Eb|Eb]; [|lra].
    exists pa. split; [reflexivity|]. rewrite Eb.
    replace ((ap_station a - ap_station a) / (ap_station b - ap_station a))%R with 0%R by (rfield; lra). apply between_0.
Qed.

Lemma query_two : forall P A (l : Line RNum P) (f : A) k, Inv (N := RNum) tr l -> Inv2 l -> two_points l ->
  exists l', query l f k = (l', k l') /\ tl_alignment l' = tl_alignment l /\ tl_origin l' = tl_origin l /\
    tl_points_alignment l' = PointsAlignment (tl_origin l) (tl_alignment l).
Proof.
  intros P A l f k (I1 & I2 & _) (J1 & J2 & _) H2. unfold query, IsUpdated.
  destruct (tl_is_updated_alignment l) eqn:Ea.
  - exists l. simpl. repeat split. apply J2. reflexivity.
  - destruct (tl_is_updated_structures l) eqn:Es; [specialize (J1 eq_refl); congruence|].
    simpl. unfold Update. rewrite Ea. cbn -[UpdatePointsXyzLineStructures_loop]. rewrite Es.
    assert (K := structures_loop_ok (N := RNum) tr RNum_ord (tl_alignment l) (PointsAlignment (tl_origin l) (tl_alignment l))
                 (tl_line_structures l) I1 H2 (PointsAlignment_length _ _) (proj1 I2)).
    destruct (UpdatePointsXyzLineStructures_loop _ _ _) as [ps rr]. simpl in K. destruct K as [-> _].
    eexists. split; [reflexivity|]. repeat split.
Qed.

Section C.
Context {P : Type}.
Implicit Types l : Line RNum P.

Lemma constr_facts : forall l, reachable (N := RNum) tr l -> Inv (N := RNum) tr l /\ Inv2 l.
Proof.
  intros l (calls & HF & H). split.
  - exact (@run_Inv RNum tr RNum_ord P calls l HF H).
  - exact (@run_Inv2 RNum P calls l H).
Qed.

Lemma geom_total : forall l, reachable (N := RNum) tr l -> (2 <= length (tl_alignment l))%nat ->
  exists pts, snd (PointsXyzAlignment l) = Ok (Some pts) /\ length pts = length (tl_alignment l) /\
    nth_error pts 0 = Some (tl_origin l).
Proof.
  intros l H H2. destruct (constr_facts l H) as [I J].
  unfold PointsXyzAlignment.
  match goal with |- context [query l ?f ?k] => destruct (query_two P _ l f k I J H2) as (l' & E & _ & _ & Ep) end.
  rewrite E. cbn [snd]. eexists. split; [reflexivity|]. rewrite Ep. split; [apply PointsAlignment_length|].
  destruct (tl_alignment l); [simpl in H2; lia|reflexivity].
Qed.

Lemma geom_points : forall l pts, reachable (N := RNum) tr l ->
  snd (PointsXyzAlignment l) = Ok (Some pts) -> pts = PointsAlignment (tl_origin l) (tl_alignment l).
Proof.
  intros l pts H E. destruct (constr_facts l H) as [I J].
  assert (K := alignment_points_current l (Some pts) J E). congruence.
Qed.

Lemma geom_steps : forall l pts i (a b : AlignmentPoint RNum) pa pb, reachable (N := RNum) tr l ->
  snd (PointsXyzAlignment l) = Ok (Some pts) ->
  nth_error (tl_alignment l) i = Some a -> nth_error (tl_alignment l) (S i) = Some b ->
  nth_error pts i = Some pa -> nth_error pts (S i) = Some pb ->
  sqrt ((p3x pb - p3x pa) * (p3x pb - p3x pa) + (p3y pb - p3y pa) * (p3y pb - p3y pa))%R =
    (ap_station b - ap_station a)%R /\
  (p3z pb - p3z pa)%R = (ap_elevation b - ap_elevation a)%R.
Proof.
  intros l pts i a b pa pb H E Ha Hb Hpa Hpb. assert (Q := geom_points l pts H E). subst pts.
  destruct (constr_facts l H) as [(I1 & _) _].
  destruct (points_steps (tl_origin l) (tl_alignment l) I1 i a b pa pb Ha Hb Hpa Hpb) as [S0 SS].
  assert (Hab := sorted_adj _ i a b I1 Ha Hb).
  assert (S : exists v, step_ok a b pa pb v).
  { destruct i as [|j]; [exists v10; apply S0; reflexivity|].
    destruct (nth_error_exists _ (PointsAlignment (tl_origin l) (tl_alignment l)) j) as [pj Hpj].
    { assert (K : nth_error (PointsAlignment (tl_origin l) (tl_alignment l)) (S j) <> None) by congruence.
      apply nth_error_Some in K. lia. }
    exists (vxy pj pa). apply (SS j pj eq_refl Hpj). }
  destruct S as [v S]. split; [apply (step_dist a b pa pb v S Hab)|exact (proj2 (proj2 S))].
Qed.

(** The vector of a segment is the previous one turned by the rotation, with the
    length of the segment. *)
Lemma seg_turned : forall v (rot d : R), nz v -> 0 < d ->
  exists phi, rotation_angle rot phi /\
    turned (v2x v * (d / mag v)) (v2y v * (d / mag v)) phi (v2x (seg v rot d)) (v2y (seg v rot d)).
Proof.
  intros v rot d H Hd. unfold seg. rewrite Rotate_mag. unfold Vector2d_Scale. cbn [v2x v2y]. rn.
  set (k := d / mag v).
  destruct (Rlt_dec (Rabs rot) (5 / 100000)) as [S|S].
  - exists 0. split; [left; split; [exact S|reflexivity]|]. rewrite Rotate_small by exact S. apply turned_0.
  - destruct (Rotate_turned v rot ltac:(lra)) as (phi & A & T1 & T2). exists phi. split; [right; split; [lra|exact A]|].
    unfold turned. rewrite T1, T2. split; rring.
Qed.

Lemma geom_bearing : forall l pts i (a b : AlignmentPoint RNum) pa pb, reachable (N := RNum) tr l ->
  snd (PointsXyzAlignment l) = Ok (Some pts) ->
  nth_error (tl_alignment l) i = Some a -> nth_error (tl_alignment l) (S i) = Some b ->
  nth_error pts i = Some pa -> nth_error pts (S i) = Some pb ->
  exists phi ux uy, rotation_angle (ap_rotation a) phi /\
    match i with
    | O => ux = 1%R /\ uy = 0%R
    | S j => exists z pz, nth_error (tl_alignment l) j = Some z /\ nth_error pts j = Some pz /\
        (ux * (ap_station a - ap_station z) = p3x pa - p3x pz)%R /\
        (uy * (ap_station a - ap_station z) = p3y pa - p3y pz)%R
    end /\
    turned (ux * (ap_station b - ap_station a)) (uy * (ap_station b - ap_station a)) phi
      (p3x pb - p3x pa) (p3y pb - p3y pa).
Proof.
  intros l pts i a b pa pb H E Ha Hb Hpa Hpb. assert (Q := geom_points l pts H E).
  destruct (constr_facts l H) as [(I1 & _) _].
  assert (Hab := sorted_adj _ i a b I1 Ha Hb).
  destruct i as [|j].
  - subst pts. destruct (points_steps (tl_origin l) (tl_alignment l) I1 0 a b pa pb Ha Hb Hpa Hpb) as [S0 _].
    destruct (S0 eq_refl) as (Hv & Es & _).
    destruct (seg_turned v10 (ap_rotation a) (ap_station b - ap_station a) Hv ltac:(lra)) as (phi & A & T).
    rewrite <- Es in T. exists phi, 1%R, 0%R. split; [exact A|]. split; [split; reflexivity|].
    unfold vxy, v10 in T. cbn [v2x v2y] in T. unfold mag in T. cbn [v2x v2y] in T.
    replace (1 * 1 + 0 * 0)%R with 1%R in T by ring. rewrite sqrt_1 in T.
    replace ((ap_station b - ap_station a) / 1)%R with (ap_station b - ap_station a)%R in T by (unfold Rdiv; rewrite Rinv_1; rring).
    exact T.
  - destruct (nth_error_exists _ pts j) as [pz Hpz].
    { assert (K : nth_error pts (S j) <> None) by congruence. apply nth_error_Some in K. lia. }
    destruct (nth_error_exists _ (tl_alignment l) j) as [z Hz].
    { assert (K : nth_error (tl_alignment l) (S j) <> None) by congruence. apply nth_error_Some in K. lia. }
    assert (Hza := sorted_adj _ j z a I1 Hz Ha).
    destruct (geom_steps l pts j z a pz pa H E Hz Ha Hpz Hpa) as [D _].
    subst pts. destruct (points_steps (tl_origin l) (tl_alignment l) I1 (S j) a b pa pb Ha Hb Hpa Hpb) as [_ SS].
    destruct (SS j pz eq_refl Hpz) as (Hv & Es & _).
    destruct (seg_turned (vxy pz pa) (ap_rotation a) (ap_station b - ap_station a) Hv ltac:(lra)) as (phi & A & T).
    rewrite <- Es in T. change (mag (vxy pz pa) = (ap_station a - ap_station z)%R) in D. rewrite D in T.
    exists phi, ((p3x pa - p3x pz) / (ap_station a - ap_station z))%R, ((p3y pa - p3y pz) / (ap_station a - ap_station z))%R.
    split; [exact A|]. split.
    + exists z, pz. split; [exact Hz|]. split; [exact Hpz|]. split; rfield; lra.
    + unfold vxy in T. cbn [v2x v2y] in T.
      replace ((p3x pa - p3x pz) / (ap_station a - ap_station z) * (ap_station b - ap_station a))%R
        with ((p3x pa - p3x pz) * ((ap_station b - ap_station a) / (ap_station a - ap_station z)))%R by (rfield; lra).
      replace ((p3y pa - p3y pz) / (ap_station a - ap_station z) * (ap_station b - ap_station a))%R
        with ((p3y pa - p3y pz) * ((ap_station b - ap_station a) / (ap_station a - ap_station z)))%R by (rfield; lra).
      exact T.
Qed.

Lemma geom_station : forall l pts i (a b : AlignmentPoint RNum) pa pb (s : R), reachable (N := RNum) tr l ->
  snd (PointsXyzAlignment l) = Ok (Some pts) ->
  nth_error (tl_alignment l) i = Some a -> nth_error (tl_alignment l) (S i) = Some b ->
  nth_error pts i = Some pa -> nth_error pts (S i) = Some pb ->
  (ap_station a <= s <= ap_station b)%R ->
  exists p, snd (PointXyzAlignment (N := RNum) l s) = Ok p /\
    (let t := ((s - ap_station a) / (ap_station b - ap_station a))%R in
     p3x p = p3x pa + t * (p3x pb - p3x pa) /\ p3y p = p3y pa + t * (p3y pb - p3y pa) /\
     p3z p = p3z pa + t * (p3z pb - p3z pa))%R.
Proof.
  intros l pts i a b pa pb s H E Ha Hb Hpa Hpb Hs. assert (Q := geom_points l pts H E). subst pts.
  destruct (constr_facts l H) as [I J].
  assert (H2 : two_points l).
  { unfold two_points. assert (K : nth_error (tl_alignment l) (S i) <> None) by congruence. apply nth_error_Some in K. lia. }
  destruct (FromStation_between (tl_origin l) (tl_alignment l) i a b pa pb s (proj1 I) Ha Hb Hpa Hpb Hs) as (p & Ep & B).
  exists p. split; [|exact B]. unfold PointXyzAlignment.
  match goal with |- context [query l ?f ?k] => destruct (query_two P _ l f k I J H2) as (l' & Eq & Ea & Eo & Epp) end.
  rewrite Eq. cbn [snd]. rewrite Ea, Epp. exact Ep.
Qed.

End C.

(** ** A concrete line *)
Definition gp (e r s : Z) : AP := mkAP (N := RNum) (IZR e) (IZR r) (IZR s).
Definition g_st : Structure RNum := mkStructure (N := RNum) [mkAttachment (N := RNum) 1 12 (-5)] 80.
Definition g_ls (s : Z) : LineStructure RNum := mkLS (N := RNum) [None] 2 3 15 (IZR s) (Some g_st).
Definition g_calls : list (LineCall RNum unit) :=
  [CAddAlignmentPoint (gp 20 30 100); CAddAlignmentPoint (gp 10 0 0); CAddAlignmentPoint (gp 15 (-20) 250);
   CSetOrigin (mkPoint3d (N := RNum) 1000 2000 10);
   CAddLineStructure (g_ls 100); CAddLineStructure (g_ls 40)].

Lemma Rltb_Z : forall a b, Rltb (IZR a) (IZR b) = (a <? b)%Z.
Proof.
  intros a b. unfold Rltb. destruct Rlt_dec as [r|r], (Z.ltb_spec a b); try reflexivity.
  - apply lt_IZR in r. lia.
  - exfalso. apply r. apply IZR_lt. assumption.
Qed.
Lemma Reqb_Z : forall a b, Reqb (IZR a) (IZR b) = (a =? b)%Z.
Proof.
  intros a b. unfold Reqb. destruct Req_EM_T as [r|r], (Z.eqb_spec a b); try reflexivity.
  - apply eq_IZR in r. lia.
  - exfalso. apply r. subst. reflexivity.
Qed.
Lemma Rleb_Z : forall a b, Rleb (IZR a) (IZR b) = (a <=? b)%Z.
Proof.
  intros a b. unfold Rleb. destruct Rle_dec as [r|r], (Z.leb_spec a b); try reflexivity.
  - apply le_IZR in r. lia.
  - exfalso. apply r. apply IZR_le. assumption.
Qed.

Lemma g_line : exists l, line_run g_calls = Some l /\ reachable (N := RNum) tr l /\ fresh_line l /\
  tl_alignment l = [gp 10 0 0; gp 20 30 100; gp 15 (-20) 250] /\ tl_origin l = mkPoint3d (N := RNum) 1000 2000 10 /\
  structures_of l = [g_ls 40; g_ls 100].
Proof.
  assert (E : exists l, line_run g_calls = Some l /\
     tl_alignment l = [gp 10 0 0; gp 20 30 100; gp 15 (-20) 250] /\ tl_origin l = mkPoint3d (N := RNum) 1000 2000 10 /\
     structures_of l = [g_ls 40; g_ls 100]).
  { unfold g_calls, line_run. cbn [line_run_from line_step].
    unfold AddAlignmentPoint, AddPoint. cbn [tl_alignment stale_all Line_empty with_alignment with_flags AddPoint_search drop fst snd omap].
    cbn [insert_at firstn skipn app with_alignment with_flags tl_alignment AddPoint_search gp ap_station]. rn.
    rewrite !Rltb_Z, !Reqb_Z. cbn -[IZR].
    rewrite !Rltb_Z, !Reqb_Z. cbn -[IZR].
    unfold AddLineStructure, IsValidStation. cbn -[IZR Rleb Rltb Reqb].
    repeat (rewrite ?Rleb_Z, ?Rltb_Z, ?Reqb_Z; cbn -[IZR Rleb Rltb Reqb]).
    eexists. split; [reflexivity|]. repeat split. }
  destruct E as (l & E & H). exists l. split; [exact E|]. split; [|split; [|exact H]].
  - exists g_calls. split; [|exact E]. unfold g_calls. repeat constructor.
  - exists g_calls. split; [|exact E]. unfold g_calls. simpl. intros c Hc.
    repeat (destruct Hc as [<-|Hc]; [reflexivity|]). destruct Hc.
Qed.
