(** Straining a cable in two steps, in real arithmetic. *)
From Coq Require Import ZArith Bool List Reals Lra Lia.
From Verif Require Import Num NumFacts ModelBase ProofReal ModelElongation SpecElong ProofElongHistory ProofStrainer
  ModelReload SpecReload ProofReload ProofReloadGap SampleElongReal SampleReload ProofReloadRefuted.
Import ListNotations.
Open Scope R_scope.

Lemma ratio_bound : forall n d e : R, 1 <= d -> Rabs n <= e -> Rabs (n / d) <= e.
Proof.
  intros n d e D N0. unfold Rdiv. rewrite Rabs_mult, (Rabs_right (/ d)) by (apply Rle_ge, Rlt_le, Rinv_0_lt_compat; lra).
  assert (I : / d <= 1) by (rewrite <- Rinv_1; apply Rinv_le_contravar; lra).
  assert (J : 0 < / d) by (apply Rinv_0_lt_compat; lra). assert (P := Rabs_pos n). nra.
Qed.

(** Two factors against one: the difference is below the product of the steps. *)
Definition factor (d : R) : R := if Rlt_dec d 0 then / (1 + Rabs d) else 1 + d.

Lemma factor_steps : forall a b, Rabs (factor a * factor b - factor (a + b)) <= Rabs a * Rabs b.
Proof.
  intros a b. unfold factor.
  destruct (Rlt_dec a 0) as [A|A], (Rlt_dec b 0) as [B|B], (Rlt_dec (a + b) 0) as [C|C]; try lra;
    rewrite ?(Rabs_left a), ?(Rabs_left b), ?(Rabs_left (a + b)), ?(Rabs_right a), ?(Rabs_right b) by lra.
  - replace (/ (1 + - a) * / (1 + - b) - / (1 + - (a + b))) with (- (a * b) / ((1 - a) * (1 - b) * (1 - (a + b)))) by (field; lra).
    apply ratio_bound; [|apply Rabs_le; nra].
    assert (1 <= (1 - a) * (1 - b)) by nra. nra.
  - replace (/ (1 + - a) * (1 + b) - / (1 + - (a + b))) with (- (b * (a + b)) / ((1 - a) * (1 - (a + b)))) by (field; lra).
    apply ratio_bound; [nra|apply Rabs_le; nra].
  - replace (/ (1 + - a) * (1 + b) - (1 + (a + b))) with (a * (a + b) / (1 - a)) by (field; lra).
    apply ratio_bound; [lra|apply Rabs_le; nra].
  - replace ((1 + a) * / (1 + - b) - / (1 + - (a + b))) with (- (a * (a + b)) / ((1 - b) * (1 - (a + b)))) by (field; lra).
    apply ratio_bound; [nra|apply Rabs_le; nra].
  - replace ((1 + a) * / (1 + - b) - (1 + (a + b))) with (b * (a + b) / (1 - b)) by (field; lra).
    apply ratio_bound; [lra|apply Rabs_le; nra].
  - replace ((1 + a) * (1 + b) - (1 + (a + b))) with (a * b) by ring. rewrite Rabs_right by (apply Rle_ge; nra). lra.
Qed.

Lemma strained_factor : forall l x0 x1 : R, strained (N := RNum) l x0 x1 = l * factor (x1 - x0).
Proof.
  intros l x0 x1. unfold strained, factor. rn. destruct (Rlt_dec (x1 - x0) 0) as [H|H].
  - rewrite (proj2 (Rltb_true (x1 - x0) 0) H). reflexivity.
  - rewrite (proj2 (Rltb_false (x1 - x0) 0)) by lra. reflexivity.
Qed.

Lemma finish_is : forall (m m' : Models RNum) (l y1 y0 v x0 x1 : R) a b, (forall c, tracked (m c)) ->
  LengthFinish m (mkStrainer (N := RNum) l y1 y0 (Some b) (Some a)) = Ok (v, m') ->
  cable_strain (m a) (y0 : F RNum) = Ok (x0 : F RNum) -> cable_strain (m b) (y1 : F RNum) = Ok (x1 : F RNum) ->
  v = l * factor (x1 - x0).
Proof.
  intros m m' l y1 y0 v x0 x1 a b T E A B.
  assert (Q := LengthFinish_any m (mkStrainer (N := RNum) l y1 y0 (Some b) (Some a)) a b T eq_refl eq_refl).
  rewrite E in Q. cbn [omap obind fst cr_load_start cr_load_finish cr_length] in Q. rewrite A in Q. cbn [obind] in Q. rewrite B in Q. cbn [obind] in Q.
  injection Q as ->. apply strained_factor.
Qed.

Lemma two_steps : forall (mem m1 m2 m3 : Models RNum) (l y0 y1 y2 v1 v2 v3 x0 x1 x2 : R) a b c, tidy_models mem ->
  LengthFinish mem (mkStrainer (N := RNum) l y1 y0 (Some b) (Some a)) = Ok (v1, m1) ->
  LengthFinish m1 (mkStrainer (N := RNum) v1 y2 y1 (Some c) (Some b)) = Ok (v2, m2) ->
  LengthFinish mem (mkStrainer (N := RNum) l y2 y0 (Some c) (Some a)) = Ok (v3, m3) ->
  cable_strain (mem a) (y0 : F RNum) = Ok (x0 : F RNum) -> cable_strain (mem b) (y1 : F RNum) = Ok (x1 : F RNum) ->
  cable_strain (mem c) (y2 : F RNum) = Ok (x2 : F RNum) -> 0 <= l ->
  Rabs (v2 - v3) <= l * (Rabs (x1 - x0) * Rabs (x2 - x1)) /\
  (x0 <= x1 <= x2 -> v2 = v3 + l * ((x1 - x0) * (x2 - x1))).
Proof.
  intros mem m1 m2 m3 l y0 y1 y2 v1 v2 v3 x0 x1 x2 a b c D E1 E2 E3 A B C L.
  pose proof (tidy_tracked _ mem D) as T.
  assert (M := LengthFinish_mates _ _ _ _ T E1).
  assert (V1 := finish_is _ _ _ _ _ _ _ _ _ _ T E1 A B).
  assert (V3 := finish_is _ _ _ _ _ _ _ _ _ _ T E3 A C).
  rewrite (mates_strain _ _ (y1 : F RNum) (M b)) in B. rewrite (mates_strain _ _ (y2 : F RNum) (M c)) in C.
  assert (V2 := finish_is _ _ _ _ _ _ _ _ _ _ (mmates_tracked _ _ M) E2 B C).
  split.
  - rewrite V2, V1, V3. replace (l * factor (x1 - x0) * factor (x2 - x1) - l * factor (x2 - x0))
      with (l * (factor (x1 - x0) * factor (x2 - x1) - factor (x1 - x0 + (x2 - x1))))
      by (replace (x1 - x0 + (x2 - x1)) with (x2 - x0) by ring; ring).
    rewrite Rabs_mult, (Rabs_right l) by lra. apply Rmult_le_compat_l; [exact L|]. apply factor_steps.
  - intros H. rewrite V2, V1, V3. unfold factor.
    destruct (Rlt_dec (x1 - x0) 0), (Rlt_dec (x2 - x1) 0), (Rlt_dec (x2 - x0) 0); try lra; try ring.
Qed.

(** A cable of 1000 ft whose strain grows by 1/100 in each step. *)
Lemma steps_case : exists (mem m1 m2 m3 : Models RNum), tidy_models mem /\
  (let load (k : R) : R := k * 131072 / 100 in
   LengthFinish mem (mkStrainer (N := RNum) (1000 : R) (load 2) (load 1) (Some 0%Z) (Some 0%Z)) = Ok (1010 : R, m1) /\
   LengthFinish m1 (mkStrainer (N := RNum) (1010 : R) (load 3) (load 2) (Some 0%Z) (Some 0%Z)) = Ok (10201 / 10 : R, m2) /\
   LengthFinish mem (mkStrainer (N := RNum) (1000 : R) (load 3) (load 1) (Some 0%Z) (Some 0%Z)) = Ok (1020 : R, m3) /\
   forall k, 0 < k < 10 -> cable_strain (mem 0%Z) (load k : F RNum) = Ok (k / 100 + l_thermal 70 : F RNum)).
Proof.
  set (mem := l_memory false 70 70).
  assert (D : tidy_models mem) by apply l_tidy. pose proof (tidy_tracked _ mem D) as T.
  set (load := fun k : R => k * 131072 / 100).
  assert (S : forall m, mmates mem m -> forall k, 0 < k < 10 -> cable_strain (m 0%Z) (load k : F RNum) = Ok (k / 100 + l_thermal 70 : F RNum)).
  { intros m M k K. rewrite <- (mates_strain _ _ (load k : F RNum) (M 0%Z)).
    change (mem 0%Z) with (l_model 70). rewrite (l_cable_strain false 70 (load k)) by (unfold load; lra).
    f_equal. change (F RNum) with R. unfold load. lra. }
  assert (G : forall m, mmates mem m -> forall l j k, 0 < j < 10 -> 0 < k < 10 -> j <= k ->
    exists m', LengthFinish m (mkStrainer (N := RNum) l (load k) (load j) (Some 0%Z) (Some 0%Z)) = Ok (l * (1 + (k - j) / 100) : R, m')).
  { intros m M l j k J K JK.
    assert (Q := LengthFinish_any m (mkStrainer (N := RNum) l (load k) (load j) (Some 0%Z) (Some 0%Z)) 0%Z 0%Z (mmates_tracked _ _ M) eq_refl eq_refl).
    cbn [cr_load_start cr_load_finish cr_length] in Q. rewrite (S m M j J) in Q. cbn [obind] in Q. rewrite (S m M k K) in Q. cbn [obind] in Q.
    destruct (LengthFinish m _) as [(v, m')| |]; cbn [omap obind fst] in Q; try discriminate Q. injection Q as ->.
    exists m'. f_equal. f_equal. rewrite strained_factor. unfold factor. destruct (Rlt_dec _ 0); [lra|]. lra. }
  assert (M0 := mmates_refl mem T).
  destruct (G mem M0 1000 1 2) as (m1 & E1); [lra..|].
  assert (M1 := LengthFinish_mates _ _ _ _ T E1).
  destruct (G m1 M1 1010 2 3) as (m2 & E2); [lra..|].
  destruct (G mem M0 1000 1 3) as (m3 & E3); [lra..|].
  exists mem, m1, m2, m3. split; [exact D|]. cbv zeta. fold load.
  replace (1000 * (1 + (2 - 1) / 100)) with 1010 in E1 by lra.
  replace (1010 * (1 + (3 - 2) / 100)) with (10201 / 10) in E2 by lra.
  replace (1000 * (1 + (3 - 1) / 100)) with 1020 in E3 by lra.
  split; [exact E1|]. split; [exact E2|]. split; [exact E3|]. exact (S mem M0).
Qed.
