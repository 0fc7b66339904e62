(** Strain on the straight parts of the load curve of a cable. *)
From Coq Require Import ZArith Bool List Sorted Reals Lra Lia.
From Verif Require Import Num NumFacts ModelBase ModelCable ModelPolynomial ModelThermal ModelElongation SpecElong SpecElongLine
  ProofReal ProofThermalCases ProofElong ProofElongModel ProofElongHistory ProofElongStrain.
Import ListNotations.
Open Scope R_scope.

(** Two steps of the loop on a line. *)
Lemma loop_on_line : forall (n : ElongModel RNum) fuel (y c k prec : R) (lo hi cur : Point2d RNum), meq n n -> 0 < k -> 0 <= prec ->
  p2x lo < p2x hi -> p2y lo = c + k * p2x lo -> p2y hi = c + k * p2x hi -> prec < Rabs (p2y cur - y) ->
  (forall e, e = (y - c) / k -> omap fst (LoadCombined n e) = Ok (c + k * e : F RNum)) ->
  exists p, strain_loop (S (S fuel)) n y prec lo hi cur = Ok ((y - c) / k : F RNum, p).
Proof.
  intros n fuel y c k prec lo hi cur M K P X L H D V. cbn [strain_loop].
  assert (D1 : fltb (n := RNum) prec (fabs (n := RNum) (p2y cur - y)) = true) by (apply Rltb_true; exact D).
  change (p2y cur - y)%num with (p2y cur - y). rewrite D1.
  match goal with |- context [LoadCombined n ?e] => assert (E : e = (y - c) / k) end.
  { rewrite L, H. rn. change (F RNum) with R in *. replace (c + k * p2x hi - (c + k * p2x lo)) with (k * (p2x hi - p2x lo)) by ring.
    rfield. split; lra. }
  rewrite E. specialize (V _ eq_refl).
  destruct (LoadCombined n ((y - c) / k)) as [(w, n1)| |]; cbn [obind omap fst] in *; try discriminate V. injection V as V.
  assert (W : w = y). { rewrite V. rfield. lra. }
  match goal with |- context [strain_bracket (N := RNum) ?a1 ?a2 ?a3 ?a4] => destruct (strain_bracket (N := RNum) a1 a2 a3 a4) as [lo' hi'] end.
  cbn [p2x p2y].
  assert (D2 : fltb (n := RNum) prec (fabs (n := RNum) (w - y)) = false).
  { apply Rltb_false. rewrite W. replace (y - y) with 0 by ring. change (fabs (n := RNum) 0) with (Rabs 0). rewrite Rabs_R0. exact P. }
  change (w - y)%num with (w - y). rewrite D2. exists n1. reflexivity.
Qed.

(** The pair around the load. *)
Lemma find_adjacent : forall (l : list (Point2d RNum)) p q (y : R), loads_rise l -> adjacent l p q -> p2y p < y < p2y q ->
  find_region (N := RNum) y l = Ok (p, q).
Proof.
  intros l p q y S (u & v & ->) Y. induction u as [|a u IH].
  - cbn [app find_region].
    assert (B : andb (fleb (n := RNum) (p2y p) y) (fleb (n := RNum) y (p2y q)) = true)
      by (apply andb_true_iff; split; apply Rleb_true; lra).
    rewrite B. reflexivity.
  - assert (T : StronglySorted (fun a b : Point2d RNum => p2y a <= p2y b) ((a :: u) ++ p :: q :: v)).
    { apply Sorted_StronglySorted; [|exact S]. intros x1 x2 x3 A1 A2. lra. }
    inversion S as [|? ? S1 _]; subst. specialize (IH S1).
    destruct u as [|b u].
    + cbn [app find_region] in *.
      assert (B : andb (fleb (n := RNum) (p2y a) y) (fleb (n := RNum) y (p2y p)) = false)
        by (apply andb_false_iff; right; apply Rleb_false; lra).
      rewrite B. exact IH.
    + cbn [app] in *. inversion T as [|? ? T1 _]; subst. inversion T1 as [|? ? _ F]; subst. rewrite Forall_forall in F.
      assert (Bp : p2y b <= p2y p). { apply F. apply in_or_app. right. left. reflexivity. }
      cbn [find_region].
      assert (B : andb (fleb (n := RNum) (p2y a) y) (fleb (n := RNum) y (p2y b)) = false)
        by (apply andb_false_iff; right; apply Rleb_false; lra).
      rewrite B. exact IH.
Qed.

Lemma last_in : forall (A : Type) (l : list A) d, In (last l d) (d :: l).
Proof.
  intros A l. induction l as [|a l IH]; intros d; [left; reflexivity|]. destruct l as [|b l]; [right; left; reflexivity|].
  change (last (a :: b :: l) d) with (last (b :: l) d). destruct (IH d) as [H|H]; [left; exact H|right; right; exact H].
Qed.

Lemma last_first : forall (A : Type) (l : list A) a d, last (a :: l) d = last l a.
Proof.
  intros A l. induction l as [|b l IH]; intros a d; [reflexivity|]. change (last (b :: l) d = last (b :: l) a).
  rewrite (IH b d), (IH b a). reflexivity.
Qed.

Lemma rises_ends : forall (p q : Point2d RNum) a u, loads_rise (a :: u) -> adjacent (a :: u) p q ->
  p2y a <= p2y p /\ p2y q <= p2y (last u a).
Proof.
  intros p q a u S (x & v & E).
  assert (T : StronglySorted (fun a b : Point2d RNum => p2y a <= p2y b) (a :: u)).
  { apply Sorted_StronglySorted; [|exact S]. intros x1 x2 x3 A1 A2. lra. }
  split.
  - destruct x as [|b x]; cbn in E; injection E as -> E; [lra|]. subst u.
    inversion T as [|? ? _ F]; subst. rewrite Forall_forall in F. apply F. apply in_or_app. right. left. reflexivity.
  - assert (L : last u a = last (q :: v) q).
    { assert (J : forall w : list (Point2d RNum), forall d d', last (w ++ q :: v) d = last (q :: v) d').
      { induction w as [|b w IH]; intros d d'.
        - cbn [app]. clear. revert q. induction v as [|c v IH]; intros q; [reflexivity|].
          change (last (c :: v) d = last (c :: v) d'). apply IH.
        - cbn [app]. rewrite <- (IH d d'). destruct (w ++ q :: v) eqn:W; [|reflexivity]. destruct w; discriminate W. }
      destruct x as [|b x]; cbn in E; injection E as -> E; subst u.
      - exact (J [] p q).
      - replace (x ++ p :: q :: v) with ((x ++ [p]) ++ q :: v) by (rewrite <- app_assoc; reflexivity). apply J. }
    rewrite L. clear L. assert (Tq : StronglySorted (fun a b : Point2d RNum => p2y a <= p2y b) (q :: v)).
    { rewrite E in T. clear -T. induction x as [|b x IH].
      - inversion T; assumption.
      - inversion T; subst. apply IH. assumption. }
    inversion Tq as [|? ? _ F]; subst. rewrite Forall_forall in F. destruct v as [|c v]; [cbn; lra|].
    change (last (q :: c :: v) q) with (last (c :: v) q).
    destruct (last_in _ (c :: v) q) as [H|H]; [rewrite <- H; lra|apply F; exact H].
Qed.

Lemma strain_on_line : forall (cs : list (EmCall RNum)) m v e p (y : R), tidy true PTNull cs = true ->
  em_run ElongModel_new cs = Ok m -> em_Load m CTCombined e = Ok (v, p) ->
  1 / 100 < Rabs (y + 999999) -> on_line m (em_points p) y ->
  exists x, cable_strain m y = Ok x /\ cable_load m x = Ok y.
Proof.
  intros cs m v e p y D Rn Q Dy On.
  destruct (run_tracked cs true ElongModel_new m tracked_new (fun _ => eq_refl) D Rn) as ((b & Eb & H) & _).
  unfold em_Load in Q. pose proof (Update_hist m b H) as U. pose proof (hi_unused _ _ H) as Ub.
  unfold on_line, straight_between, straight_from, cable_load, cable_strain, em_Load, em_Strain in *.
  destruct (em_Update m) as [n| |], (em_Update b) as [c| |] eqn:Ec; cbn [obind orel] in *; try discriminate Q; try contradiction.
  destruct U as [U1 U2 U3 U4 U5 U6 U7]. pose proof (Update_good b c Ub Ec) as (G1 & l & l' & G2 & G3).
  destruct (meq_refl _ _ U1) as (Mn & _).
  pose proof (LoadCombined_agree n n e Mn) as A. rewrite Q in A. destruct A as (_ & _ & (_ & (K1 & _)) & _). cbn [snd] in K1.
  rewrite K1 in *. clear K1 Q.
  assert (G : Forall (point_good n) (em_points n)).
  { rewrite U2. eapply Forall_impl; [|exact G1]. intros q. apply point_good_meq. apply meq_sym. exact U1. }
  assert (Sx : Sorted (fun a b : Point2d RNum => p2x a <= p2x b) l') by (apply (sort_x_sorted l); exact G2).
  assert (Px : map p2x (em_points n) = map p2x l') by congruence.
  set (prec := (fofZ (N := RNum) 1 / fpow (n := RNum) (fofZ 10) (fofZ 2))%num).
  assert (Pv : prec = 1 / 100). { unfold prec. rn. rewrite Rpow_2. unfold Rdiv. lra. }
  assert (Dd : prec < Rabs (p2y (Point2d_default (N := RNum)) - y)).
  { rewrite Pv. cbn [p2y Point2d_default]. replace (Rabs (@ferr RNum - y)) with (Rabs (y + 999999)); [exact Dy|].
    rewrite ferr_R. rewrite <- (Rabs_Ropp (y + 999999)). f_equal. lra. }
  assert (P0 : 0 <= prec) by lra.
  destruct (em_points n) as [|pmin rest] eqn:Ep.
  { destruct On as [(_ & q1 & q2 & (x1 & x2 & E) & _)|(q1 & x1 & q2 & E & _)]; [destruct x1|]; discriminate E. }
  assert (Fin : forall (k c0 : R), 0 < k -> omap fst (LoadCombined n ((y - c0) / k)) = Ok (c0 + k * ((y - c0) / k) : F RNum) ->
    (exists p, StrainCombined n y = Ok ((y - c0) / k : F RNum, p)) ->
    exists x : F RNum, omap fst (StrainCombined n y) = Ok x /\ omap fst (LoadCombined n x) = Ok (y : F RNum)).
  { intros k c0 K V (q & E). exists ((y - c0) / k). rewrite E. split; [reflexivity|]. rewrite V. f_equal. rfield. lra. }
  destruct On as [(Ri & q1 & q2 & Ad & Y & c0 & k & K & V)|(q1 & x1 & q2 & E & La & Y1 & Y2 & c0 & k & K & V)].
  - destruct (rises_ends q1 q2 pmin rest Ri Ad) as (E1 & E2).
    assert (I12 : In q1 (pmin :: rest) /\ In q2 (pmin :: rest)).
    { destruct Ad as (x1 & x2 & ->). split; apply in_or_app; right; [left|right; left]; reflexivity. }
    destruct I12 as (I1 & I2). rewrite Forall_forall in G. pose proof (G q1 I1) as H1. pose proof (G q2 I2) as H2. unfold point_good in *.
    assert (Xle : p2x q1 <= p2x q2).
    { destruct Ad as (x1 & x2 & El). rewrite El in Px. clear -Px Sx. revert l' Px Sx. induction x1 as [|z x1 IH]; intros l' Px Sx.
      - destruct l' as [|a [|b l']]; try discriminate Px. cbn in Px. injection Px as -> -> _.
        inversion Sx as [|? ? _ J]; subst. inversion J; subst. assumption.
      - destruct l' as [|a l']; [discriminate Px|]. cbn in Px. injection Px as _ Px. inversion Sx; subst. eapply IH; eauto. }
    rewrite (V (p2x q1)) in H1 by lra. rewrite (V (p2x q2)) in H2 by lra. injection H1 as H1. injection H2 as H2.
    assert (Xlt : p2x q1 < p2x q2).
    { apply (Rmult_lt_reg_l k); [exact K|]. rewrite <- H1, <- H2 in Y. lra. }
    assert (B : p2x q1 <= (y - c0) / k <= p2x q2).
    { split; [apply (Rmult_le_reg_r k); [exact K|]|apply (Rmult_le_reg_r k); [exact K|]];
        replace ((y - c0) / k * k) with (y - c0) by (field; lra); rewrite <- H1, <- H2 in Y; lra. }
    apply (Fin k c0 K); [apply V; exact B|]. unfold StrainCombined. rewrite Ep.
    assert (C1 : fleb (n := RNum) y (p2y pmin) = false) by (apply Rleb_false; lra).
    assert (C2 : fleb (n := RNum) (p2y (last rest pmin)) y = false) by (apply Rleb_false; lra).
    rewrite C1. cbv zeta. rewrite C2. rewrite (find_adjacent _ q1 q2 y Ri Ad Y). cbn [obind]. fold prec.
    apply (loop_on_line n 97 y c0 k prec q1 q2); auto.
    intros z ->. apply V. exact B.
  - injection E as <- <-. subst q2. set (pmax := last rest pmin) in *.
    assert (I1 : In pmax (pmin :: rest)) by apply last_in.
    rewrite Forall_forall in G. pose proof (G pmax I1) as H1. unfold point_good in H1.
    rewrite (V (p2x pmax)) in H1 by lra. injection H1 as H1.
    assert (B : p2x pmax <= (y - c0) / k).
    { apply (Rmult_le_reg_r k); [exact K|]. replace ((y - c0) / k * k) with (y - c0) by (field; lra). rewrite <- H1 in Y2. lra. }
    apply (Fin k c0 K); [apply V; exact B|]. unfold StrainCombined. rewrite Ep.
    assert (C1 : fleb (n := RNum) y (p2y pmin) = false) by (apply Rleb_false; lra).
    assert (C2 : fleb (n := RNum) (p2y pmax) y = true) by (apply Rleb_true; lra).
    rewrite C1. cbv zeta. fold pmax. rewrite C2.
    set (xr := (p2x pmax + flit (n := RNum) 5 (-4))%num).
    assert (Xr : p2x pmax < xr). { unfold xr. change (p2x pmax < p2x pmax + flit (n := RNum) 5 (-4)).
      assert (Fv : flit (n := RNum) 5 (-4) = 5 / 10000) by (rewrite flit_R; simpl; lra). rewrite Fv. lra. }
    pose proof (V xr ltac:(lra)) as Vr. pose proof (LoadCombined_agree n n xr Mn) as A.
    destruct (LoadCombined n xr) as [(yr, n1)| |]; cbn [obind omap fst orel] in *; try discriminate Vr. injection Vr as Vr.
    destruct A as (_ & _ & (Mn1 & _) & _). cbn [snd] in Mn1. fold prec.
    apply (loop_on_line n1 97 y c0 k prec pmax (mkPoint2d xr yr)); auto.
    + apply (meq_refl n n1 Mn1).
    + intros z ->. transitivity (omap fst (LoadCombined n ((y - c0) / k))); [|apply V; exact B].
      eapply orel_fst; [apply LoadCombined_agree; apply meq_sym; exact Mn1|]. intros u w (W & _). exact W.
Qed.

(** ** Loads beyond the region points *)

Lemma insert_in : forall (p q : Point2d RNum) l, In q (insert_x p l) <-> q = p \/ In q l.
Proof.
  intros p q l. induction l as [|a l IH]; cbn [insert_x].
  - cbn. intuition.
  - destruct (p2x a <? p2x p)%num; cbn [In]; [rewrite IH|]; intuition.
Qed.

Lemma sort_in : forall (l l' : list (Point2d RNum)) q, sort_x l = Ok l' -> (In q l' <-> In q l).
Proof.
  intros l l' q E. unfold sort_x in E. destruct (forallb _ l); [|discriminate E]. injection E as <-.
  induction l as [|p l IH]; [reflexivity|]. cbn [fold_right In]. rewrite insert_in, IH. intuition.
Qed.

(** The strains of the points of the components are among those of the cable. *)
Definition points_known (m : ElongModel RNum) : Prop :=
  (em_core_on m = Ok true -> forall l, omap fst (cm_PointsRegions (em_core m)) = Ok l ->
     forall q, In q l -> In (p2x q) (map p2x (em_points m))) /\
  (em_shell_on m = Ok true -> forall l, omap fst (cm_PointsRegions (em_shell m)) = Ok l ->
     forall q, In q l -> In (p2x q) (map p2x (em_points m))).

Lemma points_fst : forall a b : CompModel RNum, ceq a b -> omap fst (cm_PointsRegions a) = omap fst (cm_PointsRegions b).
Proof. intros a b C. eapply orel_fst; [apply Points_agree; exact C|]. intros x y (V & _). exact V. Qed.

Lemma known_meq : forall m n, meq m n -> em_points n = em_points m -> points_known m -> points_known n.
Proof.
  intros m n M P (A & B). destruct (on_cable m n (me_cable _ _ M)) as (E1 & E2). unfold points_known. rewrite P, <- E1, <- E2.
  split; intros O l L.
  - apply (A O). rewrite <- L. apply points_fst. apply (me_core _ _ M O).
  - apply (B O). rewrite <- L. apply points_fst. apply (me_shell _ _ M O).
Qed.

Lemma UpdatePointsRegions_known : forall m p, meq m m -> UpdatePointsRegions m = Ok p -> points_known p.
Proof.
  intros m p M E. pose proof (UpdatePointsRegions_agree m m M) as Rp. rewrite E in Rp. cbn [orel] in Rp.
  destruct Rp as (_ & _ & (Mp & _) & _). rewrite UpdatePointsRegions_split in E.
  destruct (on_cable m p (me_cable _ _ Mp)) as (E1 & E2).
  pose proof (proj1 (points_part_agree m m M)) as A.
  assert (Pc : forall pc n, (do on <- em_core_on m;
     if on then do (l, c) <- cm_PointsRegions (em_core m); Ok (l, em_with_core m c) else Ok ([], m)) = Ok (pc, n) ->
     em_core_on m = Ok true -> omap fst (cm_PointsRegions (em_core m)) = Ok pc).
  { intros pc n H O. rewrite O in H. cbn [obind] in H. destruct (cm_PointsRegions (em_core m)) as [(l, c)| |]; cbn in *; try discriminate H.
    injection H as <- _. reflexivity. }
  match type of E with obind ?e _ = _ => destruct e as [(pc, n)| |] eqn:Ec end; cbn [obind orel] in *; try discriminate E.
  specialize (Pc pc n eq_refl). clear Ec.
  destruct A as (_ & Mn & (Mmn & _) & _). cbn [snd] in Mn, Mmn. pose proof (proj2 (points_part_agree n n Mn)) as A.
  destruct (on_cable m n (me_cable _ _ Mmn)) as (_ & E3).
  assert (Pl : forall pl o, (do on <- em_shell_on n;
     if on then do (l, c) <- cm_PointsRegions (em_shell n); Ok (l, em_with_shell n c) else Ok ([], n)) = Ok (pl, o) ->
     em_shell_on n = Ok true -> omap fst (cm_PointsRegions (em_shell n)) = Ok pl).
  { intros pl o H O. rewrite O in H. cbn [obind] in H. destruct (cm_PointsRegions (em_shell n)) as [(l, c)| |]; cbn in *; try discriminate H.
    injection H as <- _. reflexivity. }
  match type of E with obind ?e _ = _ => destruct e as [(pl, o)| |] eqn:El end; cbn [obind orel] in *; try discriminate E.
  specialize (Pl pl o eq_refl). clear El. destruct A as (_ & Mo & _). cbn [snd] in Mo.
  destruct (sort_x (pc ++ pl)) as [l| |] eqn:Sx; cbn [obind] in E; try discriminate E.
  destruct (load_points o l) as [(l', q)| |] eqn:L; cbn [obind] in E; try discriminate E. injection E as E.
  destruct (load_points_good l o l' q Mo L) as (G1 & _).
  assert (Ep : em_points p = l') by (rewrite <- E; reflexivity).
  assert (In1 : forall z, In z (pc ++ pl) -> In (p2x z) (map p2x (em_points p))).
  { intros z I. rewrite Ep. rewrite G1. apply in_map. apply (sort_in _ _ z Sx). exact I. }
  split.
  - intros O k K z I. apply In1. apply in_or_app. left. rewrite <- E1 in O. specialize (Pc O).
    rewrite (points_fst _ _ (me_core _ _ Mp O)) in Pc. rewrite K in Pc. injection Pc as <-. exact I.
  - intros O k K z I. apply In1. apply in_or_app. right. rewrite <- E2 in O. rewrite E3 in O. specialize (Pl O). rewrite <- E3 in O.
    rewrite <- (points_fst _ _ (me_shell _ _ Mmn O)) in Pl.
    rewrite (points_fst _ _ (me_shell _ _ Mp O)) in Pl. rewrite K in Pl. injection Pl as <-. exact I.
Qed.

Lemma Update_known : forall b p, unused b -> em_Update b = Ok p -> points_known p.
Proof.
  intros b p (U1 & U2) E. rewrite Update_split in E. unfold stretch_half in E. rewrite U2 in E.
  pose proof (UpdateComponentsStretch_agree b b (teq_refl b)) as A.
  destruct (UpdateComponentsStretch b) as [n| |]; cbn [obind orel] in *; try discriminate E.
  destruct A as (Z & (K1 & K2 & K3 & K4 & K5) & _).
  unfold state_half in E. cbn [em_with_flags em_upd_state em_state] in E. rewrite K4, U1 in E.
  set (n' := em_with_flags n false true) in *.
  assert (Zn : zeq n' n'). { destruct Z as [Z1 Z2 Z3 Z4]. constructor; auto. }
  pose proof (zeq_seq (em_state n) _ _ Zn) as S. rewrite UpdateComponentsState_split in E.
  pose proof (set_states_agree (em_state n) _ _ S) as B.
  destruct (set_states n' (em_state n)) as [q| |]; cbn [obind orel] in *; try discriminate E.
  destruct B as (Mq & _). destruct (UpdatePointsRegions q) as [r| |] eqn:R; cbn [obind] in E; try discriminate E.
  injection E as <-. exact (UpdatePointsRegions_known q r Mq R).
Qed.

(** A component beyond its last point. *)
Lemma component_beyond : forall (c : CompModel RNum) pu ps pe c' s (e1 k : R) c1, ceq c c ->
  cm_PointsRegions c = Ok ([pu; ps; pe], c') -> cm_state c = Some s -> st_type s <> PTNull -> p2x pu <= p2x ps < p2x pe ->
  p2x pe <= e1 -> cm_Slope c e1 = Ok (k : F RNum, c1) ->
  forall e : R, p2x pe <= e -> omap fst (cm_Load c e) = Ok (p2y pe + (e - p2x pe) * k : F RNum).
Proof.
  intros c pu ps pe c' s e1 k c1 C P S T (O1 & O2) He1 Sl e He. unfold cm_PointsRegions, cm_Slope, cm_Load, cm_query in *.
  pose proof (Update_agree c c C) as A.
  destruct (cm_Update c) as [([|], d)| |]; cbn [obind orel] in *; try discriminate P.
  2: { injection P as Q1 Q2 Q3 _. subst. change (p2x (Point2d_default (N := RNum))) with (@ferr RNum) in *. lra. }
  destruct A as (_ & (_ & _ & K) & _). cbn [snd] in K. destruct (ckey_split _ _ K) as (_ & Ks & _).
  rewrite <- Ks, S in *. cbn [deref obind] in *.
  destruct (cm_base d) as [b| |]; cbn [obind] in *; try discriminate Sl.
  destruct (cm_points d) as [r|]; [|discriminate P]. injection P as Q1 Q2 Q3 _. cbn [obind omap fst] in *.
  injection Sl as Sl _. f_equal. unfold LoadAt, SlopeAt in *. rewrite Q1, Q2, Q3 in *.
  assert (B : forall z : R, p2x pe <= z -> fltb (n := RNum) z (p2x pu) = false /\
    andb (fleb (n := RNum) (p2x pu) z) (fleb (n := RNum) z (p2x ps)) = false /\
    andb (fltb (n := RNum) (p2x ps) z) (fltb (n := RNum) z (p2x pe)) = false /\ fleb (n := RNum) (p2x pe) z = true).
  { intros z Hz. split; [apply Rltb_false; lra|]. split; [apply andb_false_iff; right; apply Rleb_false; lra|].
    split; [apply andb_false_iff; right; apply Rltb_false; lra|apply Rleb_true; exact Hz]. }
  destruct (B e1 He1) as (B1 & B2 & B3 & B4). cbv zeta in Sl. rewrite B1, B2, B3, B4 in Sl.
  destruct (B e He) as (D1 & D2 & D3 & D4). cbv zeta. rewrite D1, D2, D3, D4.
  destruct (st_type s); [contradiction| |]; rewrite <- Sl; reflexivity.
Qed.

Lemma strain_beyond : forall (cs : list (EmCall RNum)) m v e p q (y e1 k : R), tidy true PTNull cs = true ->
  em_run ElongModel_new cs = Ok m -> em_Load m CTCombined e = Ok (v, p) -> em_points p <> [] ->
  (em_core_on p = Ok true -> in_order (em_core p)) -> (em_shell_on p = Ok true -> in_order (em_shell p)) ->
  (forall z, In z (em_points p) -> p2x z <= e1) -> em_Slope m CTCombined e1 = Ok (k : F RNum, q) -> 0 < k ->
  0 <= y -> (forall z, In z (em_points p) -> p2y z < y) ->
  exists x, cable_strain m y = Ok x /\ cable_load m x = Ok y.
Proof.
  intros cs m v e p q y e1 k D Rn Q Ne Oc Os X1 Sl K Y0 Y1.
  apply (strain_on_line cs m v e p y D Rn Q).
  { rewrite Rabs_right; lra. }
  destruct (em_points p) as [|pmin rest] eqn:Ep; [contradiction|]. right.
  exists pmin, rest, (last rest pmin). split; [reflexivity|]. split; [reflexivity|]. split; [apply Y1; left; reflexivity|].
  split; [left; apply Y1; apply last_in|].
  destruct (run_tracked cs true ElongModel_new m tracked_new (fun _ => eq_refl) D Rn) as ((b & Eb & H) & _).
  unfold straight_from, cable_load, em_Load, em_Slope in *. pose proof (Update_hist m b H) as U. pose proof (hi_unused _ _ H) as Ub.
  destruct (em_Update m) as [n| |], (em_Update b) as [c| |] eqn:Ec; cbn [obind orel] in *; try discriminate Q; try contradiction.
  destruct U as [U1 U2 U3 U4 U5 U6 U7]. pose proof (Update_good b c Ub Ec) as (G1 & l & l' & G2 & G3).
  pose proof (Update_known b c Ub Ec) as Kc. destruct (meq_refl _ _ U1) as (Mn & _).
  pose proof (LoadCombined_agree n n e Mn) as A. rewrite Q in A. destruct A as (_ & _ & (Mp & (K1 & _)) & _). cbn [snd] in K1, Mp.
  clear Q. assert (Kp : points_known p).
  { apply (known_meq c); [apply (meq_trans _ n); [apply meq_sym; exact U1|exact Mp]|congruence|exact Kc]. }
  destruct (meq_refl _ _ Mp) as (_ & Mpp).
  assert (LC : forall z, omap fst (LoadCombined n z) = omap fst (LoadCombined p z)).
  { intros z. eapply orel_fst; [apply LoadCombined_agree; exact Mp|]. intros u w (W & _). exact W. }
  assert (SC : omap fst (SlopeCombined p e1) = Ok (k : F RNum)).
  { transitivity (omap fst (SlopeCombined n e1)); [|rewrite Sl; reflexivity].
    eapply orel_fst; [apply SlopeCombined_agree; apply meq_sym; exact Mp|]. intros u w (W & _). exact W. }
  clear Sl. rewrite Ep in *.
  assert (Mx : forall z, In z (map p2x (pmin :: rest)) -> z <= p2x (last rest pmin)).
  { assert (Px : map p2x (pmin :: rest) = map p2x l') by congruence. pose proof (sort_x_sorted _ _ G2) as Sx.
    clear -Px Sx. revert pmin rest l' Px Sx.
    assert (J : forall (rest : list (Point2d RNum)) pmin, Sorted Rle (map (p2x (N := RNum)) (pmin :: rest) : list R) ->
      forall z, In z (map p2x (pmin :: rest)) -> z <= p2x (last rest pmin)).
    { induction rest as [|a rest IH]; intros pmin S z I.
      - destruct I as [<-|[]]. cbn. lra.
      - inversion S as [|? ? S1 S2]; subst. inversion S2 as [|? ? S3]; subst.
        rewrite last_first.
        destruct I as [<-|I]; [|apply (IH a S1 z I)]. pose proof (IH a S1 (p2x a) ltac:(left; reflexivity)). lra. }
    intros pmin rest l' Px Sx z I. apply J; [|exact I]. clear -Px Sx.
    assert (Ss : Sorted Rle (map (p2x (N := RNum)) l' : list R)).
    { clear Px. induction Sx as [|a l S IH Hd]; [constructor|]. cbn [map]. constructor; [exact IH|]. destruct Hd; constructor; assumption. }
    exact (eq_ind_r (fun w : list R => Sorted Rle w) Ss Px). }
  unfold SlopeCombined, SlopeCore, SlopeShell, core_value, shell_value in SC.
  destruct (em_core_on p) as [[|]| |] eqn:EOc; cbn [obind omap] in SC; try discriminate SC.
  - destruct (Oc eq_refl) as (pu & ps & pe & c' & s & I1 & I2 & I3 & I4).
    destruct (cm_Slope (em_core p) e1) as [(k1, d1)| |] eqn:S1; cbn [obind omap] in SC; try discriminate SC.
    change (em_shell_on (em_with_core p d1)) with (em_shell_on p) in SC.
    change (em_shell (em_with_core p d1)) with (em_shell p) in SC.
    assert (Xc : p2x pe <= p2x (last rest pmin)).
    { apply Mx. destruct Kp as (Kp & _). rewrite <- Ep. apply (Kp EOc [pu; ps; pe]); [rewrite I1; reflexivity|].
      right. right. left. reflexivity. }
    assert (Xl : p2x (last rest pmin) <= e1) by (apply X1; apply last_in).
    pose proof (component_beyond (em_core p) pu ps pe c' s e1 k1 d1 (me_core _ _ Mpp EOc) I1 I2 I3 I4 ltac:(lra) S1) as Lc.
    destruct (em_shell_on p) as [[|]| |] eqn:EOs; cbn [obind omap fst] in SC; try discriminate SC.
    + destruct (Os eq_refl) as (pu' & ps' & pe' & c'' & s' & J1 & J2 & J3 & J4).
      destruct (cm_Slope (em_shell p) e1) as [(k2, d2)| |] eqn:S2; cbn [obind omap fst] in SC; try discriminate SC.
      injection SC as SC.
      assert (Xs : p2x pe' <= p2x (last rest pmin)).
      { apply Mx. destruct Kp as (_ & Kp). rewrite <- Ep. apply (Kp EOs [pu'; ps'; pe']); [rewrite J1; reflexivity|].
        right. right. left. reflexivity. }
      pose proof (component_beyond (em_shell p) pu' ps' pe' c'' s' e1 k2 d2 (me_shell _ _ Mpp EOs) J1 J2 J3 J4 ltac:(lra) S2) as Ls.
      exists (p2y pe - p2x pe * k1 + (p2y pe' - p2x pe' * k2)), k. split; [exact K|]. intros z Hz. rewrite LC.
      specialize (Lc z ltac:(lra)). specialize (Ls z ltac:(lra)).
      unfold LoadCombined, LoadCore, LoadShell, core_value, shell_value. rewrite EOc. cbn [obind].
      destruct (cm_Load (em_core p) z) as [(w1, f1)| |]; cbn [obind omap fst] in *; try discriminate Lc. injection Lc as Lc.
      change (em_shell_on (em_with_core p f1)) with (em_shell_on p). change (em_shell (em_with_core p f1)) with (em_shell p).
      rewrite EOs. cbn [obind].
      destruct (cm_Load (em_shell p) z) as [(w2, f2)| |]; cbn [obind omap fst] in *; try discriminate Ls. injection Ls as Ls.
      f_equal. rewrite Lc, Ls, <- SC. change (fadd (n := RNum)) with Rplus. rring.
    + injection SC as SC.
      exists (p2y pe - p2x pe * k1), k. split; [exact K|]. intros z Hz. rewrite LC.
      specialize (Lc z ltac:(lra)).
      unfold LoadCombined, LoadCore, LoadShell, core_value, shell_value. rewrite EOc. cbn [obind].
      destruct (cm_Load (em_core p) z) as [(w1, f1)| |]; cbn [obind omap fst] in *; try discriminate Lc. injection Lc as Lc.
      change (em_shell_on (em_with_core p f1)) with (em_shell_on p).
      rewrite EOs. cbn [obind omap fst].
      f_equal. rewrite Lc, <- SC. rn. rring.
  - destruct (em_shell_on p) as [[|]| |] eqn:EOs; cbn [obind omap fst] in SC; try discriminate SC.
    + destruct (Os eq_refl) as (pu' & ps' & pe' & c'' & s' & J1 & J2 & J3 & J4).
      destruct (cm_Slope (em_shell p) e1) as [(k2, d2)| |] eqn:S2; cbn [obind omap fst] in SC; try discriminate SC.
      injection SC as SC.
      assert (Xs : p2x pe' <= p2x (last rest pmin)).
      { apply Mx. destruct Kp as (_ & Kp). rewrite <- Ep. apply (Kp EOs [pu'; ps'; pe']); [rewrite J1; reflexivity|].
        right. right. left. reflexivity. }
      assert (Xl : p2x (last rest pmin) <= e1) by (apply X1; apply last_in).
      pose proof (component_beyond (em_shell p) pu' ps' pe' c'' s' e1 k2 d2 (me_shell _ _ Mpp EOs) J1 J2 J3 J4 ltac:(lra) S2) as Ls.
      exists (p2y pe' - p2x pe' * k2), k. split; [exact K|]. intros z Hz. rewrite LC.
      specialize (Ls z ltac:(lra)).
      unfold LoadCombined, LoadCore, LoadShell, core_value, shell_value. rewrite EOc. cbn [obind].
      rewrite EOs. cbn [obind].
      destruct (cm_Load (em_shell p) z) as [(w2, f2)| |]; cbn [obind omap fst] in *; try discriminate Ls. injection Ls as Ls.
      f_equal. rewrite Ls, <- SC. rn. rring.
    + injection SC as SC. exfalso. revert SC. rn. intros SC. lra.
Qed.
