(** Proofs about combined values of an elongation model: sums of the components, and the
    load at the strain returned by Strain. *)
From Coq Require Import ZArith Bool List Sorted Reals Lra.
From Verif Require Import Num NumFacts ModelBase ModelCable ModelPolynomial ModelThermal ModelElongation SpecElong ProofReal
  ProofThermalCases ProofElong ProofElongModel ProofElongHistory.
Import ListNotations.
Open Scope num_scope.

Section Sums.
Context {N : Num}.
Implicit Types b m : ElongModel N.

Lemma LoadShell_other_core : forall m c e, omap fst (LoadShell (em_with_core m c) e) = omap fst (LoadShell m e).
Proof.
  intros m c e. unfold LoadShell, shell_value. change (em_shell_on (em_with_core m c)) with (em_shell_on m).
  destruct (em_shell_on m) as [[|]| |]; cbn [obind omap]; try reflexivity.
  change (em_shell (em_with_core m c)) with (em_shell m).
  destruct (cm_Load (em_shell m) e) as [(v, d)| |]; reflexivity.
Qed.
Lemma SlopeShell_other_core : forall m c e, omap fst (SlopeShell (em_with_core m c) e) = omap fst (SlopeShell m e).
Proof.
  intros m c e. unfold SlopeShell, shell_value. change (em_shell_on (em_with_core m c)) with (em_shell_on m).
  destruct (em_shell_on m) as [[|]| |]; cbn [obind omap]; try reflexivity.
  change (em_shell (em_with_core m c)) with (em_shell m).
  destruct (cm_Slope (em_shell m) e) as [(v, d)| |]; reflexivity.
Qed.

Lemma core_value_model : forall m q v p, core_value m q = Ok (v, p) -> exists c, p = em_with_core m c.
Proof.
  intros m q v p E. unfold core_value in E. destruct (em_core_on m) as [[|]| |]; cbn [obind] in E; try discriminate E.
  - destruct (q (em_core m)) as [(w, c)| |]; cbn [obind] in E; try discriminate E. injection E as _ <-. eauto.
  - injection E as _ <-. exists (em_core m). destruct m; reflexivity.
Qed.

Lemma LoadCombined_sum : forall m e v p, LoadCombined m e = Ok (v, p) ->
  exists x y, omap fst (LoadCore m e) = Ok x /\ omap fst (LoadShell m e) = Ok y /\ v = x + y.
Proof.
  intros m e v p E. unfold LoadCombined in E. destruct (LoadCore m e) as [(x, n)| |] eqn:C; cbn [obind] in E; try discriminate E.
  destruct (core_value_model _ _ _ _ C) as (c & ->). rewrite <- (LoadShell_other_core m c e).
  destruct (LoadShell (em_with_core m c) e) as [(y, o)| |]; cbn [obind] in E; try discriminate E. injection E as <- _.
  exists x, y. repeat split.
Qed.
Lemma SlopeCombined_sum : forall m e v p, SlopeCombined m e = Ok (v, p) ->
  exists x y, omap fst (SlopeCore m e) = Ok x /\ omap fst (SlopeShell m e) = Ok y /\ v = x + y.
Proof.
  intros m e v p E. unfold SlopeCombined in E. destruct (SlopeCore m e) as [(x, n)| |] eqn:C; cbn [obind] in E; try discriminate E.
  destruct (core_value_model _ _ _ _ C) as (c & ->). rewrite <- (SlopeShell_other_core m c e).
  destruct (SlopeShell (em_with_core m c) e) as [(y, o)| |]; cbn [obind] in E; try discriminate E. injection E as <- _.
  exists x, y. repeat split.
Qed.

Lemma Load_sum : forall m e v p, em_Load m CTCombined e = Ok (v, p) ->
  exists x y, omap fst (em_Load m CTCore e) = Ok x /\ omap fst (em_Load m CTShell e) = Ok y /\ v = x + y.
Proof.
  intros m e v p E. unfold em_Load in *. destruct (em_Update m) as [n| |]; cbn [obind] in *; try discriminate E.
  apply (LoadCombined_sum n e v p). exact E.
Qed.
Lemma Slope_sum : forall m e v p, em_Slope m CTCombined e = Ok (v, p) ->
  exists x y, omap fst (em_Slope m CTCore e) = Ok x /\ omap fst (em_Slope m CTShell e) = Ok y /\ v = x + y.
Proof.
  intros m e v p E. unfold em_Slope in *. destruct (em_Update m) as [n| |]; cbn [obind] in *; try discriminate E.
  apply (SlopeCombined_sum n e v p). exact E.
Qed.

(** ** The region points *)

Definition point_good (m : ElongModel N) (p : Point2d N) : Prop :=
  omap fst (LoadCombined m (p2x p)) = Ok (p2y p).

Lemma point_good_meq : forall m n p, meq m n -> point_good m p -> point_good n p.
Proof.
  intros m n p M G. unfold point_good in *. rewrite <- G. symmetry.
  eapply orel_fst; [apply (LoadCombined_agree m n _ M)|]. intros x y (V & _). exact V.
Qed.

Lemma load_points_good : forall l m l' p, meq m m -> load_points m l = Ok (l', p) ->
  map p2x l' = map p2x l /\ Forall (point_good p) l'.
Proof.
  induction l as [|q l IH]; intros m l' p M E; cbn [load_points] in E.
  { injection E as <- <-. split; constructor. }
  pose proof (LoadCombined_agree m m (p2x q) M) as A.
  destruct (LoadCombined m (p2x q)) as [(y, n)| |] eqn:L; cbn [obind orel] in *; try discriminate E.
  destruct A as (_ & Mn & (Mmn & _) & _). cbn [fst snd] in *.
  pose proof (load_points_agree l n n Mn) as B. pose proof (IH n) as IHn.
  destruct (load_points n l) as [(l1, o)| |]; cbn [obind orel] in *; try discriminate E. injection E as <- <-.
  destruct (IHn l1 o Mn eq_refl) as (I1 & I2). destruct B as (_ & _ & (Mno & _) & _). cbn [snd] in Mno.
  split; [cbn; congruence|]. constructor; [|exact I2].
  apply (point_good_meq m); [apply (meq_trans _ _ _ Mmn Mno)|]. unfold point_good. cbn [p2x p2y]. rewrite L. reflexivity.
Qed.

Lemma point_good_points : forall m l p, point_good m p -> point_good (em_with_points m l) p.
Proof.
  intros m l p G. unfold point_good in *. rewrite <- G. unfold LoadCombined, LoadCore, LoadShell, core_value, shell_value.
  change (em_core_on (em_with_points m l)) with (em_core_on m).
  destruct (em_core_on m) as [[|]| |] eqn:Oc; cbn [obind omap]; try reflexivity.
  - change (em_core (em_with_points m l)) with (em_core m).
    destruct (cm_Load (em_core m) (p2x p)) as [(v, c)| |]; cbn [obind omap]; try reflexivity.
    change (em_shell_on (em_with_core (em_with_points m l) c)) with (em_shell_on m).
    change (em_shell_on (em_with_core m c)) with (em_shell_on m).
    destruct (em_shell_on m) as [[|]| |]; cbn [obind omap]; try reflexivity.
    change (em_shell (em_with_core (em_with_points m l) c)) with (em_shell m).
    change (em_shell (em_with_core m c)) with (em_shell m).
    destruct (cm_Load (em_shell m) (p2x p)) as [(w, d)| |]; reflexivity.
  - change (em_shell_on (em_with_points m l)) with (em_shell_on m).
    destruct (em_shell_on m) as [[|]| |]; cbn [obind omap]; try reflexivity.
    change (em_shell (em_with_points m l)) with (em_shell m).
    destruct (cm_Load (em_shell m) (p2x p)) as [(w, d)| |]; reflexivity.
Qed.

Lemma UpdatePointsRegions_good : forall m p, meq m m -> UpdatePointsRegions m = Ok p ->
  Forall (point_good p) (em_points p) /\ (exists l l', sort_x l = Ok l' /\ map p2x (em_points p) = map p2x l').
Proof.
  intros m p M E. rewrite UpdatePointsRegions_split in E. pose proof (proj1 (points_part_agree m m M)) as A.
  match type of E with obind ?e _ = _ => destruct e as [(pc, n)| |] end; cbn [obind orel] in *; try discriminate E.
  destruct A as (_ & Mn & _). cbn [snd] in Mn. pose proof (proj2 (points_part_agree n n Mn)) as A.
  match type of E with obind ?e _ = _ => destruct e as [(pl, o)| |] end; cbn [obind orel] in *; try discriminate E.
  destruct A as (_ & Mo & _). cbn [snd] in Mo.
  destruct (sort_x (pc ++ pl)) as [l| |] eqn:Sx; cbn [obind] in E; try discriminate E.
  destruct (load_points o l) as [(l', q)| |] eqn:L; cbn [obind] in E; try discriminate E. injection E as <-.
  destruct (load_points_good l o l' q Mo L) as (G1 & G2). cbn [em_with_points em_points]. split.
  - eapply Forall_impl; [|exact G2]. intros x. apply point_good_points.
  - exists (pc ++ pl), l. auto.
Qed.

(** The points of the fresh model after its update. *)
Definition good_points (m : ElongModel N) : Prop :=
  Forall (point_good m) (em_points m) /\ exists l l', sort_x l = Ok l' /\ map p2x (em_points m) = map p2x l'.

Lemma Update_good : forall b p, unused b -> em_Update b = Ok p -> good_points p.
Proof.
  intros b p (U1 & U2) E. rewrite Update_split in E. unfold stretch_half in E. rewrite U2 in E.
  pose proof (UpdateComponentsStretch_agree b b (teq_refl b)) as A.
  destruct (UpdateComponentsStretch b) as [n| |]; cbn [obind orel] in *; try discriminate E.
  destruct A as (Z & (K1 & K2 & K3 & K4 & K5) & _).
  unfold state_half in E. cbn [em_with_flags em_upd_state em_state] in E. rewrite K4, U1 in E.
  set (n' := em_with_flags n false true) in *.
  assert (Zn : zeq n' n'). { destruct Z as [Z1 Z2 Z3 Z4]. constructor; auto. }
  pose proof (zeq_seq (em_state n) _ _ Zn) as S. rewrite UpdateComponentsState_split in E.
  pose proof (set_states_agree (em_state n) _ _ S) as B.
  destruct (set_states n' (em_state n)) as [q| |]; cbn [obind orel] in *; try discriminate E.
  destruct B as (Mq & _). destruct (UpdatePointsRegions q) as [r| |] eqn:R; cbn [obind] in E; try discriminate E.
  injection E as <-. destruct (UpdatePointsRegions_good q r Mq R) as (G1 & G2).
  pose proof (UpdatePointsRegions_agree q q Mq) as C. rewrite R in C. destruct C as (Mr & _).
  split; [|exact G2]. cbn [em_with_flags em_points]. eapply Forall_impl; [|exact G1].
  intros x. apply point_good_meq. destruct Mr as [M1 M2 M3 M4]. constructor; auto.
Qed.

(** ** Strain *)

(** What the loop returns. *)
Lemma strain_loop_result : forall fuel m load prec lo hi cur x p, meq m m ->
  strain_loop fuel m load prec lo hi cur = Ok (x, p) ->
  x = ferr \/ (x = p2x cur /\ (prec <? fabs (p2y cur - load)) = false) \/
  exists v, omap fst (LoadCombined p x) = Ok v /\ (prec <? fabs (v - load)) = false.
Proof.
  induction fuel as [|fuel IH]; intros m load prec lo hi cur x p M E; cbn [strain_loop] in E.
  { injection E as <- <-. left. reflexivity. }
  destruct (prec <? fabs (p2y cur - load)) eqn:D.
  2: { injection E as <- <-. right. left. auto. }
  match type of E with context [LoadCombined m ?e] => set (xn := e) in * end.
  pose proof (LoadCombined_agree m m xn M) as A.
  destruct (LoadCombined m xn) as [(y, n)| |] eqn:L; cbn [obind orel] in *; try discriminate E.
  destruct A as (_ & Mn & (Mmn & _) & _). cbn [snd] in Mn, Mmn.
  match type of E with context [strain_bracket ?a1 ?a2 ?a3 ?a4] => destruct (strain_bracket a1 a2 a3 a4) as [lo' hi'] end.
  pose proof (strain_loop_agree fuel n n load prec lo' hi' (mkPoint2d xn y) Mn) as B. rewrite E in B.
  destruct B as (_ & _ & (Mp & _) & _). cbn [snd] in Mp.
  destruct (IH _ _ _ _ _ _ _ _ Mn E) as [H|[(H1 & H2)|H]].
  - left. exact H.
  - right. right. cbn [p2x p2y] in H1, H2. subst x. exists y. split; [|exact H2].
    transitivity (omap fst (LoadCombined m xn)); [|rewrite L; reflexivity].
    eapply orel_fst; [apply LoadCombined_agree; apply meq_sym; apply (meq_trans _ _ _ Mmn Mp)|].
    intros u w (V & _). exact V.
  - right. right. exact H.
Qed.

Lemma StrainCombined_result : forall m y x p, meq m m -> good_points m -> StrainCombined m y = Ok (x, p) ->
  x = ferr \/
  (exists v, omap fst (LoadCombined p x) = Ok v /\ (#1 / fpow #10 #2 <? fabs (v - y)) = false) \/
  (exists pmin rest, em_points m = pmin :: rest /\ x = p2x pmin /\ (y <=? p2y pmin) = true /\ p = m).
Proof.
  intros m y x p M (G & _) E. unfold StrainCombined in E. destruct (em_points m) as [|pmin rest]; [discriminate E|].
  destruct (y <=? p2y pmin) eqn:C.
  { destruct (deref (em_cable m)) as [c| |]; cbn [obind] in E; try discriminate E.
    destruct (deref (sg_base c)) as [k| |]; cbn [obind] in E; try discriminate E. injection E as <- <-.
    right. right. exists pmin, rest. auto. }
  assert (L : forall n lo hi, meq n n ->
    strain_loop 99 n y (#1 / fpow #10 #2) lo hi Point2d_default = Ok (x, p) ->
    x = ferr \/ exists v, omap fst (LoadCombined p x) = Ok v /\ (#1 / fpow #10 #2 <? fabs (v - y)) = false).
  { intros n lo hi Mn Es. destruct (strain_loop_result _ _ _ _ _ _ _ _ _ Mn Es) as [H|[(H & _)|H]]; auto. }
  destruct (p2y (last rest pmin) <=? y).
  - match type of E with context [LoadCombined m ?e] => pose proof (LoadCombined_agree m m e M) as A;
      destruct (LoadCombined m e) as [(yr, n)| |] end; cbn [obind orel] in *; try discriminate E.
    destruct A as (_ & Mn & _). cbn [snd] in Mn. destruct (L _ _ _ Mn E); auto.
  - destruct (find_region y (pmin :: rest)) as [(lo, hi)| |]; cbn [obind] in E; try discriminate E.
    destruct (L _ _ _ M E); auto.
Qed.

(** Load of an updated model. *)
Lemma updated_Load : forall m x, em_upd_state m = true -> em_upd_stretch m = true ->
  em_Load m CTCombined x = LoadCombined m x.
Proof. intros m x U V. unfold em_Load, em_Update. rewrite V. cbn [obind]. rewrite U. reflexivity. Qed.

End Sums.

(** ** Real arithmetic *)

Lemma insert_x_head : forall (p : Point2d RNum) l, Sorted (fun a b : Point2d RNum => (p2x a <= p2x b)%R) l ->
  Sorted (fun a b : Point2d RNum => (p2x a <= p2x b)%R) (insert_x p l).
Proof.
  intros p l. induction l as [|q l IH]; intros H; cbn [insert_x].
  { constructor; constructor. }
  inversion H as [|? ? H1 H2]; subst. destruct (p2x q <? p2x p) eqn:C.
  - constructor; [apply IH; exact H1|]. destruct l as [|r l]; cbn [insert_x].
    + constructor. apply Rltb_true in C. lra.
    + inversion H2; subst. apply Rltb_true in C. destruct (p2x r <? p2x p); constructor; lra.
  - apply Rltb_false in C. constructor; [exact H|]. constructor. lra.
Qed.

Lemma sort_x_sorted : forall l l' : list (Point2d RNum), sort_x l = Ok l' ->
  Sorted (fun a b : Point2d RNum => (p2x a <= p2x b)%R) l'.
Proof.
  intros l l' E. unfold sort_x in E. destruct (forallb _ l); [|discriminate E]. injection E as <-.
  induction l as [|p l IH]; cbn [fold_right]; [constructor|]. apply insert_x_head. exact IH.
Qed.

Lemma sorted_first : forall (l l' : list (Point2d RNum)) p, map p2x l = map p2x l' ->
  Sorted (fun a b : Point2d RNum => (p2x a <= p2x b)%R) l' -> (exists r, l = p :: r) ->
  forall q, In q l -> (p2x p <= p2x q)%R.
Proof.
  intros l l' p M H (r & ->) q I. destruct l' as [|p' r']; [discriminate M|]. cbn in M. injection M as M1 M2.
  assert (T : StronglySorted (fun a b : Point2d RNum => (p2x a <= p2x b)%R) (p' :: r')).
  { apply Sorted_StronglySorted; [|exact H]. intros a b c A B. lra. }
  inversion T as [|? ? _ F]; subst. rewrite M1. destruct I as [<-|I]; [lra|].
  assert (J : In (p2x q) (map (@p2x RNum) r')). 
  { exact (eq_ind _ (fun l : list R => In (p2x q : R) l) (in_map (@p2x RNum) r q I) _ M2). }
  apply in_map_iff in J. destruct J as (q' & E & J). rewrite Forall_forall in F. specialize (F q' J). lra.
Qed.

(** The answer of Strain on a model used tidily. *)
Theorem Strain_result : forall (cs : list (EmCall RNum)) m y x p, tidy true PTNull cs = true ->
  em_run ElongModel_new cs = Ok m -> em_Strain m CTCombined y = Ok (x, p) ->
  x = (-999999)%R \/
  (exists v, omap fst (em_Load p CTCombined x) = Ok v /\
     ((Rabs (v - y) <= 1/100)%R \/
      ((y <= v)%R /\ forall q, In q (em_points p) -> (x <= p2x q)%R))).
Proof.
  intros cs m y x p D R E.
  destruct (run_tracked cs true ElongModel_new m tracked_new (fun _ => eq_refl) D R) as ((b & Eb & H) & _).
  unfold em_Strain in E. pose proof (Update_hist m b H) as U. pose proof (hi_unused _ _ H) as Ub.
  destruct (em_Update m) as [n| |], (em_Update b) as [c| |] eqn:Ec; cbn [obind orel] in *; try discriminate E; try contradiction.
  destruct U as [U1 U2 U3 U4 U5 U6 U7]. pose proof (Update_good b c Ub Ec) as (G1 & l & l' & G2 & G3).
  destruct (meq_refl _ _ U1) as (Mn & _).
  assert (G : good_points n).
  { split; [|exists l, l'; rewrite U2; auto]. rewrite U2. eapply Forall_impl; [|exact G1]. intros q.
    apply point_good_meq. apply meq_sym. exact U1. }
  pose proof (StrainCombined_agree n n y Mn eq_refl) as A. rewrite E in A. destruct A as (_ & _ & (Mp & Kp) & _).
  cbn [snd] in *. destruct Kp as (K1 & K2 & K3 & K4).
  assert (V : em_upd_state p = true /\ em_upd_stretch p = true).
  { split; [congruence|]. rewrite K4. apply (hi_flags _ _ U6). exact U7. }
  destruct (StrainCombined_result n y x p Mn G E) as [S|[(v & S1 & S2)|(pmin & rest & S1 & S2 & S3 & S4)]].
  - left. rewrite S. apply ferr_R.
  - right. exists v. rewrite (updated_Load p x (proj1 V) (proj2 V)). split; [exact S1|]. left.
    apply Rltb_false in S2. revert S2. rn. rewrite Rpow_2. intros S2. unfold Rdiv in *. lra.
  - right. subst p. exists (p2y pmin). rewrite (updated_Load n x (proj1 V) (proj2 V)).
    destruct G as (Ga & _). rewrite S1 in Ga. inversion Ga as [|? ? Gp _]; subst.
    split; [exact Gp|]. right. split; [apply Rleb_true; exact S3|].
    intros q I. apply (sorted_first (em_points n) l'); [congruence|apply (sort_x_sorted l); exact G2| |exact I].
    exists rest. exact S1.
Qed.

(** A component that is not enabled answers 0. *)
Theorem disabled_zero : forall (N : Num) (cs : list (EmCall N)) m k, tidy true PTNull cs = true ->
  em_run ElongModel_new cs = Ok m -> last_cable None cs = Some k ->
  (sg_core_on k = Ok false -> forall x v p,
     (em_Load m CTCore x = Ok (v, p) \/ em_Slope m CTCore x = Ok (v, p) \/ em_Strain m CTCore x = Ok (v, p)) -> v = #0) /\
  (sg_shell_on k = Ok false -> forall x v p,
     (em_Load m CTShell x = Ok (v, p) \/ em_Slope m CTShell x = Ok (v, p) \/ em_Strain m CTShell x = Ok (v, p)) -> v = #0).
Proof.
  intros N cs m k D R K.
  destruct (run_tracked cs true ElongModel_new m tracked_new (fun _ => eq_refl) D R) as ((b & Eb & H) & C & _).
  cbn in C. pose proof (Update_hist m b H) as U. unfold em_Load, em_Slope, em_Strain.
  destruct (em_Update m) as [n| |], (em_Update b) as [c| |]; cbn [obind orel] in *; try contradiction;
    try (split; intros _ x v p [E|[E|E]]; discriminate E).
  assert (E : em_cable n = Some k) by (rewrite (uo_cable _ _ _ _ U); congruence).
  split; intros O x v p Q.
  - unfold LoadCore, SlopeCore, StrainCore, core_value, em_core_on in Q. rewrite E in Q. cbn [deref obind] in Q.
    rewrite O in Q. cbn [obind] in Q. destruct Q as [Q|[Q|Q]]; injection Q as <- _; reflexivity.
  - unfold LoadShell, SlopeShell, StrainShell, shell_value, em_shell_on in Q. rewrite E in Q. cbn [deref obind] in Q.
    rewrite O in Q. cbn [obind] in Q. destruct Q as [Q|[Q|Q]]; injection Q as <- _; reflexivity.
Qed.
