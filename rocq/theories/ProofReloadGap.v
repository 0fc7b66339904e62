(** The search of the reloader is about the difference of the two lengths. *)
From Coq Require Import ZArith Bool List Reals Lra Lia.
From Verif Require Import Num NumFacts ModelBase ModelCatenary SpecCatenary ProofCatenary ProofReal ModelSolver ProofSolver
  ModelThermal ProofThermalCases ModelElongation SpecElong ProofElong ProofElongHistory ModelReload SpecReload ProofReload.
Import ListNotations.

Section Gap.
Context {N : Num}.

Lemma mates_strain : forall (m n : ElongModel N) y, mates m n -> cable_strain m y = cable_strain n y.
Proof. intros m n y M. destruct (mates_answers _ _ M) as (_ & _ & A & _). apply A. Qed.

(** The strainer in any arithmetic. *)
Lemma LengthFinish_any : forall (m : Models N) s a b, (forall c, tracked (m c)) -> cr_start s = Some a -> cr_finish s = Some b ->
  omap fst (LengthFinish m s) =
  (do x0 <- cable_strain (m a) (cr_load_start s); do x1 <- cable_strain (m b) (cr_load_finish s);
   Ok (strained (cr_length s) x0 x1)).
Proof.
  intros m s a b T A B. unfold LengthFinish. rewrite A, B. cbn [deref obind]. unfold cable_strain at 1.
  destruct (em_Strain (m a) CTCombined (cr_load_start s)) as [(x0, ma)| |] eqn:E0; cbn [obind omap fst]; try reflexivity.
  assert (M : mates (m b) (put m a ma b)).
  { unfold put. destruct (Z.eqb a b) eqn:Q; [apply Z.eqb_eq in Q; subst b; exact (strain_mates _ _ _ _ _ (T a) E0)|].
    exact (mmates_refl m T b). }
  rewrite (mates_strain _ _ (cr_load_finish s) M). unfold cable_strain.
  destruct (em_Strain (put m a ma b) CTCombined (cr_load_finish s)) as [(x1, mb)| |]; cbn [obind omap fst]; reflexivity.
Qed.

(** A search about the catenary [c], the weight [w] and the models at [a] and [b] of
    [mem]. *)
Definition about (mem : Models N) (c : Catenary3d N) (w : Vector3d N) (a b : Z) (s : Search N) : Prop :=
  mmates mem (se_models s) /\ twin (se_catenary s) (rehung c w (c3_tension_horizontal c)) /\
  cr_length (se_strainer s) = c3_Length c /\ cr_load_start (se_strainer s) = c3_TensionAverage c 100 /\
  cr_finish (se_strainer s) = Some b /\ cr_start (se_strainer s) = Some a.

Lemma start_about : forall mem c w a b s0, (forall x, tracked (mem x)) ->
  about mem c w a b (mkSearch mem (reloaded_start c w) (strainer_start s0 c (Some a) (Some b))).
Proof.
  intros mem c w a b s0 T. split; [apply mmates_refl, T|]. split; [|auto]. split; [intros U; discriminate U|].
  split; [intros U; discriminate U|auto].
Qed.

Lemma rehung_current : forall (c : Catenary3d N) w h, c3_current (rehung c w h).
Proof. intros c w h U. discriminate U. Qed.
Lemma rehung_twin : forall (c : Catenary3d N) w h h', twin (rehung c w h) (rehung c w h').
Proof. intros c w h h'. split; [apply rehung_current|]. split; [apply rehung_current|auto]. Qed.

Lemma LengthDifference_gap : forall mem c w a b s h, about mem c w a b s ->
  omap fst (LengthDifference s h) = length_gap (cable_strain (mem a)) (cable_strain (mem b)) c w h /\
  forall y s', LengthDifference s h = Ok (y, s') -> about mem c w a b s' /\ c3_tension_horizontal (se_catenary s') = h.
Proof.
  intros mem c w a b s h (M & T & L & L0 & F & S). unfold LengthDifference.
  assert (TT : twin_h (c3_set_tension (se_catenary s) h) (rehung c w h)).
  { split; [|reflexivity]. eapply twin_trans; [apply set_tension_self, T|]. eapply twin_trans; [exact T|apply rehung_twin]. }
  set (d := c3_set_tension (se_catenary s) h) in *.
  assert (EA : c3_TensionAverage d 100 = c3_TensionAverage (rehung c w h) 100) by exact (num_answer _ _ (Q3TensionAverage 100) _ _ TT eq_refl eq_refl).
  assert (EL : c3_Length d = c3_Length (rehung c w h)) by exact (num_answer _ _ Q3Length _ _ TT eq_refl eq_refl).
  set (st := cr_set_load_finish (se_strainer s) (c3_TensionAverage d 100)).
  assert (V := LengthFinish_any (se_models s) st a b (mmates_tracked _ _ M) S F).
  change (cr_load_start st) with (cr_load_start (se_strainer s)) in V. change (cr_load_finish st) with (c3_TensionAverage d 100) in V.
  change (cr_length st) with (cr_length (se_strainer s)) in V. rewrite L, L0, EA in V.
  rewrite <- (mates_strain _ _ _ (M a)), <- (mates_strain _ _ _ (M b)) in V.
  split.
  - unfold length_gap, cable_length. rewrite EL.
    destruct (LengthFinish (se_models s) st) as [(v, m')| |]; cbn [obind omap fst] in *;
      destruct (cable_strain (mem a) _) as [x0| |]; cbn [obind] in *; try discriminate V; try reflexivity;
      destruct (cable_strain (mem b) _) as [x1| |]; cbn [obind] in *; try discriminate V; try reflexivity.
    injection V as ->. reflexivity.
  - intros y s' E. destruct (LengthFinish (se_models s) st) as [(v, m')| |] eqn:LF; cbn [obind] in E; try discriminate E.
    injection E as _ <-. unfold about. cbn [se_models se_catenary se_strainer].
    destruct (after_inputs d true) as (_ & _ & _ & H1). split; [|exact H1].
    split; [eapply mmates_trans; [exact M|]; exact (LengthFinish_mates _ _ _ _ (mmates_tracked _ _ M) LF)|].
    split; [|auto]. eapply twin_trans; [apply (after_twin d true), TT|]. eapply twin_trans; [apply TT|apply rehung_twin].
Qed.

(** The points of the loop lie on the graph of the gap. *)
Definition on_graph (g : N -> outcome N) (p : Point2d N) : Prop := g (p2x p) = Ok (p2y p).

Definition loop_about mem c w a b (p : Loop N) : Prop :=
  about mem c w a b (lp_search p) /\
  on_graph (length_gap (cable_strain (mem a)) (cable_strain (mem b)) c w) (lp_left p) /\
  on_graph (length_gap (cable_strain (mem a)) (cable_strain (mem b)) c w) (lp_right p).

Lemma pass_about : forall mem c w a b p q, loop_about mem c w a b p -> reload_pass p = Ok q ->
  loop_about mem c w a b q /\ on_graph (length_gap (cable_strain (mem a)) (cable_strain (mem b)) c w) (lp_current q) /\
  p2x (lp_current q) = next_tension (lp_left p) (lp_right p) /\
  c3_tension_horizontal (se_catenary (lp_search q)) = p2x (lp_current q) /\ lp_iter q = (lp_iter p + 1)%Z /\
  (lp_left q, lp_right q) = next_points (lp_left p) (lp_right p) (lp_current q).
Proof.
  intros mem c w a b p q (A & GL & GR) E. unfold reload_pass in E.
  destruct (LengthDifference_gap mem c w a b (lp_search p) (next_tension (lp_left p) (lp_right p)) A) as (V & K).
  destruct (LengthDifference _ _) as [(y, s)| |]; cbn [obind omap fst] in *; try discriminate E.
  destruct (K y s eq_refl) as (A' & H). set (x := next_tension _ _) in *.
  assert (G : on_graph (length_gap (cable_strain (mem a)) (cable_strain (mem b)) c w) (mkPoint2d x y)) by (symmetry; exact V).
  assert (NP : on_graph (length_gap (cable_strain (mem a)) (cable_strain (mem b)) c w) (fst (next_points (lp_left p) (lp_right p) (mkPoint2d x y))) /\
               on_graph (length_gap (cable_strain (mem a)) (cable_strain (mem b)) c w) (snd (next_points (lp_left p) (lp_right p) (mkPoint2d x y)))).
  { unfold next_points. repeat match goal with |- context [if ?b then _ else _] => destruct b end; split; assumption. }
  destruct (next_points _ _ (mkPoint2d x y)) as [l r] eqn:P. injection E as <-. cbn [lp_left lp_right lp_current lp_search lp_iter] in *.
  split; [split; [exact A'|exact NP]|]. split; [exact G|]. split; [reflexivity|]. split; [exact H|]. split; [reflexivity|].
  rewrite P. reflexivity.
Qed.

End Gap.

(** ** Successful searches in real arithmetic *)
Open Scope R_scope.

(** The points are in order. *)
Lemma next_points_order : forall l r cur : Point2d RNum, p2x l < p2x r ->
  p2x (fst (next_points l r cur)) < p2x (snd (next_points l r cur)).
Proof.
  intros l r cur O. unfold next_points. rn.
  destruct (Rltb (p2x cur) (p2x l)) eqn:A; [apply Rltb_true in A; exact A|]. apply Rltb_false in A.
  destruct (Rltb (p2x l) (p2x cur)) eqn:B; cbn [andb].
  - apply Rltb_true in B. destruct (Rltb (p2x cur) (p2x r)) eqn:C.
    + apply Rltb_true in C. destruct (Rltb (p2y cur) 0); [exact B|]. destruct (Rltb 0 (p2y cur)); [exact C|exact O].
    + apply Rltb_false in C. destruct (Rltb (p2x r) (p2x cur)) eqn:D; [apply Rltb_true in D; exact D|exact O].
  - destruct (Rltb (p2x r) (p2x cur)) eqn:D; [apply Rltb_true in D; exact D|exact O].
Qed.

(** The last pass of a loop that ended in time. *)
Lemma last_pass : forall mem c w a b fuel (p q : Loop RNum), loop_about mem c w a b p -> reload_loop fuel p = Ok q ->
  lp_iter q <> lp_iter p -> p2x (lp_left p) < p2x (lp_right p) ->
  exists r, loop_about mem c w a b r /\ reload_on r = true /\ reload_pass r = Ok q /\ p2x (lp_left r) < p2x (lp_right r).
Proof.
  intros mem c w a b fuel. induction fuel as [|n IH]; intros p q A E I O; cbn [reload_loop] in E; [injection E as <-; contradiction|].
  destruct (reload_on p) eqn:On; [|injection E as <-; contradiction].
  destruct (reload_pass p) as [p1| |] eqn:P; cbn [obind] in E; try discriminate E.
  destruct (pass_about _ _ _ _ _ _ _ A P) as (A1 & _ & _ & _ & I1 & NP).
  assert (O1 : p2x (lp_left p1) < p2x (lp_right p1)).
  { pose proof (next_points_order (lp_left p) (lp_right p) (lp_current p1) O) as H. rewrite <- NP in H. exact H. }
  destruct (Z.eq_dec (lp_iter q) (lp_iter p1)) as [Q|Q].
  - assert (p1 = q).
    { destruct n as [|n]; cbn [reload_loop] in E; [injection E as ->; reflexivity|].
      destruct (reload_on p1); [|injection E as ->; reflexivity].
      destruct (reload_pass p1) as [p2| |] eqn:P1; cbn [obind] in E; try discriminate E. exfalso.
      destruct (pass_about _ _ _ _ _ _ _ A1 P1) as (A2 & _ & _ & _ & I2 & _).
      assert (G : forall k (x y : Loop RNum), loop_about mem c w a b x -> reload_loop k x = Ok y -> (lp_iter x <= lp_iter y)%Z).
      { clear. induction k as [|k IH]; intros x y A E; cbn [reload_loop] in E; [injection E as ->; lia|].
        destruct (reload_on x); [|injection E as ->; lia].
        destruct (reload_pass x) as [x1| |] eqn:P; cbn [obind] in E; try discriminate E.
        destruct (pass_about _ _ _ _ _ _ _ A P) as (A1 & _ & _ & _ & I1 & _). specialize (IH _ _ A1 E). lia. }
      specialize (G _ _ _ A2 E). lia. }
    subst p1. exists p. auto.
  - apply (IH p1 q A1 E Q O1).
Qed.

Lemma loop_order : forall fuel (p q : Loop RNum), p2x (lp_left p) < p2x (lp_right p) -> reload_loop fuel p = Ok q ->
  p2x (lp_left q) < p2x (lp_right q) /\ (reload_on q = false \/ (Z.of_nat fuel + lp_iter p <= lp_iter q)%Z).
Proof.
  induction fuel as [|n IH]; intros p q O E; cbn [reload_loop] in E; [injection E as <-; split; [exact O|right; lia]|].
  destruct (reload_on p) eqn:On; [|injection E as <-; auto]. unfold reload_pass in E.
  destruct (LengthDifference _ _) as [(y, s)| |]; cbn [obind] in E; try discriminate E.
  pose proof (next_points_order (lp_left p) (lp_right p) (mkPoint2d (next_tension (lp_left p) (lp_right p)) y) O) as O'.
  destruct (next_points _ _ _) as [l r]. cbn [obind] in E.
  pose proof (fun O => IH _ _ O E) as H. destruct (H O') as (A & B). split; [exact A|].
  destruct B as [B|B]; [auto|right]. cbn [lp_iter] in B. lia.
Qed.

(** What a pass that ends the loop does: the tension is near one of the two points, and
    the signs differ or it lies on the secant. *)
Lemma secant_line : forall xl yl xr yr x : R, xl < xr -> x = xl + (0 - yl) / ((yr - yl) / (xr - xl)) -> x <> xl ->
  yl <> yr /\ (yr - yl) * (x - xl) = (0 - yl) * (xr - xl).
Proof.
  intros xl yl xr yr x O E Ne.
  assert (D : yr - yl <> 0).
  { intros Z. apply Ne. rewrite E, Z. unfold Rdiv. rewrite Rmult_0_l, Rinv_0, Rmult_0_r. ring. }
  split; [lra|]. rewrite E. field. split; lra.
Qed.

Lemma pass_ends : forall (g : R -> outcome R) (l r cur l' r' : Point2d RNum), p2x l < p2x r ->
  on_graph (N := RNum) g l -> on_graph (N := RNum) g r ->
  p2x cur = next_tension l r -> (l', r') = next_points l r cur ->
  1 / 100 < Rabs (p2x l - p2x r) -> Rabs (p2x l' - p2x r') <= 1 / 100 ->
  near_balance g (p2x cur) (p2y cur).
Proof.
  intros g (xl, yl) (xr, yr) (x, y) (xl', yl') (xr', yr') O GL GR X NP B1 B2. unfold on_graph in *. cbn [p2x p2y] in *.
  unfold next_points in NP. cbn [p2x p2y] in NP. revert X NP. unfold next_tension. cbn [p2x p2y]. rn. intros X NP.
  destruct (Rltb 0 yl && Rltb yr 0)%bool eqn:S.
  - (* the signs differ *)
    apply andb_true_iff in S. destruct S as (S1 & S2). apply Rltb_true in S1. apply Rltb_true in S2.
    assert (xl < x < xr) by lra.
    rewrite (proj2 (Rltb_false x xl)), (proj2 (Rltb_true xl x)), (proj2 (Rltb_true x xr)) in NP by lra. cbn [andb] in NP.
    destruct (Rltb y 0) eqn:Y1.
    + apply Rltb_true in Y1. injection NP as -> -> -> ->. left. exists xl, yl.
      split; [rewrite Rabs_minus_sym; exact B2|]. split; [exact GL|]. nra.
    + destruct (Rltb 0 y) eqn:Y2.
      * apply Rltb_true in Y2. injection NP as -> -> -> ->. left. exists xr, yr.
        split; [exact B2|]. split; [exact GR|]. nra.
      * injection NP as -> -> -> ->. lra.
  - right. assert (Keep : (xl', xr') = (xl, xr) -> False) by (intros K; injection K as -> ->; lra).
    destruct (Rltb x xl) eqn:A.
    + apply Rltb_true in A. injection NP as -> -> -> ->. destruct (secant_line xl yl xr yr x O X) as (D & E); [lra|].
      exists xl, xr, yl, yr. split; [lra|]. split; [exact GL|]. split; [exact GR|]. split; [exact D|]. split; [exact E|exact B2].
    + apply Rltb_false in A. destruct (Rltb xl x) eqn:B; cbn [andb] in NP.
      * apply Rltb_true in B. destruct (secant_line xl yl xr yr x O X) as (D & E); [lra|].
        assert (FL : Rabs (x - xl) <= 1/100 -> exists a b ya yb, a <> b /\ g a = Ok ya /\ g b = Ok yb /\ ya <> yb /\
          (yb - ya) * (x - a) = (0 - ya) * (b - a) /\ Rabs (x - a) <= 1 / 100).
        { intros C. exists xl, xr, yl, yr. split; [lra|]. auto. }
        assert (FR : Rabs (x - xr) <= 1/100 -> exists a b ya yb, a <> b /\ g a = Ok ya /\ g b = Ok yb /\ ya <> yb /\
          (yb - ya) * (x - a) = (0 - ya) * (b - a) /\ Rabs (x - a) <= 1 / 100).
        { intros C. exists xr, xl, yr, yl. split; [lra|]. split; [exact GR|]. split; [exact GL|]. split; [auto|]. split; [lra|exact C]. }
        destruct (Rltb x xr) eqn:C.
        -- destruct (Rltb y 0); [injection NP as -> -> -> ->; apply FL; rewrite Rabs_minus_sym; exact B2|].
           destruct (Rltb 0 y); [injection NP as -> -> -> ->; apply FR; exact B2|].
           exfalso. apply Keep. congruence.
        -- destruct (Rltb xr x); [injection NP as -> -> -> ->; apply FR; rewrite Rabs_minus_sym; exact B2|].
           exfalso. apply Keep. congruence.
      * destruct (Rltb xr x) eqn:C.
        -- apply Rltb_true in C. apply Rltb_false in B. lra.
        -- exfalso. apply Keep. congruence.
Qed.

(** A new reloader that reports success after at least one pass. *)
Lemma solved_balance : forall (cats : Cats RNum) weights (mem : Models RNum) a e0 e1 w m r,
  (forall x, tracked (mem x)) -> 1 / 100 < tension_minimum (rehung (cats a) (weights w) (c3_tension_horizontal (cats a))) ->
  rl_Update cats weights mem (rl_fresh (Some a) (Some e0) (Some e1) (Some w)) = Ok (true, (m, r)) ->
  let h := c3_tension_horizontal (rl_result r) in
  twin_h (rl_result r) (rehung (cats a) (weights w) h) /\
  exists y, length_gap (cable_strain (mem e0)) (cable_strain (mem e1)) (cats a) (weights w) h = Ok y /\ y < 1 / 10 /\
    near_balance (length_gap (cable_strain (mem e0)) (cable_strain (mem e1)) (cats a) (weights w)) h y.
Proof.
  intros cats weights mem a e0 e1 w m r T Min E h. subst h.
  unfold rl_Update in E. change (rl_updated (rl_fresh (N := RNum) (Some a) (Some e0) (Some e1) (Some w))) with false in E. cbv iota in E.
  unfold SolveReloaded in E. cbn [rl_fresh rl_set_weight rl_set_reloaded rl_set_reference rl_set_catenary rl_catenary rl_weight rl_reference rl_reloaded rl_strainer deref obind CatReloader_new] in E.
  set (s0 := mkSearch mem _ _) in E.
  assert (A0 : about mem (cats a) (weights w) e0 e1 s0) by (apply start_about, T).
  destruct (reload_end s0) as [q| |] eqn:Q; cbn [obind] in E; try discriminate E. injection E as S _ <-. cbn [rl_result].
  unfold reload_end in Q.
  destruct (LengthDifference_gap _ _ _ _ _ s0 (tension_minimum (se_catenary s0)) A0) as (V1 & K1).
  destruct (LengthDifference s0 _) as [(yl, s1)| |]; cbn [obind omap fst] in Q, V1; try discriminate Q.
  destruct (K1 _ _ eq_refl) as (A1 & _).
  destruct (LengthDifference_gap _ _ _ _ _ s1 (fofZ 2 * tension_minimum (se_catenary s0))%num A1) as (V2 & K2).
  destruct (LengthDifference s1 _) as [(yr, s2)| |]; cbn [obind omap fst] in Q, V2; try discriminate Q.
  destruct (K2 _ _ eq_refl) as (A2 & _).
  set (x0 := tension_minimum (se_catenary s0)) in *.
  assert (X0 : 1 / 100 < x0).
  { unfold x0. change (tension_minimum (se_catenary s0)) with (tension_minimum (rehung (cats a) (weights w) (c3_tension_horizontal (cats a)))). exact Min. }
  clearbody x0.
  set (p0 := mkLoop _ _ _ _ _) in Q.
  assert (LA : loop_about mem (cats a) (weights w) e0 e1 p0) by (split; [exact A2|split; symmetry; assumption]).
  assert (O0 : p2x (lp_left p0) < p2x (lp_right p0)) by (cbn [p0 lp_left lp_right p2x]; rn; lra).
  unfold reload_success in S. destruct (lp_iter q <? 100)%Z eqn:I; [|discriminate S]. apply Z.ltb_lt in I.
  assert (ON : reload_on q = false).
  { destruct (loop_order _ _ _ O0 Q) as (_ & [B|B]); [exact B|]. rewrite Z2Nat.id in B by lia. cbn in B. lia. }
  assert (NZ : lp_iter q <> lp_iter p0).
  { intros Z. assert (P0 : reload_on p0 = true).
    { unfold reload_on. cbn [p0 lp_left lp_right lp_iter p2x]. change (0 <? 100)%Z with true. rewrite andb_true_r. rn. rewrite ?flit_R. apply Rltb_true.
      rewrite Rabs_left by lra. simpl powerRZ. lra. }
    change (Z.to_nat 101) with (Datatypes.S (Z.to_nat 100)) in Q. cbn [reload_loop] in Q. rewrite P0 in Q.
    destruct (reload_pass p0) as [p1| |] eqn:P; cbn [obind] in Q; try discriminate Q.
    destruct (pass_about _ _ _ _ _ _ _ LA P) as (LA1 & _ & _ & _ & I1 & _).
    destruct (Z.eq_dec (lp_iter q) (lp_iter p1)) as [F|F]; [rewrite I1 in F; lia|].
    assert (G : forall k (x y : Loop RNum), loop_about mem (cats a) (weights w) e0 e1 x -> reload_loop k x = Ok y -> (lp_iter x <= lp_iter y)%Z).
    { clear. induction k as [|k IH]; intros x y A E; cbn [reload_loop] in E; [injection E as ->; lia|].
      destruct (reload_on x); [|injection E as ->; lia].
      destruct (reload_pass x) as [x1| |] eqn:P; cbn [obind] in E; try discriminate E.
      destruct (pass_about _ _ _ _ _ _ _ A P) as (A1 & _ & _ & _ & I1 & _). specialize (IH _ _ A1 E). lia. }
    specialize (G _ _ _ LA1 Q). lia. }
  destruct (last_pass _ _ _ _ _ _ _ _ LA Q NZ O0) as (r0 & LR & OnR & P & Or).
  destruct (pass_about _ _ _ _ _ _ _ LR P) as ((AQ & _) & GQ & XQ & HQ & IQ & NP).
  rewrite HQ. split.
  - split; [|exact HQ]. eapply twin_trans; [apply AQ|apply rehung_twin].
  - exists (p2y (lp_current q)). split; [exact GQ|]. split.
    + revert S. rn. rewrite ?flit_R. intros S. apply Rltb_true in S. simpl powerRZ in S. lra.
    + destruct LR as (_ & GL & GR).
      apply (pass_ends _ (lp_left r0) (lp_right r0) (lp_current q) (lp_left q) (lp_right q) Or GL GR XQ NP).
      * unfold reload_on in OnR. apply andb_true_iff in OnR. destruct OnR as (O1 & _). revert O1. rn. rewrite ?flit_R. intros O1.
        apply Rltb_true in O1. simpl powerRZ in O1. lra.
      * unfold reload_on in ON. replace (lp_iter q <? 100)%Z with true in ON by (symmetry; apply Z.ltb_lt; exact I).
        rewrite andb_true_r in ON. revert ON. rn. rewrite ?flit_R. intros O1. apply Rltb_false in O1. simpl powerRZ in O1. lra.
Qed.
