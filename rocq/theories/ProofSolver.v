(** Proofs about CatenarySolver. *)
From Coq Require Import ZArith Bool List Reals Lra Lia.
From Verif Require Import Num NumFacts ModelBase ModelCatenary SpecCatenary ProofReal ProofVector HypFacts ProofCatenary
  SpecCatenary3 ProofCatenary3 ModelSolver SpecSolver.
Import ListNotations.

(** ** The answers depend on the inputs only, in any arithmetic *)
Section Twin.
Context {N : Num}.

(** Same inputs except for the tension. *)
Definition twin (c c' : Catenary3d N) : Prop :=
  c3_current c /\ c3_current c' /\ c3_spacing c = c3_spacing c' /\ c3_weight c = c3_weight c' /\
  c3_direction c = c3_direction c'.
(** Same inputs. *)
Definition twin_h (c c' : Catenary3d N) : Prop :=
  twin c c' /\ c3_tension_horizontal c = c3_tension_horizontal c'.

Ltac sp := unfold twin_h, twin; repeat match goal with |- _ /\ _ => split end; try assumption; try reflexivity.

Lemma twin_answer : forall c c' q, twin_h c c' -> c3_answer c q = c3_answer c' q.
Proof.
  intros c c' q ((I & J & S & W & D) & T).
  destruct (ensure3_facts c I) as (A1 & A2 & A3 & A4 & A5 & A6 & A7 & A8).
  destruct (ensure3_facts c' J) as (B1 & B2 & B3 & B4 & B5 & B6 & B7 & B8).
  unfold c3_tension_horizontal in T.
  apply answer3_same; try assumption. unfold same3.
  rewrite A6, A7, A8, B6, B7, B8. split; [|auto].
  intros q'. apply answer_ensure.
  - rewrite !ensure_current by assumption. apply Update_inputs; [rewrite A2, B2, S, W|rewrite A4, B4|rewrite A3, B3, W]; auto.
  - rewrite A2, B2, S, W. reflexivity.
  - rewrite A4, B4. assumption.
  - rewrite A3, B3, W. reflexivity.
Qed.

Lemma twin_sym : forall c c', twin c c' -> twin c' c.
Proof. intros c c' (A & B & C & D & E). sp; auto. Qed.
Lemma twin_h_sym : forall c c', twin_h c c' -> twin_h c' c.
Proof. intros c c' (A & B). split; [apply twin_sym, A|auto]. Qed.
Lemma twin_trans : forall c1 c2 c3, twin c1 c2 -> twin c2 c3 -> twin c1 c3.
Proof. intros c1 c2 c3 (A & B & C & D & E) (A' & B' & C' & D' & E'). sp; congruence || assumption. Qed.
Lemma twin_h_trans : forall c1 c2 c3, twin_h c1 c2 -> twin_h c2 c3 -> twin_h c1 c3.
Proof. intros c1 c2 c3 (A & B) (C & D). split; [eapply twin_trans; eauto|congruence]. Qed.

Lemma set_tension_current : forall (c : Catenary3d N) h, c3_current c -> c3_current (c3_set_tension c h).
Proof. intros c h I. exact (call3_current c (C3SetTension h) I). Qed.
Lemma after_current : forall (c : Catenary3d N) u, c3_current c -> c3_current (c3_after c u).
Proof. intros c u I. exact (call3_current c (C3Query u) I). Qed.
Lemma after_inputs : forall (c : Catenary3d N) u, c3_spacing (c3_after c u) = c3_spacing c /\
  c3_weight (c3_after c u) = c3_weight c /\ c3_direction (c3_after c u) = c3_direction c /\
  c3_tension_horizontal (c3_after c u) = c3_tension_horizontal c.
Proof.
  intros c u. destruct (inputs3 [C3Query u] c) as (A & B & C & D). cbn [c3_run fold_left c3_call last_of pick3_direction pick3_spacing pick3_tension pick3_weight] in *.
  auto.
Qed.
Lemma after_twin : forall c u, c3_current c -> twin_h (c3_after c u) c.
Proof.
  intros c u I. destruct (after_inputs c u) as (A & B & C & D). sp; try assumption. apply after_current, I.
Qed.
Lemma after_Validate_current : forall c : Catenary3d N, c3_current c -> c3_current (c3_after_Validate c).
Proof. intros c I. exact (call3_current c C3Validate I). Qed.
Lemma after_Validate_twin : forall c : Catenary3d N, c3_current c -> twin_h (c3_after_Validate c) c.
Proof.
  intros c I. destruct (inputs3 [C3Validate] c) as (A & B & C & D).
  cbn [c3_run fold_left c3_call last_of pick3_direction pick3_spacing pick3_tension pick3_weight] in *.
  sp; try assumption. apply after_Validate_current, I.
Qed.
Lemma set_tension_twin : forall (c c' : Catenary3d N) h, twin c c' -> twin_h (c3_set_tension c h) (c3_set_tension c' h).
Proof.
  intros c c' h (A & B & C & D & E). split; [|reflexivity]. sp; try assumption; apply set_tension_current; assumption.
Qed.
Lemma set_tension_self : forall (c : Catenary3d N) h, c3_current c -> twin (c3_set_tension c h) c.
Proof. intros c h I. sp; try assumption. apply set_tension_current, I. Qed.

(** The three Update functions: a new catenary answers, and only the tension changes. *)
Definition fair (u : Catenary3d N -> N -> N * Catenary3d N) : Prop :=
  (forall c c' h, twin c c' -> fst (u c h) = fst (u c' h)) /\
  forall c h, c3_current c -> twin_h (snd (u c h)) (c3_set_tension c h).

Lemma num_answer : forall (c c' : Catenary3d N) q x y, twin_h c c' -> c3_answer c q = ANum x -> c3_answer c' q = ANum y -> x = y.
Proof. intros c c' q x y H A B. rewrite (twin_answer c c' q H), B in A. injection A. auto. Qed.

Lemma fair_length : fair UpdateCatenaryLength.
Proof.
  split; [|intros c h I; apply after_twin, set_tension_current, I].
  intros c c' h H. exact (num_answer _ _ Q3Length _ _ (set_tension_twin c c' h H) eq_refl eq_refl).
Qed.
Lemma fair_sag : forall p, fair (UpdateCatenarySag p).
Proof.
  intros p. split; [|intros c h I; apply after_twin, set_tension_current, I].
  intros c c' h H. unfold UpdateCatenarySag. cbn [fst]. assert (T := set_tension_twin c c' h H). destruct (feqb p _).
  - exact (num_answer _ _ Q3Sag _ _ T eq_refl eq_refl).
  - exact (num_answer _ _ (Q3SagAt p) _ _ T eq_refl eq_refl).
Qed.
Lemma fair_tension : forall p, fair (UpdateCatenaryTension p).
Proof.
  intros p. split; [|intros c h I; apply after_twin, set_tension_current, I].
  intros c c' h H. unfold UpdateCatenaryTension. cbn [fst]. assert (T := set_tension_twin c c' h H). destruct (feqb p _).
  - exact (num_answer _ _ Q3TensionMax _ _ T eq_refl eq_refl).
  - exact (num_answer _ _ (Q3Tension p) _ _ T eq_refl eq_refl).
Qed.

Lemma fair_twin : forall u c c' h, fair u -> twin c c' -> twin_h (snd (u c h)) (snd (u c' h)).
Proof.
  intros u c c' h (_ & F) T. assert (T' := T). destruct T as (I & J & _).
  eapply twin_h_trans; [apply F, I|]. eapply twin_h_trans; [apply set_tension_twin, T'|]. apply twin_h_sym, F, J.
Qed.

Definition same_loop (s s' : LoopState N) : Prop :=
  lo_left s = lo_left s' /\ lo_right s = lo_right s' /\ lo_current s = lo_current s' /\ lo_iter s = lo_iter s' /\
  twin (lo_catenary s) (lo_catenary s').

Lemma pass_same : forall u t s s', fair u -> same_loop s s' -> same_loop (solve_pass u t s) (solve_pass u t s').
Proof.
  intros u t s s' F (A & B & C & D & E). unfold solve_pass. rewrite <- A, <- B, <- D.
  set (x := fadd _ _). assert (V := proj1 F _ _ x E). assert (W := fair_twin u _ _ x F E).
  destruct (u (lo_catenary s) x) as [y c], (u (lo_catenary s') x) as [y' c']. cbn [fst snd] in *. subst y'.
  destruct (if (x <? p2x (lo_left s))%num then _ else _) as [l r].
  unfold same_loop; sp; try reflexivity; apply W.
Qed.

Lemma loop_same : forall u t fuel s s', fair u -> same_loop s s' -> same_loop (solve_loop u t fuel s) (solve_loop u t fuel s').
Proof.
  intros u t fuel. induction fuel as [|n IH]; intros s s' F S; [exact S|].
  cbn [solve_loop]. assert (S' := S). destruct S' as (A & B & _ & D & _). rewrite <- A, <- B, <- D.
  destruct (_ && _); [|exact S]. apply IH, pass_same; assumption.
Qed.

Lemma between_same : forall u t l r c c', fair u -> twin c c' ->
  fst (solve_between u t l r c) = fst (solve_between u t l r c') /\
  twin_h (snd (solve_between u t l r c)) (snd (solve_between u t l r c')).
Proof.
  intros u t l r c c' F T. unfold solve_between.
  assert (S : same_loop (solve_loop u t (Z.to_nat 102) (mkLoopState l r Point2d_default 0 c))
                        (solve_loop u t (Z.to_nat 102) (mkLoopState l r Point2d_default 0 c')))
    by (apply loop_same; [assumption|unfold same_loop; sp; try apply T; reflexivity]).
  destruct S as (_ & _ & C & D & E). rewrite <- C, <- D. destruct (_ <? _)%Z; (split; [reflexivity|apply set_tension_twin, E]).
Qed.

Lemma minimum_same : forall c c' : Catenary3d N, twin c c' -> tension_minimum c = tension_minimum c'.
Proof. intros c c' (_ & _ & A & B & _). unfold tension_minimum. rewrite A, B. reflexivity. Qed.

Definition same_result (a b : bool * Catenary3d N) : Prop := fst a = fst b /\ twin_h (snd a) (snd b).

Lemma length_same : forall v c c', twin c c' -> same_result (SolveFromLength v c) (SolveFromLength v c').
Proof.
  intros v c c' T. unfold SolveFromLength. rewrite <- (minimum_same c c' T). set (x := tension_minimum c).
  assert (V := proj1 fair_length _ _ x T). assert (W := fair_twin _ _ _ x fair_length T).
  destruct (UpdateCatenaryLength c x) as [y d], (UpdateCatenaryLength c' x) as [y' d']. cbn [fst snd] in *. subst y'.
  destruct W as (W & WT). assert (WS := W). destruct WS as (_ & _ & WS & _). rewrite <- WS.
  destruct (_ <=? _)%num; [split; [reflexivity|split; assumption]|].
  destruct (_ <? _)%num; [split; [reflexivity|split; assumption]|].
  set (x2 := fmul x _). assert (V2 := proj1 fair_length _ _ x2 W). assert (W2 := fair_twin _ _ _ x2 fair_length W).
  destruct (UpdateCatenaryLength d x2) as [y2 d2], (UpdateCatenaryLength d' x2) as [y2' d2']. cbn [fst snd] in *. subst y2'.
  apply between_same; [apply fair_length|apply W2].
Qed.

Lemma sag_same : forall p v c c', twin c c' -> same_result (SolveFromSag p v c) (SolveFromSag p v c').
Proof.
  intros p v c c' T. unfold SolveFromSag. rewrite <- (minimum_same c c' T). set (x := tension_minimum c).
  assert (V := proj1 (fair_sag p) _ _ x T). assert (W := fair_twin _ _ _ x (fair_sag p) T).
  destruct (UpdateCatenarySag p c x) as [y d], (UpdateCatenarySag p c' x) as [y' d']. cbn [fst snd] in *. subst y'.
  destruct (_ <? _)%num; [split; [reflexivity|assumption]|]. destruct W as (W & _).
  set (x2 := fmul x _). assert (V2 := proj1 (fair_sag p) _ _ x2 W). assert (W2 := fair_twin _ _ _ x2 (fair_sag p) W).
  destruct (UpdateCatenarySag p d x2) as [y2 d2], (UpdateCatenarySag p d' x2) as [y2' d2']. cbn [fst snd] in *. subst y2'.
  apply between_same; [apply fair_sag|apply W2].
Qed.

Lemma tension_same : forall p v c c', twin c c' -> same_result (SolveFromTension p v c) (SolveFromTension p v c').
Proof.
  intros p v c c' T. unfold SolveFromTension. rewrite <- (minimum_same c c' T). set (x := tension_minimum c).
  assert (V := proj1 (fair_tension p) _ _ x T). assert (W := fair_twin _ _ _ x (fair_tension p) T).
  destruct (UpdateCatenaryTension p c x) as [y d], (UpdateCatenaryTension p c' x) as [y' d']. cbn [fst snd] in *. subst y'.
  destruct (_ <? _)%num; [split; [reflexivity|assumption]|]. destruct W as (W & _).
  assert (V2 := proj1 (fair_tension p) _ _ v W). assert (W2 := fair_twin _ _ _ v (fair_tension p) W).
  destruct (UpdateCatenaryTension p d v) as [y2 d2], (UpdateCatenaryTension p d' v) as [y2' d2']. cbn [fst snd] in *. subst y2'.
  apply between_same; [apply fair_tension|apply W2].
Qed.

Lemma constant_same : forall v (c c' : Catenary3d N), twin c c' -> same_result (SolveFromConstant v c) (SolveFromConstant v c').
Proof.
  intros v c c' T. split; [reflexivity|]. cbn [SolveFromConstant snd].
  replace (Vector3d_Magnitude (c3_weight c')) with (Vector3d_Magnitude (c3_weight c)) by (destruct T as (_ & _ & _ & -> & _); reflexivity).
  apply set_tension_twin, T.
Qed.

(** The tension solved for is the tension of the result; spacing, weight and direction stay. *)
Lemma loop_current : forall u t fuel s, fair u -> c3_current (lo_catenary s) ->
  twin (lo_catenary (solve_loop u t fuel s)) (lo_catenary s).
Proof.
  intros u t fuel. induction fuel as [|n IH]; intros s F I; [sp; assumption|].
  cbn [solve_loop]. destruct (_ && _); [|sp; assumption].
  assert (P : twin (lo_catenary (solve_pass u t s)) (lo_catenary s)).
  { unfold solve_pass. set (x := fadd _ _). assert (W := proj2 F (lo_catenary s) x I).
    destruct (u (lo_catenary s) x) as [y c]. destruct (if (x <? _)%num then _ else _) as [l r]. cbn [lo_catenary snd] in *.
    eapply twin_trans; [apply W|]. apply set_tension_self, I. }
  eapply twin_trans; [apply IH; [assumption|apply P]|exact P].
Qed.

Lemma between_current : forall u t l r c, fair u -> c3_current c -> twin (snd (solve_between u t l r c)) c.
Proof.
  intros u t l r c F I. unfold solve_between.
  assert (P := loop_current u t (Z.to_nat 102) (mkLoopState l r Point2d_default 0 c) F I). cbn [lo_catenary] in P.
  destruct (_ <? _)%Z; cbn [snd]; (eapply twin_trans; [|exact P]); apply set_tension_self, P.
Qed.

Lemma fair_step : forall u c h, fair u -> c3_current c -> twin (snd (u c h)) c.
Proof. intros u c h F I. eapply twin_trans; [apply F, I|apply set_tension_self, I]. Qed.

Lemma length_current : forall v c, c3_current c -> twin (snd (SolveFromLength v c)) c.
Proof.
  intros v c I. unfold SolveFromLength. assert (W := fair_step _ c (tension_minimum c) fair_length I).
  destruct (UpdateCatenaryLength c (tension_minimum c)) as [y d]. cbn [snd] in W.
  destruct (_ <=? _)%num; [exact W|]. destruct (_ <? _)%num; [exact W|]. assert (J := W). destruct J as (J & _).
  set (x := fmul _ _). assert (W2 := fair_step _ d x fair_length J). destruct (UpdateCatenaryLength d x) as [y2 d2]. cbn [snd] in W2.
  eapply twin_trans; [apply between_current; [apply fair_length|apply W2]|]. eapply twin_trans; eassumption.
Qed.
Lemma sag_current : forall p v c, c3_current c -> twin (snd (SolveFromSag p v c)) c.
Proof.
  intros p v c I. unfold SolveFromSag. assert (W := fair_step _ c (tension_minimum c) (fair_sag p) I).
  destruct (UpdateCatenarySag p c (tension_minimum c)) as [y d]. cbn [snd] in W.
  destruct (_ <? _)%num; [exact W|]. assert (J := W). destruct J as (J & _).
  set (x := fmul _ _). assert (W2 := fair_step _ d x (fair_sag p) J). destruct (UpdateCatenarySag p d x) as [y2 d2]. cbn [snd] in W2.
  eapply twin_trans; [apply between_current; [apply fair_sag|apply W2]|]. eapply twin_trans; eassumption.
Qed.
Lemma tension_current : forall p v c, c3_current c -> twin (snd (SolveFromTension p v c)) c.
Proof.
  intros p v c I. unfold SolveFromTension. assert (W := fair_step _ c (tension_minimum c) (fair_tension p) I).
  destruct (UpdateCatenaryTension p c (tension_minimum c)) as [y d]. cbn [snd] in W.
  destruct (_ <? _)%num; [exact W|]. assert (J := W). destruct J as (J & _).
  assert (W2 := fair_step _ d v (fair_tension p) J). destruct (UpdateCatenaryTension p d v) as [y2 d2]. cbn [snd] in W2.
  eapply twin_trans; [apply between_current; [apply fair_tension|apply W2]|]. eapply twin_trans; eassumption.
Qed.

(** ** Solvers with the same inputs *)
Definition kin (s s' : CatenarySolver N) : Prop :=
  cs_position s = cs_position s' /\ cs_type s = cs_type s' /\ cs_value s = cs_value s' /\
  twin (cs_catenary s) (cs_catenary s').

Definition kin_h (s s' : CatenarySolver N) : Prop :=
  kin s s' /\ c3_tension_horizontal (cs_catenary s) = c3_tension_horizontal (cs_catenary s') /\
  cs_is_updated s = cs_is_updated s'.

Ltac sp ::= unfold kin_h, kin, twin_h, twin; repeat match goal with |- _ /\ _ => split end; try assumption; try reflexivity.

Lemma kin_trans : forall a b c, kin a b -> kin b c -> kin a c.
Proof.
  intros a b c (A & B & C & D) (A' & B' & C' & D'). assert (T := twin_trans _ _ _ D D'). sp; try congruence; apply T.
Qed.

(** Update: same result, and the same members afterwards unless there is no target. *)
Lemma Update_same : forall s s', kin s s' -> fst (cs_Update s) = fst (cs_Update s') /\
  kin (snd (cs_Update s)) (snd (cs_Update s')) /\
  (cs_type s = TgNull \/ kin_h (snd (cs_Update s)) (snd (cs_Update s'))).
Proof.
  intros s s' (A & B & C & D). unfold cs_Update. rewrite <- B.
  assert (K : forall r r' : bool * Catenary3d N, same_result r r' ->
    let f := fun (s : CatenarySolver N) (r : bool * Catenary3d N) =>
      let '(is_updated, c) := r in
      if is_updated then (c3_Validate c, cs_with s (c3_after_Validate c) true) else (false, cs_with s c false) in
    fst (f s r) = fst (f s' r') /\ kin (snd (f s r)) (snd (f s' r')) /\ (cs_type s = TgNull \/ kin_h (snd (f s r)) (snd (f s' r')))).
  { intros [b c] [b' c'] (E & F) f. cbn [fst snd] in E, F. subst b'. destruct b; cbn [f fst snd cs_with cs_position cs_type cs_value cs_catenary cs_is_updated].
    - assert (V : c3_Validate c = c3_Validate c').
      { assert (Q := twin_answer c c' Q3Validate F). cbn [c3_answer] in Q. injection Q. auto. }
      assert (I := proj1 (proj1 F)). assert (J := proj1 (proj2 (proj1 F))).
      assert (T : twin_h (c3_after_Validate c) (c3_after_Validate c')).
      { eapply twin_h_trans; [apply after_Validate_twin, I|]. eapply twin_h_trans; [apply F|]. apply twin_h_sym, after_Validate_twin, J. }
      split; [exact V|]. split; [sp; try assumption; apply T|]. right. sp; try assumption; apply T.
    - split; [reflexivity|]. split; [sp; try assumption; apply F|]. right. sp; try assumption; apply F. }
  destruct (cs_type s) eqn:T.
  - rewrite <- C. apply K, constant_same, D.
  - rewrite <- C. apply K, length_same, D.
  - split; [reflexivity|]. split; [cbn [snd]; destruct D as (D1 & D2 & D3 & D4 & D5); sp; congruence|left; reflexivity].
  - rewrite <- C, <- A. apply K, sag_same, D.
  - rewrite <- C, <- A. apply K, tension_same, D.
Qed.

(** Update keeps the inputs. *)
Lemma Update_kin : forall s, c3_current (cs_catenary s) -> kin (snd (cs_Update s)) s.
Proof.
  intros s I. unfold cs_Update.
  assert (K : forall r : bool * Catenary3d N, twin (snd r) (cs_catenary s) ->
    kin (snd (let '(is_updated, c) := r in
      if is_updated then (c3_Validate c, cs_with s (c3_after_Validate c) true) else (false, cs_with s c false))) s).
  { intros [b c] T. cbn [snd] in T. destruct b; cbn [snd]; (split; [reflexivity|]); (split; [reflexivity|]); (split; [reflexivity|]);
      cbn [cs_with cs_catenary]; [|exact T].
    eapply twin_trans; [apply after_Validate_twin, T|exact T]. }
  destruct (cs_type s) eqn:T.
  - apply K, set_tension_self, I.
  - apply K, length_current, I.
  - sp; assumption.
  - apply K, sag_current, I.
  - apply K, tension_current, I.
Qed.

(** A result of true comes with is_updated_. *)
Lemma Update_true : forall s : CatenarySolver N, fst (cs_Update s) = true -> cs_is_updated (snd (cs_Update s)) = true.
Proof.
  intros s. unfold cs_Update. destruct (cs_type s); [| |discriminate| |];
  [destruct (SolveFromConstant _ _) as [[] c]|destruct (SolveFromLength _ _) as [[] c]|destruct (SolveFromSag _ _ _) as [[] c]|destruct (SolveFromTension _ _ _) as [[] c]];
  try discriminate; reflexivity.
Qed.

Lemma Update_valid : forall s : CatenarySolver N, fst (cs_Update s) = true -> c3_current (cs_catenary s) -> c3_Validate (cs_catenary (snd (cs_Update s))) = true.
Proof.
  intros s H I.
  assert (K : forall r : bool * Catenary3d N, twin (snd r) (cs_catenary s) ->
    let u := (let '(is_updated, c) := r in
      if is_updated then (c3_Validate c, cs_with s (c3_after_Validate c) true) else (false, cs_with s c false)) in
    fst u = true -> c3_Validate (cs_catenary (snd u)) = true).
  { intros [[] c] T; cbn [fst snd cs_with cs_catenary]; [|discriminate]. intros V.
    assert (Q := twin_answer _ _ Q3Validate (after_Validate_twin c (proj1 T))). cbn [c3_answer] in Q. injection Q as Q. congruence. }
  unfold cs_Update in *. destruct (cs_type s).
  - apply K; [apply set_tension_self, I|exact H].
  - apply K; [apply length_current, I|exact H].
  - discriminate.
  - apply K; [apply sag_current, I|exact H].
  - apply K; [apply tension_current, I|exact H].
Qed.

Lemma renew_current : forall s : CatenarySolver N, c3_current (cs_catenary (cs_renew s)).
Proof. intros s U. discriminate U. Qed.
Lemma renew_kin : forall s : CatenarySolver N, c3_current (cs_catenary s) -> c3_direction (cs_catenary s) = ADPositive -> kin s (cs_renew s).
Proof. intros s I D. sp; try assumption. apply renew_current. Qed.
Lemma kin_renew : forall s s' : CatenarySolver N, kin s s' -> cs_renew s = cs_renew s'.
Proof. intros s s' (A & B & C & D). destruct D as (_ & _ & D & E & _). unfold cs_renew. rewrite A, B, C, D, E. reflexivity. Qed.

(** ** Invariant of histories *)
Definition settled (s : CatenarySolver N) : Prop :=
  c3_current (cs_catenary s) /\ c3_direction (cs_catenary s) = ADPositive /\
  (cs_is_updated s = true -> cs_type s <> TgNull /\ kin_h s (snd (cs_Update (cs_renew s)))).

Lemma settled_Update : forall s, settled s -> cs_is_updated s = false -> settled (snd (cs_Update s)).
Proof.
  intros s (I & D & _) U. assert (K := Update_kin s I).
  assert (K' := K). destruct K' as (_ & T & _ & (I' & _ & _ & _ & D')).
  split; [exact I'|]. split; [congruence|]. intros U'. split.
  - rewrite T. intros T'. unfold cs_Update in U'. rewrite T' in U'. cbn in U'. congruence.
  - rewrite (kin_renew _ _ K). destruct (Update_same s (cs_renew s) (renew_kin s I D)) as (_ & _ & [T'|H]); [|exact H].
    exfalso. unfold cs_Update in U'. rewrite T' in U'. cbn in U'. congruence.
Qed.

(** Validate updates also when the members are up to date already. *)
Lemma settled_Update' : forall s, settled s -> settled (snd (cs_Update s)).
Proof.
  intros s S. destruct (cs_is_updated s) eqn:U; [|apply settled_Update; assumption].
  destruct S as (I & D & H). destruct (H U) as (NT & _). assert (K := Update_kin s I).
  assert (K' := K). destruct K' as (_ & T & _ & (I' & _ & _ & _ & D')).
  split; [exact I'|]. split; [congruence|]. intros _. split; [congruence|].
  rewrite (kin_renew _ _ K). destruct (Update_same s (cs_renew s) (renew_kin s I D)) as (_ & _ & [T'|H']); [contradiction|exact H'].
Qed.

Lemma settled_ensure : forall s, settled s -> settled (snd (cs_ensure s)).
Proof. intros s S. unfold cs_ensure. destruct (cs_is_updated s); [exact S|apply settled_Update', S]. Qed.

Lemma settled_call : forall s k, settled s -> settled (cs_call s k).
Proof.
  intros s k S. assert (S' := S). destruct S' as (I & D & _).
  destruct k; cbn [cs_call]; try (split; [|split; [exact D|intros U; discriminate U]]; first [exact I|intros U; discriminate U]).
  - unfold cs_Catenary. assert (E := settled_ensure s S). destruct (cs_ensure s). exact E.
  - unfold cs_TensionHorizontal. assert (E := settled_ensure s S). destruct (cs_ensure s). exact E.
  - unfold cs_Validate. destruct (cs_inputs_valid s); [apply settled_Update', S|exact S].
Qed.

Lemma settled_run : forall ks s, settled s -> settled (cs_run s ks).
Proof. induction ks as [|k ks IH]; intros s S; [exact S|]. apply IH, settled_call, S. Qed.
Lemma settled_default : settled (@CatenarySolver_default N).
Proof. split; [apply default3_current|]. split; [reflexivity|]. intros U; discriminate U. Qed.

(** ** What a query says after a history *)
Lemma ensure_answers : forall s s' : CatenarySolver N, fst (cs_ensure s) = fst (cs_ensure s') ->
  (fst (cs_ensure s) = true -> twin_h (cs_catenary (snd (cs_ensure s))) (cs_catenary (snd (cs_ensure s')))) ->
  same_answers s s'.
Proof.
  intros s s' B T. unfold same_answers, cs_TensionHorizontal, cs_Catenary.
  destruct (cs_ensure s) as [b t], (cs_ensure s') as [b' t']. cbn [fst snd] in *. subst b'.
  destruct b; cbn [fst snd]; [|auto]. specialize (T eq_refl). split; [apply T|]. intros q. apply twin_answer, T.
Qed.

Lemma renew_ensure : forall s : CatenarySolver N, cs_ensure (cs_renew s) = cs_Update (cs_renew s).
Proof. reflexivity. Qed.

Lemma stale_answers : forall s, settled s -> cs_is_updated s = false -> same_answers s (cs_renew s).
Proof.
  intros s (I & D & _) U. destruct (Update_same s (cs_renew s) (renew_kin s I D)) as (A & B & C).
  apply ensure_answers; rewrite renew_ensure; unfold cs_ensure; rewrite U; [exact A|].
  intros H. destruct C as [T|C]; [unfold cs_Update in H; rewrite T in H; discriminate|].
  split; [apply C|apply C].
Qed.

(** With up-to-date members: the second answer of a new solver. *)
Lemma updated_answers : forall s, settled s -> cs_is_updated s = true ->
  same_answers s (snd (cs_TensionHorizontal (cs_renew s))).
Proof.
  intros s (I & D & H) U. destruct (H U) as (_ & K).
  assert (E : snd (cs_TensionHorizontal (cs_renew s)) = snd (cs_Update (cs_renew s))).
  { unfold cs_TensionHorizontal. rewrite renew_ensure. destruct (cs_Update (cs_renew s)). reflexivity. }
  rewrite E. destruct K as (K & T & UU). rewrite U in UU.
  apply ensure_answers; unfold cs_ensure; rewrite <- UU, U; [reflexivity|]. intros _. split; [apply K|exact T].
Qed.

Lemma same_answers_trans : forall a b c : CatenarySolver N, same_answers a b -> same_answers b c -> same_answers a c.
Proof. intros a b c (A & B) (C & D). split; [congruence|]. intros q. rewrite B. apply D. Qed.

(** If the update of a new solver succeeds, its first and second answers agree. *)
Lemma renew_twice : forall s : CatenarySolver N, fst (cs_Update (cs_renew s)) = true ->
  same_answers (snd (cs_TensionHorizontal (cs_renew s))) (cs_renew s).
Proof.
  intros s H.
  assert (E : snd (cs_TensionHorizontal (cs_renew s)) = snd (cs_Update (cs_renew s))).
  { unfold cs_TensionHorizontal. rewrite renew_ensure. destruct (cs_Update (cs_renew s)). reflexivity. }
  rewrite E. assert (U := Update_true _ H).
  apply ensure_answers; rewrite renew_ensure; unfold cs_ensure at 1; rewrite U; [symmetry; exact H|].
  intros _. unfold cs_ensure. rewrite U. cbn [snd].
  assert (K := Update_kin (cs_renew s) (renew_current s)).
  sp; apply K.
Qed.

Lemma history_answers : forall ks, let s := cs_run (@CatenarySolver_default N) ks in let f := cs_renew s in
  same_answers s f \/ (fst (cs_TensionHorizontal f) = ferr /\ same_answers s (snd (cs_TensionHorizontal f))).
Proof.
  intros ks s f. assert (S : settled s) by apply settled_run, settled_default.
  destruct (cs_is_updated s) eqn:U; [|left; apply stale_answers; assumption].
  assert (A := updated_answers s S U). destruct (fst (cs_Update f)) eqn:B.
  - left. eapply same_answers_trans; [exact A|]. apply renew_twice, B.
  - right. split; [|exact A]. unfold cs_TensionHorizontal. unfold f. rewrite renew_ensure.
    unfold f in B. destruct (cs_Update (cs_renew s)). cbn [fst] in *. subst b. reflexivity.
Qed.

Lemma history_repeatable : forall ks, let s := cs_run (@CatenarySolver_default N) ks in let f := cs_renew s in
  fst (cs_Validate f) = true \/ cs_is_updated (snd (cs_TensionHorizontal f)) = false -> same_answers s f.
Proof.
  intros ks s f H. assert (S : settled s) by apply settled_run, settled_default.
  destruct (cs_is_updated s) eqn:U; [|apply stale_answers; assumption].
  assert (A := updated_answers s S U). destruct H as [H|H].
  - eapply same_answers_trans; [exact A|]. apply renew_twice. fold f. unfold cs_Validate in H.
    destruct (cs_inputs_valid f); [exact H|discriminate].
  - exfalso. destruct S as (_ & _ & S). destruct (S U) as (_ & _ & _ & V). fold f in V.
    unfold cs_TensionHorizontal in H. unfold f in H. rewrite renew_ensure in H. fold f in H.
    destruct (cs_Update f). cbn [fst snd] in *. congruence.
Qed.

Lemma inputsS : forall ks (s : CatenarySolver N), c3_current (cs_catenary s) ->
  cs_position (cs_run s ks) = last_of pickS_position ks (cs_position s) /\
  c3_spacing (cs_catenary (cs_run s ks)) = last_of pickS_spacing ks (c3_spacing (cs_catenary s)) /\
  cs_type (cs_run s ks) = last_of pickS_type ks (cs_type s) /\
  cs_value (cs_run s ks) = last_of pickS_value ks (cs_value s) /\
  c3_weight (cs_catenary (cs_run s ks)) = last_of pickS_weight ks (c3_weight (cs_catenary s)).
Proof.
  induction ks as [|k ks IH]; intros s I; [auto|].
  cbn [cs_run fold_left last_of]. fold (cs_run (cs_call s k) ks).
  assert (U := Update_kin s I).
  assert (E : kin (snd (cs_ensure s)) s) by (unfold cs_ensure; destruct (cs_is_updated s); [sp; assumption|exact U]).
  assert (K : (forall p, k <> ScSetPosition p) -> (forall p, k <> ScSetSpacing p) -> (forall p, k <> ScSetType p) ->
              (forall p, k <> ScSetValue p) -> (forall p, k <> ScSetWeight p) -> kin (cs_call s k) s).
  { intros K1 K2 K3 K4 K5. destruct k; cbn [cs_call]; try (exfalso; first [eapply K1; reflexivity|eapply K2; reflexivity|eapply K3; reflexivity|eapply K4; reflexivity|eapply K5; reflexivity]).
    - unfold cs_Catenary. destruct (cs_ensure s). exact E.
    - unfold cs_TensionHorizontal. destruct (cs_ensure s). exact E.
    - unfold cs_Validate. destruct (cs_inputs_valid s); [exact U|sp; assumption]. }
  assert (J : c3_current (cs_catenary (cs_call s k))).
  { destruct k; try (exact I); try (intros V; discriminate V); apply K; intros; discriminate. }
  destruct (IH _ J) as (-> & -> & -> & -> & ->).
  destruct k; try (cbn; auto; fail);
    (destruct K as (-> & -> & -> & _ & _ & -> & -> & _); [intros; discriminate..|]; cbn; auto).
Qed.
End Twin.
