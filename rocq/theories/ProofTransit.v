(** The transit sagger in exact arithmetic: what the search finds. *)
From Coq Require Import ZArith Bool List Reals Lra Lia.
From Verif Require Import Num NumFacts ModelBase ModelCatenary ModelSagging ProofReal ProofSearch.
Import ListNotations.
Open Scope R_scope.

Section Find.
Variable angle : R -> R.

(** ** One pass *)
Lemma lowest_R : forall ps low found q, lowest (N := RNum) angle ps low found = Some q ->
  (found = Some q /\ forall x, In x ps -> low <= angle x) \/
  exists pre post, ps = pre ++ q :: post /\ (forall x, In x pre -> angle q < angle x) /\ (forall x, In x post -> angle q <= angle x) /\ angle q < low.
Proof.
  induction ps as [|p ps IH]; intros low found q H; cbn [lowest] in H.
  - left. split; [exact H|]. intros x [].
  - rn. destruct (Rltb (angle p) low) eqn:E.
    + apply Rltb_true in E. right. destruct (IH _ _ _ H) as [(A & B)|(pre & post & A & B & C & D)].
      * injection A as <-. exists [], ps. split; [reflexivity|]. split; [intros x []|]. split; [exact B|exact E].
      * exists (p :: pre), post. split; [rewrite A; reflexivity|]. split; [|split; [exact C|lra]].
        intros x [<- | X]; [exact D|exact (B x X)].
    + apply Rltb_false in E. destruct (IH _ _ _ H) as [(A & B)|(pre & post & A & B & C & D)].
      * left. split; [exact A|]. intros x [<- | X]; [exact E|exact (B x X)].
      * right. exists (p :: pre), post. split; [rewrite A; reflexivity|]. split; [|split; [exact C|exact D]].
        intros x [<- | X]; [lra|exact (B x X)].
Qed.

Definition point (b a : R) (i : nat) : R := b + INR i * ((a - b) / 10).

Lemma positions_R : forall b a : R, sight_positions (N := RNum) b a 11 = map (point b a) (seq 0 11).
Proof.
  intros b a. unfold sight_positions. change (Z.to_nat 11) with 11%nat. apply map_ext. intros i. unfold point. rn.
  rewrite <- INR_IZR_INZ. reflexivity.
Qed.

Lemma pass_R : forall b a q : R, PositionCatenaryLowAngle (N := RNum) angle b a 11 = Ok q ->
  exists j, (j <= 10)%nat /\ q = point b a j /\ (forall i, (i < j)%nat -> angle q < angle (point b a i)) /\
  (forall i, (i <= 10)%nat -> angle q <= angle (point b a i)).
Proof.
  intros b a q H. unfold PositionCatenaryLowAngle in H. rewrite positions_R in H.
  destruct (lowest _ _ _ _) as [r|] eqn:E; [|discriminate H]. injection H as ->.
  destruct (lowest_R _ _ _ _ E) as [(A & _)|(pre & post & A & B & C & _)]; [discriminate A|].
  assert (L : (length pre <= 10)%nat).
  { assert (Q := f_equal (@length R) A). rewrite map_length, seq_length, app_length in Q. cbn [length] in Q. lia. }
  assert (N : forall i, (i <= 10)%nat -> nth_error (map (point b a) (seq 0 11)) i = Some (point b a i)).
  { intros i Hi. do 11 (destruct i as [|i]; [reflexivity|]). lia. }
  exists (length pre). split; [exact L|]. split.
  - assert (Q := N _ L). rewrite A, nth_error_app2, Nat.sub_diag in Q by lia. cbn [nth_error] in Q. congruence.
  - assert (P : forall i, (i < length pre)%nat -> angle q < angle (point b a i)).
    { intros i Hi. apply B. assert (Q := N i ltac:(lia)). rewrite A, nth_error_app1 in Q by exact Hi. exact (nth_error_In _ _ Q). }
    split; [exact P|]. intros i Hi. destruct (Nat.lt_trichotomy i (length pre)) as [T|[-> |T]].
    + left. apply P, T.
    + right. assert (Q := N _ L). rewrite A, nth_error_app2, Nat.sub_diag in Q by lia. cbn [nth_error] in Q. congruence.
    + apply C. assert (Q := N i Hi). rewrite A, nth_error_app2 in Q by lia.
      destruct (i - length pre)%nat as [|k] eqn:K; [lia|]. exact (nth_error_In post k Q).
Qed.

(** ** The state after a pass *)
Record settled_at (s : Search RNum) : Prop := mkSettled {
  st_tol : 0 < se_tolerance s;
  st_pos : 0 <= se_position s <= 1;
  st_back : (se_position s = 0 /\ se_back s = 0) \/
    (se_back s = se_position s - se_tolerance s /\ 0 <= se_back s /\ angle (se_position s) < angle (se_back s));
  st_ahead : (se_position s = 1 /\ se_ahead s = 1) \/
    (se_ahead s = se_position s + se_tolerance s /\ se_ahead s <= 1 /\ angle (se_position s) <= angle (se_ahead s));
  st_grid : forall i, (i <= 10)%nat -> angle (se_position s) <= angle (INR i / 10)
}.

Lemma INR_10 : forall i, (i <= 10)%nat -> 0 <= INR i <= 10.
Proof. intros i H. split; [apply pos_INR|]. replace 10 with (INR 10) by (cbn; lra). apply le_INR, H. Qed.

(** The pass from an interval whose ends are bounds of the span or not lower than a point of the grid. *)
Lemma step_settled : forall (s s' : Search RNum) m, 0 <= se_back s -> se_ahead s <= 1 -> se_back s < se_ahead s ->
  search_pass (N := RNum) angle s = Ok s' ->
  (m <= 10)%nat ->
  (se_back s = 0 \/ (angle (point (se_back s) (se_ahead s) m) < angle (se_back s))) ->
  (se_ahead s = 1 \/ ((m < 10)%nat /\ angle (point (se_back s) (se_ahead s) m) <= angle (se_ahead s))) ->
  (forall i, (i <= 10)%nat -> angle (point (se_back s) (se_ahead s) m) <= angle (INR i / 10)) ->
  settled_at s' /\ se_tolerance s' = (se_ahead s - se_back s) / 10.
Proof.
  intros s s' m B0 A1 AB H M HB HA G. unfold search_pass in H. set (b := se_back s) in *. set (a := se_ahead s) in *.
  destruct (PositionCatenaryLowAngle (N := RNum) angle b a 11) as [q| |] eqn:E; cbn [obind] in H; try discriminate H.
  destruct (pass_R b a q E) as (j & J & EQ & P1 & P2). injection H as <-.
  cbn [se_tolerance se_position se_back se_ahead]. rn. rewrite ?Rmult_1_r. set (t := (a - b) / 10).
  assert (T : 0 < t) by (unfold t; lra). split; [|reflexivity].
  assert (PT : forall i, point b a i = b + INR i * t) by reflexivity.
  assert (I0 : point b a 0 = b) by (rewrite PT; cbn; ring).
  assert (I10 : point b a 10 = a) by (rewrite PT; unfold t; cbn; lra).
  assert (QM : angle q <= angle (point b a m)) by (apply P2, M).
  assert (IJ := INR_10 j J).
  assert (QR : b <= q <= a). { rewrite EQ, PT. unfold t in *. split; [apply Rle_trans with (b + 0); [lra|apply Rplus_le_compat_l, Rmult_le_pos; lra]|].
    assert (INR j * ((a - b) / 10) <= 10 * ((a - b) / 10)) by (apply Rmult_le_compat_r; lra). lra. }
  assert (J0 : j = 0%nat -> q = 0 /\ b = 0).
  { intros ->. rewrite I0 in EQ. destruct HB as [HB|HB]; [split; lra|]. exfalso. rewrite EQ in QM. lra. }
  assert (J10 : j = 10%nat -> q = 1 /\ a = 1).
  { intros ->. rewrite I10 in EQ. destruct HA as [HA|(M' & HA)]; [split; lra|]. exfalso.
    assert (X := P1 m M'). rewrite EQ in X. lra. }
  assert (BACK : (0 < j)%nat -> q - t = point b a (j - 1)).
  { intros J'. rewrite EQ, !PT, minus_INR by lia. cbn [INR]. ring. }
  assert (AHEAD : (j < 10)%nat -> q + t = point b a (j + 1)).
  { intros J'. rewrite EQ, !PT, plus_INR. cbn [INR]. ring. }
  constructor; cbn [se_tolerance se_position se_back se_ahead]; fold t.
  - exact T.
  - lra.
  - destruct (Nat.eq_dec j 0) as [J'|J'].
    + left. destruct (J0 J') as (Q0 & _). rewrite Q0. split; [reflexivity|]. rewrite (proj2 (Rltb_true _ _)) by lra. reflexivity.
    + right. assert (BK := BACK ltac:(lia)). assert (X := INR_10 (j - 1) ltac:(lia)).
      assert (N0 : 0 <= q - t). { rewrite BK, PT. assert (0 <= INR (j - 1) * t) by (apply Rmult_le_pos; lra). lra. }
      rewrite (proj2 (Rltb_false _ _)) by lra. split; [reflexivity|]. split; [exact N0|]. rewrite BK. apply P1. lia.
  - destruct (Nat.eq_dec j 10) as [J'|J'].
    + left. destruct (J10 J') as (Q1 & _). rewrite Q1. split; [reflexivity|]. rewrite (proj2 (Rltb_true _ _)) by lra. reflexivity.
    + right. assert (AH := AHEAD ltac:(lia)). assert (X := INR_10 (j + 1) ltac:(lia)).
      assert (N1 : q + t <= 1).
      { rewrite AH, PT. unfold t. assert (INR (j + 1) * ((a - b) / 10) <= 10 * ((a - b) / 10)) by (apply Rmult_le_compat_r; [unfold t in T; lra|lra]). lra. }
      rewrite (proj2 (Rltb_false _ _)) by lra. split; [reflexivity|]. split; [exact N1|]. rewrite AH. apply P2. lia.
  - intros i Hi. apply Rle_trans with (1 := QM). apply G, Hi.
Qed.

Lemma first_settled : forall s', search_pass (N := RNum) angle Search_start = Ok s' -> settled_at s'.
Proof.
  intros s' H.
  assert (Z0 : se_back (@Search_start RNum) = 0) by (cbn; lra). assert (Z1 : se_ahead (@Search_start RNum) = 1) by (cbn; lra).
  (* the lowest point of the grid itself serves as the known point *)
  destruct (PositionCatenaryLowAngle (N := RNum) angle 0 1 11) as [q| |] eqn:E.
  - destruct (pass_R 0 1 q E) as (j & J & EQ & P1 & P2).
    refine (proj1 (step_settled Search_start s' j _ _ _ H J _ _ _)); rewrite ?Z0, ?Z1; try lra.
    intros i Hi. rewrite <- EQ. replace (INR i / 10) with (point 0 1 i) by (unfold point; field). apply P2, Hi.
  - exfalso. unfold search_pass in H. rewrite Z0, Z1, E in H. discriminate H.
  - exfalso. unfold search_pass in H. rewrite Z0, Z1, E in H. discriminate H.
Qed.

Lemma next_settled : forall s s', settled_at s -> search_pass (N := RNum) angle s = Ok s' -> settled_at s'.
Proof.
  intros s s' [T P B A G] H. set (q := se_position s) in *. set (t := se_tolerance s) in *.
  destruct B as [(Q0 & B)|(B & B0 & BA)], A as [(Q1 & A)|(A & A1 & AA)]; try lra.
  - (* at the back end *)
    assert (E : point (se_back s) (se_ahead s) 0 = q) by (unfold point; cbn [INR]; lra).
    refine (proj1 (step_settled s s' 0 _ _ _ H ltac:(lia) _ _ _)); rewrite ?E; try lra.
    + right. split; [lia|exact AA].
    + exact G.
  - (* at the ahead end *)
    assert (E : point (se_back s) (se_ahead s) 10 = q) by (unfold point; cbn [INR]; lra).
    refine (proj1 (step_settled s s' 10 _ _ _ H ltac:(lia) _ _ _)); rewrite ?E; try lra.
    exact G.
  - assert (E : point (se_back s) (se_ahead s) 5 = q) by (unfold point; cbn [INR]; lra).
    refine (proj1 (step_settled s s' 5 _ _ _ H ltac:(lia) _ _ _)); rewrite ?E; try lra.
    + right. split; [lia|exact AA].
    + exact G.
Qed.

Lemma search_settled : forall fuel s r, settled_at s -> search (N := RNum) angle fuel s = Ok (Some r) ->
  settled_at r /\ se_tolerance r <= 1 / 100000.
Proof.
  induction fuel as [|fuel IH]; intros s r S H; cbn [search] in H;
    destruct (flit 1 (-5) <? se_tolerance s)%num eqn:E; try discriminate H.
  1, 3: injection H as <-; split; [exact S|]; rn; apply Rltb_false in E; rewrite flit_R in E; simpl in E; lra.
  destruct (search_pass (N := RNum) angle s) as [s'| |] eqn:P; cbn [obind] in H; try discriminate H.
  exact (IH s' r (next_settled s s' S P) H).
Qed.

Lemma search_found : forall fuel r, search (N := RNum) angle fuel Search_start = Ok (Some r) ->
  settled_at r /\ se_tolerance r <= 1 / 100000.
Proof.
  intros fuel r H.
  assert (E : (flit 1 (-5) <? se_tolerance (@Search_start RNum))%num = true).
  { cbn [Search_start se_tolerance]. rn. rewrite flit_R. apply Rltb_true. simpl. lra. }
  destruct fuel as [|fuel]; cbn [search] in H; rewrite E in H; [discriminate H|].
  destruct (search_pass (N := RNum) angle Search_start) as [s'| |] eqn:P; cbn [obind] in H; try discriminate H.
  exact (search_settled fuel s' r (first_settled s' P) H).
Qed.
End Find.
