(** The shape of an updated locator: its points and their number. *)
From Coq Require Import ZArith Bool List Lia.
From Verif Require Import Num ModelBase ModelAlignment ModelLine ModelCatenary SpecCatenary ModelThermal ModelLocator SpecLocator
  ProofLine ProofLocator.
Import ListNotations.
Open Scope num_scope.

Section Shape.
Context {N : Num} {P : Type}.
Implicit Types (l : Line N P) (s : Locator N P).

(** ** The connection data *)
Lemma data_points : forall cs l ps hs, IsUpdated l = true -> connection_data l cs = Ok (Some (ps, hs), l) ->
  Forall2 (attached l) cs ps /\ Forall2 (hangs_on l) cs hs.
Proof.
  induction cs as [|c cs IH]; intros l ps hs U H; cbn [connection_data] in H; [injection H as <- <-; split; constructor|].
  assert (Q : PointXyzLineStructureAttachment l (IndexLineStructure l (cn_line_structure c)) (cn_index_attachment c) =
              (l, snd (PointXyzLineStructureAttachment l (IndexLineStructure l (cn_line_structure c)) (cn_index_attachment c))))
    by (unfold PointXyzLineStructureAttachment; rewrite (query_settled _ _ _ _ U); reflexivity).
  rewrite Q in H. cbv beta iota zeta in H. destruct (snd _) as [p| |] eqn:S; cbn [obind] in H; try discriminate H.
  destruct (p3x p =? ferr); [discriminate H|].
  destruct (ModelLine.deref (tl_line_structures l) (cn_line_structure c)) as [st| |] eqn:D; cbn [obind] in H; try discriminate H.
  destruct (vec_at (ls_hardwares st) (cn_index_attachment c)) as [[h|]| |] eqn:V; cbn [obind] in H; try discriminate H.
  destruct (connection_data l cs) as [[[[ps' hs']|] l'']| |] eqn:E; cbn [obind] in H; try discriminate H.
  assert (L := data_settled _ _ _ _ U E). subst l''. injection H as <- <-.
  destruct (IH _ _ _ U E) as (A & B). split; constructor; auto. exists st. auto.
Qed.

Lemma data_updated : forall cs l r l', cs <> [] -> connection_data l cs = Ok (r, l') -> IsUpdated l' = true.
Proof.
  intros [|c cs] l r l' Z H; [congruence|]. destruct (data_again _ _ _ _ H) as (A & _). cbn [connection_data] in A.
  destruct (PointXyzLineStructureAttachment l' _ _) as [l1 o] eqn:Q. destruct o as [p| |]; cbn [obind] in A; try discriminate A.
  unfold PointXyzLineStructureAttachment in Q. apply query_again in Q. destruct Q as (U & _).
  assert (L : l' = l1); [|rewrite L; exact U].
  destruct (p3x p =? ferr); [injection A as _ <-; reflexivity|].
  destruct (ModelLine.deref _ _) as [st| |]; cbn [obind] in A; try discriminate A.
  destruct (vec_at _ _) as [[h|]| |]; cbn [obind] in A; try discriminate A; [|injection A as _ <-; reflexivity].
  destruct (connection_data l1 cs) as [[r' l'']| |] eqn:D; cbn [obind] in A; try discriminate A.
  injection A as _ <-. exact (data_settled _ _ _ _ U D).
Qed.

(** ** The hardware points *)
Definition same_axis (a b : Spherical N) : Prop := sp_radius b = sp_radius a /\ sp_angle_x b = sp_angle_x a.
Lemma axis_refl : forall hs, Forall2 same_axis hs hs.
Proof. induction hs; constructor; auto. split; reflexivity. Qed.
Lemma axis_trans : forall a b c, Forall2 same_axis a b -> Forall2 same_axis b c -> Forall2 same_axis a c.
Proof.
  intros a b c H. revert c. induction H as [|x y a b E H IH]; intros c K; inversion K; subst; constructor; auto.
  destruct E as (E1 & E2), H2 as (F1 & F2). split; congruence.
Qed.

Lemma loop_axis : forall c ps back hs im hs' im', hardware_loop (N := N) c back ps hs im = Ok (hs', im') -> Forall2 same_axis hs hs'.
Proof.
  intros c. induction ps as [|p ps IH]; intros back hs im hs' im' H; cbn [hardware_loop] in H.
  - injection H as <- _. apply axis_refl.
  - destruct ps as [|q ps]; [injection H as <- _; apply axis_refl|].
    destruct hs as [|h hs]; [injection H as <- _; constructor|].
    destruct (ae_AngleEquilibrium _) as [[a so]| |]; cbn [obind] in H; try discriminate H.
    destruct (ae_TensionImbalance so) as [[t so']| |]; cbn [obind] in H; try discriminate H.
    destruct (hardware_loop c p (q :: ps) hs _) as [[rest im1]| |] eqn:E; cbn [obind] in H; try discriminate H.
    injection H as <- _. constructor; [split; reflexivity|]. exact (IH _ _ _ _ _ E).
Qed.

Lemma hardware_axis : forall c ps hs hs' im, UpdatePointsHardware (N := N) c ps hs = Ok (hs', im) -> Forall2 same_axis hs hs'.
Proof.
  intros c [|p ps] [|h hs] hs' im H; cbn [UpdatePointsHardware] in H; try (injection H as <- _; apply axis_refl).
  destruct (hardware_loop c p ps hs #0) as [[rest im1]| |] eqn:E; cbn [obind] in H; try discriminate H.
  injection H as <- _. constructor; [split; reflexivity|]. exact (loop_axis _ _ _ _ _ _ _ E).
Qed.

Lemma position_shape : forall c st n iter im hs i cs' hs',
  position_loop (N := N) c st n iter im (UpdatePointsCable st hs) hs = Ok (i, cs', hs') ->
  cs' = UpdatePointsCable st hs' /\ Forall2 same_axis hs hs'.
Proof.
  intros c st. induction n as [|n IH]; intros iter im hs i cs' hs' H; cbn [position_loop] in H.
  - injection H as _ <- <-. auto using axis_refl.
  - destruct (_ && _)%bool; [|injection H as _ <- <-; auto using axis_refl].
    destruct (UpdatePointsHardware c _ hs) as [[hs1 im1]| |] eqn:E; cbn [obind] in H; try discriminate H.
    apply hardware_axis in E. apply IH in H. destruct H as (A & B). split; [exact A|]. exact (axis_trans _ _ _ E B).
Qed.

Lemma hw_points_length : forall ps back hs, length hs = length ps -> ps <> [] -> length (hardware_points (N := N) back ps hs) = length ps.
Proof.
  induction ps as [|p ps IH]; intros back hs L Z; [congruence|]. destruct hs as [|h hs]; [discriminate L|].
  destruct ps as [|q ps]; [destruct hs; [reflexivity|discriminate L]|].
  cbn [hardware_points length]. f_equal. apply IH; [injection L as L; exact L|discriminate].
Qed.

Lemma init_length : forall ps hs, length hs = length ps -> length (InitializePointsHardware (N := N) ps hs) = length ps.
Proof.
  intros [|p ps] hs L; [reflexivity|]. destruct hs as [|h hs]; [discriminate L|]. cbn [InitializePointsHardware length]. f_equal.
  destruct ps as [|q ps]; [destruct hs; [reflexivity|discriminate L]|]. apply hw_points_length; [injection L as L; exact L|discriminate].
Qed.

Lemma cable_nth : forall ps hs k p h, nth_error ps k = Some p -> nth_error hs k = Some h ->
  nth_error (UpdatePointsCable (N := N) ps hs) k = Some (cable_point p h).
Proof.
  induction ps as [|p0 ps IH]; intros [|h0 hs] [|k] p h A B; try discriminate A; try discriminate B; cbn [nth_error UpdatePointsCable] in *.
  - injection A as <-. injection B as <-. reflexivity.
  - apply IH; assumption.
Qed.
Lemma cable_length : forall ps hs, length hs = length ps -> length (UpdatePointsCable (N := N) ps hs) = length ps.
Proof. induction ps as [|p ps IH]; intros [|h hs] L; try discriminate L; cbn [UpdatePointsCable length] in *; auto. Qed.

(** The hardware point of the first, the last and the inner connections. *)
Lemma hw_points_nth : forall ps back hs k p h, length hs = length ps -> nth_error ps k = Some p -> nth_error hs k = Some h ->
  nth_error (hardware_points (N := N) back ps hs) k =
    Some (match nth_error ps (S k) with
          | None => hardware_end
          | Some ahead => hardware_start h (nth k (back :: ps) back) p ahead
          end).
Proof.
  induction ps as [|p0 ps IH]; intros back hs k p h L A B; [destruct k; discriminate A|].
  destruct hs as [|h0 hs]; [discriminate L|]. injection L as L.
  destruct ps as [|q ps].
  - destruct hs; [|discriminate L]. destruct k as [|k]; [reflexivity|destruct k; discriminate A].
  - destruct k as [|k]; cbn [nth_error] in A, B.
    + injection A as <-. injection B as <-. reflexivity.
    + transitivity (nth_error (hardware_points p0 (q :: ps) hs) k); [reflexivity|]. rewrite (IH p0 hs k p h L A B).
      assert (X : nth k (p0 :: q :: ps) back = nth k (p0 :: q :: ps) p0).
      { apply nth_indep. assert (k < length (q :: ps))%nat by (apply nth_error_Some; rewrite A; discriminate). cbn [length] in *. lia. }
      change (nth (S k) (back :: p0 :: q :: ps) back) with (nth k (p0 :: q :: ps) back). rewrite X. reflexivity.
Qed.

Lemma init_first : forall ps hs p h, nth_error ps 0 = Some p -> nth_error hs 0 = Some h ->
  nth_error (InitializePointsHardware (N := N) ps hs) 0 = Some hardware_end.
Proof. intros [|p0 ps] [|h0 hs] p h A B; try discriminate A; try discriminate B. reflexivity. Qed.

Lemma init_nth : forall ps hs k p h, length hs = length ps -> nth_error ps (S k) = Some p -> nth_error hs (S k) = Some h ->
  nth_error (InitializePointsHardware (N := N) ps hs) (S k) =
    Some (match nth_error ps (S (S k)) with
          | None => hardware_end
          | Some ahead => hardware_start h (nth k ps p) p ahead
          end).
Proof.
  intros [|p0 ps] hs k p h L A B; [discriminate A|]. destruct hs as [|h0 hs]; [discriminate L|]. injection L as L.
  cbn [nth_error] in A, B. transitivity (nth_error (hardware_points p0 ps hs) k); [reflexivity|]. rewrite (hw_points_nth ps p0 hs k p h L A B).
  assert (X : nth k (p0 :: ps) p0 = nth k (p0 :: ps) p).
  { apply nth_indep. assert (k < length ps)%nat by (apply nth_error_Some; rewrite A; discriminate). cbn [length]. lia. }
  rewrite X. reflexivity.
Qed.

(** ** The update *)
Lemma update_shape : forall s s', pl_Update s = Ok (true, s') ->
  exists l c ps hws hs w,
    pl_line s' = Some l /\ next_deref (tl_line_cables l) (pl_index s') = Ok c /\
    connection_data l (lc_connections c) = Ok (Some (ps, hws), l) /\
    pl_size s' = Z.of_nat (length (lc_connections c)) /\ pl_weight s' = Some w /\
    pl_cable s' = UpdatePointsCable ps hs /\ Forall2 same_axis (InitializePointsHardware ps hws) hs.
Proof.
  intros s s' H. unfold pl_Update in H. destruct (pl_line s) as [l|] eqn:L; cbn [deref obind] in H; [|discriminate H].
  destruct (next_deref (tl_line_cables l) (pl_index s)) as [c| |] eqn:C; cbn [obind] in H; try discriminate H.
  destruct (connection_data l (lc_connections c)) as [[r l']| |] eqn:D; cbn [obind] in H; try discriminate H.
  destruct (data_again _ _ _ _ D) as (D' & K).
  destruct r as [[ps hws]|]; [|discriminate H].
  destruct (pl_weight s) as [w|] eqn:W; cbn [deref obind] in H; [|discriminate H].
  destruct (position_loop _ _ _ _ _ _ _) as [[[iter cables] hs]| |] eqn:PL; cbn [obind] in H; try discriminate H.
  injection H as H1 <-. apply position_shape in PL. destruct PL as (-> & A).
  exists l', c, ps, hws, hs, w. cbn [pl_line pl_index pl_size pl_weight pl_cable pl_with].
  repeat split; auto. rewrite (proj1 (proj2 K)). exact C.
Qed.

Lemma Forall2_length : forall (A B : Type) (r : A -> B -> Prop) a b, Forall2 r a b -> length b = length a.
Proof. intros A B r a b H. induction H; cbn [length]; auto. Qed.

Lemma data_lengths : forall cs l ps hs, connection_data l cs = Ok (Some (ps, hs), l) -> length ps = length cs /\ length hs = length cs.
Proof.
  intros [|c cs] l ps hs H; [cbn in H; injection H as <- <-; split; reflexivity|].
  assert (U := data_updated (c :: cs) l _ l ltac:(discriminate) H). destruct (data_points _ _ _ _ U H) as (A & B).
  rewrite (Forall2_length _ _ _ _ _ A), (Forall2_length _ _ _ _ _ B). split; reflexivity.
Qed.

Lemma update_length : forall s s', pl_Update s = Ok (true, s') -> pl_size s' = Z.of_nat (length (pl_cable s')) /\ exists w, pl_weight s' = Some w.
Proof.
  intros s s' H. destruct (update_shape _ _ H) as (l & c & ps & hws & hs & w & _ & _ & D & Z & W & C & A).
  destruct (data_lengths _ _ _ _ D) as (E & F). rewrite C, cable_length, Z; [|rewrite (Forall2_length _ _ _ _ _ A); apply init_length; congruence].
  split; [congruence|eauto].
Qed.

(** ** Spans *)
Lemma span_length : forall c b a i n f, length (span_points (N := N) c b a i n f) = n.
Proof. intros c b a i n. induction n as [|n IH]; intros f; cbn [span_points length]; auto. Qed.

Lemma vec_in : forall (A : Type) (v : list A) i, (0 <= i < Z.of_nat (length v))%Z -> exists a, vec_get v i = Ok a.
Proof.
  intros A v i I. unfold vec_get, next_deref. destruct (Z.ltb_spec i 0); [lia|].
  destruct (nth_error v (Z.to_nat i)) eqn:E; [eauto|]. apply nth_error_None in E. lia.
Qed.
Lemma vec_out : forall (A : Type) (v : list A) i, (Z.of_nat (length v) <= i)%Z -> vec_get v i = UB.
Proof.
  intros A v i I. unfold vec_get, next_deref. destruct (Z.ltb_spec i 0); [lia|].
  destruct (nth_error v (Z.to_nat i)) eqn:E; [|reflexivity]. assert (Z.to_nat i < length v)%nat by (apply nth_error_Some; congruence). lia.
Qed.

Lemma ensure_shape : forall s s', pl_current s -> pl_ensure s = Ok (true, s') -> pl_Update s' = Ok (true, s').
Proof.
  intros s s' C H. unfold pl_ensure in H. destruct (pl_updated s) eqn:U; [injection H as <-; auto|].
  apply (pl_Update_again _ _ _ H).
Qed.

(** C51: the answers of PointsCable for every index. *)
Lemma points_bounds : forall s ps s', pl_current s -> PointsCableAttachment s = Ok (Some ps, s') -> forall index num,
  ((0 <= index < Z.of_nat (length ps) - 1)%Z -> exists qs, PointsCable s index num = Ok (qs, s') /\ length qs = Z.to_nat num) /\
  ((index < 0 \/ Z.of_nat (length ps) <= index)%Z -> PointsCable s index num = Ok ([], s')) /\
  ((0 <= index /\ index = Z.of_nat (length ps) - 1)%Z -> PointsCable s index num = UB).
Proof.
  intros s ps s' C H index num. unfold PointsCableAttachment in H. destruct (pl_ensure s) as [[ok t]| |] eqn:E; try discriminate H.
  cbn [obind] in H. destruct ok; [|discriminate H]. injection H as <- <-. unfold PointsCable. rewrite E. cbn [obind negb].
  destruct (update_length _ _ (ensure_shape _ _ C E)) as (Z & w & W). rewrite Z, W. repeat split.
  - intros I. replace ((index <? 0)%Z || (Z.of_nat (length (pl_cable t)) - 1 <? index)%Z)%bool with false
      by (symmetry; apply orb_false_intro; apply Z.ltb_ge; lia).
    destruct (vec_in _ (pl_cable t) index ltac:(lia)) as (a & ->). destruct (vec_in _ (pl_cable t) (index + 1) ltac:(lia)) as (b & ->).
    cbn [obind deref]. eexists. split; [reflexivity|]. apply span_length.
  - intros I. replace ((index <? 0)%Z || (Z.of_nat (length (pl_cable t)) - 1 <? index)%Z)%bool with true; [reflexivity|].
    symmetry. apply orb_true_iff. rewrite !Z.ltb_lt. lia.
  - intros I. replace ((index <? 0)%Z || (Z.of_nat (length (pl_cable t)) - 1 <? index)%Z)%bool with false
      by (symmetry; apply orb_false_intro; apply Z.ltb_ge; lia).
    destruct (vec_in _ (pl_cable t) index ltac:(lia)) as (a & ->). rewrite (vec_out _ (pl_cable t) (index + 1)) by lia. reflexivity.
Qed.

Lemma points_none : forall s s', PointsCableAttachment s = Ok (None, s') -> forall index num, PointsCable s index num = Ok ([], s').
Proof.
  intros s s' H index num. unfold PointsCableAttachment in H. destruct (pl_ensure s) as [[ok t]| |] eqn:E; try discriminate H.
  cbn [obind] in H. destruct ok; [discriminate H|]. injection H as <-. unfold PointsCable. rewrite E. reflexivity.
Qed.
End Shape.
