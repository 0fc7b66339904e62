(** Histories of the equilibrium solver and of the locator, in every arithmetic. *)
From Coq Require Import ZArith Bool List Lia.
From Verif Require Import Num ModelBase ModelAlignment ModelLine ModelCatenary SpecCatenary ModelThermal ModelLocator SpecLocator
  ProofLine.
Import ListNotations.
Open Scope num_scope.

Section Solver.
Context {N : Num}.

Definition ae_renew (s : Equilibrium N) : Equilibrium N :=
  ae_fresh (ae_angle_catenaries s) (ae_angle_hardware s) (ae_back s) (ae_ahead s) (ae_direction s).
Definition ae_current (s : Equilibrium N) : Prop := ae_updated s = true -> ae_Update s = Ok s.

Lemma ae_Update_renew : forall s : Equilibrium N, ae_Update (ae_renew s) = ae_Update s.
Proof. reflexivity. Qed.

Lemma ae_Update_again : forall s s' : Equilibrium N, ae_Update s = Ok s' ->
  ae_Update s' = Ok s' /\ ae_updated s' = true /\ ae_renew s' = ae_renew s.
Proof.
  intros s s' H. unfold ae_Update in H |- *. destruct (ae_back s) as [b|] eqn:B; cbn [deref obind] in H; [|discriminate H].
  destruct (ae_ahead s) as [a|] eqn:A; cbn [deref obind] in H; [|discriminate H]. injection H as <-.
  cbn [ae_back ae_ahead ae_angle_catenaries ae_angle_hardware ae_direction ae_updated deref obind]. unfold ae_renew.
  cbn [ae_back ae_ahead ae_angle_catenaries ae_angle_hardware ae_direction ae_updated]. rewrite A, B. auto.
Qed.

Lemma ae_ensure_current : forall s : Equilibrium N, ae_current s -> ae_ensure s = ae_ensure (ae_renew s).
Proof.
  intros s C. unfold ae_ensure. change (ae_updated (ae_renew s)) with false. cbn match. rewrite ae_Update_renew.
  destruct (ae_updated s) eqn:U; [symmetry; apply C; exact U|reflexivity].
Qed.

Lemma ae_alike_renew : forall s : Equilibrium N, ae_current s -> ae_alike s (ae_renew s).
Proof.
  intros s C. unfold ae_alike, ae_AngleEquilibrium, ae_TensionImbalance. rewrite <- (ae_ensure_current s C).
  split; [reflexivity|]. split; [reflexivity|]. unfold ae_Validate. rewrite ae_Update_renew. reflexivity.
Qed.

Lemma ae_call_current : forall (s s' : Equilibrium N) k, ae_current s -> ae_call s k = Ok s' ->
  ae_current s' /\
  ae_renew s' = ae_fresh (match pickAe_catenaries k with Some x => x | None => ae_angle_catenaries s end)
    (match pickAe_hardware k with Some x => x | None => ae_angle_hardware s end)
    (match pickAe_back k with Some x => x | None => ae_back s end)
    (match pickAe_ahead k with Some x => x | None => ae_ahead s end)
    (match pickAe_direction k with Some x => x | None => ae_direction s end).
Proof.
  intros s s' k C H.
  assert (Q : forall t, ae_ensure s = Ok t -> ae_current t /\ ae_renew t = ae_renew s).
  { intros t E. unfold ae_ensure in E. destruct (ae_updated s) eqn:U; [injection E as <-; auto|].
    destruct (ae_Update_again _ _ E) as (A & _ & R). split; [intros _; exact A|exact R]. }
  destruct k; cbn [ae_call pickAe_catenaries pickAe_hardware pickAe_back pickAe_ahead pickAe_direction] in H |- *;
    try (injection H as <-; split; [intros U; discriminate U|reflexivity]).
  - unfold ae_AngleEquilibrium in H. destruct (ae_ensure s) as [t| |] eqn:E; try discriminate H.
    injection H as <-. exact (Q _ eq_refl).
  - unfold ae_TensionImbalance in H. destruct (ae_ensure s) as [t| |] eqn:E; try discriminate H.
    injection H as <-. exact (Q _ eq_refl).
  - unfold ae_Validate in H. destruct (ae_Update s) as [t| |] eqn:E; try discriminate H.
    injection H as <-. destruct (ae_Update_again _ _ E) as (A & _ & R). split; [intros _; exact A|exact R].
Qed.

Lemma ae_run_current : forall (ks : list (AeCall N)) (s s' : Equilibrium N), ae_current s -> ae_run s ks = Ok s' ->
  ae_current s' /\
  ae_renew s' = ae_fresh (last_of pickAe_catenaries ks (ae_angle_catenaries s)) (last_of pickAe_hardware ks (ae_angle_hardware s))
    (last_of pickAe_back ks (ae_back s)) (last_of pickAe_ahead ks (ae_ahead s)) (last_of pickAe_direction ks (ae_direction s)).
Proof.
  induction ks as [|k ks IH]; intros s s' C H; cbn [ae_run last_of] in H |- *.
  - injection H as <-. split; [exact C|reflexivity].
  - destruct (ae_call s k) as [t| |] eqn:E; try discriminate H. cbn [obind] in H.
    destruct (ae_call_current s t k C E) as (D & R). destruct (IH t s' D H) as (F & G). split; [exact F|].
    rewrite G. unfold ae_renew, ae_fresh, ae_set_direction, ae_set_ahead, ae_set_back, ae_set_angle_hardware, ae_set_angle_catenaries in R.
    cbn in R. injection R as R1 R2 R3 R4 R5. rewrite R1, R2, R3, R4, R5. reflexivity.
Qed.

Lemma equilibrium_follows : forall (ks : list (AeCall N)) s, ae_run Equilibrium_new ks = Ok s ->
  ae_alike s (ae_fresh (last_of pickAe_catenaries ks ferr) (last_of pickAe_hardware ks ferr) (last_of pickAe_back ks None)
                (last_of pickAe_ahead ks None) (last_of pickAe_direction ks ADNull)).
Proof.
  intros ks s H. destruct (ae_run_current ks Equilibrium_new s ltac:(intros U; discriminate U) H) as (C & R).
  cbn [ae_angle_catenaries ae_angle_hardware ae_back ae_ahead ae_direction Equilibrium_new] in R. rewrite <- R.
  apply ae_alike_renew, C.
Qed.

(** The queries are defined unless a catenary is missing. *)
Lemma ae_defined : forall a h b c d, let s := ae_fresh (N := N) a h b c d in
  match b, c with
  | Some _, Some _ => is_ok (ae_AngleEquilibrium s) = true /\ is_ok (ae_TensionImbalance s) = true /\ is_ok (ae_Validate s) = true
  | _, _ => ae_AngleEquilibrium s = UB /\ ae_TensionImbalance s = UB /\ ae_Validate s = UB
  end.
Proof. intros a h [b|] [c|] d; cbv zeta; repeat split; reflexivity. Qed.
End Solver.

Section Locate.
Context {N : Num} {P : Type}.
Implicit Types (l : Line N P) (s : Locator N P).

(** ** The line *)
Lemma query_settled : forall A l (f : A) k, IsUpdated l = true -> query l f k = (l, k l).
Proof. intros A l f k H. unfold query. rewrite H. reflexivity. Qed.

Lemma Update_settles : forall l l' b, Update l = (l', Ok b) -> b = true /\ IsUpdated l' = true.
Proof.
  intros l l' b H. unfold Update in H. unfold IsUpdated.
  destruct (tl_is_updated_alignment l); simpl in H;
  (destruct (tl_is_updated_structures l) eqn:E; simpl in H;
   [injection H as <- <-; rewrite ?E; simpl; rewrite ?E, ?orb_true_r; auto|]);
  (destruct (UpdatePointsXyzLineStructures_loop _ _ _) as [ps []]; try discriminate H; injection H as <- <-; simpl;
   rewrite ?orb_true_r; auto).
Qed.

Lemma query_again : forall A l l' (f : A) k a, query l f k = (l', Ok a) ->
  IsUpdated l' = true /\ k l' = Ok a.
Proof.
  intros A l l' f k a H. unfold query in H. destruct (IsUpdated l) eqn:U; [injection H as <- <-; auto|].
  destruct (Update l) as [l1 [b| |]] eqn:E; try discriminate H.
  destruct (Update_settles _ _ _ E) as (-> & S). injection H as <- <-. auto.
Qed.

Definition like l l' : Prop :=
  tl_alignment l' = tl_alignment l /\ tl_line_cables l' = tl_line_cables l /\
  tl_line_structures l' = tl_line_structures l /\ tl_origin l' = tl_origin l.
Lemma like_refl : forall l, like l l. Proof. intros l. repeat split. Qed.
Lemma like_trans : forall a b c, like a b -> like b c -> like a c.
Proof. intros a b c (A1 & A2 & A3 & A4) (B1 & B2 & B3 & B4). unfold like. rewrite B1, B2, B3, B4. auto. Qed.
Lemma query_like : forall A l (f : A) k l' r, query l f k = (l', r) -> like l l'.
Proof. intros A l f k l' r H. destruct (query_content _ _ _ _ _ _ H) as ((A1 & A2 & A3) & _ & A4). unfold like. auto. Qed.
Lemma Update_like : forall l l' r, Update l = (l', r) -> like l l'.
Proof. intros l l' r H. destruct (Update_content _ _ _ H) as ((A1 & A2 & A3) & _ & A4). unfold like. auto. Qed.

Lemma index_like : forall l l' p, tl_line_structures l' = tl_line_structures l -> IndexLineStructure l' p = IndexLineStructure l p.
Proof. intros l l' p H. destruct p; cbn [IndexLineStructure]; try reflexivity. rewrite H. reflexivity. Qed.

(** ** The connection data *)
Lemma data_settled : forall cs l r l', IsUpdated l = true -> connection_data l cs = Ok (r, l') -> l' = l.
Proof.
  induction cs as [|c cs IH]; intros l r l' U H; cbn [connection_data] in H; [injection H as _ <-; reflexivity|].
  unfold PointXyzLineStructureAttachment in H. rewrite (query_settled _ _ _ _ U) in H.
  set (o := _ : outcome (Point3d N)) in H. clearbody o. cbv beta iota zeta in H.
  destruct o as [p| |]; cbn [obind] in H; try discriminate H.
  destruct (p3x p =? ferr); [injection H as _ <-; reflexivity|].
  destruct (ModelLine.deref _ _) as [st| |]; cbn [obind] in H; try discriminate H.
  destruct (vec_at _ _) as [[h|]| |]; cbn [obind] in H; try discriminate H; [|injection H as _ <-; reflexivity].
  destruct (connection_data l cs) as [[r' l'']| |] eqn:E; cbn [obind] in H; try discriminate H.
  injection H as _ <-. exact (IH _ _ _ U E).
Qed.

Lemma data_again : forall cs l r l', connection_data l cs = Ok (r, l') -> connection_data l' cs = Ok (r, l') /\ like l l'.
Proof.
  intros [|c cs] l r l' H; cbn [connection_data] in H |- *; [injection H as <- <-; split; [reflexivity|apply like_refl]|].
  destruct (PointXyzLineStructureAttachment l _ _) as [l1 o] eqn:Q. destruct o as [p| |]; cbn [obind] in H; try discriminate H.
  assert (K := query_like _ _ _ _ _ _ Q). assert (K3 := proj1 (proj2 (proj2 K))).
  assert (S := Q). unfold PointXyzLineStructureAttachment in S. apply query_again in S. destruct S as (U & E).
  assert (L : l' = l1).
  { destruct (p3x p =? ferr); [injection H as _ <-; reflexivity|].
    destruct (ModelLine.deref _ _) as [st| |]; cbn [obind] in H; try discriminate H.
    destruct (vec_at _ _) as [[h|]| |]; cbn [obind] in H; try discriminate H; [|injection H as _ <-; reflexivity].
    destruct (connection_data l1 cs) as [[r' l'']| |] eqn:D; cbn [obind] in H; try discriminate H.
    injection H as _ <-. exact (data_settled _ _ _ _ U D). }
  subst l'. split; [|exact K]. rewrite (index_like _ _ _ K3).
  unfold PointXyzLineStructureAttachment at 1. rewrite (query_settled _ _ _ _ U), E. cbn [obind]. exact H.
Qed.

(** ** The update *)
Definition pl_renew s : Locator N P := pl_fresh (pl_direction s) (pl_index s) (pl_line s) (pl_tension s) (pl_weight s).
Definition pl_current s : Prop := pl_updated s = true -> pl_Update s = Ok (true, s).

Lemma pl_Update_renew : forall s, pl_Update (pl_renew s) = pl_Update s.
Proof. reflexivity. Qed.

(** What an update leaves unchanged. *)
Definition pl_kept s s' : Prop :=
  pl_direction s' = pl_direction s /\ pl_index s' = pl_index s /\ pl_tension s' = pl_tension s /\ pl_weight s' = pl_weight s /\
  same_line (pl_line s) (pl_line s').

Lemma pl_Update_again : forall s b s', pl_Update s = Ok (b, s') ->
  pl_Update s' = Ok (b, s') /\ pl_updated s' = b /\ pl_kept s s'.
Proof.
  intros s b s' H. unfold pl_Update in H. destruct (pl_line s) as [l|] eqn:L; cbn [deref obind] in H; [|discriminate H].
  destruct (next_deref (tl_line_cables l) (pl_index s)) as [c| |] eqn:C; cbn [obind] in H; try discriminate H.
  destruct (connection_data l (lc_connections c)) as [[r l']| |] eqn:D; cbn [obind] in H; try discriminate H.
  destruct (data_again _ _ _ _ D) as (D' & K). assert (C' : next_deref (tl_line_cables l') (pl_index s) = Ok c)
    by (rewrite (proj1 (proj2 K)); exact C).
  destruct r as [[structures hws]|].
  - destruct (pl_weight s) as [w|] eqn:W; cbn [deref obind] in H; [|discriminate H].
    destruct (position_loop _ _ _ _ _ _ _) as [[[iter cables] hs]| |] eqn:PL; cbn [obind] in H; try discriminate H.
    injection H as <- <-. split; [|split; [reflexivity|]].
    + unfold pl_Update, pl_with. cbn [pl_line pl_index pl_weight pl_direction pl_tension deref obind].
      rewrite C'. cbn [obind]. rewrite D'. cbn [obind]. rewrite W. cbn [deref obind]. rewrite PL. reflexivity.
    + unfold pl_kept. rewrite L. cbn. repeat split; apply K.
  - injection H as <- <-. split; [|split; [reflexivity|]].
    + unfold pl_Update, pl_with. cbn [pl_line pl_index pl_weight pl_direction pl_tension deref obind]. rewrite C'. cbn [obind]. rewrite D'. reflexivity.
    + unfold pl_kept. rewrite L. cbn. repeat split; apply K.
Qed.

Lemma same_line_refl : forall x : option (Line N P), same_line x x.
Proof. intros [l|]; cbn; auto. Qed.
Lemma same_line_trans : forall x y z : option (Line N P), same_line x y -> same_line y z -> same_line x z.
Proof.
  intros [x|] [y|] [z|]; cbn; try tauto. intros (A1 & A2 & A3 & A4) (B1 & B2 & B3 & B4). rewrite B1, B2, B3, B4. auto.
Qed.
Lemma kept_refl : forall s, pl_kept s s.
Proof. intros s. unfold pl_kept. repeat split. apply same_line_refl. Qed.

Lemma pl_ensure_renew : forall s, pl_current s -> pl_ensure s = pl_ensure (pl_renew s).
Proof.
  intros s C. unfold pl_ensure. change (pl_updated (pl_renew s)) with false. cbn match. rewrite pl_Update_renew.
  destruct (pl_updated s) eqn:U; [symmetry; apply C; exact U|reflexivity].
Qed.

Lemma pl_alike_renew : forall s, pl_current s -> pl_alike s (pl_renew s).
Proof.
  intros s C. assert (E := pl_ensure_renew s C). unfold pl_alike. split; [|split].
  - unfold PointsCableAttachment. rewrite E. reflexivity.
  - intros i n. unfold PointsCable. rewrite E. reflexivity.
  - intros parts. unfold pl_Validate. change (pl_line (pl_renew s)) with (pl_line s).
    destruct (pl_line s) as [l|] eqn:L; [destruct (Line_Validate l parts) as [l1 [v| |]]|]; reflexivity.
Qed.

Lemma pl_ensure_kept : forall s b s', pl_current s -> pl_ensure s = Ok (b, s') ->
  pl_current s' /\ pl_kept s s' /\ pl_updated s' = b.
Proof.
  intros s b s' C H. unfold pl_ensure in H. destruct (pl_updated s) eqn:U.
  - injection H as <- <-. auto using kept_refl.
  - destruct (pl_Update_again _ _ _ H) as (A & B & K). split; [|auto]. intros V. rewrite V in B. subst b. exact A.
Qed.

Lemma pl_Validate_kept : forall parts s b s', pl_Validate parts s = Ok (b, s') ->
  pl_current s' /\ pl_kept s s' /\ (b = true -> pl_updated s' = true).
Proof.
  intros parts s b s' H. unfold pl_Validate in H.
  set (o := match pl_line s with None => _ | Some _ => _ end) in H.
  destruct o as [[v3 s1]| |] eqn:O; cbn [obind] in H; try discriminate H. unfold o in O.
  assert (K1 : pl_kept s s1).
  { destruct (pl_line s) as [l|] eqn:L; [|injection O as _ <-; apply kept_refl].
    destruct (Line_Validate l parts) as [l1 [v| |]] eqn:V; try discriminate O. injection O as _ <-.
    unfold pl_kept. rewrite L. cbn. repeat split; unfold Line_Validate in V; destruct parts as [x| |]; try discriminate V;
      destruct (Update l) as [l2 [y| |]] eqn:E; try discriminate V; injection V as <- _; apply (Update_like _ _ _ E). }
  destruct (pl_Update s1) as [[ok s2]| |] eqn:E; cbn [obind] in H; try discriminate H. injection H as <- <-.
  destruct (pl_Update_again _ _ _ E) as (A & B & K2). split; [|split].
  - intros V. rewrite V in B. subst ok. exact A.
  - destruct K1 as (a1 & a2 & a3 & a4 & a5), K2 as (b1 & b2 & b3 & b4 & b5). unfold pl_kept.
    rewrite b1, b2, b3, b4. repeat split; auto. exact (same_line_trans _ _ _ a5 b5).
  - intros T. apply andb_prop in T. rewrite B. apply T.
Qed.

Lemma pl_call_current : forall s s' (k : PlCall N P), pl_current s -> pl_call s k = Ok s' ->
  pl_current s' /\
  pl_direction s' = match pickPl_direction k with Some x => x | None => pl_direction s end /\
  pl_index s' = match pickPl_index k with Some x => x | None => pl_index s end /\
  pl_tension s' = match pickPl_tension k with Some x => x | None => pl_tension s end /\
  pl_weight s' = match pickPl_weight k with Some x => x | None => pl_weight s end /\
  same_line (match pickPl_line k with Some x => x | None => pl_line s end) (pl_line s').
Proof.
  intros s s' k C H.
  destruct k; cbn [pl_call pickPl_direction pickPl_index pickPl_tension pickPl_weight pickPl_line] in H |- *;
    try (injection H as <-; cbn; split; [intros U; discriminate U|]; repeat split; apply same_line_refl).
  - unfold PointsCable in H. destruct (pl_ensure s) as [[ok t]| |] eqn:E; try discriminate H. cbn [obind omap] in H.
    destruct (pl_ensure_kept _ _ _ C E) as (D & K & _). assert (T : s' = t); [|subst s'; split; [exact D|exact K]].
    destruct (negb ok); [injection H as <-; reflexivity|].
    destruct (_ || _)%bool; [injection H as <-; reflexivity|].
    destruct (vec_get (pl_cable t) index) as [p| |]; cbn [obind omap] in H; try discriminate H.
    destruct (vec_get (pl_cable t) (index + 1)) as [q| |]; cbn [obind omap] in H; try discriminate H.
    destruct (pl_weight t) as [w|]; cbn [obind omap deref] in H; try discriminate H.
    injection H as <-; reflexivity.
  - unfold PointsCableAttachment in H. destruct (pl_ensure s) as [[ok t]| |] eqn:E; try discriminate H. cbn in H. injection H as <-.
    destruct (pl_ensure_kept _ _ _ C E) as (D & K & _). split; [exact D|exact K].
  - destruct (pl_Validate parts s) as [[b t]| |] eqn:E; try discriminate H. cbn in H. injection H as <-.
    destruct (pl_Validate_kept _ _ _ _ E) as (D & K & _). split; [exact D|exact K].
Qed.

Lemma pick_same : forall (k : PlCall N P) x y, same_line x y ->
  same_line (match pickPl_line k with Some z => z | None => x end) (match pickPl_line k with Some z => z | None => y end).
Proof. intros k x y H. destruct (pickPl_line k); [apply same_line_refl|exact H]. Qed.

Lemma last_same : forall (ks : list (PlCall N P)) x y, same_line x y -> same_line (last_of pickPl_line ks x) (last_of pickPl_line ks y).
Proof. induction ks as [|k ks IH]; intros x y H; cbn [last_of]; [exact H|]. apply IH, pick_same, H. Qed.

Lemma pl_run_current : forall (ks : list (PlCall N P)) s s', pl_current s -> pl_run s ks = Ok s' ->
  pl_current s' /\
  pl_direction s' = last_of pickPl_direction ks (pl_direction s) /\ pl_index s' = last_of pickPl_index ks (pl_index s) /\
  pl_tension s' = last_of pickPl_tension ks (pl_tension s) /\ pl_weight s' = last_of pickPl_weight ks (pl_weight s) /\
  same_line (last_of pickPl_line ks (pl_line s)) (pl_line s').
Proof.
  induction ks as [|k ks IH]; intros s s' C H; cbn [pl_run last_of] in H |- *.
  - injection H as <-. split; [exact C|]. repeat split. apply same_line_refl.
  - destruct (pl_call s k) as [t| |] eqn:E; try discriminate H. cbn [obind] in H.
    destruct (pl_call_current s t k C E) as (D & R1 & R2 & R3 & R4 & R5).
    destruct (IH t s' D H) as (F & G1 & G2 & G3 & G4 & G5). split; [exact F|].
    rewrite R1 in G1. rewrite R2 in G2. rewrite R3 in G3. rewrite R4 in G4. repeat split; try assumption.
    refine (same_line_trans _ _ _ _ G5). apply last_same, R5.
Qed.

Lemma locator_follows : forall (ks : list (PlCall N P)) s, pl_run Locator_new ks = Ok s ->
  same_line (last_of pickPl_line ks None) (pl_line s) /\
  pl_alike s (pl_fresh (last_of pickPl_direction ks ADNull) (last_of pickPl_index ks (-9999)%Z) (pl_line s)
                (last_of pickPl_tension ks ferr) (last_of pickPl_weight ks None)).
Proof.
  intros ks s H. destruct (pl_run_current ks Locator_new s ltac:(intros U; discriminate U) H) as (C & A1 & A2 & A3 & A4 & A5).
  cbn [pl_direction pl_index pl_tension pl_weight pl_line Locator_new] in A1, A2, A3, A4, A5. split; [exact A5|].
  rewrite <- A1, <- A2, <- A3, <- A4. exact (pl_alike_renew s C).
Qed.

Lemma run_current : forall (ks : list (PlCall N P)) s, pl_run Locator_new ks = Ok s -> pl_current s.
Proof. intros ks s H. apply (pl_run_current ks Locator_new s ltac:(intros U; discriminate U) H). Qed.

(** After a Validate that returned true the queries answer. *)
Lemma validated_answers : forall parts s s', pl_Validate parts s = Ok (true, s') ->
  exists ps, PointsCableAttachment s' = Ok (Some ps, s').
Proof.
  intros parts s s' H. destruct (pl_Validate_kept _ _ _ _ H) as (_ & _ & U). specialize (U eq_refl).
  exists (pl_cable s'). unfold PointsCableAttachment, pl_ensure. rewrite U. reflexivity.
Qed.

(** ** The passes *)
Lemma loop_fuel : forall c st (k n : nat) iter im cs hs, (0 <= iter)%Z -> (100 - iter < Z.of_nat n)%Z ->
  position_loop (N := N) c st (n + k) iter im cs hs = position_loop c st n iter im cs hs.
Proof.
  intros c st k. induction n as [|n IH]; intros iter im cs hs I F.
  - destruct k as [|k]; [reflexivity|]. cbn [position_loop Nat.add].
    replace ((iter <? 100)%Z) with false by (symmetry; apply Z.ltb_ge; lia). rewrite andb_false_r. reflexivity.
  - cbn [position_loop Nat.add]. destruct (_ && _)%bool eqn:B; [|reflexivity].
    apply andb_prop in B. destruct B as (_ & B). apply Z.ltb_lt in B.
    destruct (UpdatePointsHardware c cs hs) as [[hs' im']| |]; cbn [obind]; try reflexivity. apply IH; lia.
Qed.

Lemma loop_passes : forall c st (n : nat) iter im cs hs i cs' hs', (0 <= iter <= 100)%Z ->
  position_loop (N := N) c st n iter im cs hs = Ok (i, cs', hs') -> (iter <= i <= 100)%Z.
Proof.
  intros c st. induction n as [|n IH]; intros iter im cs hs i cs' hs' I H; cbn [position_loop] in H.
  - injection H as <- _ _. lia.
  - destruct (_ && _)%bool eqn:B; [|injection H as <- _ _; lia].
    apply andb_prop in B. destruct B as (_ & B). apply Z.ltb_lt in B.
    destruct (UpdatePointsHardware c cs hs) as [[hs1 im']| |]; cbn [obind] in H; try discriminate H.
    apply IH in H; lia.
Qed.
End Locate.
