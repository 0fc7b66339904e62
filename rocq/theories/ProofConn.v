(** Lemmas for C21 (hardware slots) and C22 (connections of a line cable). *)
From Coq Require Import ZArith Bool List Lia Sorted.
From Verif Require Import Num NumFacts ModelBase ModelAlignment ModelLine SpecLine ListFacts ProofAlignment
  SpecTransmission ProofLine.
Import ListNotations.
Open Scope num_scope.

Section P.
Context {N : Num} (ok : N -> Prop) (OL : OrdLaws N ok).
Implicit Types env : Env N.

Lemma points_at_deref : forall env p (s : LineStructure N), points_at env p s <-> deref env p = Ok s.
Proof.
  intros env p s. unfold points_at. destruct p as [|id|s']; simpl.
  - split; [intros [H|(id & H & _)]; discriminate|discriminate].
  - split.
    + intros [H|(i & H & L)]; [discriminate|]. inversion H; subst. rewrite L. auto.
    + destruct (lookup env id) eqn:E; [|discriminate]. intros H; inversion H; subst. right. eauto.
  - split; [intros [H|(id & H & _)]; [congruence|discriminate]|]. intros H; inversion H; auto.
Qed.

Lemma search_slot : forall env c st cs ss k, deref env (cn_line_structure c) = Ok st ->
  conn_stations env cs ss -> AddConnection_search env c cs k = Ok (find_slot (ls_station st) ss k).
Proof.
  intros env c st cs ss k Hc H. revert k. induction H as [|c0 x cs ss (s & Hp & <-) H IH]; intros k; simpl; auto.
  rewrite Hc. apply points_at_deref in Hp. rewrite Hp. simpl.
  destruct (ls_station st <? ls_station s); auto. destruct (ls_station st =? ls_station s); auto.
Qed.

Lemma Forall2_len : forall A B (R : A -> B -> Prop) a b, Forall2 R a b -> length a = length b.
Proof. intros A B R a b H. induction H; simpl; auto. Qed.

Lemma Forall2_insert_at : forall A B (R : A -> B -> Prop) n x y a b, Forall2 R a b -> R x y ->
  Forall2 R (insert_at n x a) (insert_at n y b).
Proof.
  intros A B R n x y a b H. revert n. unfold insert_at.
  induction H as [|u v a b Huv H IH]; intros [|n] Hxy; simpl.
  - repeat constructor; auto.
  - repeat constructor; auto.
  - repeat constructor; auto.
  - constructor; [exact Huv|]. apply (IH n Hxy).
Qed.

Lemma Forall2_remove_at : forall A B (R : A -> B -> Prop) n a b, Forall2 R a b ->
  Forall2 R (remove_at n a) (remove_at n b).
Proof.
  intros A B R n a b H. revert n. unfold remove_at.
  induction H as [|u v a b Huv H IH]; intros [|n]; simpl; auto.
  constructor; auto. apply (IH n).
Qed.

Lemma Forall_insert_at : forall A (Q : A -> Prop) n x a, Q x -> Forall Q a -> Forall Q (insert_at n x a).
Proof.
  intros A Q n x a Hx H. apply Forall_forall. intros y Hy. apply In_insert_at in Hy as [->|Hy]; auto.
  rewrite Forall_forall in H; auto.
Qed.

Lemma Forall_remove_at : forall A (Q : A -> Prop) n a, Forall Q a -> Forall Q (remove_at n a).
Proof.
  intros A Q n a H. rewrite Forall_forall in *. intros y Hy. apply In_remove_at in Hy. auto.
Qed.

(** The state of a cable: its stations are known, allowed and increasing. *)
Definition conn_inv env (cs : list (Connection N)) (ss : list N) : Prop :=
  conn_stations env cs ss /\ Forall ok ss /\ StronglySorted lt ss /\
  Forall (fun c => cn_line_structure c <> SNull) cs.

Lemma points_not_null : forall env p (s : LineStructure N), points_at env p s -> p <> SNull.
Proof. intros env p s [->|(id & -> & _)]; discriminate. Qed.

Lemma AddConnection_contract : forall env cs ss k, conn_inv env cs ss -> conn_arg_ok ok env k ->
  exists cs' j ss', AddConnection env cs k = Ok (cs', j) /\ conn_inv env cs' ss' /\
    ((j = (-1)%Z /\ cs' = cs /\
      (cn_line_structure k = SNull \/
       exists s x, points_at env (cn_line_structure k) s /\ In x ss /\ (ls_station s =? x) = true)) \/
     (is_insertion cs j k cs' /\
      exists s, points_at env (cn_line_structure k) s /\ forall x, In x ss -> (ls_station s =? x) = false)).
Proof.
  intros env cs ss k (HS & HO & HT & HN) HK. destruct HK as [K|(s & Hp & Ok1)].
  - exists cs, (-1)%Z, ss. unfold AddConnection. rewrite K. split; auto. split; [repeat split; auto|]. left; auto.
  - assert (NN := points_not_null _ _ _ Hp). assert (D := proj1 (points_at_deref _ _ _) Hp).
    assert (E : AddConnection env cs k =
      do r <- AddConnection_search env k cs 0;
      match r with None => Ok (cs, -1)%Z
                 | Some pos => Ok (insert_at pos k cs, Z.of_nat (S pos) - 1)%Z end).
    { unfold AddConnection. destruct (cn_line_structure k); [congruence|auto|auto]. }
    rewrite E, (search_slot env k s cs ss 0 D HS). cbn [obind].
    assert (L : length cs = length ss) by (eapply Forall2_len; eauto).
    destruct (find_slot (ls_station s) ss 0) as [pos|] eqn:F.
    + assert (B := find_slot_le _ _ _ _ F).
      exists (insert_at pos k cs), (Z.of_nat pos), (insert_at pos (ls_station s) ss).
      split; [replace (Z.of_nat (S pos) - 1)%Z with (Z.of_nat pos) by lia; reflexivity|]. split.
      * split; [apply Forall2_insert_at; eauto|].
        split; [apply Forall_insert_at; auto|]. split; [eapply insert_sorted; eauto|].
        apply (Forall_insert_at _ (fun c : Connection N => cn_line_structure c <> SNull)); auto.
      * right. split; [apply insert_at_spec; lia|]. exists s. split; auto.
        intros x Hx. destruct (ls_station s =? x) eqn:Q; auto.
        assert (find_slot (ls_station s) ss 0 = None) by (apply (find_slot_None ok OL); eauto). congruence.
    + exists cs, (-1)%Z, ss. split; auto. split; [repeat split; auto|]. left. split; auto. split; auto. right.
      apply (find_slot_None ok OL) in F; auto. destruct F as (x & Hx & Q). exists s, x. auto.
Qed.

Lemma DeleteConnection_contract : forall env cs ss i cs' b, conn_inv env cs ss ->
  DeleteConnection cs i = (cs', b) ->
  (exists ss', conn_inv env cs' ss') /\
  ((b = false /\ cs' = cs /\ ~ (0 <= i < Z.of_nat (length cs))%Z) \/
   (b = true /\ exists k, is_removal cs i k cs')).
Proof.
  intros env cs ss i cs' b (HS & HO & HT & HN) H. unfold DeleteConnection in H.
  destruct (valid_index cs i) eqn:V; inversion H; subst.
  - split.
    + exists (remove_at (Z.to_nat i) ss). split; [apply Forall2_remove_at; auto|].
      split; [apply Forall_remove_at; auto|]. split; [apply SS_remove_at; auto|]. apply Forall_remove_at; auto.
    + right. split; auto. apply valid_index_nat in V as [V1 V2].
      destruct cs as [|c0 cs]; [simpl in V1; lia|].
      exists (nth (Z.to_nat i) (c0 :: cs) c0). rewrite <- V2 at 1. apply remove_at_spec; auto.
  - split; [exists ss; repeat split; auto|]. left. repeat split; auto.
    intros K. apply (proj2 (valid_index_true _ _)) in K. congruence.
Qed.

Lemma ModifyConnection_contract : forall env cs ss i k, conn_inv env cs ss -> conn_arg_ok ok env k ->
  exists cs' j ss', ModifyConnection env cs i k = Ok (cs', j) /\ conn_inv env cs' ss' /\
    ((j = (-1)%Z /\ cs' = cs) \/
     (exists old mid, is_removal cs i old mid /\ is_insertion mid j k cs')).
Proof.
  intros env cs ss i k HI HK. unfold ModifyConnection.
  destruct (valid_index cs i) eqn:V; [|exists cs, (-1)%Z, ss; auto].
  destruct (valid_index_nat _ _ V) as [V1 V2].
  destruct cs as [|c0 cs0] eqn:EC; [simpl in V1; lia|]. rewrite <- EC in *.
  set (n := Z.to_nat i) in *. set (old := nth n cs c0).
  assert (Hold : nth_error cs n = Some old) by (apply nth_error_nth'; auto).
  assert (Hnd : next_deref cs i = Ok old) by (apply next_deref_ok; split; [lia|exact Hold]).
  rewrite Hnd. cbn [obind].
  assert (HD : DeleteConnection cs i = (remove_at n cs, true)) by (unfold DeleteConnection; rewrite V; auto).
  rewrite HD. cbn [negb].
  destruct (DeleteConnection_contract env cs ss i _ _ HI HD) as [[ss1 HI1] _].
  destruct (AddConnection_contract env (remove_at n cs) ss1 k HI1 HK) as (cs2 & j & ss2 & -> & HI2 & C).
  cbn [obind]. destruct C as [(-> & -> & _)|(Hins & _)].
  - cbn [Z.eqb]. (* the cached connection goes back to its place *)
    destruct HI as (HS & HO & HT & HN).
    assert (Ls : (n < length ss)%nat) by (rewrite <- (Forall2_len _ _ _ _ _ HS); auto).
    assert (exists x0 : N, True) as [x0 _] by (exists (ls_station (LineStructure_default (N := N))); auto).
    assert (Hst : exists s, points_at env (cn_line_structure old) s /\ ls_station s = nth n ss x0).
    { clearbody old n. clear - HS Hold Ls. revert n Hold Ls. induction HS; intros [|n] Hold Ls; simpl in *; try discriminate.
      - inversion Hold; subst; auto.
      - apply IHHS; auto; lia. }
    destruct Hst as (s & Hp & Es).
    assert (D := proj1 (points_at_deref _ _ _) Hp). assert (NN := points_not_null _ _ _ Hp).
    assert (E : AddConnection env (remove_at n cs) old =
      do r <- AddConnection_search env old (remove_at n cs) 0;
      match r with None => Ok (remove_at n cs, -1)%Z
                 | Some pos => Ok (insert_at pos old (remove_at n cs), Z.of_nat (S pos) - 1)%Z end).
    { unfold AddConnection. destruct (cn_line_structure old); [congruence|auto|auto]. }
    rewrite E, (search_slot env old s (remove_at n cs) (remove_at n ss) 0 D); [|apply Forall2_remove_at; auto].
    rewrite Es, (find_slot_remove_at ok OL) by auto. cbn [obind fst].
    unfold old. rewrite insert_at_remove_at by auto. exists cs, (-1)%Z, ss. split; auto.
    split; [repeat split; auto|]. left; auto.
  - assert (j <> (-1)%Z) by (destruct Hins as (a & b & _ & _ & ->); lia).
    destruct (Z.eqb_spec j (-1)) as [Ej|_]; [contradiction|].
    exists cs2, j, ss2. split; auto. split; auto. right. exists old, (remove_at n cs).
    split; auto. rewrite <- V2. apply remove_at_spec; auto.
Qed.

Lemma conn_step_inv : forall env cs ss c, conn_inv env cs ss -> conn_call_ok ok env c ->
  exists cs' ss', conn_step env cs c = Ok cs' /\ conn_inv env cs' ss'.
Proof.
  intros env cs ss c HI HC. destruct c as [k| |i|i k]; simpl in *.
  - destruct (AddConnection_contract env cs ss k HI HC) as (cs' & j & ss' & -> & HI' & _). exists cs', ss'; auto.
  - exists [], []. split; auto. repeat split; constructor.
  - destruct (DeleteConnection cs i) as [cs' b] eqn:E. simpl.
    destruct (DeleteConnection_contract _ _ _ _ _ _ HI E) as [[ss' K] _]. exists cs', ss'; auto.
  - destruct (ModifyConnection_contract env cs ss i k HI HC) as (cs' & j & ss' & -> & HI' & _). exists cs', ss'; auto.
Qed.

Lemma conn_run_inv : forall env calls cs ss, conn_inv env cs ss -> Forall (conn_call_ok ok env) calls ->
  exists cs' ss', conn_run env cs calls = Ok cs' /\ conn_inv env cs' ss'.
Proof.
  intros env calls. induction calls as [|c calls IH]; intros cs ss HI HF; simpl; [eauto|].
  inversion HF; subst. destruct (conn_step_inv env cs ss c HI H1) as (cs1 & ss1 & -> & HI1). simpl.
  eapply IH; eauto.
Qed.

Lemma conn_empty_inv : forall env, conn_inv env [] [].
Proof. intros; repeat split; constructor. Qed.

Lemma SS_strict : forall ss : list N, StronglySorted lt ss -> strictly_increasing ss.
Proof.
  intros ss H. induction H as [|a ss H IH F]; intros i j x y L Hi Hj; [destruct i; discriminate|].
  rewrite Forall_forall in F. destruct i as [|i], j as [|j]; simpl in *; try lia.
  - inversion Hi; subst. apply F. eapply nth_error_In; eauto.
  - apply (IH i j); auto; lia.
Qed.

(** C22 *)
Lemma conn_history : forall env calls, Forall (conn_call_ok ok env) calls ->
  exists cs ss, conn_run env [] calls = Ok cs /\ conn_stations env cs ss /\ strictly_increasing ss.
Proof.
  intros env calls H. destruct (conn_run_inv env calls [] [] (conn_empty_inv env) H) as (cs & ss & E & HS & _ & HT & _).
  exists cs, ss. split; auto. split; auto. apply SS_strict; auto.
Qed.

Lemma conn_add_history : forall env calls k cs, Forall (conn_call_ok ok env) calls ->
  conn_run env [] calls = Ok cs -> conn_arg_ok ok env k ->
  exists cs' j, AddConnection env cs k = Ok (cs', j) /\
    ((j = (-1)%Z /\ cs' = cs /\
      (cn_line_structure k = SNull \/
       exists s c s', points_at env (cn_line_structure k) s /\ In c cs /\
         points_at env (cn_line_structure c) s' /\ (ls_station s =? ls_station s') = true)) \/
     (is_insertion cs j k cs' /\
      exists s, points_at env (cn_line_structure k) s /\
        forall c s', In c cs -> points_at env (cn_line_structure c) s' -> (ls_station s =? ls_station s') = false)).
Proof.
  intros env calls k cs HF E HK.
  destruct (conn_run_inv env calls [] [] (conn_empty_inv env) HF) as (cs1 & ss & E1 & HI).
  rewrite E in E1. inversion E1; subst cs1.
  destruct (AddConnection_contract env cs ss k HI HK) as (cs' & j & ss' & EA & _ & C).
  exists cs', j. split; auto. destruct HI as (HS & _).
  assert (A : forall x, In x ss -> exists c s', In c cs /\ points_at env (cn_line_structure c) s' /\ ls_station s' = x).
  { clear - HS. induction HS as [|c y cs ss (s & Hp & Es) HS IH]; intros x Hx; [contradiction|]. destruct Hx as [<-|Hx].
    - exists c, s. simpl; auto.
    - destruct (IH x Hx) as (c1 & s1 & ? & ? & ?). exists c1, s1. simpl; auto. }
  assert (B : forall c s', In c cs -> points_at env (cn_line_structure c) s' -> In (ls_station s') ss).
  { clear - HS. induction HS as [|c y cs ss (s & Hp & Es) HS IH]; intros c1 s' Hc Hp'; [contradiction|]. destruct Hc as [<-|Hc].
    - apply points_at_deref in Hp. apply points_at_deref in Hp'. left. congruence.
    - right. eapply IH; eauto. }
  destruct C as [(-> & -> & [K|(s & x & Hp & Hx & Q)])|(Hins & s & Hp & Q)].
  - left; auto.
  - left. split; auto. split; auto. right. destruct (A x Hx) as (c & s' & Hc & Hp' & <-). exists s, c, s'. auto.
  - right. split; auto. exists s. split; auto. intros c s' Hc Hp'. apply Q. eapply B; eauto.
Qed.

Lemma conn_modify_history : forall env calls i k cs, Forall (conn_call_ok ok env) calls ->
  conn_run env [] calls = Ok cs -> conn_arg_ok ok env k ->
  exists cs' j, ModifyConnection env cs i k = Ok (cs', j) /\
    ((j = (-1)%Z /\ cs' = cs) \/
     (exists old mid, is_removal cs i old mid /\ is_insertion mid j k cs')).
Proof.
  intros env calls i k cs HF E HK.
  destruct (conn_run_inv env calls [] [] (conn_empty_inv env) HF) as (cs1 & ss & E1 & HI).
  rewrite E in E1. inversion E1; subst cs1.
  destruct (ModifyConnection_contract env cs ss i k HI HK) as (cs' & j & ss' & EM & _ & C). exists cs', j. auto.
Qed.

(** C21 *)
Lemma resize_length : forall A n (x : A) m, length (resize n x m) = n.
Proof. intros. unfold resize. rewrite app_length, firstn_length, repeat_length. lia. Qed.

Lemma resize_nth : forall A n (x : A) m k, (k < n)%nat ->
  nth_error (resize n x m) k = if Nat.ltb k (length m) then nth_error m k else Some x.
Proof.
  intros A n x m k H. unfold resize. destruct (Nat.ltb_spec k (length m)) as [L|L].
  - rewrite nth_error_app1 by (rewrite firstn_length; lia). apply nth_error_firstn'. lia.
  - rewrite nth_error_app2 by (rewrite firstn_length; lia). rewrite firstn_length.
    apply nth_error_repeat. lia.
Qed.

Lemma list_set_nth : forall A n (x : A) m k, (n < length m)%nat ->
  nth_error (list_set n x m) k = if Nat.eqb k n then Some x else nth_error m k.
Proof.
  induction n as [|n IH]; intros x [|a m] k H; simpl in H; try lia; unfold list_set in *; simpl.
  - destruct k; auto.
  - destruct k; auto. simpl. apply (IH x m k). lia.
Qed.
Lemma ls_step_slots : forall (s : LineStructure N) c, slots_match s ->
  slots_match (fst (ls_step s c)) /\ snd (ls_step s c) = Ok tt.
Proof.
  intros s c HS.
  assert (PUT : forall i h, LS_IsValidIndex s i = true ->
            slots_match (fst (LS_put s i h)) /\ snd (LS_put s i h) = Ok tt).
  { intros i h V. unfold LS_IsValidIndex in V. unfold slots_match in HS. unfold LS_put.
    destruct (ls_structure s) as [st|] eqn:E; [|discriminate].
    assert (V' : valid_index (ls_hardwares s) i = true).
    { apply valid_index_true in V. apply valid_index_true. rewrite HS. exact V. }
    rewrite V'. apply valid_index_nat in V' as [L _]. split; auto. unfold slots_match; simpl.
    rewrite list_set_length; auto. }
  destruct c; simpl; auto.
  - unfold AttachHardware. destruct (LS_IsValidIndex s index) eqn:V; simpl; auto.
  - unfold DetachHardware. destruct (LS_IsValidIndex s index) eqn:V; simpl; auto.
  - split; auto. destruct structure as [st|]; unfold slots_match; simpl; auto. apply resize_length.
Qed.

Lemma ls_run_slots : forall calls (s : LineStructure N), slots_match s -> slots_match (ls_run s calls).
Proof.
  induction calls as [|c calls IH]; intros s H; simpl; auto. apply IH. apply ls_step_slots; auto.
Qed.

Lemma ls_history_slots : forall calls, slots_match (ls_run (LineStructure_default (N := N)) calls).
Proof. intros. apply ls_run_slots. reflexivity. Qed.

Lemma set_structure_slots : forall (s : LineStructure N) st k,
  let s' := set_structure s st in
  slots_match s' /\ ls_structure s' = st /\
  ((k < length (ls_hardwares s'))%nat ->
     nth_error (ls_hardwares s') k =
       if Nat.ltb k (length (ls_hardwares s)) then nth_error (ls_hardwares s) k else Some None).
Proof.
  intros s st k s'. split; [|split; [reflexivity|]].
  - destruct st; unfold slots_match; simpl; auto. apply resize_length.
  - subst s'. destruct st as [t|]; simpl; [|lia]. rewrite resize_length. intros H. apply resize_nth; auto.
Qed.

(** Same members other than the hardware slots. *)
Lemma put_exact : forall (s : LineStructure N) i h, slots_match s -> LS_IsValidIndex s i = true ->
  LS_put s i h = (mkLS (list_set (Z.to_nat i) h (ls_hardwares s)) (ls_height_adjustment s)
          (ls_offset s) (ls_rotation s) (ls_station s) (ls_structure s), Ok tt) /\
  (Z.to_nat i < length (ls_hardwares s))%nat.
Proof.
  intros s i h HS V. unfold LS_IsValidIndex in V. unfold slots_match in HS. unfold LS_put.
  destruct (ls_structure s) as [st|] eqn:E; [|discriminate].
  assert (V' : valid_index (ls_hardwares s) i = true).
  { apply valid_index_true in V. apply valid_index_true. rewrite HS. exact V. }
  rewrite V'. apply valid_index_nat in V' as [L _]. split; auto.
Qed.

Lemma LS_IsValidIndex_iff : forall (s : LineStructure N) i, LS_IsValidIndex s i = true <-> valid_attachment s i.
Proof.
  intros s i. unfold LS_IsValidIndex, valid_attachment. destruct (ls_structure s) as [st|].
  - rewrite valid_index_true. split; [intros H; exists st; auto|intros (x & E & H); inversion E; subst; auto].
  - split; [discriminate|intros (x & E & _); discriminate].
Qed.

Lemma attach_slots : forall (s : LineStructure N) i h s' r, slots_match s ->
  AttachHardware s i h = (s', r) ->
  r = Ok tt /\ (~ valid_attachment s i -> s' = s) /\
  (valid_attachment s i -> ls_structure s' = ls_structure s /\ ls_station s' = ls_station s /\
     length (ls_hardwares s') = length (ls_hardwares s) /\
     forall k, nth_error (ls_hardwares s') k =
       if Nat.eqb k (Z.to_nat i) then Some h else nth_error (ls_hardwares s) k).
Proof.
  intros s i h s' r HS H. unfold AttachHardware in H.
  destruct (LS_IsValidIndex s i) eqn:V; simpl in H.
  - destruct (put_exact s i h HS V) as [E L]. rewrite E in H. inversion H; subst. simpl.
    split; auto. apply LS_IsValidIndex_iff in V. split; [intros K; contradiction|]. intros _.
    repeat split; auto; [apply list_set_length; auto|]. intros k. apply list_set_nth; auto.
  - inversion H; subst. split; auto. split; auto. intros K. apply LS_IsValidIndex_iff in K. congruence.
Qed.

Lemma detach_slots : forall (s : LineStructure N) i s' r, slots_match s ->
  DetachHardware s i = (s', r) ->
  r = Ok tt /\ (~ valid_attachment s i -> s' = s) /\
  (valid_attachment s i -> ls_structure s' = ls_structure s /\ ls_station s' = ls_station s /\
     length (ls_hardwares s') = length (ls_hardwares s) /\
     forall k, nth_error (ls_hardwares s') k =
       if Nat.eqb k (Z.to_nat i) then Some None else nth_error (ls_hardwares s) k).
Proof. intros s i s' r HS H. apply (attach_slots s i None); auto. Qed.

End P.
