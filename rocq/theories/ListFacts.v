(** List lemmas: insertion and removal by position, sorted insertion. *)
From Coq Require Import ZArith Bool List Lia Sorted.
From Verif Require Import Num ModelAlignment SpecLine.
Import ListNotations.

Section L.
Context {A : Type}.
Implicit Types l : list A.

Lemma insert_at_length : forall n x l, (n <= length l)%nat ->
  length (insert_at n x l) = S (length l).
Proof.
  intros; unfold insert_at. rewrite app_length; simpl.
  rewrite firstn_length, skipn_length; lia.
Qed.

Lemma remove_at_length : forall n l, (n < length l)%nat ->
  S (length (remove_at n l)) = length l.
Proof.
  intros; unfold remove_at. rewrite app_length, firstn_length, skipn_length; lia.
Qed.

Lemma insert_at_spec : forall n x l, (n <= length l)%nat ->
  is_insertion l (Z.of_nat n) x (insert_at n x l).
Proof.
  intros. exists (firstn n l), (skipn n l). split; [symmetry; apply firstn_skipn|].
  split; [reflexivity|]. rewrite firstn_length. f_equal; lia.
Qed.

Lemma split_nth : forall n l d, (n < length l)%nat ->
  l = firstn n l ++ nth n l d :: skipn (S n) l.
Proof.
  induction n; destruct l; simpl; intros; try lia; [reflexivity|].
  f_equal. apply IHn. lia.
Qed.

Lemma remove_at_spec : forall n l d, (n < length l)%nat ->
  is_removal l (Z.of_nat n) (nth n l d) (remove_at n l).
Proof.
  intros n l d H. exists (firstn n l), (skipn (S n) l). split; [reflexivity|].
  split; [apply split_nth; assumption|]. rewrite firstn_length. f_equal; lia.
Qed.

Lemma remove_at_insert_at : forall n x l, (n <= length l)%nat ->
  remove_at n (insert_at n x l) = l.
Proof.
  intros. unfold remove_at, insert_at.
  assert (L : length (firstn n l) = n) by (rewrite firstn_length; lia).
  rewrite firstn_app, L, Nat.sub_diag, firstn_O, app_nil_r.
  rewrite firstn_all2 by lia.
  replace (S n) with (length (firstn n l) + 1)%nat by lia.
  rewrite skipn_app. rewrite skipn_all2 by lia.
  replace (length (firstn n l) + 1 - length (firstn n l))%nat with 1%nat by lia.
  simpl. apply firstn_skipn.
Qed.

Lemma insert_at_remove_at : forall n l d, (n < length l)%nat ->
  insert_at n (nth n l d) (remove_at n l) = l.
Proof.
  intros. unfold remove_at, insert_at.
  assert (L : length (firstn n l) = n) by (rewrite firstn_length; lia).
  rewrite firstn_app, L, Nat.sub_diag, firstn_O, app_nil_r.
  rewrite firstn_all2 by lia.
  rewrite skipn_app, L, Nat.sub_diag. rewrite skipn_all2 by lia.
  simpl. symmetry. apply split_nth. assumption.
Qed.

Lemma In_insert_at : forall n x y l, In y (insert_at n x l) <-> y = x \/ In y l.
Proof.
  intros. unfold insert_at. rewrite in_app_iff. simpl.
  rewrite <- (firstn_skipn n l) at 3. rewrite in_app_iff. intuition.
Qed.

Lemma In_remove_at : forall n y l, In y (remove_at n l) -> In y l.
Proof.
  unfold remove_at. induction n; intros y [|a l] H; simpl in *; auto.
  destruct H as [H|H]; auto.
Qed.

Lemma NoDup_remove_at : forall n l, NoDup l -> NoDup (remove_at n l).
Proof.
  unfold remove_at. induction n; intros [|a l] H; simpl in *; auto.
  - inversion H; auto.
  - inversion H; subst. constructor; [|apply IHn; assumption].
    intro I. apply H2. apply (In_remove_at n). exact I.
Qed.

Lemma nth_error_insert_at_same : forall n x l, (n <= length l)%nat ->
  nth_error (insert_at n x l) n = Some x.
Proof.
  intros. unfold insert_at. rewrite nth_error_app2; rewrite firstn_length.
  - replace (n - Nat.min n (length l))%nat with 0%nat by lia. reflexivity.
  - lia.
Qed.

Lemma valid_index_true : forall l i, valid_index l i = true <->
  (0 <= i < Z.of_nat (length l))%Z.
Proof.
  intros. unfold valid_index. rewrite andb_true_iff, Z.leb_le, Z.ltb_lt. reflexivity.
Qed.

Lemma valid_index_nat : forall l i, valid_index l i = true ->
  (Z.to_nat i < length l)%nat /\ Z.of_nat (Z.to_nat i) = i.
Proof. intros l i H. apply valid_index_true in H. lia. Qed.

End L.

Lemma map_insert_at : forall {A B} (f : A -> B) n x l,
  map f (insert_at n x l) = insert_at n (f x) (map f l).
Proof. intros. unfold insert_at. rewrite map_app. simpl. rewrite firstn_map, skipn_map. reflexivity. Qed.

Lemma map_remove_at : forall {A B} (f : A -> B) n l,
  map f (remove_at n l) = remove_at n (map f l).
Proof. intros. unfold remove_at. rewrite map_app, firstn_map, skipn_map. reflexivity. Qed.

(** ** Sorted lists of numbers *)
Section S.
Context {N : Num} (ok : N -> Prop) (OL : OrdLaws N ok).
Open Scope num_scope.

Definition lt (a b : N) : Prop := (a <? b) = true.

Lemma increasing_SS : forall l, strictly_increasing l <-> StronglySorted lt l.
Proof.
  split.
  - induction l as [|a l IH]; intros H; constructor.
    + apply IH. intros i j x y Hij Hx Hy. apply (H (S i) (S j) x y); simpl; auto; lia.
    + apply Forall_forall. intros x Hx. apply In_nth_error in Hx as [n Hn].
      apply (H 0%nat (S n) a x); simpl; auto; lia.
  - induction l as [|a l IH]; intros H i j x y Hij Hx Hy.
    + destruct i; discriminate.
    + inversion H; subst. destruct i as [|i], j as [|j]; simpl in *; try lia.
      * inversion Hx; subst. rewrite Forall_forall in H3. apply H3.
        eapply nth_error_In; eauto.
      * apply (IH H2 i j x y); auto; lia.
Qed.

Lemma increasing_nil : @strictly_increasing N [].
Proof. apply increasing_SS. constructor. Qed.

Lemma SS_app : forall l1 l2, StronglySorted lt (l1 ++ l2) <->
  StronglySorted lt l1 /\ StronglySorted lt l2 /\
  (forall a b, In a l1 -> In b l2 -> lt a b).
Proof.
  induction l1 as [|x l1 IH]; simpl; intros l2.
  - split; [intros H; repeat split; auto; [constructor|intros; contradiction]|tauto].
  - split.
    + intros H. inversion H; subst. apply IH in H2 as (S1 & S2 & S3).
      rewrite Forall_app in H3. destruct H3 as [F1 F2]. repeat split; auto.
      * constructor; auto.
      * intros a b [->|Ha] Hb; [|auto]. rewrite Forall_forall in F2; auto.
    + intros (S1 & S2 & S3). inversion S1; subst. constructor.
      * apply IH. repeat split; auto.
      * apply Forall_app. split; auto. apply Forall_forall. intros; apply S3; auto.
Qed.

Lemma SS_cons : forall a l, StronglySorted lt (a :: l) <->
  StronglySorted lt l /\ (forall b, In b l -> lt a b).
Proof.
  intros a l. rewrite (SS_app [a] l). simpl. split.
  - intros (_ & H & K). split; auto.
  - intros (H & K). repeat split; auto.
    + repeat constructor.
    + intros x b [->|[]] Hb; auto.
Qed.

Lemma SS_sub : forall l1 l2 l3, StronglySorted lt (l1 ++ l2 ++ l3) ->
  StronglySorted lt (l1 ++ l3).
Proof.
  intros l1 l2 l3 H. apply SS_app in H as (H1 & H2 & H3). apply SS_app in H2 as (H4 & H5 & H6).
  apply SS_app. repeat split; auto. intros; apply H3; auto. apply in_or_app; auto.
Qed.

Lemma SS_remove_at : forall n l, StronglySorted lt l -> StronglySorted lt (remove_at n l).
Proof.
  intros n l H. unfold remove_at.
  rewrite <- (firstn_skipn n l) in H.
  assert (K : exists m, skipn n l = m ++ skipn (S n) l).
  { revert n H; clear; induction l as [|a l IH]; intros [|n] H; simpl.
    - exists []; reflexivity.
    - exists []; reflexivity.
    - exists [a]; reflexivity.
    - simpl in H. inversion H; subst. destruct (IH n H2) as [m Hm]. exists m. exact Hm. }
  destruct K as [m K]. rewrite K in H. apply SS_sub in H. exact H.
Qed.

Lemma SS_filter : forall (f : N -> bool) l, StronglySorted lt l -> StronglySorted lt (filter f l).
Proof.
  induction l as [|a l IH]; simpl; intros H; auto.
  apply SS_cons in H as [H K]. destruct (f a); auto.
  apply SS_cons. split; auto. intros b Hb. apply filter_In in Hb as [Hb _]. auto.
Qed.

(** The search used by AddPoint, AddConnection and AddLineStructure. *)
Fixpoint find_slot (s : N) (l : list N) (pos : nat) : option nat :=
  match l with
  | [] => Some pos
  | x :: rest =>
      if s <? x then Some pos
      else if s =? x then None
      else find_slot s rest (S pos)
  end.

Lemma lt_not_eq : forall a b, ok a -> ok b -> lt a b -> (b =? a) = false /\ (a =? b) = false.
Proof.
  intros a b Ha Hb H. split.
  - rewrite (ol_eq _ _ OL b a), H by assumption. rewrite andb_comm. reflexivity.
  - rewrite (ol_eq _ _ OL a b), H by assumption. reflexivity.
Qed.

Lemma eq_sym : forall a b, ok a -> ok b -> (a =? b) = (b =? a).
Proof. intros. rewrite !(ol_eq _ _ OL) by assumption. apply andb_comm. Qed.

Lemma lt_asym : forall a b, ok a -> ok b -> lt a b -> (b <? a) = false.
Proof.
  intros a b Ha Hb H. destruct (b <? a) eqn:E; auto.
  rewrite <- (ol_irrefl _ _ OL a Ha). symmetry. eapply (ol_trans _ _ OL); eauto.
Qed.

Lemma find_slot_None : forall s l k, ok s -> Forall ok l -> StronglySorted lt l ->
  find_slot s l k = None <-> exists x, In x l /\ (s =? x) = true.
Proof.
  induction l as [|a l IH]; simpl; intros k Hs Hl HS.
  - split; [discriminate|]. intros (x & [] & _).
  - inversion Hl; subst. apply SS_cons in HS as [HS Ha].
    destruct (s <? a) eqn:E1.
    + split; [discriminate|]. intros (x & [->|Hx] & E).
      * rewrite (proj2 (lt_not_eq s x Hs H1 E1)) in E. discriminate.
      * assert (Ox : ok x) by (rewrite Forall_forall in H2; auto).
        assert (L : lt s x) by (eapply (ol_trans _ _ OL s a x); eauto; apply Ha; auto).
        rewrite (proj2 (lt_not_eq s x Hs Ox L)) in E. discriminate.
    + destruct (s =? a) eqn:E2.
      * split; [intros _; exists a; auto|auto].
      * rewrite IH by assumption. split.
        -- intros (x & Hx & E). exists x; auto.
        -- intros (x & [->|Hx] & E); [congruence|exists x; auto].
Qed.

Lemma find_slot_pos : forall s l k p, ok s -> Forall ok l -> StronglySorted lt l ->
  find_slot s l k = Some p ->
  exists l1 l2, l = l1 ++ l2 /\ p = (k + length l1)%nat /\
    (forall x, In x l1 -> lt x s) /\ (forall x, In x l2 -> lt s x).
Proof.
  induction l as [|a l IH]; simpl; intros k p Hs Hl HS E.
  - inversion E; subst. exists [], []. simpl. repeat split; auto; try lia; intros x [].
  - inversion Hl; subst. apply SS_cons in HS as [HS Ha].
    destruct (s <? a) eqn:E1.
    + inversion E; subst. exists [], (a :: l). simpl.
      split; [reflexivity|]. split; [lia|]. split; [intros x []|].
      intros x [->|Hx]; auto. rewrite Forall_forall in H2.
      eapply (ol_trans _ _ OL s a x); eauto. apply Ha; auto.
    + destruct (s =? a) eqn:E2; [discriminate|].
      apply IH in E as (l1 & l2 & -> & -> & K1 & K2); auto.
      exists (a :: l1), l2. simpl. repeat split; auto; try lia.
      intros x [->|Hx]; auto. unfold lt.
      rewrite (ol_eq _ _ OL s x Hs H1), E1 in E2. simpl in E2.
      apply negb_false_iff in E2. exact E2.
Qed.

Lemma find_slot_le : forall s l k p, find_slot s l k = Some p -> (k <= p <= k + length l)%nat.
Proof.
  induction l as [|a l IH]; simpl; intros k p E.
  - inversion E; lia.
  - destruct (s <? a); [inversion E; lia|]. destruct (s =? a); [discriminate|].
    apply IH in E. lia.
Qed.

Lemma insert_sorted : forall s l p, ok s -> Forall ok l -> StronglySorted lt l ->
  find_slot s l 0 = Some p -> StronglySorted lt (insert_at p s l).
Proof.
  intros s l p Hs Hl HS E. apply find_slot_pos in E as (l1 & l2 & -> & -> & K1 & K2); auto.
  simpl. unfold insert_at. rewrite firstn_app, Nat.sub_diag, firstn_O, app_nil_r, firstn_all.
  rewrite skipn_app, Nat.sub_diag, skipn_all. simpl.
  apply SS_app in HS as (S1 & S2 & S3). apply SS_app. repeat split; auto.
  - apply SS_cons. split; auto.
  - intros a b Ha [->|Hb]; auto. 
Qed.

(** Searching for an element that was just removed finds its old place. *)
Lemma find_slot_removed : forall s l1 l2 k, ok s -> Forall ok (l1 ++ l2) ->
  (forall x, In x l1 -> lt x s) -> (forall x, In x l2 -> lt s x) ->
  find_slot s (l1 ++ l2) k = Some (k + length l1)%nat.
Proof.
  induction l1 as [|a l1 IH]; simpl; intros l2 k Hs Hok H1 H2.
  - destruct l2 as [|b l2]; simpl; [f_equal; lia|].
    rewrite (H2 b) by (simpl; auto). f_equal; lia.
  - inversion Hok; subst.
    assert (L : lt a s) by (apply H1; auto).
    rewrite (lt_asym a s), (proj1 (lt_not_eq a s H3 Hs L)) by assumption.
    rewrite IH; auto. f_equal; lia.
Qed.

Lemma find_slot_remove_at : forall n l d, (n < length l)%nat -> Forall ok l ->
  StronglySorted lt l -> find_slot (nth n l d) (remove_at n l) 0 = Some n.
Proof.
  intros n l d Hn Hok HS.
  assert (E := split_nth n l d Hn). assert (HS' := HS). rewrite E in HS'.
  apply SS_app in HS' as (S1 & S2 & S3). apply SS_cons in S2 as [S2 S4].
  unfold remove_at. rewrite find_slot_removed.
  - rewrite firstn_length. simpl. f_equal. lia.
  - rewrite Forall_forall in Hok. apply Hok. apply nth_In. assumption.
  - rewrite E in Hok. apply Forall_app in Hok as [F1 F2]. inversion F2; subst.
    apply Forall_app; split; auto.
  - intros x Hx. apply S3; auto. simpl; auto.
  - intros x Hx. apply S4; auto.
Qed.

End S.
