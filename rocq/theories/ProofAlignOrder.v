(** Proofs for C192: the alignment does not depend on the order of the points
    and every successful call can be undone. *)
From Coq Require Import ZArith Bool List Lia Sorted Permutation.
From Verif Require Import Num ModelBase ModelAlignment SpecLine ListFacts ProofAlignment.
Import ListNotations.
Open Scope num_scope.

Section P.
Context {N : Num} (ok : N -> Prop) (OL : OrdLaws N ok).
Implicit Types pts ps qs : list (AlignmentPoint N).

Lemma insert_at_perm : forall A n (x : A) l, Permutation (insert_at n x l) (x :: l).
Proof.
  intros A n x l. unfold insert_at. rewrite <- (firstn_skipn n l) at 3.
  symmetry. apply Permutation_middle.
Qed.

(** No two points have the same station. *)
Definition apart ps : Prop :=
  forall i j p q, i <> j -> nth_error ps i = Some p -> nth_error ps j = Some q ->
    (ap_station p =? ap_station q) = false.

Lemma apart_cons : forall p ps, apart (p :: ps) ->
  apart ps /\ (forall q, In q ps -> (ap_station p =? ap_station q) = false).
Proof.
  intros p ps H. split.
  - intros i j a b Hij Ha Hb. apply (H (S i) (S j)); auto.
  - intros q Hq. apply In_nth_error in Hq as [k Hk]. apply (H 0%nat (S k) p q); auto.
Qed.

Lemma fold_adds : forall ps pts, sorted_pts ok pts ->
  (forall p, In p ps -> ok (ap_station p)) -> apart ps ->
  (forall p q, In p ps -> In q pts -> (ap_station p =? ap_station q) = false) ->
  sorted_pts ok (fold_left alignment_step (map CallAddPoint ps) pts) /\
  Permutation (fold_left alignment_step (map CallAddPoint ps) pts) (ps ++ pts).
Proof.
  induction ps as [|p ps IH]; intros pts HS HO HA HD; simpl; [auto|].
  apply apart_cons in HA as [HA HP].
  assert (Hp : ok (ap_station p)) by (apply HO; left; auto).
  assert (K : snd (AddPoint pts p) <> (-1)%Z).
  { intros K. apply (AddPoint_fail ok OL pts p HS Hp) in K as (q & Hq & E).
    rewrite HD in E; [discriminate|left; auto|auto]. }
  assert (HI : Permutation (fst (AddPoint pts p)) (p :: pts)).
  { revert K. unfold AddPoint. destruct (AddPoint_search p pts 0); simpl; [|lia].
    intros _. apply insert_at_perm. }
  destruct (IH (fst (AddPoint pts p))) as [S1 P1].
  - apply AddPoint_sorted; auto.
  - intros; apply HO; right; auto.
  - auto.
  - intros a b Ha Hb. apply (Permutation_in _ HI) in Hb as [<-|Hb].
    + specialize (HP a Ha).
      assert (Oa : ok (ap_station a)) by (apply HO; right; auto).
      rewrite (ol_eq _ _ OL) in * by auto. rewrite andb_comm. auto.
    + apply HD; [right|]; auto.
  - split; auto. rewrite P1, HI. symmetry. apply Permutation_middle.
Qed.

Lemma sorted_unique : forall ps qs, sorted_pts ok ps -> sorted_pts ok qs ->
  Permutation ps qs -> ps = qs.
Proof.
  induction ps as [|p ps IH]; intros qs [O1 S1] [O2 S2] HP.
  - apply Permutation_nil in HP. auto.
  - destruct qs as [|q qs]; [symmetry in HP; apply Permutation_nil in HP; discriminate|].
    simpl in *. inversion O1; inversion O2; subst.
    apply SS_cons in S1 as [S1 L1]. apply SS_cons in S2 as [S2 L2].
    assert (E : p = q).
    { assert (A := Permutation_in p HP (or_introl eq_refl)).
      assert (B := Permutation_in q (Permutation_sym HP) (or_introl eq_refl)).
      destruct A as [A|A]; auto. destruct B as [B|B]; auto.
      assert (X := L1 (ap_station q) (in_map _ _ _ B)).
      assert (Y := L2 (ap_station p) (in_map _ _ _ A)).
      assert (Z := ol_trans _ _ OL (ap_station p) (ap_station q) (ap_station p) H1 H5 H1 X Y).
      rewrite (ol_irrefl _ _ OL) in Z; auto. discriminate. }
    subst q. f_equal. apply Permutation_cons_inv in HP.
    apply IH; auto; split; auto.
Qed.

Lemma adds_any_order : forall ps qs,
  (forall p, In p ps -> ok (ap_station p)) -> apart ps -> Permutation ps qs ->
  alignment_run (map CallAddPoint ps) = alignment_run (map CallAddPoint qs) /\
  Permutation (alignment_run (map CallAddPoint ps)) ps.
Proof.
  intros ps qs HO HA HP.
  assert (HOq : forall p, In p qs -> ok (ap_station p)).
  { intros p Hp. apply HO. apply Permutation_sym in HP. eapply Permutation_in; eauto. }
  assert (N0 : sorted_pts ok []) by (split; constructor).
  assert (HAq : apart qs).
  { apply Permutation_nth_error in HP as (_ & f & Hf & Hn).
    intros i j a b Hij Ha Hb. rewrite Hn in Ha, Hb.
    apply (HA (f i) (f j)); auto. }
  destruct (fold_adds ps [] N0 HO HA) as [S1 P1]; [intros ? ? _ []|].
  destruct (fold_adds qs [] N0 HOq HAq) as [S2 P2]; [intros ? ? _ []|].
  rewrite app_nil_r in P1, P2. split; [|exact P1].
  apply sorted_unique; auto. unfold alignment_run. rewrite P1, P2. exact HP.
Qed.

Lemma insertion_undone : forall pts i p pts', is_insertion pts i p pts' ->
  DeletePoint pts' i = (pts, true).
Proof.
  intros pts i p pts' (l1 & l2 & -> & -> & ->). unfold DeletePoint.
  replace (valid_index (l1 ++ p :: l2) (Z.of_nat (length l1))) with true.
  2:{ symmetry. apply valid_index_true. rewrite app_length. simpl. lia. }
  f_equal. rewrite Nat2Z.id. unfold remove_at.
  rewrite firstn_app, Nat.sub_diag, firstn_all, firstn_O, app_nil_r.
  rewrite skipn_app. rewrite skipn_all2 by lia.
  replace (S (length l1) - length l1)%nat with 1%nat by lia. reflexivity.
Qed.

Lemma add_undone : forall pts p, snd (AddPoint pts p) <> (-1)%Z ->
  DeletePoint (fst (AddPoint pts p)) (snd (AddPoint pts p)) = (pts, true).
Proof. intros pts p H. apply AddPoint_success in H. eapply insertion_undone; eauto. Qed.

(** A removed point goes back where it was. *)
Lemma AddPoint_back : forall pts n d, sorted_pts ok pts -> (n < length pts)%nat ->
  AddPoint (remove_at n pts) (nth n pts d) = (pts, Z.of_nat n).
Proof.
  intros pts n d [H1 H2] Hn. unfold AddPoint. rewrite AddPoint_search_slot, map_remove_at.
  rewrite (nth_map_in _ _ _ (ap_station d)) by auto.
  rewrite (find_slot_remove_at ok OL); auto; [|rewrite map_length; auto].
  rewrite insert_at_remove_at by auto. f_equal. lia.
Qed.

Lemma delete_undone : forall pts i p, sorted_pts ok pts -> (0 <= i)%Z ->
  nth_error pts (Z.to_nat i) = Some p ->
  snd (DeletePoint pts i) = true /\ AddPoint (fst (DeletePoint pts i)) p = (pts, i).
Proof.
  intros pts i p HS Hi Hp.
  assert (Hn : (Z.to_nat i < length pts)%nat) by (apply nth_error_Some; congruence).
  unfold DeletePoint. replace (valid_index pts i) with true.
  2:{ symmetry. apply valid_index_true. lia. }
  simpl. split; auto. rewrite <- (nth_error_nth pts (Z.to_nat i) p Hp).
  rewrite AddPoint_back; auto. f_equal. lia.
Qed.

Lemma modify_undone : forall pts i p old, sorted_pts ok pts -> (0 <= i)%Z ->
  nth_error pts (Z.to_nat i) = Some old ->
  snd (ModifyPoint pts i p) <> (-1)%Z ->
  ModifyPoint (fst (ModifyPoint pts i p)) (snd (ModifyPoint pts i p)) old = (pts, i).
Proof.
  intros pts i p old HS Hi Ho HM.
  destruct (delete_undone pts i old HS Hi Ho) as [D1 D2].
  revert HM. unfold ModifyPoint at 1 3 4.
  destruct (valid_index pts i) eqn:E; [|simpl; lia].
  destruct (DeletePoint pts i) as [mid b] eqn:ED. simpl in D1, D2. subst b. cbn [negb].
  destruct (AddPoint mid p) as [pts2 status] eqn:EA.
  destruct (status =? -1)%Z eqn:Es; [apply Z.eqb_eq in Es; subst; simpl; lia|].
  cbn [fst snd]. intros HM.
  assert (I := AddPoint_success mid p). rewrite EA in I. specialize (I HM). simpl in I.
  assert (U := insertion_undone _ _ _ _ I).
  unfold ModifyPoint. replace (valid_index pts2 status) with true.
  2:{ symmetry. apply valid_index_true. destruct I as (l1 & l2 & -> & -> & ->).
      rewrite app_length. simpl. lia. }
  rewrite U. cbn [negb]. rewrite D2.
  destruct (i =? -1)%Z eqn:Ei; [apply Z.eqb_eq in Ei; lia|reflexivity].
Qed.

(** For the concrete cases. *)
Lemma apart_three : forall a b c : AlignmentPoint N,
  (ap_station a =? ap_station b) = false -> (ap_station b =? ap_station a) = false ->
  (ap_station a =? ap_station c) = false -> (ap_station c =? ap_station a) = false ->
  (ap_station b =? ap_station c) = false -> (ap_station c =? ap_station b) = false ->
  apart [a; b; c].
Proof.
  intros a b c H1 H2 H3 H4 H5 H6 i j p q Hij Hp Hq.
  destruct i as [|[|[|[|i]]]]; try discriminate Hp; injection Hp as <-;
  destruct j as [|[|[|[|j]]]]; try discriminate Hq; injection Hq as <-;
  try (exfalso; apply Hij; reflexivity); assumption.
Qed.
End P.
