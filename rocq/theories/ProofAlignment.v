(** Proofs about the alignment model, for every arithmetic with the order laws. *)
From Coq Require Import ZArith Bool List Lia Sorted.
From Verif Require Import Num ModelBase ModelAlignment SpecLine ListFacts.
Import ListNotations.
Open Scope num_scope.

Section P.
Context {N : Num} (ok : N -> Prop) (OL : OrdLaws N ok).
Implicit Types pts : list (AlignmentPoint N).

Definition call_ok (c : AlignmentCall N) : Prop :=
  match c with
  | CallAddPoint p => ok (ap_station p)
  | CallDeletePoint _ => True
  | CallModifyPoint _ p => ok (ap_station p)
  end.

(** The invariant: stations are numbers and increase. *)
Definition sorted_pts pts : Prop :=
  Forall ok (map ap_station pts) /\ StronglySorted lt (map ap_station pts).

Lemma AddPoint_search_slot : forall p pts k,
  AddPoint_search p pts k = find_slot (ap_station p) (map ap_station pts) k.
Proof.
  induction pts as [|q pts IH]; simpl; intros k; auto.
  destruct (ap_station p <? ap_station q); auto.
  destruct (ap_station p =? ap_station q); auto.
Qed.

Lemma AddPoint_fail : forall pts p, sorted_pts pts -> ok (ap_station p) ->
  (snd (AddPoint pts p) = (-1)%Z <->
   exists q, In q pts /\ (ap_station p =? ap_station q) = true).
Proof.
  intros pts p [H1 H2] Hp. unfold AddPoint. rewrite AddPoint_search_slot.
  destruct (find_slot (ap_station p) (map ap_station pts) 0) eqn:E; cbn [fst snd].
  - split; [lia|]. intros (q & Hq & Eq).
    assert (K : find_slot (ap_station p) (map ap_station pts) 0 = None).
    { apply (find_slot_None ok OL); auto. exists (ap_station q). split; auto. apply in_map; auto. }
    congruence.
  - split; auto. intros _.
    apply (find_slot_None ok OL) in E as (x & Hx & Ex); auto.
    apply in_map_iff in Hx as (q & <- & Hq). exists q; auto.
Qed.

Lemma AddPoint_fail_same : forall pts p, snd (AddPoint pts p) = (-1)%Z ->
  fst (AddPoint pts p) = pts.
Proof.
  intros pts p. unfold AddPoint. destruct (AddPoint_search p pts 0); cbn [fst snd]; [lia|auto].
Qed.

Lemma AddPoint_success : forall pts p, snd (AddPoint pts p) <> (-1)%Z ->
  is_insertion pts (snd (AddPoint pts p)) p (fst (AddPoint pts p)).
Proof.
  intros pts p. unfold AddPoint. rewrite AddPoint_search_slot.
  destruct (find_slot _ _ 0) as [pos|] eqn:E; cbn [fst snd]; [|congruence].
  intros _. apply find_slot_le in E. rewrite map_length in E.
  replace (Z.of_nat (S pos) - 1)%Z with (Z.of_nat pos) by lia.
  apply insert_at_spec. lia.
Qed.

Lemma AddPoint_sorted : forall pts p, sorted_pts pts -> ok (ap_station p) ->
  sorted_pts (fst (AddPoint pts p)).
Proof.
  intros pts p [H1 H2] Hp. unfold AddPoint. rewrite AddPoint_search_slot.
  destruct (find_slot _ _ 0) as [pos|] eqn:E; simpl; [|split; auto].
  split; rewrite map_insert_at.
  - apply Forall_forall. intros x Hx. apply In_insert_at in Hx as [->|Hx]; auto.
    rewrite Forall_forall in H1; auto.
  - eapply insert_sorted; eauto.
Qed.

Lemma DeletePoint_sorted : forall pts i, sorted_pts pts -> sorted_pts (fst (DeletePoint pts i)).
Proof.
  intros pts i [H1 H2]. unfold DeletePoint. destruct (valid_index pts i) eqn:E; simpl; [|split; auto].
  split; rewrite map_remove_at.
  - apply Forall_forall. intros x Hx. apply In_remove_at in Hx. rewrite Forall_forall in H1; auto.
  - apply SS_remove_at; auto.
Qed.

Lemma nth_map_in : forall pts n d d', (n < length pts)%nat ->
  ap_station (nth n pts d) = nth n (map ap_station pts) d'.
Proof.
  intros. rewrite (nth_indep _ d' (ap_station d)) by (rewrite map_length; auto).
  symmetry. apply map_nth.
Qed.

(** Re-adding the removed point restores the list exactly. *)
Lemma AddPoint_restore : forall pts n d, sorted_pts pts -> (n < length pts)%nat ->
  fst (AddPoint (remove_at n pts) (nth n pts d)) = pts.
Proof.
  intros pts n d [H1 H2] Hn. unfold AddPoint. rewrite AddPoint_search_slot, map_remove_at.
  rewrite (nth_map_in _ _ _ (ap_station d)) by auto.
  rewrite (find_slot_remove_at ok OL); auto; [|rewrite map_length; auto].
  simpl. apply insert_at_remove_at. auto.
Qed.

Lemma ModifyPoint_fail_same : forall pts i p, sorted_pts pts ->
  snd (ModifyPoint pts i p) = (-1)%Z -> fst (ModifyPoint pts i p) = pts.
Proof.
  intros pts i p HS. unfold ModifyPoint, DeletePoint.
  destruct (valid_index pts i) eqn:E; auto. apply valid_index_nat in E as [E _]. simpl.
  destruct (AddPoint (remove_at (Z.to_nat i) pts) p) as [pts2 status] eqn:EA.
  destruct (status =? -1)%Z eqn:Es; simpl; [|intros ->; discriminate].
  intros _. apply Z.eqb_eq in Es. subst.
  assert (K := AddPoint_fail_same (remove_at (Z.to_nat i) pts) p). rewrite EA in K. simpl in K.
  rewrite K by auto. apply AddPoint_restore; auto.
Qed.

Lemma ModifyPoint_sorted : forall pts i p, sorted_pts pts -> ok (ap_station p) ->
  sorted_pts (fst (ModifyPoint pts i p)).
Proof.
  intros pts i p HS Hp.
  destruct (Z.eq_dec (snd (ModifyPoint pts i p)) (-1)) as [E|E].
  - rewrite ModifyPoint_fail_same; auto.
  - revert E. unfold ModifyPoint. destruct (valid_index pts i); simpl; [|congruence].
    assert (K := DeletePoint_sorted pts i HS).
    destruct (DeletePoint pts i) as [pts1 []]; simpl in *; [|congruence].
    assert (K2 := AddPoint_sorted pts1 p K Hp).
    destruct (AddPoint pts1 p) as [pts2 status]; simpl in *.
    destruct (status =? -1)%Z eqn:Es; simpl; auto. apply Z.eqb_eq in Es. congruence.
Qed.

Lemma ModifyPoint_success : forall pts i p, snd (ModifyPoint pts i p) <> (-1)%Z ->
  exists old mid, is_removal pts i old mid /\
    is_insertion mid (snd (ModifyPoint pts i p)) p (fst (ModifyPoint pts i p)).
Proof.
  intros pts i p. unfold ModifyPoint, DeletePoint.
  destruct (valid_index pts i) eqn:E; simpl; [|congruence].
  apply valid_index_nat in E as [E1 E2].
  destruct (AddPoint (remove_at (Z.to_nat i) pts) p) as [pts2 status] eqn:EA.
  destruct (status =? -1)%Z eqn:Es; simpl; [apply Z.eqb_eq in Es; congruence|].
  intros Hne. exists (nth (Z.to_nat i) pts AlignmentPoint_default), (remove_at (Z.to_nat i) pts).
  split.
  - rewrite <- E2 at 1. apply remove_at_spec. auto.
  - assert (K := AddPoint_success (remove_at (Z.to_nat i) pts) p). rewrite EA in K. auto.
Qed.

Lemma In_remove_at_iff : forall A (q : A) n l, (n < length l)%nat ->
  (In q (remove_at n l) <-> exists j, j <> n /\ nth_error l j = Some q).
Proof.
  intros A q n l. revert n. unfold remove_at.
  induction l as [|a pts IH]; [simpl; lia|]. intros [|n] Hn; simpl in *.
  - split.
    + intros Hq. apply In_nth_error in Hq as [j Hj]. exists (S j). split; auto; lia.
    + intros ([|j] & Hj & Ej); [lia|]. simpl in Ej. eapply nth_error_In; eauto.
  - rewrite IH by lia. split.
    + intros [->|(j & Hj & Ej)]; [exists 0%nat; split; auto; lia|].
      exists (S j). split; auto; lia.
    + intros ([|j] & Hj & Ej); simpl in Ej; [left; congruence|].
      right. exists j. split; auto; lia.
Qed.

Lemma ModifyPoint_fail : forall pts i p, sorted_pts pts -> ok (ap_station p) ->
  (snd (ModifyPoint pts i p) = (-1)%Z <->
   ~ (0 <= i < Z.of_nat (length pts))%Z \/
   exists j q, Z.of_nat j <> i /\ nth_error pts j = Some q /\
     (ap_station p =? ap_station q) = true).
Proof.
  intros pts i p HS Hp. unfold ModifyPoint.
  destruct (valid_index pts i) eqn:E.
  2:{ split; [intros _; left; rewrite <- valid_index_true; congruence|auto]. }
  assert (HD := DeletePoint_sorted pts i HS). revert HD. unfold DeletePoint. rewrite E. simpl. intros HD.
  assert (E0 := E). apply valid_index_nat in E as [E1 E2].
  assert (K := AddPoint_fail (remove_at (Z.to_nat i) pts) p HD Hp).
  assert (R : snd (let (points2, status) := AddPoint (remove_at (Z.to_nat i) pts) p in
        if (status =? -1)%Z
        then (fst (AddPoint points2 (nth (Z.to_nat i) pts AlignmentPoint_default)), status)
        else (points2, status)) = snd (AddPoint (remove_at (Z.to_nat i) pts) p)).
  { destruct (AddPoint _ p) as [a b]. destruct (b =? -1)%Z; reflexivity. }
  rewrite R, K. clear R K.
  assert (M : forall q, In q (remove_at (Z.to_nat i) pts) <->
     exists j, Z.of_nat j <> i /\ nth_error pts j = Some q).
  { intros q. rewrite In_remove_at_iff by auto. split.
    - intros (j & Hj & Ej). exists j. split; auto; lia.
    - intros (j & Hj & Ej). exists j. split; auto; lia. }
  split.
  - intros (q & Hq & Eq). right. apply M in Hq as (j & Hj & Ej). exists j, q; auto.
  - intros [H|(j & q & Hj & Ej & Eq)].
    + apply valid_index_true in E0. contradiction.
    + exists q. split; auto. apply M. exists j; auto.
Qed.

Lemma run_sorted : forall calls, Forall call_ok calls -> sorted_pts (alignment_run calls).
Proof.
  intros calls H. unfold alignment_run.
  assert (K : sorted_pts (@nil (AlignmentPoint N))) by (split; constructor).
  revert K. generalize (@nil (AlignmentPoint N)).
  induction H as [|c calls Hc H IH]; simpl; intros pts K; auto.
  apply IH. destruct c; simpl in *.
  - apply AddPoint_sorted; auto.
  - apply DeletePoint_sorted; auto.
  - apply ModifyPoint_sorted; auto.
Qed.

(** ** IndexSegment *)
Lemma search_spec : forall st pts k, ok st -> sorted_pts pts ->
  let r := IndexSegment_search st pts k in
  exists l1 l2, pts = l1 ++ l2 /\ r = (k + length l1)%nat /\
    (forall q, In q l1 -> (ap_station q <? st) = true) /\
    (forall q, In q l2 -> (st <=? ap_station q) = true).
Proof.
  induction pts as [|a pts IH]; intros k Hst HS; simpl.
  - exists [], []. simpl. repeat split; auto; try lia; intros q [].
  - destruct HS as [Hok HS]. simpl in *. inversion Hok; subst.
    apply SS_cons in HS as [HS Ha].
    destruct (st <=? ap_station a) eqn:E.
    + exists [], (a :: pts). simpl. split; auto. split; [lia|]. split; [intros q []|].
      intros q [->|Hq]; auto.
      assert (Oq : ok (ap_station q)) by (rewrite Forall_forall in H2; apply H2, in_map; auto).
      rewrite (ol_le _ _ OL) in * by auto.
      apply negb_true_iff. apply negb_true_iff in E.
      destruct (ap_station q <? st) eqn:E'; auto.
      rewrite <- E. symmetry. eapply (ol_trans _ _ OL); [| | |apply Ha, in_map, Hq|]; auto.
    + destruct (IH (S k) Hst) as (l1 & l2 & -> & -> & K1 & K2); [split; auto|].
      exists (a :: l1), l2. simpl. split; auto. split; [lia|]. split; auto.
      intros q [->|Hq]; auto. rewrite (ol_le _ _ OL) in E by auto. apply negb_false_iff in E. auto.
Qed.

Lemma last_nth_error : forall A (l : list A) a,
  nth_error (a :: l) (length l) = Some (List.last l a).
Proof.
  intros A. induction l as [|b l IH]; intros a; auto.
  change (nth_error (b :: l) (length l) = Some (List.last (b :: l) a)). rewrite IH.
  f_equal. clear. revert a b. induction l as [|c l IH]; intros a b; auto.
  simpl in *. destruct l; auto.
Qed.

Lemma IndexSegment_spec : forall pts st first last,
  sorted_pts pts -> ok st -> (2 <= length pts)%nat ->
  nth_error pts 0 = Some first -> nth_error pts (length pts - 1) = Some last ->
  exists i, IndexSegment pts st = Ok i /\
    (i = (-1)%Z <-> ((st <? ap_station first) = true \/ (ap_station last <? st) = true)) /\
    (i <> (-1)%Z -> (0 <= i < Z.of_nat (length pts) - 1)%Z /\
      exists a b, nth_error pts (Z.to_nat i) = Some a /\
        nth_error pts (Z.to_nat i + 1) = Some b /\
        (st <=? ap_station b) = true /\
        ((ap_station a <? st) = true \/ (i = 0%Z /\ (st =? ap_station first) = true))).
Proof.
  intros pts st first lst HS Hst Hlen Hf Hl.
  assert (exists n, n + 1 = Z.of_nat (length pts))%Z as [n Hn]
    by (exists (Z.of_nat (length pts) - 1)%Z; lia).
  replace (Z.of_nat (length pts) - 1)%Z with n by lia.
  destruct pts as [|a pts]; simpl in *; [lia|]. inversion Hf; subst first.
  assert (HL : List.last pts a = lst).
  { revert Hl. replace (length pts - 0)%nat with (length pts) by lia.
    change (nth_error (a :: pts) (length pts) = Some lst -> List.last pts a = lst).
    rewrite last_nth_error. congruence. }
  unfold IndexSegment, IsValidStation. simpl. rewrite HL.
  assert (HSo := HS). destruct HS as [Hok HS]. simpl in Hok, HS. inversion Hok; subst.
  apply SS_cons in HS as [HS Ha].
  assert (Olst : ok (ap_station (List.last pts a))).
  { rewrite Forall_forall in Hok. apply (Hok (ap_station (List.last pts a))).
    assert (Q: In (List.last pts a) (a :: pts))
      by (eapply nth_error_In; apply last_nth_error).
    change (In (ap_station (List.last pts a)) (map ap_station (a :: pts))). apply in_map; auto. }
  set (lst := List.last pts a) in *.
  rewrite (ol_le _ _ OL (ap_station a) st), (ol_le _ _ OL st (ap_station lst)) by auto.
  destruct (st <? ap_station a) eqn:E1; simpl.
  { exists (-1)%Z. split; auto. split; [split; auto|congruence]. }
  destruct (ap_station lst <? st) eqn:E2; simpl.
  { exists (-1)%Z. split; auto. split; [split; auto|congruence]. }
  destruct pts as [|b pts]; [simpl in Hlen; lia|].
  destruct (st =? ap_station a) eqn:E3; simpl.
  - exists 0%Z. split; auto. split; [split; [discriminate|intros [|]; discriminate]|].
    intros _. split; [cbn [length] in Hn; lia|]. exists a, b. simpl. repeat split; auto.
    rewrite (ol_le _ _ OL) by (auto; inversion H2; auto).
    assert (Lab : lt (ap_station a) (ap_station b)) by (apply Ha; simpl; auto).
    assert (Ob : ok (ap_station b)) by (simpl in H2; inversion H2; auto).
    rewrite (ol_eq _ _ OL) in E3 by auto. apply andb_true_iff in E3 as [_ E3].
    apply negb_true_iff in E3. apply negb_true_iff.
    destruct (ap_station b <? st) eqn:E4; auto.
    rewrite <- E3. symmetry. eapply (ol_trans _ _ OL); [| | |exact Lab|]; auto.
  - assert (L0 : (ap_station a <? st) = true).
    { rewrite (ol_eq _ _ OL), E1 in E3 by auto. simpl in E3. apply negb_false_iff in E3; auto. }
    destruct (search_spec st (a :: b :: pts) 0 Hst HSo) as (l1 & l2 & Epts & Er & K1 & K2).
    cbn zeta in Er. change (if st <=? ap_station a then 0%nat
       else if st <=? ap_station b then 1%nat else IndexSegment_search st pts 2)
      with (IndexSegment_search st (a :: b :: pts) 0). rewrite Er.
    assert (Hl1 : l1 <> []).
    { intros ->. simpl in Epts. assert (st <=? ap_station a = true).
      { apply K2. rewrite <- Epts. simpl; auto. }
      rewrite (ol_le _ _ OL) in H by auto. rewrite L0 in H. discriminate. }
    assert (Hl2 : l2 <> []).
    { intros ->. rewrite app_nil_r in Epts.
      assert (In lst l1).
      { rewrite <- Epts. apply nth_error_In with (n := (length (b :: pts) - 0)%nat). exact Hl. }
      apply K1 in H. congruence. }
    destruct l2 as [|q l2]; [congruence|].
    destruct (exists_last Hl1) as (l1' & p & ->).
    rewrite app_length. cbn [length].
    exists (Z.of_nat (length l1')). split; [f_equal; lia|].
    split; [split; [lia|intros [|]; discriminate]|]. intros _.
    assert (Hlen' : length (a :: b :: pts) = length ((l1' ++ [p]) ++ q :: l2)) by (rewrite Epts; auto).
    rewrite !app_length in Hlen'. cbn [length] in Hlen, Hn, Hlen'.
    split; [lia|]. exists p, q. rewrite Epts.
    replace (Z.to_nat (Z.of_nat (length l1'))) with (length l1') by lia.
    repeat split.
    + rewrite <- app_assoc. rewrite nth_error_app2 by lia. rewrite Nat.sub_diag. auto.
    + rewrite nth_error_app2; rewrite app_length; simpl; [|lia].
      replace (length l1' + 1 - (length l1' + 1))%nat with 0%nat by lia. auto.
    + apply K2. simpl; auto.
    + left. apply K1. apply in_or_app; simpl; auto.
Qed.

End P.
