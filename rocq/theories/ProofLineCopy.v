(** Copying a line (C15). *)
From Coq Require Import ZArith Bool List Lia Sorted.
From Verif Require Import Num NumFacts ModelBase ModelAlignment ModelLine SpecLine ListFacts ProofAlignment
  SpecTransmission ProofLine ProofLineInv ProofLineFacts ProofConn.
Import ListNotations.
Open Scope num_scope.

Section P.
Context {N : Num} (ok : N -> Prop) (OL : OrdLaws N ok) {P : Type}.
Implicit Types l : Line N P.
Implicit Types env structs : Env N.

Lemma Forall2_impl : forall A B (R Q : A -> B -> Prop) a b, (forall x y, R x y -> Q x y) ->
  Forall2 R a b -> Forall2 Q a b.
Proof. intros A B R Q a b H F. induction F; constructor; auto. Qed.

Lemma insert_remove_set : forall A n (x : A) m, (n < length m)%nat ->
  insert_at n x (remove_at n m) = list_set n x m.
Proof.
  intros A n x m H. unfold insert_at, remove_at, list_set.
  assert (L : length (firstn n m) = n) by (rewrite firstn_length; lia).
  rewrite firstn_app, L, Nat.sub_diag, firstn_O, app_nil_r, firstn_all2 by lia.
  rewrite skipn_app, L, Nat.sub_diag, skipn_all2 by lia. reflexivity.
Qed.

(** Replacing a connection by one to a structure with the same station. *)
Lemma modify_same : forall env m (ss : list N) k x c' s, conn_stations env m ss -> Forall ok ss ->
  StronglySorted lt ss -> nth_error ss k = Some x -> points_at env (cn_line_structure c') s ->
  ls_station s = x -> ModifyConnection env m (Z.of_nat k) c' = Ok (list_set k c' m, Z.of_nat k).
Proof.
  intros env m ss k x c' s HS HO HT Hk Hp Es.
  assert (Ls : (k < length ss)%nat) by (apply nth_error_Some; congruence).
  assert (L := Forall2_len _ _ _ _ _ HS).
  assert (V : valid_index m (Z.of_nat k) = true) by (apply valid_index_true; lia).
  unfold ModifyConnection, DeleteConnection. rewrite V.
  destruct (nth_error m k) as [old|] eqn:Em; [|apply nth_error_None in Em; lia].
  assert (Hnd : next_deref m (Z.of_nat k) = Ok old) by (apply next_deref_ok; rewrite Nat2Z.id; split; [lia|auto]).
  rewrite Hnd. cbn [obind negb]. rewrite Nat2Z.id.
  assert (D := proj1 (points_at_deref _ _ _) Hp). assert (NN := points_not_null _ _ _ Hp).
  assert (E : AddConnection env (remove_at k m) c' =
    do r <- AddConnection_search env c' (remove_at k m) 0;
    match r with None => Ok (remove_at k m, -1)%Z
               | Some pos => Ok (insert_at pos c' (remove_at k m), Z.of_nat (S pos) - 1)%Z end).
  { unfold AddConnection. destruct (cn_line_structure c'); [congruence|auto|auto]. }
  rewrite E, (search_slot env c' s (remove_at k m) (remove_at k ss) 0 D); [|apply Forall2_remove_at; auto].
  assert (Ex : ls_station s = nth k ss x) by (rewrite (nth_error_nth _ _ _ Hk); auto).
  rewrite Ex, (find_slot_remove_at ok OL) by auto. cbn [obind].
  replace (Z.of_nat (S k) - 1)%Z with (Z.of_nat k) by lia.
  destruct (Z.eqb_spec (Z.of_nat k) (-1)) as [Q|_]; [lia|]. rewrite insert_remove_set by lia. reflexivity.
Qed.

(** The new nodes. *)
Lemma renumber_nth : forall structs start i, nth_error (renumber start structs) i =
  match nth_error structs i with Some n => Some (start + i, snd n)%nat | None => None end.
Proof.
  intros structs. unfold renumber. induction structs as [|n structs IH]; intros start i; simpl.
  - destruct i; auto.
  - destruct i; simpl; [rewrite Nat.add_0_r; auto|].
    rewrite IH. destruct (nth_error structs i); auto. do 2 f_equal. lia.
Qed.

Lemma renumber_ids : forall structs start, ids (renumber start structs) = seq start (length structs).
Proof.
  intros structs. unfold renumber, ids. induction structs as [|n structs IH]; intros start; simpl; auto.
  f_equal. apply IH.
Qed.

Lemma renumber_snd : forall structs start, map snd (renumber start structs) = map snd structs.
Proof.
  intros structs. unfold renumber. induction structs as [|n structs IH]; intros start; simpl; auto. f_equal. apply IH.
Qed.

Section Copy.
Variables (l : Line N P) (start : nat).
Hypothesis HI : Inv ok l.
Hypothesis HS : (tl_next l <= start)%nat.
Let structs := tl_line_structures l.
Let new := renumber start structs.
Let env := structs ++ new.

Lemma env_NoDup : NoDup (ids env).
Proof.
  unfold env, ids. rewrite map_app. fold (ids structs). fold (ids new).
  destruct HI as (_ & (_ & _ & ND & LT & _) & _). apply NoDup_app_intro; auto.
  - unfold new. rewrite renumber_ids. apply seq_NoDup.
  - intros x Hx K. unfold new in K. rewrite renumber_ids in K. apply in_seq in K.
    rewrite Forall_forall in LT. specialize (LT x Hx). lia.
Qed.

Lemma env_old : forall i id (s : LineStructure N), nth_error structs i = Some (id, s) -> lookup env id = Some s.
Proof.
  intros i id s H. apply In_lookup; [apply env_NoDup|]. apply in_or_app. left. eapply nth_error_In; eauto.
Qed.

Lemma env_new : forall i id (s : LineStructure N), nth_error structs i = Some (id, s) ->
  lookup env (start + i) = Some s /\ nth_error new i = Some (start + i, s)%nat.
Proof.
  intros i id s H. assert (K : nth_error new i = Some (start + i, s)%nat).
  { unfold new. rewrite renumber_nth, H. reflexivity. }
  split; auto. apply In_lookup; [apply env_NoDup|]. apply in_or_app. right. eapply nth_error_In; eauto.
Qed.

(** [c'] is the connection of the copy. *)
Definition rew (c c' : Connection N) : Prop :=
  exists i id s, nth_error structs i = Some (id, s) /\ cn_line_structure c = SOwned id /\
    c' = mkConn (cn_index_attachment c) (SOwned (start + i)).

Lemma index_at : forall i id s, nth_error structs i = Some (id, s) ->
  IndexLineStructure l (SOwned id) = Z.of_nat i.
Proof.
  intros i id s H. destruct (IndexLineStructure_exact ok l (SOwned id) HI) as [[E K]|(K & id' & A & E)].
  - exfalso. apply (K i id); auto. exists s; exact H.
  - inversion E; subst id'. assert (A' : address_at l i id) by (exists s; exact H).
    assert (Q := Inv_addresses ok l _ _ id HI A A'). lia.
Qed.

Lemma copy_loop : forall suf (pre pre' : list (Connection N)) (ss : list N), conn_stations env (pre' ++ suf) ss -> Forall ok ss ->
  StronglySorted lt ss -> length pre = length pre' ->
  Forall (fun c => exists i id s, nth_error structs i = Some (id, s) /\ cn_line_structure c = SOwned id) suf ->
  exists suf', copy_connections l env new (length suf) (Z.of_nat (length pre)) (pre' ++ suf) = Ok (pre' ++ suf') /\
    Forall2 rew suf suf' /\ conn_stations env (pre' ++ suf') ss.
Proof.
  induction suf as [|c suf IH]; intros pre pre' ss CS HO HT L HF; cbn [length copy_connections].
  - exists []. split; auto.
  - inversion HF as [|? ? (i & id & s & Hi & Ec) HF']; subst.
    assert (Hc : nth_error (pre' ++ c :: suf) (length pre) = Some c)
      by (rewrite nth_error_app2, L, Nat.sub_diag by lia; auto).
    assert (Hnd : next_deref (pre' ++ c :: suf) (Z.of_nat (length pre)) = Ok c)
      by (apply next_deref_ok; rewrite Nat2Z.id; split; [lia|auto]).
    rewrite Hnd. cbn [obind]. rewrite Ec, (index_at i id s Hi).
    destruct (env_new i id s Hi) as [Ln Hn].
    assert (Hnd2 : next_deref new (Z.of_nat i) = Ok (start + i, s)%nat)
      by (apply next_deref_ok; rewrite Nat2Z.id; split; [lia|auto]).
    rewrite Hnd2. cbn [obind fst].
    set (c' := mkConn (cn_index_attachment c) (SOwned (start + i))).
    assert (Hx : nth_error ss (length pre) = Some (ls_station s)).
    { apply Forall2_app_inv_l in CS as (s1 & s2 & C1 & C2 & ->).
      apply Forall2_len in C1. inversion C2 as [|? y ? s2' (s0 & Hp & <-) C3]; subst.
      rewrite nth_error_app2, L, C1, Nat.sub_diag by lia. simpl. f_equal.
      apply points_at_deref in Hp. rewrite Ec in Hp. simpl in Hp. rewrite (env_old i id s Hi) in Hp. congruence. }
    assert (Hp' : points_at env (cn_line_structure c') s) by (right; exists (start + i)%nat; auto).
    rewrite (modify_same env _ ss (length pre) (ls_station s) c' s) by auto. cbn [obind fst].
    assert (ES : list_set (length pre) c' (pre' ++ c :: suf) = (pre' ++ [c']) ++ suf).
    { unfold list_set. rewrite L. rewrite firstn_app, firstn_all, Nat.sub_diag, firstn_O, app_nil_r.
      rewrite skipn_app, skipn_all2 by lia. replace (S (length pre') - length pre')%nat with 1%nat by lia.
      simpl. rewrite <- app_assoc. reflexivity. }
    rewrite ES.
    replace (Z.of_nat (length pre) + 1)%Z with (Z.of_nat (length (pre ++ [c]))) by (rewrite app_length; simpl; lia).
    destruct (IH (pre ++ [c]) (pre' ++ [c']) ss) as (suf' & E' & F' & CS'); auto.
    + apply Forall2_app_inv_l in CS as (s1 & s2 & C1 & C2 & ->).
      inversion C2 as [|? y ? s2' (s0 & Hp & <-) C3]; subst.
      rewrite <- app_assoc. apply Forall2_app; auto. constructor; auto. exists s. split; auto.
      assert (L1 := Forall2_len _ _ _ _ _ C1). rewrite nth_error_app2, L, L1, Nat.sub_diag in Hx by lia.
      simpl in Hx. congruence.
    + rewrite !app_length, L. reflexivity.
    + exists (c' :: suf'). rewrite E', <- app_assoc. split; auto. split.
      * constructor; auto. exists i, id, s. auto.
      * rewrite <- app_assoc in CS'. exact CS'.
Qed.

Lemma copy_cable : forall lc, In lc (tl_line_cables l) ->
  exists cs', copy_connections l env new (length (lc_connections lc)) 0 (lc_connections lc) = Ok cs' /\
    Forall2 rew (lc_connections lc) cs'.
Proof.
  intros lc Hlc. assert (HI' := HI). destruct HI' as (_ & (HO & HT & ND & _) & J & _).
  rewrite Forall_forall in J. destruct (J lc Hlc) as ((is & E & S) & _ & _).
  destruct (sub_ids_structs _ _ S) as (sts & S' & <-).
  assert (HF : Forall (fun c => exists i id s, nth_error structs i = Some (id, s) /\ cn_line_structure c = SOwned id)
                 (lc_connections lc)).
  { apply Forall_forall. intros c Hc. destruct (Inv_refs ok l lc c HI Hlc Hc) as (i & id & s & h & A & B & _).
    exists i, id, s. auto. }
  assert (CS : conn_stations env (lc_connections lc) (stations sts)).
  { clear HF. revert E S'. generalize (lc_connections lc). unfold ids. rewrite map_map.
    intros cs. revert cs. induction sts as [|[id s] sts IH]; intros [|c cs] E S'; simpl in *; try discriminate; [constructor|].
    inversion E. constructor.
    - exists s. split; auto. right. exists id. split; auto.
      assert (K : In (id, s) structs) by (eapply sub_In; eauto; simpl; auto).
      apply In_nth_error in K as [i Hi]. eapply env_old; eauto.
    - apply IH; auto.
      + eapply sub_trans; [|exact S]. unfold ids. simpl. auto using sub_refl.
      + eapply sub_trans; [|exact S']. auto using sub_refl. }
  destruct (copy_loop (lc_connections lc) [] [] (stations sts)) as (cs' & E' & F & _); auto.
  - eapply sub_Forall; [apply sub_map; exact S'|exact HO].
  - eapply sub_SS; [apply sub_map; exact S'|exact HT].
  - exists cs'. auto.
Qed.

Lemma copy_all : forall cables, incl cables (tl_line_cables l) ->
  exists cables', copy_cables l env new cables = Ok cables' /\
    Forall2 (fun lc lc' => lc_payload lc' = lc_payload lc /\ Forall2 rew (lc_connections lc) (lc_connections lc'))
      cables cables'.
Proof.
  induction cables as [|lc cables IH]; intros HC; cbn [copy_cables]; [exists []; auto|].
  destruct (copy_cable lc) as (cs' & E & F); [apply HC; simpl; auto|].
  destruct IH as (cables' & E2 & F2); [intros x Hx; apply HC; simpl; auto|].
  rewrite E. cbn [obind]. rewrite E2. cbn [obind].
  exists (mkLC cs' (lc_payload lc) :: cables'). split; auto.
Qed.
End Copy.

Lemma assign_content : forall this l, Inv ok l ->
  exists l', assign this l = Ok l' /\
    tl_alignment l' = tl_alignment l /\ tl_origin l' = tl_origin l /\ structures_of l' = structures_of l /\
    Forall2 (fun lc lc' => lc_payload lc' = lc_payload lc /\
                           Forall2 (rewired l l') (lc_connections lc) (lc_connections lc'))
      (tl_line_cables l) (tl_line_cables l') /\
    (forall i j id, address_at l i id -> ~ address_at l' j id) /\
    (forall i j id, address_at this i id -> (id < tl_next this)%nat -> ~ address_at l' j id).
Proof.
  intros this l HI. unfold assign. set (start := Nat.max (tl_next this) (tl_next l)).
  assert (HS : (tl_next l <= start)%nat) by lia.
  destruct (copy_all l start HI HS (tl_line_cables l)) as (cables' & E & F); [intros x; auto|].
  rewrite E. cbn [obind]. eexists. split; [reflexivity|]. simpl.
  assert (A : forall j id, address_at
     (mkLine (tl_alignment l) cables' (renumber start (tl_line_structures l)) (tl_origin l)
        (tl_is_updated_alignment l) (tl_is_updated_structures l) (tl_points_alignment this)
        (tl_points_structures this) (start + length (renumber start (tl_line_structures l)))) j id ->
     (start <= id)%nat).
  { intros j id (s & H). simpl in H. rewrite renumber_nth in H.
    destruct (nth_error (tl_line_structures l) j); inversion H; lia. }
  repeat split; auto.
  - unfold structures_of. simpl. apply renumber_snd.
  - eapply Forall2_impl; [|exact F]. intros lc lc' [Q F']. split; auto.
    eapply Forall2_impl; [|exact F']. intros c c' (i & id & s & Hi & Ec & ->). split; auto.
    exists i, id, (start + i)%nat. split; [exists s; auto|]. split; auto. split; auto.
    exists s. simpl. rewrite renumber_nth, Hi. reflexivity.
  - intros i j id (s & H) K. apply A in K. destruct HI as (_ & (_ & _ & _ & LT & _) & _).
    rewrite Forall_forall in LT. apply nth_error_In in H. apply (in_map fst) in H.
    specialize (LT id H). lia.
  - intros i j id (s & H) Hlt K. apply A in K. lia.
Qed.

(** [c'] refers to node [start + i] where [c] refers to the node at position [i]
    of [st], counting from [k]. *)
Definition shifted (start k : nat) (st : Env N) (c c' : Connection N) : Prop :=
  exists i id s, (k <= i)%nat /\ nth_error st (i - k) = Some (id, s) /\ cn_line_structure c = SOwned id /\
    cn_line_structure c' = SOwned (start + i).

Lemma shifted_tail : forall start k id0 s0 st cs cs' is, map cn_line_structure cs = map SOwned is ->
  ~ In id0 is -> Forall2 (shifted start k ((id0, s0) :: st)) cs cs' -> Forall2 (shifted start (S k) st) cs cs'.
Proof.
  intros start k id0 s0 st cs cs' is E Hn HF. revert is E Hn.
  induction HF as [|c c' cs cs' (i & id & s & L & Q & Q1 & Q2) HF IH]; intros is E Hn; constructor.
  - destruct is as [|i0 is]; [discriminate|]. simpl in E. inversion E as [[E1 E2]].
    rewrite Q1 in E1. inversion E1; subst i0.
    assert (i - k <> 0)%nat.
    { intros Z0. rewrite Z0 in Q. simpl in Q. inversion Q; subst. apply Hn; simpl; auto. }
    exists i, id, s. split; [lia|]. replace (i - k)%nat with (S (i - S k)) in Q by lia. auto.
  - destruct is as [|i0 is]; [discriminate|]. inversion E. apply (IH is); auto. intros K; apply Hn; simpl; auto.
Qed.

(** The new addresses are in the order of the old ones. *)
Lemma new_sub : forall start cs cs' is k (st : Env N), Forall2 (shifted start k st) cs cs' ->
  NoDup (ids st) -> map cn_line_structure cs = map SOwned is -> sub is (ids st) ->
  exists is', map cn_line_structure cs' = map SOwned is' /\ sub is' (seq (start + k) (length st)).
Proof.
  intros start cs cs' is k st. revert cs cs' is k.
  induction st as [|[id0 s0] st IH]; intros cs cs' is k HF ND Eis Sis; simpl in *.
  - inversion Sis; subst. destruct cs; [|discriminate]. inversion HF; subst. exists []. auto.
  - inversion ND as [|? ? Hnot ND']; subst.
    inversion Sis as [|? ? ? Sub|? ? ? Sub]; subst.
    + destruct cs; [|discriminate]. inversion HF; subst. exists []. auto.
    + destruct (IH cs cs' is (S k)) as (is' & E' & S'); auto.
      * eapply shifted_tail; eauto. intros K. apply Hnot. eapply sub_In; eauto.
      * exists is'. split; auto. apply sub_skip. rewrite Nat.add_succ_r in S'. exact S'.
    + destruct cs as [|c cs]; [discriminate|]. simpl in Eis. inversion Eis as [[E1 E2]].
      inversion HF as [|? c' ? cs'' (i & id & s & L & Q & Q1 & Q2) HF']; subst.
      destruct (IH cs cs'' l1 (S k)) as (is' & E' & S'); auto.
      * eapply shifted_tail; eauto. intros K. apply Hnot. eapply sub_In; eauto.
      * exists ((start + k)%nat :: is'). simpl. split.
        -- rewrite E', Q2. do 2 f_equal. rewrite E1 in Q1. inversion Q1; subst id.
           destruct (i - k)%nat as [|d] eqn:Ed; [lia|]. exfalso. simpl in Q. apply Hnot.
           apply nth_error_In in Q. apply (in_map fst) in Q. exact Q.
        -- apply sub_cons. rewrite Nat.add_succ_r in S'. exact S'.
Qed.

(** The copy satisfies the same structural invariant. *)
Lemma assign_Inv : forall this l l', Inv ok l -> assign this l = Ok l' -> Inv ok l'.
Proof.
  intros this l l' HI H. unfold assign in H. set (start := Nat.max (tl_next this) (tl_next l)) in *.
  assert (HS : (tl_next l <= start)%nat) by lia.
  destruct (copy_all l start HI HS (tl_line_cables l)) as (cables' & E & F); [intros x; auto|].
  rewrite E in H. cbn [obind] in H. inversion H; subst l'; clear H.
  assert (HI' := HI). destruct HI' as (I1 & (I2 & I3 & I4 & I5 & I6) & J & ND).
  set (structs := tl_line_structures l) in *. set (new := renumber start structs) in *.
  assert (ES : stations new = stations structs).
  { unfold stations. rewrite <- !(map_map snd ls_station). unfold new. rewrite renumber_snd. auto. }
  assert (NDn : NoDup (ids new)) by (unfold new; rewrite renumber_ids; apply seq_NoDup).
  split; [exact I1|]. split; [|split].
  - unfold structs_ok; simpl. fold structs. fold new. rewrite ES. split; auto. split; auto. split; auto. split.
    + unfold new. rewrite renumber_ids. apply Forall_forall. intros x Hx. apply in_seq in Hx.
      unfold renumber. rewrite combine_length, seq_length, map_length. lia.
    + apply Forall_forall. intros n Hn. apply (in_map snd) in Hn. unfold new in Hn. rewrite renumber_snd in Hn.
      apply in_map_iff in Hn as (m & Em & Hm). rewrite <- Em. rewrite Forall_forall in I6. apply I6; auto.
  - simpl. fold structs. fold new. apply Forall_forall. intros lc' Hlc'.
    apply In_nth_error in Hlc' as [a Ha].
    assert (exists lc, nth_error (tl_line_cables l) a = Some lc /\ lc_payload lc' = lc_payload lc /\
              Forall2 (rew l start) (lc_connections lc) (lc_connections lc')) as (lc & Hlc & _ & FR).
    { clear - F Ha. revert a Ha. induction F; intros [|a] Ha; simpl in *; try discriminate.
      - inversion Ha; subst. eauto.
      - apply IHF; auto. }
    apply nth_error_In in Hlc. rewrite Forall_forall in J. destruct (J lc Hlc) as ((is & Eis & Sis) & Len & HW).
    split; [|split].
    + (* the new addresses are in the order of the old ones *)
      destruct (new_sub start (lc_connections lc) (lc_connections lc') is 0%nat structs) as (is' & E' & S'); auto.
      * eapply Forall2_impl; [|exact FR]. intros c c' (i & id & s & Hi & Ec & ->). exists i, id, s.
        rewrite Nat.sub_0_r. split; [lia|]. auto.
      * exists is'. split; auto. unfold new. rewrite renumber_ids. rewrite Nat.add_0_r in S'. exact S'.
    + rewrite <- (Forall2_len _ _ _ _ _ FR). exact Len.
    + apply Forall_forall. intros c' Hc'. apply In_nth_error in Hc' as [b Hb].
      assert (exists c, nth_error (lc_connections lc) b = Some c /\ rew l start c c') as (c & Hc & R).
      { clear - FR Hb. revert b Hb. induction FR; intros [|b] Hb; simpl in *; try discriminate.
        - inversion Hb; subst. eauto.
        - apply IHFR; auto. }
      destruct R as (i & id & s & Hi & Ec & ->). rewrite Forall_forall in HW. apply nth_error_In in Hc.
      destruct (HW c Hc) as (id1 & s1 & h & Q1 & Q2 & Q3). rewrite Ec in Q1. inversion Q1; subst id1.
      assert (s1 = s).
      { assert (lookup structs id = Some s) by (apply In_lookup; auto; eapply nth_error_In; eauto). congruence. }
      subst s1. exists (start + i)%nat, s, h. simpl. split; auto. split; auto.
      apply In_lookup; auto. apply (nth_error_In _ i). unfold new. rewrite renumber_nth.
      unfold structs. rewrite Hi. auto.
  - simpl.
    (* distinct connections stay distinct *)
    assert (FR : Forall2 (rew l start) (flat_map lc_connections (tl_line_cables l)) (flat_map lc_connections cables')).
    { clear - F. induction F as [|lc lc' a b [_ Q] F IH]; simpl; [constructor|]. apply Forall2_app; auto. }
    clear - FR ND I4. revert ND. induction FR as [|c c' a b R FR IH]; intros ND; [constructor|].
    inversion ND; subst. constructor; auto. intros K.
    apply In_nth_error in K as [k Hk].
    assert (exists c2, nth_error a k = Some c2 /\ rew l start c2 c') as (c2 & Hc2 & R2).
    { clear - FR Hk. revert k Hk. induction FR; intros [|k] Hk; simpl in *; try discriminate.
      - inversion Hk; subst. eauto.
      - apply IHFR; auto. }
    destruct R as (i & id & s & Hi & Ec & ->). destruct R2 as (i2 & id2 & s2 & Hi2 & Ec2 & Q).
    inversion Q as [[Qa Qi]]. assert (i = i2) by lia. subst i2. rewrite Hi in Hi2. inversion Hi2; subst.
    apply H1. apply nth_error_In in Hc2. replace c with c2; auto.
    destruct c, c2; simpl in *. congruence.
Qed.
End P.
