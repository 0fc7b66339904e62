(** Proofs for C200: the order of adding connections does not matter, and adding one can be
    undone. *)
From Coq Require Import ZArith Bool List Lia Sorted Permutation.
From Verif Require Import Num NumFacts ModelBase ModelAlignment ModelLine SpecLine ListFacts ProofAlignment
  SpecTransmission ProofLine ProofLineFacts ProofConn.
Import ListNotations.
Open Scope num_scope.

Section P.
Context {N : Num} (ok : N -> Prop) (OL : OrdLaws N ok).
Implicit Types cs ds ks : list (Connection N).
Implicit Types env : Env N.

(** The connection leads to a structure at this station. *)
Definition leads env (c : Connection N) (x : N) : Prop :=
  exists s, points_at env (cn_line_structure c) s /\ ls_station s = x.

Lemma leads_fun : forall env c x y, leads env c x -> leads env c y -> x = y.
Proof. intros env c x y (s & A & <-) (t & B & <-). apply points_at_deref in A. apply points_at_deref in B. congruence. Qed.

Lemma leads_in : forall env cs ss c, conn_stations env cs ss -> In c cs -> exists x, leads env c x /\ In x ss.
Proof.
  intros env cs ss c H. induction H as [|c0 x cs ss Hx H IH]; intros I; [contradiction|]. destruct I as [<-|I].
  - exists x. split; [exact Hx|left; reflexivity].
  - destruct (IH I) as (y & A & B). exists y. split; [exact A|right; exact B].
Qed.

Lemma in_leads : forall env cs ss x, conn_stations env cs ss -> In x ss -> exists c, In c cs /\ leads env c x.
Proof.
  intros env cs ss x H. induction H as [|c0 y cs ss Hx H IH]; intros I; [contradiction|]. destruct I as [<-|I].
  - exists c0. split; [left; reflexivity|exact Hx].
  - destruct (IH I) as (c & A & B). exists c. split; [right; exact A|exact B].
Qed.

(** No two connections lead to the same station. *)
Definition apart_conns env ks : Prop :=
  forall i j c d x y, i <> j -> nth_error ks i = Some c -> nth_error ks j = Some d ->
    leads env c x -> leads env d y -> (x =? y) = false.

Lemma apart_conns_cons : forall env k ks, apart_conns env (k :: ks) ->
  apart_conns env ks /\ (forall d x y, In d ks -> leads env k x -> leads env d y -> (x =? y) = false).
Proof.
  intros env k ks H. split.
  - intros i j c d x y Hij A B. apply (H (S i) (S j)); auto.
  - intros d x y Hd. apply In_nth_error in Hd as [n Hn]. apply (H 0%nat (S n) k d); auto.
Qed.

Lemma apart_conns_perm : forall env ks js, apart_conns env ks -> Permutation ks js -> apart_conns env js.
Proof.
  intros env ks js H HP. apply Permutation_nth_error in HP as (_ & f & Hf & Hn).
  intros i j c d x y Hij A B. rewrite Hn in A, B. apply (H (f i) (f j)); auto.
Qed.

Lemma eq_swap : forall x y, ok x -> ok y -> (x =? y) = false -> (y =? x) = false.
Proof. intros x y Hx Hy H. rewrite (ol_eq _ _ OL) in * by auto. rewrite andb_comm. auto. Qed.

Lemma run_conns : forall env ks cs ss, conn_inv ok env cs ss ->
  (forall k, In k ks -> exists x, leads env k x /\ ok x) -> apart_conns env ks ->
  (forall k c x y, In k ks -> In c cs -> leads env k x -> leads env c y -> (x =? y) = false) ->
  exists cs' ss', conn_run env cs (map CallAddConnection ks) = Ok cs' /\ conn_inv ok env cs' ss' /\
    Permutation cs' (ks ++ cs).
Proof.
  intros env. induction ks as [|k ks IH]; intros cs ss HI HK HA HD.
  - exists cs, ss. simpl. auto.
  - apply apart_conns_cons in HA as [HA HX].
    destruct (HK k (or_introl eq_refl)) as (x & Lx & Ox).
    assert (KA : conn_arg_ok ok env k) by (destruct Lx as (s & Hp & <-); right; eauto).
    destruct (AddConnection_contract ok OL env cs ss k HI KA) as (cs1 & j & ss1 & E & HI1 & C).
    assert (I : is_insertion cs j k cs1).
    { destruct C as [(_ & _ & [Q|(s & y & Q1 & Q2 & Q3)])|(I & _)]; [| |exact I]; exfalso.
      - destruct Lx as (s & Hp & _). apply points_not_null in Hp. contradiction.
      - destruct (in_leads _ _ _ _ (proj1 HI) Q2) as (c & A & B).
        rewrite (HD k c (ls_station s) y) in Q3; [discriminate|left; reflexivity|exact A|exists s; auto|exact B]. }
    assert (PI : Permutation cs1 (k :: cs)).
    { destruct I as (l1 & l2 & E1 & E2 & _). rewrite E1, E2. symmetry. apply Permutation_middle. }
    destruct (IH cs1 ss1 HI1) as (cs' & ss' & R1 & R2 & R3).
    + intros q Hq. apply HK. right. exact Hq.
    + exact HA.
    + intros q c u y Hq Hc Lq Lc. apply (Permutation_in _ PI) in Hc as [<-|Hc].
      * destruct (HK q (or_intror Hq)) as (u' & Lu & Ou). rewrite (leads_fun _ _ _ _ Lq Lu) in *.
        rewrite (leads_fun _ _ _ _ Lc Lx) in *. apply eq_swap; auto. apply (HX q); auto.
      * apply (HD q c); auto. right. exact Hq.
    + exists cs', ss'. cbn [map conn_run conn_step]. rewrite E. cbn [omap obind fst]. split; [exact R1|]. split; [exact R2|].
      rewrite R3, PI. symmetry. apply Permutation_middle.
Qed.

Lemma conns_unique : forall env cs ds ss ts, conn_inv ok env cs ss -> conn_inv ok env ds ts ->
  Permutation cs ds -> cs = ds.
Proof.
  intros env. induction cs as [|c cs IH]; intros ds ss ts (A1 & A2 & A3 & A4) (B1 & B2 & B3 & B4) HP.
  - apply Permutation_nil in HP. auto.
  - destruct ds as [|d ds]; [symmetry in HP; apply Permutation_nil in HP; discriminate|].
    inversion A1 as [|? x ? ss0 Ax A1']; subst. inversion B1 as [|? y ? ts0 By B1']; subst.
    inversion A2; inversion B2; inversion A4; inversion B4; subst.
    apply SS_cons in A3 as [A3 L1]. apply SS_cons in B3 as [B3 L2].
    assert (E : c = d).
    { assert (P1 := Permutation_in c HP (or_introl eq_refl)).
      assert (P2 := Permutation_in d (Permutation_sym HP) (or_introl eq_refl)).
      destruct P1 as [P1|P1]; auto. destruct P2 as [P2|P2]; auto.
      destruct (leads_in _ _ _ _ A1' P2) as (y' & Ly & Iy). rewrite (leads_fun _ _ _ _ Ly By) in *.
      destruct (leads_in _ _ _ _ B1' P1) as (x' & Lx & Ix). rewrite (leads_fun _ _ _ _ Lx Ax) in *.
      assert (Z : (x <? x) = true) by (apply (ol_trans _ _ OL) with y; auto; [apply L1|apply L2]; auto).
      rewrite (ol_irrefl _ _ OL) in Z; auto. discriminate. }
    subst d. f_equal. apply Permutation_cons_inv in HP. apply (IH ds ss0 ts0); auto; repeat split; auto.
Qed.

Lemma connections_any_order : forall env calls cs ks js, Forall (conn_call_ok ok env) calls -> conn_run env [] calls = Ok cs ->
  (forall k, In k ks -> exists x, leads env k x /\ ok x) -> apart_conns env ks ->
  (forall k c x y, In k ks -> In c cs -> leads env k x -> leads env c y -> (x =? y) = false) ->
  Permutation ks js ->
  exists cs', conn_run env cs (map CallAddConnection ks) = Ok cs' /\
    conn_run env cs (map CallAddConnection js) = Ok cs' /\ Permutation cs' (ks ++ cs).
Proof.
  intros env calls cs ks js HF HR HK HA HD HP.
  destruct (conn_run_inv ok OL env calls [] [] (conn_empty_inv ok env) HF) as (cs0 & ss & E & HI).
  rewrite HR in E. injection E as <-.
  destruct (run_conns env ks cs ss HI HK HA HD) as (c1 & s1 & A1 & A2 & A3).
  assert (IN : forall k, In k js -> In k ks) by (intros k; apply Permutation_in; symmetry; exact HP).
  destruct (run_conns env js cs ss HI) as (c2 & s2 & B1 & B2 & B3).
  { intros k Hk. apply HK. auto. }
  { eapply apart_conns_perm; eauto. }
  { intros k c x y Hk. apply HD. auto. }
  exists c1. split; [exact A1|]. split; [|exact A3].
  replace c1 with c2; [exact B1|]. apply (conns_unique env c2 c1 s2 s1 B2 A2).
  rewrite B3, A3. apply Permutation_app_tail. symmetry. exact HP.
Qed.

Lemma connection_undone : forall env calls cs k cs' j, Forall (conn_call_ok ok env) calls -> conn_run env [] calls = Ok cs ->
  conn_arg_ok ok env k -> AddConnection env cs k = Ok (cs', j) -> j <> (-1)%Z ->
  DeleteConnection cs' j = (cs, true).
Proof.
  intros env calls cs k cs' j HF HR HK E J.
  destruct (conn_add_history ok OL env calls k cs HF HR HK) as (c1 & j1 & E1 & C). rewrite E in E1. injection E1 as <- <-.
  destruct C as [(Q & _)|((l1 & l2 & -> & -> & ->) & _)]; [contradiction|]. unfold DeleteConnection.
  replace (valid_index (l1 ++ k :: l2) (Z.of_nat (length l1))) with true.
  2:{ symmetry. apply valid_index_true. rewrite app_length. simpl. lia. }
  f_equal. rewrite Nat2Z.id. unfold remove_at.
  rewrite firstn_app, Nat.sub_diag, firstn_all, firstn_O, app_nil_r.
  rewrite skipn_app. rewrite skipn_all2 by lia. replace (S (length l1) - length l1)%nat with 1%nat by lia. reflexivity.
Qed.

Lemma connections_laws : forall env calls cs, Forall (conn_call_ok ok env) calls -> conn_run env [] calls = Ok cs ->
  (forall ks js,
     (forall k, In k ks -> exists s, points_at env (cn_line_structure k) s /\ ok (ls_station s)) ->
     (forall i j c d s t, i <> j -> nth_error (ks ++ cs) i = Some c -> nth_error (ks ++ cs) j = Some d ->
        points_at env (cn_line_structure c) s -> points_at env (cn_line_structure d) t ->
        (ls_station s =? ls_station t) = false) ->
     Permutation ks js ->
     exists cs', conn_run env cs (map CallAddConnection ks) = Ok cs' /\
       conn_run env cs (map CallAddConnection js) = Ok cs' /\ Permutation cs' (ks ++ cs)) /\
  (forall k cs' j, conn_arg_ok ok env k -> AddConnection env cs k = Ok (cs', j) -> j <> (-1)%Z ->
     DeleteConnection cs' j = (cs, true)).
Proof.
  intros env calls cs HF HR. split.
  - intros ks js HK HA HP. apply (connections_any_order env calls); auto.
    + intros k Hk. destruct (HK k Hk) as (s & A & B). exists (ls_station s). split; [exists s; auto|exact B].
    + intros i j c d x y Hij Hi Hj (s & A & <-) (t & B & <-). apply (HA i j c d); auto;
        rewrite nth_error_app1; auto; apply nth_error_Some; congruence.
    + intros k c x y Hk Hc (s & A & <-) (t & B & <-).
      apply In_nth_error in Hk as [i Hi]. apply In_nth_error in Hc as [j Hj].
      assert (Li : (i < length ks)%nat) by (apply nth_error_Some; congruence).
      apply (HA i (length ks + j)%nat k c); auto; [lia|rewrite nth_error_app1; auto|].
      rewrite nth_error_app2 by lia. replace (length ks + j - length ks)%nat with j by lia. exact Hj.
  - intros k cs' j. apply connection_undone with calls; auto.
Qed.

(** For the example. *)
Lemma apart_conns_three : forall env (a b c : Connection N) x y z, leads env a x -> leads env b y -> leads env c z ->
  (x =? y) = false -> (y =? x) = false -> (x =? z) = false -> (z =? x) = false -> (y =? z) = false -> (z =? y) = false ->
  apart_conns env [a; b; c].
Proof.
  intros env a b c x y z La Lb Lc H1 H2 H3 H4 H5 H6 i j p q u v Hij Hp Hq Lp Lq.
  destruct i as [|[|[|[|i]]]]; destruct j as [|[|[|[|j]]]]; simpl in Hp, Hq; try discriminate; try congruence;
    injection Hp as <-; injection Hq as <-;
    repeat match goal with A : leads env ?k ?s, B : leads env ?k ?t |- _ =>
      tryif constr_eq s t then fail else (assert (s = t) by exact (leads_fun _ _ _ _ A B); subst; clear A) end; auto.
Qed.
End P.
