(** Proofs about the strainer in real arithmetic. *)
From Coq Require Import ZArith Bool List Reals Lra Psatz.
From Verif Require Import Num NumFacts ModelBase ModelCable ModelPolynomial ModelThermal ModelElongation SpecElong ProofReal
  ProofThermalCases ProofElong ProofElongModel ProofElongHistory.
Import ListNotations.
Open Scope R_scope.

(** A query does not change later strains. *)
Lemma tracked_strain : forall (N : Num) (m r : ElongModel N) t y x, tracked m -> em_Strain m t y = Ok (x, r) ->
  tracked r /\ forall y', cable_strain r y' = cable_strain m y'.
Proof.
  intros N m r t y x T E. pose proof T as (b & F & H).
  assert (K : kept_call m r).
  { apply (tracked_query _ (strain_of t y)); [apply strain_of_agree|exact T|].
    change (omap snd (em_Strain m t y) = Ok r). rewrite E. reflexivity. }
  destruct K as (Tr & K1 & K2 & K3). split; [exact Tr|]. destruct Tr as (b' & F' & H').
  rewrite K1, K2, K3, F in F'. injection F' as <-. intros y'. unfold cable_strain.
  destruct (hinv_answers _ _ H) as (_ & _ & A & _). destruct (hinv_answers _ _ H') as (_ & _ & B & _).
  rewrite A, B. reflexivity.
Qed.

Definition tracked_models {N : Num} (mem : Models N) : Prop := forall a, tracked (mem a).

Lemma tidy_tracked : forall (N : Num) (mem : Models N), tidy_models mem -> tracked_models mem.
Proof.
  intros N mem H a. destruct (H a) as (cs & D & R).
  apply (run_tracked cs true ElongModel_new (mem a) tracked_new (fun _ => eq_refl) D R).
Qed.

(** One strain of a memory. *)
Lemma put_strain : forall (N : Num) (mem : Models N) a t y x r, tracked_models mem -> em_Strain (mem a) t y = Ok (x, r) ->
  tracked_models (put mem a r) /\ forall b y', cable_strain (put mem a r b) y' = cable_strain (mem b) y'.
Proof.
  intros N mem a t y x r T E. destruct (tracked_strain _ _ _ _ _ _ (T a) E) as (T1 & T2).
  split; [intros b|intros b y']; unfold put; destruct (Z.eqb a b) eqn:Q; auto.
  apply Z.eqb_eq in Q. subst b. apply T2.
Qed.

(** The length from the two strains. *)
Definition finish_length (L x0 x1 : R) : R := if Rlt_dec x1 x0 then L / (1 + (x0 - x1)) else L * (1 + (x1 - x0)).

Lemma LengthFinish_value : forall (mem : Models RNum) s, tracked_models mem ->
  match LengthFinish mem s with
  | Ok (v, mem') => tracked_models mem' /\ (forall b y, cable_strain (mem' b) y = cable_strain (mem b) y) /\
      exists a b x0 x1, cr_start s = Some a /\ cr_finish s = Some b /\ cable_strain (mem a) (cr_load_start s) = Ok x0 /\
        cable_strain (mem b) (cr_load_finish s) = Ok x1 /\ v = finish_length (cr_length s) x0 x1
  | _ => cr_start s = None \/ cr_finish s = None \/
      (exists a, cr_start s = Some a /\ is_ok (cable_strain (mem a) (cr_load_start s)) = false) \/
      (exists a, cr_finish s = Some a /\ is_ok (cable_strain (mem a) (cr_load_finish s)) = false)
  end.
Proof.
  intros mem s T. unfold LengthFinish. destruct (cr_start s) as [a|]; cbn [deref obind]; [|auto].
  assert (Bad : forall a y, (forall v : RNum * ElongModel RNum, em_Strain (mem a) CTCombined y <> Ok v) ->
    is_ok (cable_strain (mem a) y) = false).
  { intros a0 y X. unfold cable_strain. destruct (em_Strain (mem a0) CTCombined y); [exfalso; eapply X; reflexivity|reflexivity..]. }
  destruct (em_Strain (mem a) CTCombined (cr_load_start s)) as [(x0, ma)| |] eqn:E0; cbn [obind];
    try (right; right; left; exists a; split; [reflexivity|]; apply Bad; rewrite E0; discriminate).
  destruct (put_strain _ mem a _ _ _ _ T E0) as (T1 & S1). set (mem1 := put mem a ma) in *.
  destruct (cr_finish s) as [b|]; cbn [deref obind]; [|auto].
  destruct (em_Strain (mem1 b) CTCombined (cr_load_finish s)) as [(x1, mb)| |] eqn:E1; cbn [obind].
  - destruct (put_strain _ mem1 b _ _ _ _ T1 E1) as (T2 & S2). split; [exact T2|].
    split; [intros c y; rewrite S2; apply S1|]. exists a, b, x0, x1. split; [reflexivity|]. split; [reflexivity|].
    split; [unfold cable_strain; rewrite E0; reflexivity|].
    split; [rewrite <- S1; unfold cable_strain; rewrite E1; reflexivity|].
    unfold finish_length. cbn [fsub fltb RNum]. destruct (Rlt_dec x1 x0) as [D|D].
    + assert (C : Rltb (x1 - x0) (fofZ (N := RNum) 0) = true) by (rn; apply Rltb_true; lra). rewrite C. rn.
      rewrite Rabs_left by lra. f_equal. ring.
    + assert (C : Rltb (x1 - x0) (fofZ (N := RNum) 0) = false) by (rn; apply Rltb_false; lra). rewrite C. rn. reflexivity.
  - right; right; right. exists b. split; [reflexivity|]. rewrite <- S1. unfold cable_strain. rewrite E1. reflexivity.
  - right; right; right. exists b. split; [reflexivity|]. rewrite <- S1. unfold cable_strain. rewrite E1. reflexivity.
Qed.

Lemma finish_length_back : forall L x0 x1, finish_length (finish_length L x0 x1) x1 x0 = L.
Proof.
  intros L x0 x1. unfold finish_length. destruct (Rlt_dec x1 x0) as [D|D], (Rlt_dec x0 x1) as [C|C].
  - lra.
  - field. lra.
  - field. lra.
  - replace x1 with x0 by lra. ring.
Qed.

Lemma finish_length_pos : forall L x0 x1, 0 < L -> 0 < finish_length L x0 x1.
Proof.
  intros L x0 x1 P. unfold finish_length. destruct (Rlt_dec x1 x0).
  - apply Rdiv_lt_0_compat; lra.
  - apply Rmult_lt_0_compat; lra.
Qed.

Lemma finish_length_increases : forall L x0 x1 x2, 0 < L -> x1 < x2 -> finish_length L x0 x1 < finish_length L x0 x2.
Proof.
  intros L x0 x1 x2 P H. unfold finish_length. destruct (Rlt_dec x1 x0) as [D|D], (Rlt_dec x2 x0) as [C|C].
  - unfold Rdiv. apply Rmult_lt_compat_l; [exact P|]. apply Rinv_lt_contravar; [|lra]. apply Rmult_lt_0_compat; lra.
  - apply Rlt_le_trans with L.
    + apply Rmult_lt_reg_r with (1 + (x0 - x1)); [lra|]. unfold Rdiv. rewrite Rmult_assoc, Rinv_l by lra. nra.
    + nra.
  - lra.
  - apply Rmult_lt_compat_l; lra.
Qed.

Lemma finish_length_sign : forall L x0 x1, 0 < L -> (L < finish_length L x0 x1 <-> x0 < x1).
Proof.
  intros L x0 x1 P. assert (E : finish_length L x0 x0 = L).
  { unfold finish_length. destruct (Rlt_dec x0 x0); [lra|]. ring. }
  split; intros H.
  - destruct (Rlt_le_dec x0 x1) as [C|C]; [exact C|]. exfalso.
    destruct (Rle_lt_or_eq_dec _ _ C) as [D| ->]; [|lra].
    pose proof (finish_length_increases L x0 x1 x0 P D). lra.
  - pose proof (finish_length_increases L x0 x0 x1 P H). lra.
Qed.

(** ** The theorems *)

Theorem strainer_length : forall (mem mem' : Models RNum) s v, tidy_models mem -> LengthFinish mem s = Ok (v, mem') ->
  exists a b x0 x1, cr_start s = Some a /\ cr_finish s = Some b /\
    cable_strain (mem a) (cr_load_start s) = Ok x0 /\ cable_strain (mem b) (cr_load_finish s) = Ok x1 /\
    (x0 <= x1 -> v = cr_length s * (1 + (x1 - x0))) /\ (x1 < x0 -> v * (1 + (x0 - x1)) = cr_length s) /\
    (0 < cr_length s -> 0 < v /\ (cr_length s < v <-> x0 < x1)) /\
    exists mem'', LengthFinish mem' (way_back s v) = Ok (cr_length s, mem'').
Proof.
  intros mem mem' s v D E. pose proof (LengthFinish_value mem s (tidy_tracked _ _ D)) as H. rewrite E in H.
  destruct H as (T & A & a & b & x0 & x1 & S & F & X0 & X1 & V). exists a, b, x0, x1.
  do 4 (split; [assumption|]).
  split; [intros H; rewrite V; unfold finish_length; destruct (Rlt_dec x1 x0); [lra|reflexivity]|].
  split; [intros H; rewrite V; unfold finish_length; destruct (Rlt_dec x1 x0); [rfield; lra|contradiction]|].
  split; [intros P; rewrite V; split; [apply finish_length_pos; exact P|apply finish_length_sign; exact P]|].
  pose proof (LengthFinish_value mem' (way_back s v) T) as H.
  destruct (LengthFinish mem' (way_back s v)) as [(w, mem2)| |].
  - destruct H as (_ & _ & a' & b' & y0 & y1 & S' & F' & Y0 & Y1 & W). cbn in S', F', Y0, Y1, W.
    rewrite F in S'. injection S' as <-. rewrite S in F'. injection F' as <-.
    rewrite A, X1 in Y0. injection Y0 as <-. rewrite A, X0 in Y1. injection Y1 as <-.
    exists mem2. rewrite W, V, finish_length_back. reflexivity.
  - exfalso. cbn in H. destruct H as [H|[H|[(c & H & O)|(c & H & O)]]]; try congruence.
    + rewrite F in H. injection H as <-. rewrite A, X1 in O. discriminate O.
    + rewrite S in H. injection H as <-. rewrite A, X0 in O. discriminate O.
  - exfalso. cbn in H. destruct H as [H|[H|[(c & H & O)|(c & H & O)]]]; try congruence.
    + rewrite F in H. injection H as <-. rewrite A, X1 in O. discriminate O.
    + rewrite S in H. injection H as <-. rewrite A, X0 in O. discriminate O.
Qed.

Theorem strainer_longer : forall (mem mem1 mem2 : Models RNum) L y0 y1 y2 a b v1 v2 x1 x2, tidy_models mem -> 0 < L ->
  LengthFinish mem (mkStrainer (N := RNum) L y1 y0 (Some b) (Some a)) = Ok (v1, mem1) ->
  LengthFinish mem (mkStrainer (N := RNum) L y2 y0 (Some b) (Some a)) = Ok (v2, mem2) ->
  cable_strain (mem b) y1 = Ok x1 -> cable_strain (mem b) y2 = Ok x2 ->
  (v1 < v2 <-> x1 < x2).
Proof.
  intros mem mem1 mem2 L y0 y1 y2 a b v1 v2 x1 x2 D P E1 E2 X1 X2.
  pose proof (LengthFinish_value mem (mkStrainer (N := RNum) L y1 y0 (Some b) (Some a)) (tidy_tracked _ _ D)) as H.
  pose proof (LengthFinish_value mem (mkStrainer (N := RNum) L y2 y0 (Some b) (Some a)) (tidy_tracked _ _ D)) as G.
  rewrite E1 in H. rewrite E2 in G. cbn [cr_length cr_load_finish cr_load_start cr_finish cr_start] in H, G.
  destruct H as (_ & _ & a1 & b1 & u0 & u1 & S1 & F1 & U0 & U1 & V1).
  destruct G as (_ & _ & a2 & b2 & w0 & w1 & S2 & F2 & W0 & W1 & V2).
  injection S1 as <-. injection S2 as <-. injection F1 as <-. injection F2 as <-.
  rewrite X1 in U1. injection U1 as <-. rewrite X2 in W1. injection W1 as <-. rewrite U0 in W0. injection W0 as <-.
  subst v1 v2. split; intros H.
  - destruct (Rlt_le_dec x1 x2) as [C|C]; [exact C|]. exfalso.
    destruct (Rle_lt_or_eq_dec _ _ C) as [Q|Q]; [|subst x2; lra].
    pose proof (finish_length_increases L u0 x2 x1 P Q). lra.
  - apply finish_length_increases; assumption.
Qed.
