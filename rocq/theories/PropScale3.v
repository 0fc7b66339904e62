(** Catenaries in three dimensions of the same shape (catenary.cc), for all objects
    that a history of calls can produce, in exact arithmetic. *)
From Coq Require Import ZArith Bool List Reals Lra.
From Verif Require Import Num NumFacts ModelBase ModelCatenary SpecCatenary SpecCatenary3 SpecScale3
  ProofReal ProofCatenary ProofCatenary3 ProofScale3.
Import ListNotations.
Open Scope R_scope.

Lemma similar3_usable : forall l m (c c' : Catenary3d RNum), 0 < l -> 0 < m -> usable3 c -> similar3 l m c c' -> usable3 c'.
Proof.
  intros l m c c' Hl Hm (A & B & C & D & E & F) [_ (S1 & S2 & _) S3 (W1 & W2 & W3)].
  assert (P : 0 < m / l) by (apply Rdiv_lt_0_compat; assumption).
  unfold usable3. rewrite S1, S2, S3, W1, W2, W3, B, C.
  repeat split; try apply Rmult_0_r; try (apply Rmult_lt_0_compat; assumption).
  apply Rmult_le_pos; [left|]; assumption.
Qed.

(** C171 *)
Theorem catenary3_similarity : forall ks ks' (l m : R),
  let c := c3_run (@Catenary3d_default RNum) ks in let c' := c3_run (@Catenary3d_default RNum) ks' in
  usable3 c -> 0 < l -> 0 < m -> similar3 l m c c' ->
  forall q, asks_shape3 q -> c3_answer c' q = times3 (factor3 l m q) (c3_answer c q).
Proof.
  intros ks ks' l m c c' U Hl Hm S.
  exact (similar3_answers c c' l m (run3_usable ks) (run3_usable ks') U (similar3_usable l m c c' Hl Hm U S) Hl Hm S).
Qed.
Print Assumptions catenary3_similarity.

(** An inclined span with transverse load, and one twice as large under three times
    the forces, set up in another order. *)
Definition windy_calls : list (C3Call RNum) :=
  [ C3SetSpacing (mkVector3d (N := RNum) (400 : R) (0 : R) (40 : R)); C3Query true;
    C3SetWeight (mkVector3d (N := RNum) (0 : R) (3 : R) (4 : R)); C3SetTension (N := RNum) (2000 : R);
    C3SetDirection ADNegative ].
Definition windier_calls : list (C3Call RNum) :=
  [ C3SetDirection ADNegative; C3SetTension (N := RNum) (6000 : R);
    C3SetWeight (mkVector3d (N := RNum) (0 : R) (9 / 2 : R) (6 : R)); C3Validate;
    C3SetSpacing (mkVector3d (N := RNum) (800 : R) (0 : R) (80 : R)); C3Query false ].
Example catenary3_similarity_case :
  let c := c3_run (@Catenary3d_default RNum) windy_calls in let c' := c3_run (@Catenary3d_default RNum) windier_calls in
  (p3y (c3_Coordinate c' (1 / 3 : R)) : R) = 2 * p3y (c3_Coordinate c (1 / 3 : R)) /\
  (v3z (c3_TensionVector c' (0 : R) ADPositive) : R) = 3 * v3z (c3_TensionVector c (0 : R) ADPositive).
Proof.
  intros c c'.
  assert (U : usable3 c) by (unfold usable3; cbn; repeat split; lra).
  destruct (inputs3 windier_calls (@Catenary3d_default RNum)) as (I1 & I2 & I3 & I4).
  assert (S : similar3 2 3 c c').
  { split; unfold c'; rewrite ?I1, ?I2, ?I3, ?I4; cbn; repeat split; cbn; change (F RNum) with R; lra. }
  assert (P2 : 0 < 2) by lra. assert (P3 : 0 < 3) by lra.
  assert (T := catenary3_similarity windy_calls windier_calls 2 3 U P2 P3 S).
  set (gy := fun x : @Answer RNum => match x with APoint3 p => p3y p : R | _ => 0 end).
  set (gz := fun x : @Answer RNum => match x with AVector3 p => v3z p : R | _ => 0 end).
  split.
  - exact (f_equal gy (T (Q3Coordinate (N := RNum) (1 / 3 : R)) I)).
  - exact (f_equal gz (T (Q3TensionVector (N := RNum) (0 : R) ADPositive) I)).
Qed.
