(** C186: level spans of different width (catenary.cc). *)
From Coq Require Import ZArith List Reals Lra.
From Verif Require Import Num NumFacts ModelBase ModelCatenary SpecCatenary3 ProofReal ProofWider PropLevel.
Import ListNotations.
Open Scope R_scope.

(** C186: of two level spans with the same load and horizontal tension, after any histories
    of calls, the wider one has more sag, slack and maximum tension; the sag grows at
    least with the square of the width and the length at least with the width. *)
Theorem level_wider : forall ks ks', let c := c3_run (@Catenary3d_default RNum) ks in let c' := c3_run (@Catenary3d_default RNum) ks' in
  usable3 c -> usable3 c' -> (v3z (c3_spacing c) : R) = 0 -> (v3z (c3_spacing c') : R) = 0 ->
  c3_weight c = c3_weight c' -> c3_tension_horizontal c = c3_tension_horizontal c' ->
  let x : R := v3x (c3_spacing c) in let x' : R := v3x (c3_spacing c') in x < x' ->
  c3_Sag c * (x' * x') <= c3_Sag c' * (x * x) /\ c3_Length c * x' <= c3_Length c' * x /\
  c3_Sag c < c3_Sag c' /\ c3_TensionMax c < c3_TensionMax c' /\ c3_LengthSlack c < c3_LengthSlack c'.
Proof. exact wider. Qed.
Print Assumptions level_wider.

(** A span of 400 and one of 800: more than four times the sag. *)
Definition wide_calls : list (C3Call RNum) := blown_calls ++ [C3SetSpacing (mkVector3d (N := RNum) (800 : R) (0 : R) (0 : R))].
Example level_wider_case : let c := c3_run (@Catenary3d_default RNum) blown_calls in let c' := c3_run (@Catenary3d_default RNum) wide_calls in
  usable3 c' /\ 4 * c3_Sag c <= c3_Sag c' /\ 200 < c3_Sag c'.
Proof.
  intros c c'. assert (U : usable3 c) by (unfold usable3; cbn; repeat split; lra). assert (U' : usable3 c') by (unfold usable3; cbn; repeat split; lra).
  split; [exact U'|]. destruct (level_wider blown_calls wide_calls U U' Logic.eq_refl Logic.eq_refl Logic.eq_refl Logic.eq_refl) as (A & _).
  { change (400 < 800). lra. }
  fold c c' in A. change (v3x (c3_spacing c)) with (400 : R) in A. change (v3x (c3_spacing c')) with (800 : R) in A.
  destruct level_span_case as (_ & _ & S & _). fold c in S. set (s := c3_Sag c) in *. set (s' := c3_Sag c') in *. change (F RNum) with R in *.
  split; lra.
Qed.
