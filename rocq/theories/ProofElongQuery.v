(** Queries leave the later answers of an elongation model alone. *)
From Coq Require Import ZArith Bool List.
From Verif Require Import Num ModelBase ModelCable ModelElongation SpecElong ProofElongHistory.
Import ListNotations.

Lemma tidy_app : forall (N : Num) (c : EmCall N) cs b t, quiet c = true -> tidy b t cs = true -> tidy b t (cs ++ [c]) = true.
Proof.
  intros N c cs. induction cs as [|d cs IH]; intros b t Q H; cbn [app].
  - destruct c as [| | | | | |w]; try discriminate Q; try reflexivity. destruct w; [discriminate Q|reflexivity].
  - destruct d as [k|s|s|ty x|ty x|ty y|w]; cbn [tidy] in *; try (apply IH; assumption).
    + apply andb_true_iff in H. destruct H as (H1 & H2). rewrite H1. apply IH; assumption.
    + destruct w; [discriminate H|apply IH; assumption].
Qed.

Lemma last_app : forall (N : Num) (c : EmCall N) cs, quiet c = true -> last_setters (cs ++ [c]) = last_setters cs.
Proof.
  intros N c cs Q.
  assert (A : forall k, last_cable k (cs ++ [c]) = last_cable k cs).
  { induction cs as [|d cs IH]; intros k; [destruct c; try discriminate Q; reflexivity|].
    cbn [app]. destruct d; cbn [last_cable]; apply IH. }
  assert (B : forall k, last_state k (cs ++ [c]) = last_state k cs).
  { clear A. induction cs as [|d cs IH]; intros k; [destruct c; try discriminate Q; reflexivity|].
    cbn [app]. destruct d; cbn [last_state]; apply IH. }
  assert (C : forall k, last_stretch k (cs ++ [c]) = last_stretch k cs).
  { clear A B. induction cs as [|d cs IH]; intros k; [destruct c; try discriminate Q; reflexivity|].
    cbn [app]. destruct d; cbn [last_stretch]; apply IH. }
  unfold last_setters. rewrite A, B, C. reflexivity.
Qed.

Lemma run_snoc : forall (N : Num) (c : EmCall N) cs m, em_run m (cs ++ [c]) = (do n <- em_run m cs; em_call n c).
Proof.
  intros N c cs. induction cs as [|d cs IH]; intros m; cbn [app em_run].
  - cbn [obind]. destruct (em_call m c); reflexivity.
  - destruct (em_call m d); cbn [obind]; [apply IH|reflexivity|reflexivity].
Qed.

Theorem query_quiet : forall (N : Num) (cs : list (EmCall N)) m c p, tidy true PTNull cs = true ->
  em_run ElongModel_new cs = Ok m -> quiet c = true -> em_call m c = Ok p -> answers_alike m p.
Proof.
  intros N cs m c p T R Q E. destruct (run_answers cs m T R) as (b & B & (H1 & H2 & H3 & H4)).
  assert (R' : em_run ElongModel_new (cs ++ [c]) = Ok p) by (rewrite run_snoc, R; exact E).
  destruct (run_answers _ p (tidy_app _ c cs _ _ Q T) R') as (b' & B' & (G1 & G2 & G3 & G4)).
  rewrite (last_app _ c cs Q), B in B'. injection B' as <-.
  repeat split; intros; congruence.
Qed.
