(** Two catenaries of the same span and load: the tighter one is shorter. *)
From Coq Require Import ZArith Bool List Reals Lra Lia.
From Verif Require Import Num NumFacts ModelBase ModelCatenary SpecCatenary ProofReal ProofVector HypFacts ProofCatenary
  SpecCatenary3 ProofCatenary3 ModelSolver SpecSolver ProofSolver ProofSolverReal ProofSolverRate ProofSolverTarget ProofSolverCases ProofSpan.
Import ListNotations.
Open Scope R_scope.

Lemma run_twin : forall ks, let c := c3_run (@Catenary3d_default RNum) ks in
  let c1 := c3_fresh (c3_direction c) (c3_spacing c) (c3_tension_horizontal c) (c3_weight c) in
  twin_h c c1.
Proof.
  intros ks c c1. split; [|reflexivity].
  refine (conj (run3_usable ks) (conj _ (conj eq_refl (conj eq_refl eq_refl)))). intros U; discriminate U.
Qed.

(** The direction of the transverse load does not matter to lengths, sags and tensions. *)
Lemma turn : forall d sp (h : R) w, let c := c3_fresh d sp (h : RNum) w in let c' := c3_fresh ADPositive sp (h : RNum) w in
  c3_Validate c = c3_Validate c' /\ c3_Length c = c3_Length c' /\ c3_LengthSlack c = c3_LengthSlack c' /\ c3_Sag c = c3_Sag c' /\
  (forall p, c3_Tension c p = c3_Tension c' p) /\ c3_TensionMax c = c3_TensionMax c'.
Proof. intros. repeat split; reflexivity. Qed.

Section Tight.
Variables sp w : Vector3d RNum.
Variables h h' : R.
Let c := c3_fresh ADPositive sp (h : RNum) w.
Let c' := c3_fresh ADPositive sp (h' : RNum) w.
Hypothesis V : c3_Validate c = true.
Hypothesis V' : c3_Validate c' = true.
Hypothesis H : h < h'.

Lemma tight_end : forall p, at_end p -> quantity TgTension p c < quantity TgTension p c' /\
  quantity TgTension p c' - quantity TgTension p c <= Vector3d_Magnitude sp / v3x sp * (h' - h).
Proof.
  intros p Hp. destruct (cat_Validate sp w h V) as (O & P & Q). destruct (cat_Validate sp w h' V') as (_ & P' & Q').
  destruct (end_rises sp w p Hp O) as (d & D1 & D2). fold c c' in D2.
  assert (A := D2 h' h Q' Q). assert (B := D2 h h' Q Q'). destruct (D1 h Q) as (B1 & B2). destruct (D1 h' Q') as (B3 & B4). fold c c' in A, B.
  assert (C1 : 0 < d h * (h' - h)) by (apply Rmult_lt_0_compat; lra).
  assert (C2 : d h' * (h' - h) <= Vector3d_Magnitude sp / v3x sp * (h' - h)) by (apply Rmult_le_compat_r; lra). lra.
Qed.

Lemma tight_fresh :
  0 < c3_Length c - c3_Length c' <= / Vector3d_Magnitude w * (h' - h) /\
  0 < c3_Sag c - c3_Sag c' <= 4 / 3 / Vector3d_Magnitude w * (h' - h) /\
  0 < c3_Tension c' (0 : R) - c3_Tension c (0 : R) <= Vector3d_Magnitude sp / v3x sp * (h' - h) /\
  0 < c3_Tension c' (1 : R) - c3_Tension c (1 : R) <= Vector3d_Magnitude sp / v3x sp * (h' - h) /\
  0 < c3_TensionMax c' - c3_TensionMax c <= Vector3d_Magnitude sp / v3x sp * (h' - h).
Proof.
  destruct (cat_Validate sp w h V) as (O & P & Q).
  split; [exact (flength_falls sp w O h h' Q H)|]. split; [exact (fsag_falls sp w O h h' Q H)|].
  assert (E0 := tight_end 0 ltac:(right; left; reflexivity)). assert (E1 := tight_end 1 ltac:(right; right; reflexivity)).
  assert (EM := tight_end (-1) ltac:(left; reflexivity)). unfold quantity in *.
  destruct (Req_EM_T 0 (-1)) as [N|_]; [lra|]. destruct (Req_EM_T 1 (-1)) as [N|_]; [lra|]. destruct (Req_EM_T (-1) (-1)) as [_|N]; [|contradiction N; reflexivity].
  lra.
Qed.
End Tight.

(** ** The statement of the property *)
Lemma tighter : forall ks ks', let c := c3_run (@Catenary3d_default RNum) ks in let c' := c3_run (@Catenary3d_default RNum) ks' in
  c3_Validate c = true -> c3_Validate c' = true -> c3_spacing c = c3_spacing c' -> c3_weight c = c3_weight c' ->
  let s := Vector3d_Magnitude (c3_spacing c) in let w := Vector3d_Magnitude (c3_weight c) in
  let step := (c3_tension_horizontal c' - c3_tension_horizontal c)%num in
  0 < step ->
  0 < c3_Length c - c3_Length c' <= / w * step /\
  0 < c3_Sag c - c3_Sag c' <= 4 / 3 / w * step /\
  0 < c3_Tension c' (0 : R) - c3_Tension c (0 : R) <= s / v3x (c3_spacing c) * step /\
  0 < c3_Tension c' (1 : R) - c3_Tension c (1 : R) <= s / v3x (c3_spacing c) * step /\
  0 < c3_TensionMax c' - c3_TensionMax c <= s / v3x (c3_spacing c) * step.
Proof.
  intros ks ks' c c' V V' S W s w step P.
  assert (F : forall ks, let c := c3_run (@Catenary3d_default RNum) ks in
    let d := c3_fresh ADPositive (c3_spacing c) (c3_tension_horizontal c) (c3_weight c) in
    c3_Validate c = c3_Validate d /\ c3_Length c = c3_Length d /\ c3_Sag c = c3_Sag d /\
    (forall p, c3_Tension c p = c3_Tension d p) /\ c3_TensionMax c = c3_TensionMax d).
  { clear. intros ks c d. assert (R0 := run_twin ks). cbv zeta in R0. fold c in R0.
    destruct (turn (c3_direction c) (c3_spacing c) (c3_tension_horizontal c) (c3_weight c)) as (T1 & T2 & T3 & T4 & T5 & T6). fold d in T1, T2, T4, T5, T6.
    assert (A1 : c3_Validate c = c3_Validate (c3_fresh (c3_direction c) (c3_spacing c) (c3_tension_horizontal c) (c3_weight c))).
    { assert (Q := twin_answer _ _ Q3Validate R0). cbn [c3_answer] in Q. injection Q as Q. exact Q. }
    assert (A2 := num_answer _ _ Q3Length _ _ R0 eq_refl eq_refl). assert (A3 := num_answer _ _ Q3Sag _ _ R0 eq_refl eq_refl).
    assert (A4 := fun p => num_answer _ _ (Q3Tension p) _ _ R0 eq_refl eq_refl). assert (A5 := num_answer _ _ Q3TensionMax _ _ R0 eq_refl eq_refl).
    rewrite A1, A2, A3, A5, T1, T2, T4, T6. repeat (split; [reflexivity|]). split; [|reflexivity].
    intros p. rewrite A4. apply T5. }
  destruct (F ks) as (F1 & F2 & F3 & F4 & F5). destruct (F ks') as (G1 & G2 & G3 & G4 & G5). fold c in F1, F2, F3, F4, F5. fold c' in G1, G2, G3, G4, G5.
  rewrite <- S, <- W in G1, G2, G3, G4, G5. rewrite F1 in V. rewrite G1 in V'. rewrite F2, F3, F5, G2, G3, G5, !F4, !G4.
  unfold step in *. rn. apply (tight_fresh (c3_spacing c) (c3_weight c)); [exact V|exact V'|lra].
Qed.

Lemma tighter_case : let ks := [C3SetSpacing (span 1000); C3SetWeight (hang 1); C3SetTension (500 : RNum); C3Query true] in
  let ks' := C3SetTension (2000 : RNum) :: C3SetWeight (hang 1) :: C3SetDirection ADNegative :: [C3Query true; C3SetSpacing (span 1000)] in
  let c := c3_run (@Catenary3d_default RNum) ks in let c' := c3_run (@Catenary3d_default RNum) ks' in
  c3_Validate c = true /\ c3_Validate c' = true /\ c3_spacing c = c3_spacing c' /\ c3_weight c = c3_weight c' /\
  (c3_tension_horizontal c : R) = 500 /\ (c3_tension_horizontal c' : R) = 2000.
Proof.
  intros ks ks' c c'.
  assert (L : forall ks h, let c := c3_run (@Catenary3d_default RNum) ks in c3_spacing c = span 1000 -> c3_weight c = hang 1 ->
    c3_tension_horizontal c = h -> 500 <= h -> c3_Validate c = true).
  { clear. intros ks h c S W T B. assert (R0 := twin_answer _ _ Q3Validate (run_twin ks)). fold c in R0. cbn [c3_answer] in R0. injection R0 as R0. rewrite R0.
    rewrite (proj1 (turn (c3_direction c) (c3_spacing c) (c3_tension_horizontal c) (c3_weight c))), S, W, T.
    apply (level_valid 1000 1); lra. }
  split; [apply (L ks 500); try reflexivity; lra|]. split; [apply (L ks' 2000); try reflexivity; lra|].
  repeat split; reflexivity.
Qed.
