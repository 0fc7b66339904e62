(** A single light span: the pulleyed cable is not as long as the clipped one; and the inputs
    on which the corrector does not return. *)
From Coq Require Import ZArith Reals Lra Lia Psatz Bool List.
From Verif Require Import Num NumFacts ModelBase HypFacts ProofReal ProofVector ModelCatenary SpecCatenary SpecCatenary3 SpecSolver ModelLoad ModelElongation ModelReload ModelCable ProofCatenary ProofCatenary3
  ModelSolver ProofSolverTarget ProofSolverCases ModelLine ModelThermal ModelSagtension ModelSagging SpecSagging ProofSagging
  ProofTransitGeom ProofCorrector ProofCorrectorCases.
Import ListNotations.
Open Scope R_scope.

(** ** Bounds of sinh *)
Lemma sinh_cosh_le : forall z, 0 < z -> sinh z <= z * cosh z.
Proof.
  intros z Hz.
  destruct (MVT_cor2 sinh cosh 0 z Hz) as (c & E & B); [intros; apply derivable_pt_lim_sinh|].
  rewrite sinh_0 in E. assert (L : cosh c <= cosh z).
  { rewrite !cosh_sqrt. apply sqrt_le_1_alt. assert (0 < sinh c) by (apply sinh_pos; lra).
    assert (sinh c < sinh z) by (apply sinh_lt; lra). nra. }
  nra.
Qed.
Lemma sinh_2 : forall z, sinh (2 * z) = 2 * (sinh z * cosh z).
Proof. intros z. replace (2 * z) with (z + z) by ring. rewrite sinh_plus. ring. Qed.
Lemma cosh_2 : forall z, cosh (2 * z) = 1 + 2 * (sinh z * sinh z).
Proof. intros z. replace (2 * z) with (z + z) by ring. rewrite cosh_plus. generalize (cosh_sinh_sq z). lra. Qed.

Lemma sinh_half : 5196 / 10000 <= sinh (1 / 2).
Proof.
  replace (1 / 2) with (2 * (2 * (1 / 8))) by lra. rewrite sinh_2, cosh_2, sinh_2.
  replace (cosh (1 / 8)) with (1 + 2 * (sinh (1 / 16) * sinh (1 / 16))) by (rewrite <- cosh_2; f_equal; lra).
  assert (A : 1 / 8 < sinh (1 / 8)) by (apply sinh_gt; lra). assert (B : 1 / 16 < sinh (1 / 16)) by (apply sinh_gt; lra).
  set (x := sinh (1 / 8)) in *. set (y := sinh (1 / 16)) in *.
  assert (Y : 1 + 2 / 256 <= 1 + 2 * (y * y)) by nra. set (u := 1 + 2 * (y * y)) in *.
  assert (P : 1 / 8 * (1 + 2 / 256) <= x * u) by (apply Rmult_le_compat; lra).
  set (v := 2 * (x * u)) in *.
  assert (Q : 1 + 2 / 64 <= 1 + 2 * (x * x)) by nra.
  assert (T : (2 * (1 / 8 * (1 + 2 / 256))) * (1 + 2 / 64) <= v * (1 + 2 * (x * x))) by (unfold v; apply Rmult_le_compat; lra). lra.
Qed.

Lemma sinh_upper : sinh (5 / 11) <= 4711 / 10000.
Proof.
  set (x := sinh (5 / 88)). set (y := cosh (5 / 88)).
  assert (P : 0 < x) by (apply sinh_pos; lra). assert (Y : 0 < y) by apply cosh_pos.
  assert (Q : x <= 5 / 88 * y) by (apply sinh_cosh_le; lra). assert (E : y * y - x * x = 1) by (apply cosh_sinh_sq).
  assert (X : x <= 5692 / 100000) by nra. assert (Z : y <= 10017 / 10000) by nra.
  assert (S1 : sinh (5 / 44) = 2 * (x * y)) by (replace (5 / 44) with (2 * (5 / 88)) by lra; apply sinh_2).
  assert (C1 : cosh (5 / 44) = 1 + 2 * (x * x)) by (replace (5 / 44) with (2 * (5 / 88)) by lra; apply cosh_2).
  assert (S2 : sinh (5 / 22) = 2 * (sinh (5 / 44) * cosh (5 / 44))) by (replace (5 / 22) with (2 * (5 / 44)) by lra; apply sinh_2).
  assert (C2 : cosh (5 / 22) = 1 + 2 * (sinh (5 / 44) * sinh (5 / 44))) by (replace (5 / 22) with (2 * (5 / 44)) by lra; apply cosh_2).
  assert (S3 : sinh (5 / 11) = 2 * (sinh (5 / 22) * cosh (5 / 22))) by (replace (5 / 11) with (2 * (5 / 22)) by lra; apply sinh_2).
  assert (P1 : 0 < sinh (5 / 44)) by (apply sinh_pos; lra). assert (P2 : 0 < sinh (5 / 22)) by (apply sinh_pos; lra).
  assert (B1 : sinh (5 / 44) <= 11404 / 100000) by (rewrite S1; nra).
  assert (D1 : cosh (5 / 44) <= 100649 / 100000) by (rewrite C1; nra).
  assert (B2 : sinh (5 / 22) <= 22957 / 100000).
  { rewrite S2. assert (sinh (5 / 44) * cosh (5 / 44) <= 11404 / 100000 * (100649 / 100000)); [|lra].
    apply Rmult_le_compat; try lra. generalize (cosh_pos (5 / 44)). lra. }
  assert (D2 : cosh (5 / 22) <= 102602 / 100000) by (rewrite C2; nra).
  rewrite S3. assert (sinh (5 / 22) * cosh (5 / 22) <= 22957 / 100000 * (102602 / 100000)); [|lra].
  apply Rmult_le_compat; try lra. generalize (cosh_pos (5 / 22)). lra.
Qed.

(** ** The length of a level span of 100 ft of a wire of 0.01 lb/ft *)
Definition light (h : R) : Catenary3d RNum :=
  c3_fresh ADPositive (mkVector3d (N := RNum) (100 : R) (0 : R) (0 : R)) h (mkVector3d (N := RNum) (0 : R) (0 : R) (1 / 100 : R)).

Lemma light_length : forall h, 1 <= h -> (c3_Length (light h) : R) = 2 * (h * 100) * sinh (100 / (2 * (h * 100))).
Proof.
  intros h H. assert (UL : usable3 (light h)) by (apply cat_usable; [unfold inputs_ok; cbn; lra|lra]).
  assert (CL : c3_current (light h)) by apply (run3_usable [C3SetDirection ADPositive; C3SetSpacing (mkVector3d (N := RNum) (100 : R) (0 : R) (0 : R));
    C3SetTension (N := RNum) h; C3SetWeight (mkVector3d (N := RNum) (0 : R) (0 : R) (1 / 100 : R))]).
  set (d := c3_catenary_2d (c3_ensure (light h))).
  assert (Dh := d_h_pos (light h) CL UL). assert (Dw := d_w_pos (light h) CL UL). assert (Da := d_a_pos (light h) CL UL).
  assert (Dc := d_current (light h) CL). fold d in Dh, Dw, Da, Dc.
  assert (CA : (v3y (c3_weight (light h)) : R) = 0) by reflexivity.
  assert (KK : ck d = h * 100).
  { unfold ck, d. rewrite (d_tension (light h) CL), (d_weight (light h) CL UL).
    assert (W : W3 (light h) = 1 / 100) by exact (calm_W (ts_fresh (light h) Point3d_default) UL CA). rewrite W.
    change (c3_tension_horizontal (light h)) with h. field. }
  assert (SP : c2_spacing d = mkVector2d (N := RNum) (100 : R) (0 : R)).
  { unfold d. rewrite (d_spacing (light h) CL UL).
    f_equal; [exact (calm_a (ts_fresh (light h) Point3d_default) UL CA)|exact (calm_b (ts_fresh (light h) Point3d_default) UL CA)]. }
  assert (LI := length_identity d Dc Dh Dw Da). rewrite SP in LI. cbn [v2x v2y] in LI. rewrite KK in LI.
  assert (LP : 0 < c3_Length (light h)) by (apply len3_pos; assumption).
  change (c2_Length d) with (c3_Length (light h)) in LI.
  set (X := 2 * (h * 100) * sinh (100 / (2 * (h * 100)))) in *.
  assert (XP : 0 < X).
  { unfold X. apply Rmult_lt_0_compat; [lra|]. apply sinh_pos. apply Rdiv_lt_0_compat; lra. }
  nra.
Qed.

(** C127 *)
Lemma light_shorter : let s := pc_fresh (Some (rl_line 1)) (Some rl_points) in
  exists clipped pulleyed, corrected s clipped pulleyed /\ map c3_spacing pulleyed = map c3_spacing clipped /\
    total_length pulleyed < total_length clipped - 1 / 4.
Proof.
  destruct (rl_span 1) as (sec & E & V & H & VS); [lra|]. cbn [rl_points nth] in VS.
  destruct (rl_section 1) as (sec' & E' & _ & W & H' & _). rewrite E in E'. injection E' as <-.
  assert (LT : c3_tension_horizontal sec <= 1) by (rewrite H; lra).
  assert (G := single_light (rl_line 1) sec (mkPoint3d (N := RNum) (7 : R) (5 : R) (30 : R)) (mkPoint3d (N := RNum) (107 : R) (5 : R) (30 : R)) E V VS LT).
  eexists _, _. split; [exact G|]. split; [reflexivity|].
  assert (SE : span_of sec (mkPoint3d (N := RNum) (7 : R) (5 : R) (30 : R)) (mkPoint3d (N := RNum) (107 : R) (5 : R) (30 : R)) = light 1).
  { unfold span_of. rewrite H, W. cbn [p3x p3y p3z]. replace (107 - 7) with 100 by ring. replace (5 - 5) with 0 by ring. replace (30 - 30) with 0 by ring. reflexivity. }
  rewrite SE, H. replace (1 * (11 / 10)) with (11 / 10) by lra.
  change (c3_set_tension (light 1) (11 / 10)) with (light (11 / 10)).
  unfold total_length. cbn [length length_to nth_error]. rn.
  rewrite (light_length 1), (light_length (11 / 10)) by lra.
  replace (100 / (2 * (1 * 100))) with (1 / 2) by field. replace (100 / (2 * (11 / 10 * 100))) with (5 / 11) by field.
  assert (A := sinh_half). assert (B := sinh_upper). lra.
Qed.

(** ** Inputs on which the corrector does not return *)
Lemma null_points : forall (N : Num) (env : Env N) ps, pc_Validate env (pc_fresh None ps) = UB.
Proof. intros N env [ps|]; reflexivity. Qed.

Lemma point_missing : forall (env : Env RNum) ps, (ps = None \/ ps = Some [] \/ exists p, ps = Some [p]) ->
  let s := pc_fresh (Some (rl_line 2)) ps in is_ok (pc_Validate env s) = false /\ is_ok (CatenariesClipped s) = false /\ is_ok (ClippingOffsets s) = false.
Proof.
  intros env ps P s. destruct (rl_span 2) as (sec & E & V & _); [lra|].
  assert (U : is_ok (pc_Update s) = false).
  { unfold s, pc_Update, UpdateClippedState, pc_fresh. cbn [pc_updated pc_set_points pc_set_linecable pc_linecable pc_points Corrector_new deref obind].
    rewrite E. cbn [obind]. rewrite V. destruct P as [-> | [-> | (p & ->)]]; reflexivity. }
  assert (Q : pc_ensure s = pc_Update s) by reflexivity.
  split; [|split].
  - unfold pc_Validate. generalize (pc_Update s) U. intros r U'.
    match goal with |- is_ok (obind ?a _) = _ => destruct a; cbn [obind]; try reflexivity end.
    destruct r; cbn in *; try discriminate; reflexivity.
  - unfold CatenariesClipped. rewrite Q. destruct (pc_Update s); cbn in *; congruence.
  - unfold ClippingOffsets. rewrite Q. destruct (pc_Update s); cbn in *; congruence.
Qed.

(** ** Lines that are not along the x axis *)
Lemma pulleyed_line : forall (ks : list (PcCall RNum)) s c p, pc_run Corrector_new ks = Ok s -> corrected s c p -> exists h : R, pulley_line c h p.
Proof.
  intros ks s c p H G. destruct (run_corrected ks s c p H G) as (l & section & pts & a & rest & n & _ & _ & _ & _ & _ & EC & EU & _ & _).
  assert (W := clipped_weights section rest a). rewrite <- EC in W.
  destruct (pulleyed_facts c p n EU) as (_ & q & [_ _ (cs' & h & K & G' & _) _] & _ & EP & _).
  exists h. rewrite EP. exact (solved_line _ _ _ _ _ W K G').
Qed.

Lemma clipped_corrected : forall (ks : list (PcCall RNum)) s c, pc_run Corrector_new ks = Ok s -> omap fst (CatenariesClipped s) = Ok (Some c) ->
  exists p, corrected s c p.
Proof.
  intros ks s c H G. unfold CatenariesClipped in G. destruct (pc_ensure s) as [[[] s']| |] eqn:E; try discriminate G.
  cbn in G. injection G as <-. exists (pc_pulleyed s'). split; [unfold CatenariesClipped|unfold CatenariesPulleyed]; rewrite E; reflexivity.
Qed.

Lemma crooked : forall (ks : list (PcCall RNum)) s points i a b, pc_run Corrector_new ks = Ok s ->
  last_of pickPc_points ks None = Some points -> nth_error points (S i) = Some a -> nth_error points (S (S i)) = Some b ->
  (p3y a : R) <> p3y b -> forall c, omap fst (CatenariesClipped s) <> Ok (Some c).
Proof.
  intros ks s points i a b H P A B D c G. destruct (clipped_corrected ks s c H G) as (p & K).
  destruct (pulleyed_line ks s c p H K) as (h & [SP _ _ PP]).
  destruct (clipped_between ks s c p H K) as (l & section & points' & _ & _ & P' & L & N).
  rewrite P in P'. injection P' as <-. assert (C1 := N (S i) a b A B).
  assert (LE : length p = length c) by (rewrite <- (map_length c3_spacing p), SP, map_length; reflexivity).
  assert (S i < length c)%nat by (apply nth_error_Some; congruence).
  destruct (nth_error p (S i)) as [y|] eqn:Y; [|apply nth_error_None in Y; lia].
  destruct (nth_error p i) as [x|] eqn:X; [|apply nth_error_None in X; lia].
  destruct (PP i x y X Y) as (_ & Z).
  assert (M := map_nth_error c3_spacing _ _ Y). rewrite SP, (map_nth_error c3_spacing _ _ C1) in M. injection M as M.
  rewrite <- M in Z. cbn in Z. apply D. rn. lra.
Qed.
