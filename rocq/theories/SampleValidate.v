(** Lines and parts that are validated: a valid one, and witnesses against the expectations
    that do not hold.  Numbers are IEEE binary64. *)
From Coq Require Import ZArith Bool List String.
From Flocq Require Import IEEE754.BinarySingleNaN.
From Verif Require Import Num NumFacts ModelBase ModelAlignment ModelLine ModelCable ModelCatenary ModelLoad ModelSagtension
  SpecLine SpecTransmission SampleLine ProofLineRefuted SampleMath SampleSagging ModelValidate SpecValidate ProofValidateLine.
Import ListNotations.
Open Scope num_scope.
Open Scope list_scope.

Section Sample.
Variable lm : Libm.
Local Notation Nm := (B64 lm).

Definition v_line (calls : list (LineCall Nm (Stringing Nm))) : Line Nm (Stringing Nm) :=
  match line_run calls with Some l => l | None => Line_empty end.
Lemma v_reachable : forall calls, Forall (call_args_ok (N := Nm) num64) calls ->
  match line_run calls with Some _ => true | None => false end = true -> reachable (N := Nm) num64 (v_line calls).
Proof.
  intros calls H K. exists calls. split; auto. unfold v_line. destruct (line_run calls); [reflexivity|discriminate].
Qed.

(** An attachment 10 above the top of the structure. *)
Definition v_above : Structure Nm := mkStructure [mkAttachment (fofZ 0) (fofZ 10) (fofZ (-10))] (fofZ 100).
Definition v_above_ls : LineStructure Nm := mkLS [None] (fofZ 0) (fofZ 0) (fofZ 0) (fofZ 50) (Some v_above).

(** Lines without cables: two structures between the ends of the alignment; a structure
    moved behind its end; one alignment point; an attachment above the top. *)
Definition v_two : list (LineCall Nm (Stringing Nm)) :=
  [CAddAlignmentPoint (s_pt lm 0 0); CAddAlignmentPoint (s_pt lm 0 60); CAddAlignmentPoint (s_pt lm 0 100);
   CAddLineStructure (s_ls lm 50 2); CAddLineStructure (s_ls lm 60 1)].
Definition v_behind : list (LineCall Nm (Stringing Nm)) :=
  [CAddAlignmentPoint (s_pt lm 0 0); CAddAlignmentPoint (s_pt lm 0 100); CAddLineStructure (s_ls lm 50 2);
   CModifyLineStructure 0 (mkLS [None] (fofZ 0) (fofZ 0) (fofZ 0) (flit 1005 (-1)) (Some (s_st lm 1)))].
Definition v_single : list (LineCall Nm (Stringing Nm)) := [CAddAlignmentPoint (s_pt lm 0 0); CAddLineStructure (s_ls lm 0 2)].
Definition v_high : list (LineCall Nm (Stringing Nm)) :=
  [CAddAlignmentPoint (s_pt lm 0 0); CAddAlignmentPoint (s_pt lm 0 100); CAddLineStructure v_above_ls].

Ltac reach := apply v_reachable; [repeat constructor|vm_compute; reflexivity].
Lemma v_two_r : reachable (N := Nm) num64 (v_line v_two). Proof. reach. Qed.
Lemma v_behind_r : reachable (N := Nm) num64 (v_line v_behind). Proof. reach. Qed.
Lemma v_single_r : reachable (N := Nm) num64 (v_line v_single). Proof. reach. Qed.
Lemma v_high_r : reachable (N := Nm) num64 (v_line v_high). Proof. reach. Qed.

(** The result and the number of messages of a validation. *)
Definition v_result {A : Type} (r : A * outcome Check) : option (bool * nat) :=
  match snd r with Ok (b, Some ms) => Some (b, List.length ms) | Ok (b, None) => Some (b, 0%nat) | _ => None end.
Lemma v_result_spec : forall (l : Line Nm (Stringing Nm)) n, v_result (Line_report l (Some [])) = Some (true, n) ->
  exists l' ms, Line_report l (Some []) = (l', Ok (true, Some ms)) /\ List.length ms = n.
Proof.
  intros l n H. destruct (Line_report l (Some [])) as [l' [[b [ms|]]| |]] eqn:E; unfold v_result in H; cbn in H; try discriminate.
  - injection H as -> H. exists l', ms. auto.
  - exfalso. revert E. unfold Line_report. destruct (ProofValidateLine.Parts_answers l) as (r & A & _). rewrite A.
    destruct r as [[ok e]| |]; try (intros X; discriminate X).
    destruct (Update l) as [l1 [u| |]]; try (intros X; discriminate X). unfold test. destruct (negb u); cbn; intros X; discriminate X.
Qed.

Lemma v_two_valid : v_result (Line_report (v_line v_two) (Some [])) = Some (true, 0%nat). Proof. vm_compute. reflexivity. Qed.
Lemma v_behind_valid : v_result (Line_report (v_line v_behind) (Some [])) = Some (true, 0%nat). Proof. vm_compute. reflexivity. Qed.
Lemma v_high_valid : v_result (Line_report (v_line v_high) (Some [])) = Some (true, 1%nat). Proof. vm_compute. reflexivity. Qed.
Lemma v_single_throws : snd (Line_report (v_line v_single) None) = Throw. Proof. vm_compute. reflexivity. Qed.
Lemma v_behind_throws : snd (PointXyzLineStructureAttachment (fst (Line_report (v_line v_behind) (Some []))) 0 0) = Throw.
Proof. apply is_Throw_spec. vm_compute. reflexivity. Qed.

(** The attachment of [v_two] at 20 from the top is reported above the top. *)
Definition v_over (a b : outcome (Point3d Nm)) (height : Nm) : bool :=
  match a, b with Ok p, Ok base => p3z base + height <? p3z p | _, _ => false end.
Lemma v_two_over : let l' := fst (Line_report (v_line v_two) (Some [])) in
  v_over (snd (PointXyzLineStructureAttachment l' 0 0)) (snd (PointXyzLineStructure l' 0)) (st_height (s_st lm 2)) = true.
Proof. vm_compute. reflexivity. Qed.
Lemma v_over_spec : forall a b h, v_over a b h = true -> exists p base, a = Ok p /\ b = Ok base /\ (p3z base + h <? p3z p) = true.
Proof. intros [p| |] [base| |] h H; try discriminate. exists p, base. auto. Qed.

(** Parts with NaN in every checked value. *)
Definition v_nan : Nm := B754_nan.
Definition v_nan_hardware : Hardware Nm := mkHardware v_nan v_nan Suspension v_nan.
Definition v_nan_structure : Structure Nm := mkStructure [mkAttachment v_nan v_nan v_nan] v_nan.
Definition v_nan_point : AlignmentPoint Nm := mkAP v_nan v_nan v_nan.
Definition v_nan_weather : WeatherLoadCase Nm := mkWeatherLoadCase v_nan v_nan v_nan v_nan.
End Sample.

(** ** A line with a cable *)
Definition v_ls (type : HardwareType) (station : Z) : LineStructure M64 :=
  mkLS [Some (mkHardware (m64 1) (m64 2) type (m64 50))] (m64 0) (m64 0) (m64 0) (m64 station) (Some (s_st math64 1)).
Definition v_strung (type : HardwareType) : list (LineCall M64 (Stringing M64)) :=
  [CAddAlignmentPoint (s_pt math64 0 0); CAddAlignmentPoint (s_pt math64 0 2000);
   CAddLineStructure (v_ls type 100); CAddLineStructure (v_ls type 1100);
   CAddLineCable [s_conn math64 0 0; s_conn math64 1 0] (lc_payload sg_line)].

Lemma v_strung_r : forall type, reachable (N := M64) num64 (v_line math64 (v_strung type)).
Proof. intros type. apply (v_reachable math64); [repeat constructor|destruct type; vm_cast_no_check (eq_refl true)]. Qed.

Definition v_is (r : option (bool * nat)) (ok : bool) (n : nat) : bool :=
  match r with Some (b, k) => Bool.eqb b ok && Nat.eqb k n | None => false end.
Lemma v_is_spec : forall r ok n, v_is r ok n = true -> r = Some (ok, n).
Proof.
  intros [[b k]|] ok n H; [|discriminate]. cbn in H. apply andb_true_iff in H as [H1 H2].
  apply eqb_prop in H1. apply Nat.eqb_eq in H2. congruence.
Qed.

(** Dead-end hardware at the ends, and suspension hardware there. *)
Lemma v_dead_valid : v_result (Line_report (v_line math64 (v_strung DeadEnd)) (Some [])) = Some (true, 0%nat).
Proof. apply v_is_spec. vm_cast_no_check (eq_refl true). Qed.
Lemma v_loose_valid : v_result (Line_report (v_line math64 (v_strung Suspension)) (Some [])) = Some (true, 2%nat).
Proof. apply v_is_spec. vm_cast_no_check (eq_refl true). Qed.

(** The cable of that line alone. *)
Definition v_loose : Line M64 (Stringing M64) := v_line math64 (v_strung Suspension).
Definition v_cable : Strung M64 :=
  mkLC [mkConn 0 (SOwned 0); mkConn 0 (SOwned 1)] (lc_payload sg_line).
Lemma v_cable_valid : v_result (tt, LineCable_report (tl_line_structures v_loose) v_cable (Some [])) = Some (true, 2%nat).
Proof. apply v_is_spec. vm_cast_no_check (eq_refl true). Qed.
