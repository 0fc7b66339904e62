(** Witness lines for the properties that are false of the code.  All numbers are
    IEEE binary64, evaluated by the kernel. *)
From Coq Require Import ZArith Bool List Lia.
From Flocq Require Import IEEE754.BinarySingleNaN.
From Verif Require Import Num NumFacts ModelBase ModelAlignment ModelLine SpecLine SpecTransmission
  SampleLine.
Import ListNotations.

Section Refuted.
Variable lm : Libm.
Local Notation Nm := (B64 lm).

Lemma run_reachable : forall calls : list (LineCall Nm nat),
  Forall (call_args_ok (N := Nm) num64) calls ->
  match line_run calls with Some _ => true | None => false end = true ->
  reachable (N := Nm) num64 (match line_run calls with Some l => l | None => Line_empty end).
Proof. intros calls H K. exists calls. split; auto. apply run_some. exact K. Qed.

(** A structure at 50 is moved to 100.5 on an alignment that ends at 100. *)
Definition w06 : list (LineCall Nm nat) :=
  [CAddAlignmentPoint (s_pt lm 0 0); CAddAlignmentPoint (s_pt lm 0 100); CAddLineStructure (s_ls lm 50 2);
   CModifyLineStructure 0 (mkLS [] (fofZ 0) (fofZ 0) (fofZ 0) (flit 1005 (-1)) (Some (s_st lm 0)))].

(** Three structures; the cable added last starts at the first structure. *)
Definition w10 : list (LineCall Nm nat) :=
  [CAddAlignmentPoint (s_pt lm 0 0); CAddAlignmentPoint (s_pt lm 0 100);
   CAddLineStructure (s_ls lm 10 2); CAddLineStructure (s_ls lm 20 2); CAddLineStructure (s_ls lm 30 2);
   CAddLineCable [s_conn lm 1 0; s_conn lm 2 0] 1%nat;
   CAddLineCable [s_conn lm 0 0; s_conn lm 1 1] 2%nat].

(** A query between two additions of structures. *)
Definition w13 : list (LineCall Nm nat) :=
  [CAddAlignmentPoint (s_pt lm 0 0); CAddAlignmentPoint (s_pt lm 0 100); CAddLineStructure (s_ls lm 10 2);
   CPointsXyzLineStructures; CAddLineStructure (s_ls lm 20 2)].
Definition w13_fresh : list (LineCall Nm nat) :=
  [CAddAlignmentPoint (s_pt lm 0 0); CAddAlignmentPoint (s_pt lm 0 100);
   CAddLineStructure (s_ls lm 10 2); CAddLineStructure (s_ls lm 20 2)].

(** One alignment point and a structure on it. *)
Definition w14 : list (LineCall Nm nat) := [CAddAlignmentPoint (s_pt lm 0 0); CAddLineStructure (s_ls lm 0 2)].

Definition the_line (calls : list (LineCall Nm nat)) : Line Nm nat :=
  match line_run calls with Some l => l | None => Line_empty end.

Ltac args := repeat constructor.
Ltac reach w := unfold the_line; apply run_reachable; [unfold w; args|vm_compute; reflexivity].

Lemma w06_r : reachable (N := Nm) num64 (the_line w06). Proof. reach w06. Qed.
Lemma w10_r : reachable (N := Nm) num64 (the_line w10). Proof. reach w10. Qed.
Lemma w13_r : reachable (N := Nm) num64 (the_line w13). Proof. reach w13. Qed.
Lemma w13f_r : reachable (N := Nm) num64 (the_line w13_fresh). Proof. reach w13_fresh. Qed.
Lemma w14_r : reachable (N := Nm) num64 (the_line w14). Proof. reach w14. Qed.

(** Boolean observations. *)
Definition is_UB {A} (r : outcome A) : bool := match r with UB => true | _ => false end.
Definition is_Throw {A} (r : outcome A) : bool := match r with Throw => true | _ => false end.
Lemma is_UB_spec : forall A (r : outcome A), is_UB r = true -> r = UB.
Proof. destruct r; simpl; congruence. Qed.
Lemma is_Throw_spec : forall A (r : outcome A), is_Throw r = true -> r = Throw.
Proof. destruct r; simpl; congruence. Qed.

Lemma w06_off : exists s, In s (structures_of (the_line w06)) /\
  ~ on_alignment (tl_alignment (the_line w06)) (ls_station s).
Proof.
  assert (B : existsb (fun s => negb (on_b lm (tl_alignment (the_line w06)) (ls_station s)))
     (structures_of (the_line w06)) = true) by (vm_compute; reflexivity).
  apply existsb_exists in B. destruct B as (s & Hin & B). exists s. split; auto.
  intro K. apply (on_b_spec lm) in K. rewrite K in B. discriminate.
Qed.

Lemma obs_starts : forall (l : Line Nm nat) a id j rest i,
  nth_error (obs_cables lm l) a = Some ((Z.of_nat id, j) :: rest) ->
  nth_error (obs_ids lm l) i = Some id ->
  exists lc, nth_error (tl_line_cables l) a = Some lc /\ starts_at l lc i j.
Proof.
  intros l a id j rest i E E2. unfold obs_cables in E. rewrite nth_error_map in E.
  destruct (nth_error (tl_line_cables l) a) as [lc|]; [|discriminate].
  exists lc. split; auto. simpl in E. injection E as E.
  destruct (lc_connections lc) as [|c cs] eqn:EC; [discriminate|].
  simpl in E. injection E as E3 E4 E5.
  unfold obs_ids in E2. rewrite nth_error_map in E2.
  destruct (nth_error (tl_line_structures l) i) as [[id' s]|] eqn:ES; [|discriminate].
  simpl in E2. injection E2 as ->.
  destruct (cn_line_structure c) as [|id2|s2] eqn:EP; try lia.
  apply Nat2Z.inj in E3. subst id2.
  exists c, id. rewrite EC. split; [reflexivity|]. split; [split; assumption|].
  exists s. exact ES.
Qed.

Lemma w10_order : ~ cables_in_order (the_line w10).
Proof.
  intro K.
  destruct (obs_starts (the_line w10) 0 1 0%Z [(2, 0)]%Z 1) as (lc1 & E1 & S1);
    [vm_compute; reflexivity|vm_compute; reflexivity|].
  destruct (obs_starts (the_line w10) 1 0 0%Z [(1, 1)]%Z 0) as (lc2 & E2 & S2);
    [vm_compute; reflexivity|vm_compute; reflexivity|].
  destruct (K 0%nat 1%nat lc1 lc2 1%nat 0%Z 0%nat 0%Z ltac:(lia) E1 E2 S1 S2) as [H|[H _]]; lia.
Qed.

Definition lc12a : LineCable Nm nat := mkLC [s_conn lm 0 5; s_conn lm 2 1] 9%nat.
Definition lc12b : LineCable Nm nat := mkLC [s_conn lm 0 0; s_conn lm 2 1] 9%nat.

Lemma w12_throw :
  snd (ModifyLineCable (the_line w10) 0 lc12a) = Throw /\
  length (tl_line_cables (the_line w10)) = 2%nat /\
  length (tl_line_cables (fst (ModifyLineCable (the_line w10) 0 lc12a))) = 1%nat.
Proof.
  split; [apply is_Throw_spec; vm_compute; reflexivity|].
  split; vm_compute; reflexivity.
Qed.

Lemma w12_moved :
  snd (ModifyLineCable (the_line w10) 0 lc12b) = Ok (-1)%Z /\
  tl_line_cables (fst (ModifyLineCable (the_line w10) 0 lc12b)) <> tl_line_cables (the_line w10).
Proof.
  split; [vm_compute; reflexivity|].
  intro K. apply (f_equal (map (fun lc => map (fun c =>
     (match cn_line_structure c with SOwned id => Z.of_nat id | _ => (-1)%Z end,
      cn_index_attachment c)) (lc_connections lc)))) in K.
  vm_compute in K. discriminate.
Qed.

Definition answer_length {A} (r : outcome (option (list A))) : Z :=
  match r with Ok (Some m) => Z.of_nat (length m) | Ok None => -1 | Throw => -2 | UB => -3 end.
Lemma answer_spec : forall A (r : outcome (option (list A))) z, answer_length r = z -> (0 <= z)%Z ->
  exists m, r = Ok (Some m) /\ Z.of_nat (length m) = z.
Proof. intros A [[m|]| |] z E H; simpl in E; try lia. exists m. auto. Qed.

Lemma w13_same : tl_alignment (the_line w13) = tl_alignment (the_line w13_fresh) /\
  tl_origin (the_line w13) = tl_origin (the_line w13_fresh) /\
  structures_of (the_line w13) = structures_of (the_line w13_fresh).
Proof.
  split; [|split].
  - exact (eq_refl (tl_alignment (the_line w13)) <: tl_alignment (the_line w13) = tl_alignment (the_line w13_fresh)).
  - exact (eq_refl (tl_origin (the_line w13)) <: tl_origin (the_line w13) = tl_origin (the_line w13_fresh)).
  - exact (eq_refl (structures_of (the_line w13)) <: structures_of (the_line w13) = structures_of (the_line w13_fresh)).
Qed.

Lemma w13_fresh_ok : fresh_line (the_line w13_fresh).
Proof.
  exists w13_fresh. split.
  - intros c H. simpl in H. repeat (destruct H as [<-|H]; [reflexivity|]). contradiction.
  - apply run_some. vm_compute. reflexivity.
Qed.

Lemma w13_answers :
  answer_length (snd (PointsXyzLineStructures (the_line w13))) = 1%Z /\
  answer_length (snd (PointsXyzLineStructures (the_line w13_fresh))) = 2%Z /\
  snd (PointXyzLineStructure (the_line w13) 1) = Throw.
Proof.
  split; [vm_compute; reflexivity|]. split; [vm_compute; reflexivity|].
  apply is_Throw_spec. vm_compute. reflexivity.
Qed.

Lemma w14_answers :
  snd (PointsXyzAlignment (the_line w14)) = Throw /\
  answer_length (snd (PointsXyzAlignment (fst (PointsXyzAlignment (the_line w14))))) = 1%Z.
Proof. split; [apply is_Throw_spec|]; vm_compute; reflexivity. Qed.

Lemma w14_fresh : fresh_line (the_line w14).
Proof.
  exists w14. split.
  - intros c H. simpl in H. repeat (destruct H as [<-|H]; [reflexivity|]). contradiction.
  - apply run_some. vm_compute. reflexivity.
Qed.

(** A copy of a line that has been asked for coordinates. *)
Definition copy_of (l : Line Nm nat) : Line Nm nat :=
  match copy l with Ok l' => l' | _ => Line_empty end.
Lemma copy_spec : forall l, (match copy l with Ok _ => true | _ => false end) = true -> copy l = Ok (copy_of l).
Proof. intros l H. unfold copy_of. destruct (copy l); [reflexivity|discriminate|discriminate]. Qed.
Lemma w15_answers :
  copy (the_line w13) = Ok (copy_of (the_line w13)) /\
  answer_length (snd (PointsXyzAlignment (the_line w13))) = 2%Z /\
  answer_length (snd (PointsXyzAlignment (copy_of (the_line w13)))) = 0%Z.
Proof.
  split; [apply copy_spec; vm_compute; reflexivity|]. split; vm_compute; reflexivity.
Qed.

(** Undefined behaviour. *)
Definition w16 : list (LineCall Nm nat) :=
  [CAddAlignmentPoint (s_pt lm 0 0); CAddAlignmentPoint (s_pt lm 0 100);
   CAddLineStructure (s_ls lm 10 2);
   CAddLineStructure (mkLS [None] (fofZ 0) (fofZ 0) (fofZ 0) (fofZ 20) (Some (s_st lm 1)))].
Definition w16b : list (LineCall Nm nat) := [CAddAlignmentPoint (s_pt lm 0 0)].
Lemma w16_r : reachable (N := Nm) num64 (the_line w16). Proof. reach w16. Qed.
Lemma w16b_r : reachable (N := Nm) num64 (the_line w16b). Proof. reach w16b. Qed.
Lemma empty_r : reachable (N := Nm) num64 (Line_empty (P := nat)).
Proof. exists []. split; [constructor|reflexivity]. Qed.

Lemma w16_ub :
  snd (line_step (N := Nm) (P := nat) Line_empty (CAddLineStructure (s_ls lm 10 2))) = UB /\
  snd (line_step (N := Nm) (P := nat) Line_empty (CPointXyzAlignment (fofZ 10))) = UB /\
  snd (line_step (the_line w16b) (CDeleteAlignmentPoint 0)) = UB /\
  snd (line_step (the_line w16) (CAddLineCable [s_conn lm 0 0; s_conn lm 1 0] 1%nat)) = UB /\
  snd (line_step (the_line w16) (CModifyLineStructure 0
         (mkLS [] (fofZ 0) (fofZ 0) (fofZ 0) (fofZ 10) None))) = UB /\
  snd (line_step (the_line w16) (CHasConnection 2 0)) = UB.
Proof. repeat split; apply is_UB_spec; vm_compute; reflexivity. Qed.

(** A NaN station: every comparison with it is false. *)
Definition nan_ls : LineStructure Nm :=
  mkLS [] (fofZ 0) (fofZ 0) (fofZ 0) (B754_nan : Nm) (Some (s_st lm 0)).
Definition w59 : list (LineCall Nm nat) :=
  [CAddAlignmentPoint (s_pt lm 0 0); CAddAlignmentPoint (s_pt lm 0 100);
   CAddLineStructure (s_ls lm 50 0); CModifyLineStructure 0 nan_ls].
Lemma w59_r : reachable (N := Nm) (fun _ => True) (the_line w59).
Proof.
  unfold the_line. exists w59. split; [unfold w59; repeat constructor|apply run_some].
  vm_compute. reflexivity.
Qed.
Definition is_nan64 (x : Nm) : bool := match (x : b64) with B754_nan => true | _ => false end.
Lemma w59_nan : exists s, In s (structures_of (the_line w59)) /\ ls_station s = (B754_nan : Nm).
Proof.
  assert (B : existsb (fun s : LineStructure Nm => is_nan64 (ls_station s)) (structures_of (the_line w59)) = true)
    by (vm_compute; reflexivity).
  apply existsb_exists in B. destruct B as (s & Hin & B). exists s. split; auto.
  unfold is_nan64 in B. destruct (ls_station s : b64); try discriminate. reflexivity.
Qed.
(** AddLineStructure rejects NaN, AddAlignmentPoint accepts it. *)
Lemma w59_add :
  snd (AddLineStructure (the_line w06) nan_ls) = Ok (-1)%Z /\
  snd (AddAlignmentPoint (the_line w06) (mkAP (fofZ 0) (fofZ 0) (B754_nan : Nm))) = Ok 2%Z.
Proof. split; vm_compute; reflexivity. Qed.

(** Deleting the structure at which the first cable of the sample line ends. *)
Lemma w58_kept :
  snd (DeleteLineStructure (s_line lm) 2) = Ok true /\
  obs_cables lm (s_line lm) = [[(1, 0); (2, 0); (0, 0)]; [(1, 1); (2, 1)]]%Z /\
  obs_cables lm (fst (DeleteLineStructure (s_line lm) 2)) = [[(1, 0); (2, 0)]; [(1, 1); (2, 1)]]%Z.
Proof. repeat split; vm_compute; reflexivity. Qed.
End Refuted.
