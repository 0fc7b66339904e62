(** Refutations for the elongation models, by computations in IEEE binary64. *)
From Coq Require Import ZArith Bool List.
From Flocq Require Import IEEE754.BinarySingleNaN.
From Verif Require Import Num ModelBase ModelCable ModelElongation SpecElong SampleElong.
Import ListNotations.
Open Scope num_scope.

(** ** The samples *)

(** Only a shell, with creep and load-strain lines of the slopes 65536 and 131072. *)
Definition cable_shell : StCable E64 := s_cable s_none (s_linear 65536 131072 262144) 1000.
(** Two such components. *)
Definition cable_both : StCable E64 := s_cable (s_linear 65536 131072 262144) (s_linear 65536 131072 262144) 1000.
(** A shell that resists compression. *)
Definition cable_stiff : StCable E64 :=
  s_cable s_none (s_comp (line 65536) (line 65536) 32768 32768 1024 131072 1) 1000.
(** A shell with polynomials that decrease between the strains 0.0456 and 0.0877. *)
Definition dip : list Z := [0; 120000; -2000000; 10000000; 0]%Z.
Definition cable_dip : StCable E64 := s_cable s_none (s_comp dip dip 2000 2000 0 131072 1) 1000.

Definition strain64 (m e : Z) : E64 := b64_lit m e.

Definition setters (k : StCable E64) (t : PolynomialType) (ts : PolynomialType) (load : Z) : list (EmCall E64) :=
  [EmSetCable (Some k); EmSetState (s_state t); EmSetStretch (s_stretch ts load)].

(** ** Stale stretch *)

Definition stale : list (EmCall E64) :=
  setters cable_shell PTCreep PTCreep 1024 ++ [EmLoad CTCombined (strain64 2 (-2)); EmSetState (s_state PTLoadStrain)].

Definition stale_check : bool :=
  match em_run ElongModel_new stale, em_run ElongModel_new (last_setters stale) with
  | Ok m, Ok b =>
      match cable_load m (strain64 2 (-2)), cable_load b (strain64 2 (-2)) with
      | Ok x, Ok y => y <? x
      | _, _ => false
      end
  | _, _ => false
  end.
Lemma stale_true : stale_check = true.
Proof. vm_compute. reflexivity. Qed.

Theorem stale_refuted : exists lm (cs : list (EmCall (B64 lm))) m b e x y,
  em_run ElongModel_new cs = Ok m /\ em_run ElongModel_new (last_setters cs) = Ok b /\
  cable_load m e = Ok x /\ cable_load b e = Ok y /\ (y <? x) = true.
Proof.
  exists libm64, stale. pose proof stale_true as H. unfold stale_check in H.
  destruct (em_run ElongModel_new stale) as [m| |] eqn:E1; try discriminate H.
  destruct (em_run ElongModel_new (last_setters stale)) as [b| |] eqn:E2; try discriminate H.
  destruct (cable_load m (strain64 2 (-2))) as [x| |] eqn:E3; try discriminate H.
  destruct (cable_load b (strain64 2 (-2))) as [y| |] eqn:E4; try discriminate H.
  exists m, b, (strain64 2 (-2)), x, y. auto.
Qed.

(** ** Validate with warnings *)

Definition validate_check : bool :=
  match em_run ElongModel_new (setters cable_both PTCreep PTCreep 1024) with
  | Ok m =>
      match em_Validate true m with
      | Ok (v, p) =>
          match cable_load m (strain64 1 (-2)), cable_load p (strain64 1 (-2)) with
          | Ok x, Ok y => v && (y <? x)
          | _, _ => false
          end
      | _ => false
      end
  | _ => false
  end.
Lemma validate_true : validate_check = true.
Proof. vm_compute. reflexivity. Qed.

Theorem validate_refuted : exists lm (cs : list (EmCall (B64 lm))) m p e x y,
  em_run ElongModel_new cs = Ok m /\ em_Validate true m = Ok (true, p) /\
  cable_load m e = Ok x /\ cable_load p e = Ok y /\ (y <? x) = true.
Proof.
  exists libm64, (setters cable_both PTCreep PTCreep 1024). pose proof validate_true as H. unfold validate_check in H.
  destruct (em_run ElongModel_new (setters cable_both PTCreep PTCreep 1024)) as [m| |] eqn:E1; try discriminate H.
  destruct (em_Validate true m) as [(v, p)| |] eqn:E2; try discriminate H.
  destruct (cable_load m (strain64 1 (-2))) as [x| |] eqn:E3; try discriminate H.
  destruct (cable_load p (strain64 1 (-2))) as [y| |] eqn:E4; try discriminate H.
  apply andb_true_iff in H. destruct H as (-> & H). exists m, p, (strain64 1 (-2)), x, y. auto.
Qed.

(** ** Strain of a compressed cable *)

Definition compression_check : bool :=
  match em_run ElongModel_new (setters cable_stiff PTLoadStrain PTLoadStrain 0) with
  | Ok m =>
      match em_Validate true m with
      | Ok (v, _) =>
          match cable_load m (strain64 (-9765625) (-8)), cable_strain m (fofZ (N := E64) (-100)) with
          | Ok y, Ok x =>
              match cable_load m x with
              | Ok w => v && (y =? fofZ (N := E64) (-100)) && negb (x =? ferr) && (w =? fofZ (N := E64) 0)
              | _ => false
              end
          | _, _ => false
          end
      | _ => false
      end
  | _ => false
  end.
Lemma compression_true : compression_check = true.
Proof. vm_compute. reflexivity. Qed.

Theorem compression_refuted : exists lm (cs : list (EmCall (B64 lm))) m p e y x w,
  em_run ElongModel_new cs = Ok m /\ em_Validate true m = Ok (true, p) /\
  cable_load m e = Ok y /\ (y =? #(-100)) = true /\
  cable_strain m #(-100) = Ok x /\ (x =? ferr) = false /\ cable_load m x = Ok w /\ (w =? #0) = true.
Proof.
  exists libm64, (setters cable_stiff PTLoadStrain PTLoadStrain 0). pose proof compression_true as H.
  unfold compression_check in H.
  destruct (em_run ElongModel_new (setters cable_stiff PTLoadStrain PTLoadStrain 0)) as [m| |] eqn:E1; try discriminate H.
  destruct (em_Validate true m) as [(v, p)| |] eqn:E2; try discriminate H.
  destruct (cable_load m (strain64 (-9765625) (-8))) as [y| |] eqn:E3; try discriminate H.
  destruct (cable_strain m (fofZ (N := E64) (-100))) as [x| |] eqn:E4; try discriminate H.
  destruct (cable_load m x) as [w| |] eqn:E5; try discriminate H.
  apply andb_true_iff in H. destruct H as (H & H4). apply andb_true_iff in H. destruct H as (H & H3).
  apply andb_true_iff in H. destruct H as (-> & H2). apply negb_true_iff in H3.
  exists m, p, (strain64 (-9765625) (-8)), y, x, w.
  split; [exact E1|]. split; [exact E2|]. split; [exact E3|]. split; [exact H2|]. split; [exact E4|].
  split; [exact H3|]. split; [exact E5|exact H4].
Qed.

(** ** Undefined behaviour *)

Definition null_stretch : list (EmCall E64) := setters cable_both PTCreep PTNull 1024.
Lemma null_stretch_ub : is_ok (em_run ElongModel_new null_stretch) = true /\
  match em_run ElongModel_new (null_stretch ++ [EmValidate true]) with UB => true | _ => false end = true.
Proof. split; vm_compute; reflexivity. Qed.

Theorem undefined_refuted :
  (exists lm (cs : list (EmCall (B64 lm))), is_ok (em_run ElongModel_new cs) = true /\
     em_run ElongModel_new (cs ++ [EmValidate true]) = UB) /\
  (forall N : Num, em_run (N := N) ElongModel_new [EmSetCable (Some StCable_new)] = UB).
Proof.
  split; [|intros N; reflexivity]. destruct null_stretch_ub as (H1 & H2). exists libm64, null_stretch. split; [exact H1|].
  destruct (em_run ElongModel_new (null_stretch ++ [EmValidate true])); try discriminate H2. reflexivity.
Qed.

(** ** Decreasing polynomials *)

Definition dip_check : bool :=
  match em_run ElongModel_new (setters cable_dip PTLoadStrain PTLoadStrain 0) with
  | Ok m =>
      match em_Validate true m with
      | Ok (v, _) =>
          match cable_load m (strain64 456 (-4)), cable_load m (strain64 877 (-4)) with
          | Ok x, Ok y => v && (strain64 456 (-4) <? strain64 877 (-4)) && (y <? x)
          | _, _ => false
          end
      | _ => false
      end
  | _ => false
  end.
Lemma dip_true : dip_check = true.
Proof. vm_compute. reflexivity. Qed.

Theorem dip_refuted : exists lm (cs : list (EmCall (B64 lm))) m p e f x y,
  em_run ElongModel_new cs = Ok m /\ em_Validate true m = Ok (true, p) /\ (e <? f) = true /\
  cable_load m e = Ok x /\ cable_load m f = Ok y /\ (y <? x) = true.
Proof.
  exists libm64, (setters cable_dip PTLoadStrain PTLoadStrain 0). pose proof dip_true as H. unfold dip_check in H.
  destruct (em_run ElongModel_new (setters cable_dip PTLoadStrain PTLoadStrain 0)) as [m| |] eqn:E1; try discriminate H.
  destruct (em_Validate true m) as [(v, p)| |] eqn:E2; try discriminate H.
  destruct (cable_load m (strain64 456 (-4))) as [x| |] eqn:E3; try discriminate H.
  destruct (cable_load m (strain64 877 (-4))) as [y| |] eqn:E4; try discriminate H.
  apply andb_true_iff in H. destruct H as (H & H3). apply andb_true_iff in H. destruct H as (-> & H2).
  exists m, p, (strain64 456 (-4)), (strain64 877 (-4)), x, y. auto 10.
Qed.

(** ** The scale of the load *)

Definition scaled : list (CmCall E64) :=
  [CmSetComponent (Some (sk_set_base (Some (s_comp (line 65536) (line 65536) 32768 32768 1024 262144 2))));
   CmSetState (Some (s_state PTLoadStrain)); CmSetStretch (Some (s_stretch PTLoadStrain 0)); CmSetTref (Some (z64 64))].

Definition scaled_check : bool :=
  match cm_run CompModel_new scaled with
  | Ok m =>
      match cm_Validate true m, cm_Load m (strain64 1 (-2)) with
      | Ok (v, _), Ok (y, p) =>
          match cm_Strain p y with
          | Ok (x, _) => v && (strain64 1 (-2) <? x)
          | _ => false
          end
      | _, _ => false
      end
  | _ => false
  end.
Lemma scaled_true : scaled_check = true.
Proof. vm_compute. reflexivity. Qed.

Theorem scaled_refuted : exists lm (cs : list (CmCall (B64 lm))) m n e y p x q,
  cm_run CompModel_new cs = Ok m /\ cm_Validate true m = Ok (true, n) /\
  cm_Load m e = Ok (y, p) /\ cm_Strain p y = Ok (x, q) /\ (e <? x) = true.
Proof.
  exists libm64, scaled. pose proof scaled_true as H. unfold scaled_check in H.
  destruct (cm_run CompModel_new scaled) as [m| |] eqn:E1; try discriminate H.
  destruct (cm_Validate true m) as [(v, n)| |] eqn:E2; try discriminate H.
  destruct (cm_Load m (strain64 1 (-2))) as [(y, p)| |] eqn:E3; try discriminate H.
  destruct (cm_Strain p y) as [(x, q)| |] eqn:E4; try discriminate H.
  apply andb_true_iff in H. destruct H as (-> & H). exists m, n, (strain64 1 (-2)), y, p, x, q. auto.
Qed.
