(** Cases for PropDefined.v *)
From Coq Require Import ZArith Bool List Reals Lra.
From Verif Require Import Num NumFacts ModelBase ModelAlignment ModelLine ModelCatenary SpecCatenary ModelCable ModelLoad ModelElongation ModelReload
  ModelThermal ModelSagtension ModelSagging ModelLocator SpecLocator SpecSagSafe SpecTransmission SpecDefined ProofCorrectorCases
  SampleMath SampleLocator.
Import ListNotations.
Open Scope list_scope.

Lemma verdict_cases :
  corrector_verdict (Some (rl_line 2)) (Some rl_points) = Ok tt /\
  (exists p, corrector_verdict (Some (rl_line 2)) (Some [p]) = UB) /\
  corrector_verdict (Some (rl_line 2)) (Some []) = Throw /\ fastened [] (rl_line 2).
Proof.
  destruct (rl_span 2) as (s & E & V & _); [lra|].
  assert (K : forall ps, corrector_verdict (Some (rl_line 2)) ps =
    match ps with None => UB | Some [] => Throw | Some [_] => UB | Some (_ :: _ :: _) => Ok tt end).
  { intros ps. unfold corrector_verdict. rewrite E, V. reflexivity. }
  rewrite !K. split; [reflexivity|]. split; [exists Point3d_default; rewrite K; reflexivity|]. split; [reflexivity|].
  left. cbn. auto.
Qed.

(** A line of three structures, made by calls. *)
Definition k_made : list (LineCall M64 unit) :=
  [CSetOrigin (mkPoint3d (N := M64) (m64 0) (m64 0) (m64 0));
   CAddAlignmentPoint (k_ap 0 0); CAddAlignmentPoint (k_ap 0 2000); CAddAlignmentPoint (k_ap (-30) 1000);
   CAddLineStructure (k_ls DeadEnd 2000); CAddLineStructure (k_ls DeadEnd 0); CAddLineStructure (k_ls Suspension 1000);
   CAddLineCable [mkConn (N := M64) 0 (SOwned 1); mkConn (N := M64) 0 (SOwned 2); mkConn (N := M64) 0 (SOwned 0)] tt].
Definition k_made_line : Line M64 unit := match line_run k_made with Some l => l | None => Line_empty end.
Definition k_made_ok : bool :=
  match line_run k_made with Some _ => true | None => false end &&
  Nat.eqb (length (tl_line_cables k_made_line)) 1 &&
  match PointsCableAttachment (k_loc k_made_line 1) with Ok (Some [_; _; _], _) => true | _ => false end.
Lemma k_made_true : k_made_ok = true. Proof. vm_cast_no_check (eq_refl true). Qed.

Lemma equipped_by : forall l : Line M64 unit, Nat.eqb (length (tl_line_cables l)) 1 = true ->
  match PointsCableAttachment (k_loc l 1) with Ok (Some [_; _; _], _) => true | _ => false end = true -> reachable (N := M64) num64 l ->
  exists ks s ps s', Forall (takes_lines (N := M64) num64) ks /\ pl_run (@Locator_new M64 unit) ks = Ok s /\ equipped s /\
    PointsCableAttachment s = Ok (Some ps, s') /\ length ps = 3%nat.
Proof.
  intros l L Q R. destruct (PointsCableAttachment (k_loc l 1)) as [[[ps|] s']| |] eqn:E; try discriminate Q.
  exists (k_calls l 1), (k_loc l 1), ps, s'. split.
  { constructor; [exact I|]. constructor; [exact I|]. constructor; [exact R|]. repeat constructor. }
  split; [reflexivity|]. split.
  { exists l. split; [reflexivity|]. split; [|discriminate]. apply Nat.eqb_eq in L. rewrite L. split; reflexivity || (cbn; discriminate). }
  split; [exact E|]. destruct ps as [|? [|? [|? [|? ?]]]]; try discriminate Q. reflexivity.
Qed.

Lemma locator_equipped : exists ks s ps s', Forall (takes_lines (N := M64) num64) ks /\ pl_run (@Locator_new M64 unit) ks = Ok s /\ equipped s /\
  PointsCableAttachment s = Ok (Some ps, s') /\ length ps = 3%nat.
Proof.
  pose proof k_made_true as H. unfold k_made_ok in H. apply andb_prop in H. destruct H as (H & Q). apply andb_prop in H. destruct H as (H & L).
  apply (equipped_by k_made_line L Q). unfold k_made_line. destruct (line_run k_made) as [l|] eqn:E; [|discriminate H].
  exists k_made. split; [repeat constructor|exact E].
Qed.
