(** Lines, locators and equilibrium solvers in doubles, evaluated with [math64]. *)
From Coq Require Import ZArith Bool List.
From Verif Require Import Num ModelBase ModelAlignment ModelLine ModelCatenary ModelThermal ModelLocator SpecLocator SampleMath.
Import ListNotations.
Open Scope num_scope.

(** Structures of height 100 with one attachment and hardware of length 10. *)
Definition k_st : Structure M64 := mkStructure (N := M64) [mkAttachment (N := M64) (m64 0) (m64 0) (m64 0)] (m64 100).
Definition k_hw (t : HardwareType) : option (Hardware M64) := Some (mkHardware (N := M64) (m64 1) (m64 10) t (m64 100)).
Definition k_ls (t : HardwareType) (s : Z) : LineStructure M64 := mkLS (N := M64) [k_hw t] (m64 0) (m64 0) (m64 0) (m64 s) (Some k_st).
Definition k_ap (r s : Z) : AlignmentPoint M64 := mkAP (N := M64) (m64 0) (m64 r) (m64 s).

(** A line of three structures that starts at the heading [r0] and turns by [r] (degrees,
    counterclockwise) at the second structure. *)
Definition k_line (r0 r : Z) : Line M64 unit :=
  mkLine (N := M64) [k_ap r0 0; k_ap r 1000; k_ap 0 2000]
    [mkLC (N := M64) [mkConn (N := M64) 0 (SOwned 0); mkConn (N := M64) 0 (SOwned 1); mkConn (N := M64) 0 (SOwned 2)] tt]
    [(0%nat, k_ls DeadEnd 0); (1%nat, k_ls Suspension 1000); (2%nat, k_ls DeadEnd 2000)]
    (mkPoint3d (N := M64) (m64 0) (m64 0) (m64 0)) false false [] [] 9.
Definition k_calls (l : Line M64 unit) (transverse : Z) : list (PlCall M64 unit) :=
  [PlSetDirection ADPositive; PlSetIndex 0; PlSetLine (Some l); PlSetTension (m64 5000);
   PlSetWeight (Some (mkVector3d (N := M64) (m64 0) (m64 transverse) (m64 1)))].
Definition k_loc (l : Line M64 unit) (transverse : Z) : Locator M64 unit :=
  pl_fresh ADPositive 0 (Some l) (m64 5000) (Some (mkVector3d (N := M64) (m64 0) (m64 transverse) (m64 1))).

(** Validate accepts the locator, and the inner of three attachments has the property. *)
Definition k_inner (s : Locator M64 unit) (f : Point3d M64 -> bool) : bool :=
  match pl_Validate (Ok true) s with
  | Ok (true, s') => pl_updated s' && match pl_cable s' with [_; p; _] => f p | _ => false end
  | _ => false
  end.
Definition between (a : Z) (x : M64) (b : Z) : bool := (m64 a <? x) && (x <? m64 b).

Lemma k_wind : k_inner (k_loc (k_line 90 0) 1) (fun p => between 1 (p3x p) 2 && between 1007 (p3y p) 1008) = true.
Proof. vm_cast_no_check (eq_refl true). Qed.
Lemma k_turn0 : k_inner (k_loc (k_line 0 (-30)) 0) (fun p => between 997 (p3x p) 998 && between (-91) (m64 10 * p3y p) (-90)) = true.
Proof. vm_cast_no_check (eq_refl true). Qed.
Lemma k_turn90 : k_inner (k_loc (k_line 90 (-30)) 0) (fun p => between (-10) (p3x p) (-9) && between 1002 (p3y p) 1003) = true.
Proof. vm_cast_no_check (eq_refl true). Qed.
Lemma k_turn0_wind : k_inner (k_loc (k_line 0 (-30)) 1) (fun p => between 997 (p3x p) 998 && between (-93) (m64 10 * p3y p) (-92)) = true.
Proof. vm_cast_no_check (eq_refl true). Qed.

(** A cable between two structures only. *)
Definition k_span : Line M64 unit :=
  mkLine (N := M64) [k_ap 0 0; k_ap 0 1000]
    [mkLC (N := M64) [mkConn (N := M64) 0 (SOwned 0); mkConn (N := M64) 0 (SOwned 1)] tt]
    [(0%nat, k_ls DeadEnd 0); (1%nat, k_ls DeadEnd 1000)] (mkPoint3d (N := M64) (m64 0) (m64 0) (m64 0)) false false [] [] 9.
Definition k_two : bool :=
  match PointsCableAttachment (k_loc k_span 1) with Ok (Some [_; _], _) => true | _ => false end.
Lemma k_two_ok : k_two = true. Proof. vm_cast_no_check (eq_refl true). Qed.

(** The supports behind and ahead of the attachment are 300 higher. *)
Definition k_catenary (z : Z) : Catenary3d M64 := c3_run Catenary3d_default
  [C3SetDirection ADPositive; C3SetSpacing (mkVector3d (N := M64) (m64 1000) (m64 0) (m64 z)); C3SetTension (m64 5000);
   C3SetWeight (mkVector3d (N := M64) (m64 0) (m64 0) (m64 1))].
Definition k_valley : list (AeCall M64) :=
  [AeSetAngleCatenaries (m64 180); AeSetAngleHardware (m64 180); AeSetBack (Some (k_catenary (-300))); AeSetAhead (Some (k_catenary 300));
   AeSetDirection ADPositive].
Definition k_valley_solver : Equilibrium M64 :=
  ae_fresh (m64 180) (m64 180) (Some (k_catenary (-300))) (Some (k_catenary 300)) ADPositive.
Definition k_uplift : bool :=
  match ae_Validate k_valley_solver with
  | Ok (true, s') => match ae_AngleEquilibrium s' with Ok (x, _) => (x <? m64 90) | _ => false end
  | _ => false
  end.
Lemma k_uplift_ok : k_uplift = true. Proof. vm_cast_no_check (eq_refl true). Qed.
