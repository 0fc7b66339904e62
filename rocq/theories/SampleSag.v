(** A fixed-point arithmetic with 20 binary places, and a line cable in it: instances of the
    theorems for every arithmetic that are quickly computed. *)
From Coq Require Import ZArith Bool List Lia.
From Verif Require Import Num ModelBase ModelLine ModelCable ModelCatenary ModelSolver ModelLoad ModelThermal
  ModelElongation ModelReload ModelSagtension SpecSagtension.
Import ListNotations.
Open Scope Z_scope.

(** A number is an integer times 2^-20. *)
Definition one20 : Z := 2 ^ 20.
Definition r20 (a b : Z) : Z := a * one20 / b.
Definition mul20 (x y : Z) : Z := Z.shiftr (x * y) 20.
Definition div20 (x y : Z) : Z := Z.shiftl x 20 / y.
Definition lit20 (m e : Z) : Z := match e with Zneg p => m * one20 / 10 ^ Zpos p | _ => m * 10 ^ e * one20 end.
(** Powers with the exponents 0 to 4. *)
Definition pow20 (x y : Z) : Z :=
  match Z.shiftr y 20 with
  | 0 => one20 | 1 => x | 2 => mul20 x x | 3 => mul20 (mul20 x x) x | 4 => mul20 (mul20 x x) (mul20 x x)
  | _ => 0
  end.
(** The first terms of the series of odd and even functions. *)
Definition odd20 (a b c x : Z) : Z := let y := mul20 x x in mul20 x (a + mul20 y (b + mul20 y c)).
Definition even20 (a b c x : Z) : Z := let y := mul20 x x in a + mul20 y (b + mul20 y c).
Definition sin20 : Z -> Z := odd20 1048576 (-174763) 8738.
Definition cos20 : Z -> Z := even20 1048576 (-524288) 43690.
Definition sinh20 : Z -> Z := odd20 1048576 174762 8738.
Definition cosh20 : Z -> Z := even20 1048576 524288 43690.
Definition asinh20 : Z -> Z := odd20 1048576 (-174763) 78643.
Definition asin20 : Z -> Z := odd20 1048576 174762 78643.
Definition atan20 : Z -> Z := odd20 1048576 (-349526) 209715.
Definition tan20 : Z -> Z := odd20 1048576 349525 139810.
Definition acos20 (x : Z) : Z := 1647099 - asin20 x.
Definition round20 (x : Z) : Z := Z.shiftl (Z.shiftr (x + 524288) 20) 20.

Definition X20 : Num := mkNum Z Z.add Z.sub mul20 div20 Z.opp Z.abs (fun x => Z.sqrt (Z.shiftl x 20)) Z.ltb Z.leb Z.eqb lit20 pow20
  sin20 cos20 tan20 asin20 acos20 atan20 sinh20 cosh20 asinh20 round20.

Lemma X20_ord : OrdLaws X20 (fun _ => True).
Proof. constructor; cbn; intros; lia. Qed.

Definition x20 (z : Z) : X20 := z * one20.

Definition g_comp (slope expansion strength : Z) : CableComponent X20 :=
  mkCableComponent (N := X20) (x20 1) (r20 1 expansion) (map x20 [0; slope; 0; 0; 0]) (map x20 [0; slope; 0; 0; 0]) (x20 strength)
    (x20 strength) (x20 1) (x20 slope) (x20 1) (x20 1).
Definition g_weather (t : Z) : WeatherLoadCase X20 := mkWeatherLoadCase (N := X20) (x20 0) (x20 0) (x20 t) (x20 0).
Definition g_constraint (t : Z) (limit : Z) (type : LimitType) : Constraint X20 :=
  mkConstraint (N := X20) (Some (g_weather t)) CdInitial limit type.
Definition g_spacing (x : Z) : Vector3d X20 := mkVector3d (N := X20) (x20 x) (x20 0) (x20 0).

(** A light cable and a heavy one, and lines of 8 ft with them. *)
Definition g_light : Cable X20 :=
  mkCable (N := X20) (x20 1) (x20 1) (g_comp 2 4096 16) (g_comp 6 4096 16) (r20 1 12) (x20 1) [] (x20 16) (x20 64) (r20 1 256).
Definition g_heavy : Cable X20 :=
  mkCable (N := X20) (x20 1) (x20 1) (g_comp 512 65536 64) (g_comp 512 65536 64) (r20 1 12) (x20 1) [] (x20 64) (x20 64) (x20 4).
Definition g_strung (cable : Cable X20) (own : Constraint X20) : Strung X20 :=
  mkLC [] (mkStringing (N := X20) (Some cable) own (g_spacing 8) (Some (g_weather 64)) (Some (g_weather 32))).
Definition g_line : Constraint X20 -> Strung X20 := g_strung g_light.

(** ** The reloader and the unloader *)
Definition g_own : Constraint X20 := g_constraint 64 (r20 1 2) LmHorizontal.
Definition g_lr : list (LrCall X20) :=
  [LrSetLine (Some (g_line g_own)); LrSetCondition CdInitial; LrSetWeather (Some (g_weather 96)); LrTensionHorizontal;
   LrSetWeather (Some (g_weather 64))].

(** The number with a state. *)
Definition number {B : Type} (o : outcome (X20 * B)) : Z := match o with Ok (x, _) => x | _ => -1 end.

Definition g_reloader : Reloader X20 := lr_fresh (Some (g_line g_own)) CdInitial (Some (g_weather 96)).
Lemma g_reload : match lr_Validate [] g_reloader with
  | Ok (v, r) =>
      v && (number (lr_TensionHorizontal r) <? r20 44 100) && (r20 43 100 <? number (lr_TensionHorizontal r)) &&
      negb (number (lr_TensionAverageComponent r CTCore) <? r20 10 100) &&
      negb (number (lr_TensionAverageComponent r CTShell) <? r20 30 100) &&
      is_ok (lr_TensionHorizontalComponent r CTCore)
  | _ => false
  end = true.
Proof. vm_cast_no_check (eq_refl true). Qed.

Definition g_unloader : Unloader X20 := lu_fresh (Some (g_line g_own)) CdInitial (g_spacing 9) (x20 80).
Lemma g_unload : match lu_Validate [] g_unloader with
  | Ok (v, u) => v && (number (lu_LengthUnloaded u) <? r20 86 10) && (r20 85 10 <? number (lu_LengthUnloaded u))
  | _ => false
  end = true.
Proof. vm_cast_no_check (eq_refl true). Qed.

(** ** The sagger, of a line with a negative limit *)
Definition g_loose : Strung X20 := g_line (g_constraint 64 (x20 (-1)) LmHorizontal).
Definition g_constraints : list (Constraint X20) := [g_constraint 64 (r20 1 2) LmHorizontal; g_constraint 32 (r20 1 2) LmHorizontal].
Definition g_sagger : Sagger X20 := sa_fresh (Some g_loose) (Some g_constraints).

Lemma g_sag : match sa_IndexConstraintControlling [] g_sagger with
  | Ok (i, s) => (i =? 1) && match sa_line s with
                             | Some l => match Strung_Validate [] l with Ok b => b | _ => false end
                             | None => false
                             end
  | _ => false
  end = true.
Proof. vm_cast_no_check (eq_refl true). Qed.

(** ** A sagger of a line limited by the sag *)
Definition g_sagged : Strung X20 := g_strung g_heavy (g_constraint 64 (r20 3 4) LmSag).
Definition g_taut : Constraint X20 := g_constraint 64 (x20 40) LmHorizontal.
Definition g_sagger_sag : Sagger X20 := sa_fresh (Some g_sagged) (Some [g_taut]).
Lemma g_sag_sag : match sa_Validate [] g_sagger_sag with
  | Ok (v, s) => v && (number (sa_LimitConstraint [] s) =? r20 3 4) && (x20 43 <? number (sa_TensionHorizontalActual [] s 0)) &&
                 (r20 107 100 <? number (sa_CapacityAllowable [] s 0))
  | _ => false
  end = true.
Proof. vm_cast_no_check (eq_refl true). Qed.
