(** Resistance, heat terms and solutions of the thermal rating classes in exact arithmetic. *)
From Coq Require Import ZArith Bool List Reals Lra Lia.
From Verif Require Import Num NumFacts ModelBase ModelCable ModelThermal ModelSolver SpecSolver SpecThermal
  ProofReal ProofVector ProofSolverReal ProofThermal ProofThermalTemp.
Import ListNotations.
Open Scope R_scope.

(** Decide the comparisons of a goal between numbers. *)
Ltac rdec := repeat match goal with
  | |- context [Rltb ?a ?b] => first [rewrite (proj2 (Rltb_true a b)) by lra|rewrite (proj2 (Rltb_false a b)) by lra]
  | |- context [Rleb ?a ?b] => first [rewrite (proj2 (Rleb_true a b)) by lra|rewrite (proj2 (Rleb_false a b)) by lra]
  end.

(** ** Resistance *)
Lemma LinearY_line : forall (p q : ResistancePoint RNum) (t : R),
  LinearY (N := RNum) (rp_temperature p) (rp_resistance p) (rp_temperature q) (rp_resistance q) t = line_at p q t.
Proof. intros p q t. unfold LinearY, line_at. rn. rring. Qed.

Lemma loop_first : forall (p q : ResistancePoint RNum) rest (t : R), rp_temperature p < t -> t <> rp_temperature q ->
  resistance_loop p q rest t = (p, q).
Proof.
  intros p q rest t H1 H2.
  assert (A : Rltb (rp_temperature p) t = true) by (apply Rltb_true; exact H1).
  assert (B : Rltb t (rp_temperature q) = true \/ Rltb (rp_temperature q) t = true).
  { destruct (Rtotal_order t (rp_temperature q)) as [H|[H|H]]; [left; apply Rltb_true; exact H|contradiction|right; apply Rltb_true; exact H]. }
  destruct rest; cbn [resistance_loop]; rn; rewrite A; cbn [andb];
    destruct B as [B|B]; rewrite B; try reflexivity; destruct (Rltb t (rp_temperature q)); reflexivity.
Qed.

Lemma loop_last : forall rest (p q : ResistancePoint RNum) (t : R), ascending (p :: q :: rest) ->
  t <= rp_temperature p \/ t = rp_temperature q -> resistance_loop p q rest t = last_segment p q rest.
Proof.
  induction rest as [|r rest IH]; intros p q t A H; destruct A as (A1 & A2).
  - cbn [resistance_loop last_segment]. destruct (andb _ _); [reflexivity|]. destruct (andb _ _); reflexivity.
  - cbn [resistance_loop last_segment]. rn.
    assert (C1 : (Rltb (rp_temperature p) t && Rltb t (rp_temperature q))%bool = false).
    { destruct H as [H|H]; [rewrite (proj2 (Rltb_false (rp_temperature p) t)) by assumption; reflexivity|].
      rewrite (proj2 (Rltb_false t (rp_temperature q))) by lra. apply andb_false_r. }
    assert (C2 : (Rltb (rp_temperature p) t && Rltb (rp_temperature q) t)%bool = false).
    { destruct H as [H|H]; [rewrite (proj2 (Rltb_false (rp_temperature p) t)) by assumption; reflexivity|].
      rewrite (proj2 (Rltb_false (rp_temperature q) t)) by lra. apply andb_false_r. }
    rewrite C1, C2. apply IH; [exact A2|]. left. destruct H; lra.
Qed.

Theorem resistance_used : forall (p q : ResistancePoint RNum) rest (t : R), ascending (p :: q :: rest) ->
  table_resistance (p :: q :: rest) t =
    if Rle_dec t (rp_temperature p) then line_at (fst (last_segment p q rest)) (snd (last_segment p q rest)) t
    else if Req_EM_T t (rp_temperature q) then line_at (fst (last_segment p q rest)) (snd (last_segment p q rest)) t
    else line_at p q t.
Proof.
  intros p q rest t A. cbn [table_resistance].
  destruct (Rle_dec t (rp_temperature p)) as [H|H]; [|destruct (Req_EM_T t (rp_temperature q)) as [E|E]].
  - rewrite (loop_last rest p q t A (or_introl H)). destruct (last_segment p q rest) as [a b]. apply LinearY_line.
  - rewrite (loop_last rest p q t A (or_intror E)). destruct (last_segment p q rest) as [a b]. apply LinearY_line.
  - rewrite loop_first by lra. apply LinearY_line.
Qed.

(** The documented value for two points, and inside the first segment of any table. *)
Theorem resistance_first : forall (p q : ResistancePoint RNum) rest (t : R), ascending (p :: q :: rest) ->
  rest = [] \/ rp_temperature p < t < rp_temperature q ->
  table_resistance (p :: q :: rest) t = interpolated p q rest t.
Proof.
  intros p q rest t A H. rewrite resistance_used by exact A. destruct H as [->|H].
  - cbn [last_segment interpolated fst snd]. destruct Rle_dec; [reflexivity|]. destruct Req_EM_T; reflexivity.
  - destruct Rle_dec; [lra|]. destruct Req_EM_T; [lra|]. destruct rest as [|r rest]; [reflexivity|].
    cbn [interpolated]. destruct Rle_dec; [reflexivity|lra].
Qed.

(** ** std::pow with a fractional exponent *)
Lemma Rpow_frac : forall (x y : R) n, IZR n < y < IZR n + 1 -> Rpow_c x y = if Rlt_dec 0 x then Rpower x y else 0.
Proof.
  intros x y n H. unfold Rpow_c. destruct Req_EM_T as [E|E]; [exfalso|reflexivity].
  rewrite <- E in H. change 1 with (IZR 1) in H. rewrite <- plus_IZR in H. destruct H as (H1 & H2). apply lt_IZR in H1, H2. lia.
Qed.

Lemma Rpow_frac_nonneg : forall (x y : R) n, IZR n < y < IZR n + 1 -> 0 <= Rpow_c x y.
Proof. intros x y n H. rewrite (Rpow_frac x y n H). destruct Rlt_dec; [left; apply exp_pos|lra]. Qed.

Lemma Rpow_frac_pos : forall (x y : R) n, IZR n < y < IZR n + 1 -> 0 < x -> 0 < Rpow_c x y.
Proof. intros x y n H P. rewrite (Rpow_frac x y n H). destruct Rlt_dec; [apply exp_pos|contradiction]. Qed.

Lemma Rpow_frac_0 : forall (y : R) n, IZR n < y < IZR n + 1 -> Rpow_c 0 y = 0.
Proof. intros y n H. rewrite (Rpow_frac 0 y n H). destruct Rlt_dec; [lra|reflexivity]. Qed.

Lemma lit_half : IZR 5 * powerRZ 10 (-1) = 1 / 2. Proof. simpl. lra. Qed.
Lemma lit_075 : IZR 75 * powerRZ 10 (-2) = 3 / 4. Proof. simpl. lra. Qed.
Lemma lit_125 : IZR 125 * powerRZ 10 (-2) = 5 / 4. Proof. simpl. lra. Qed.

Definition knat (u : UnitSystem) : R := match u with Imperial => 1825 / 1000 | _ => 3645 / 1000 end.

Lemma natural_R : forall u (d : R) (w : ThermalRatingWeather RNum) (density t : R), u <> USNull ->
  HeatConvectionNatural (N := RNum) u d w density t =
    knat u * Rpow_c density (1 / 2) * Rpow_c d (3 / 4) * Rpow_c (t - tw_temperature_air w) (5 / 4).
Proof.
  intros u d w density t U. unfold HeatConvectionNatural. rn. rewrite ?flit_R, lit_half, lit_075, lit_125.
  destruct u; [congruence|..]; cbn [knat]; (replace (1825 / 1000) with (IZR 1825 * powerRZ 10 (-3)) by (simpl; lra)) ||
    (replace (3645 / 1000) with (IZR 3645 * powerRZ 10 (-3)) by (simpl; lra)); reflexivity.
Qed.

Lemma knat_pos : forall u, 0 < knat u.
Proof. intros []; cbn [knat]; lra. Qed.

(** The density of air is positive at every elevation. *)
Lemma density_R : forall u (e f : R), u <> USNull -> density_air (N := RNum) u e f =
  (match u with Imperial => 80695 / 1000000 - 2901 / 1000000000 * e + 37 / 1000000000000 * (e * e)
   | _ => 1293 / 1000 - 1525 / 10000000 * e + 6379 / 1000000000000 * (e * e) end) / (1 + 367 / 100000 * f).
Proof.
  intros u e f U. unfold density_air. rn. rewrite !flit_R, ?Rpow_c_Z, ?Rpow_2.
  destruct u; [congruence|..]; simpl; f_equal; field.
Qed.

Lemma density_pos : forall u (e f : R), u <> USNull -> -200 <= f -> 0 < density_air (N := RNum) u e f.
Proof.
  intros u e f U H. rewrite density_R by exact U. apply Rdiv_lt_0_compat; [|lra].
  destruct u; [congruence|..].
  - assert (0 <= (37 * e - 1450500) * (37 * e - 1450500)) by apply Rle_0_sqr. lra.
  - assert (0 <= (6379 * e - 76250000) * (6379 * e - 76250000)) by apply Rle_0_sqr. lra.
Qed.

(** ** Convection *)
Lemma convection_le : forall u (d : R) (w : ThermalRatingWeather RNum) (t : R), u <> USNull ->
  convection (N := RNum) u d w t <=
  - HeatConvectionNatural (N := RNum) u d w (density_air (N := RNum) u (tw_elevation w) ((t + tw_temperature_air w) / 2)) t.
Proof.
  intros u d w t U. unfold convection. rn. destruct (Rltb _ _) eqn:E; rbool; lra.
Qed.

Lemma convection_sign : forall u (d : R) (w : ThermalRatingWeather RNum) (t : R), u <> USNull -> convection (N := RNum) u d w t <= 0.
Proof.
  intros u d w t U. eapply Rle_trans; [apply convection_le, U|]. rewrite natural_R by exact U.
  assert (K := knat_pos u).
  assert (A := fun x => Rpow_frac_nonneg x (1 / 2) 0 ltac:(lra)).
  assert (B := fun x => Rpow_frac_nonneg x (3 / 4) 0 ltac:(lra)).
  assert (C := fun x => Rpow_frac_nonneg x (5 / 4) 1 ltac:(lra)).
  set (dd := density_air _ _ _). specialize (A dd). specialize (B d). specialize (C (t - tw_temperature_air w)).
  assert (0 <= knat u * Rpow_c dd (1 / 2) * Rpow_c d (3 / 4) * Rpow_c (t - tw_temperature_air w) (5 / 4));
    [repeat apply Rmult_le_pos; lra|lra].
Qed.

Lemma convection_strict : forall u (d : R) (w : ThermalRatingWeather RNum) (t : R), u <> USNull -> 0 < d -> -100 <= tw_temperature_air w -> tw_temperature_air w < t ->
  convection (N := RNum) u d w t < 0.
Proof.
  intros u d w t U D A T. eapply Rle_lt_trans; [apply convection_le, U|]. rewrite natural_R by exact U.
  assert (K := knat_pos u).
  assert (P := density_pos u (tw_elevation w) ((t + tw_temperature_air w) / 2) U ltac:(lra)).
  set (dd := density_air _ _ _) in *.
  assert (X := Rpow_frac_pos dd (1 / 2) 0 ltac:(lra) P).
  assert (Y := Rpow_frac_pos d (3 / 4) 0 ltac:(lra) D).
  assert (Z := Rpow_frac_pos (t - tw_temperature_air w) (5 / 4) 1 ltac:(lra) ltac:(lra)).
  assert (0 < knat u * Rpow_c dd (1 / 2) * Rpow_c d (3 / 4) * Rpow_c (t - tw_temperature_air w) (5 / 4));
    [repeat apply Rmult_lt_0_compat; lra|lra].
Qed.

Lemma convection_air : forall u (d : R) (w : ThermalRatingWeather RNum), u <> USNull -> convection (N := RNum) u d w (tw_temperature_air w) = 0.
Proof.
  intros u d w U. unfold convection, HeatConvectionForced. rewrite natural_R by exact U. rn.
  rewrite Rminus_eq_0, (Rpow_frac_0 (5 / 4) 1) by lra. rewrite !Rmult_0_r. rdec. ring.
Qed.

(** ** Radiation *)
Definition krad (u : UnitSystem) : R := match u with Imperial => 1656 / 1000 | _ => 178 / 10 end.

Lemma krad_pos : forall u, 0 < krad u.
Proof. intros []; cbn [krad]; lra. Qed.

Lemma Rpow_4 : forall x, Rpow_c x 4 = x * x * (x * x).
Proof. intros x. rewrite Rpow_c_Z. simpl. ring. Qed.

Lemma radiation_R : forall u (b : Cable RNum) (w : ThermalRatingWeather RNum) (t : R), u <> USNull -> radiation (N := RNum) u b w t =
  - (krad u * cb_diameter b * cb_emissivity b *
     (((t + 273) / 100) * ((t + 273) / 100) * (((t + 273) / 100) * ((t + 273) / 100)) -
      ((tw_temperature_air w + 273) / 100) * ((tw_temperature_air w + 273) / 100) *
      (((tw_temperature_air w + 273) / 100) * ((tw_temperature_air w + 273) / 100)))).
Proof.
  intros u b w t U. unfold radiation. rn. rewrite !flit_R, !Rpow_4.
  destruct u; [congruence|..]; cbn [krad].
  - replace (IZR 1656 * powerRZ 10 (-3)) with (1656 / 1000) by (simpl; lra). rring.
  - replace (IZR 178 * powerRZ 10 (-1)) with (178 / 10) by (simpl; lra). rring.
Qed.

Lemma fourth_lt : forall x y, 0 < x < y -> x * x * (x * x) < y * y * (y * y).
Proof.
  intros x y H. assert (0 < x * x) by nra. assert (x * x < y * y) by nra. nra.
Qed.

Lemma radiation_air : forall u (b : Cable RNum) (w : ThermalRatingWeather RNum), u <> USNull -> radiation (N := RNum) u b w (tw_temperature_air w) = 0.
Proof. intros u b w U. rewrite radiation_R by exact U. rring. Qed.

Lemma radiation_decreases : forall u (b : Cable RNum) (w : ThermalRatingWeather RNum) (t t' : R), u <> USNull -> 0 < cb_diameter b -> 0 < cb_emissivity b ->
  -273 < t -> t < t' -> radiation (N := RNum) u b w t' < radiation (N := RNum) u b w t.
Proof.
  intros u b w t t' U D E H H'. rewrite !radiation_R by exact U.
  assert (F := fourth_lt ((t + 273) / 100) ((t' + 273) / 100) ltac:(lra)).
  assert (P : 0 < krad u * cb_diameter b * cb_emissivity b) by (assert (K := krad_pos u); repeat apply Rmult_lt_0_compat; assumption).
  assert (L := Rmult_lt_compat_l _ _ _ P F). lra.
Qed.

Lemma radiation_sign : forall u (b : Cable RNum) (w : ThermalRatingWeather RNum) (t : R), u <> USNull -> 0 <= cb_diameter b -> 0 <= cb_emissivity b ->
  -273 < tw_temperature_air w <= t -> radiation (N := RNum) u b w t <= 0.
Proof.
  intros u b w t U D E (H & T). rewrite radiation_R by exact U.
  assert (K := krad_pos u). assert (0 <= krad u * cb_diameter b * cb_emissivity b) by (repeat apply Rmult_le_pos; lra).
  destruct (Rle_lt_or_eq_dec _ _ T) as [L|L].
  - assert (F := fourth_lt ((tw_temperature_air w + 273) / 100) ((t + 273) / 100) ltac:(lra)). nra.
  - rewrite <- L. nra.
Qed.

(** ** What valid inputs are *)
Lemma cable_valid : forall b : Cable RNum, trc_Validate (mkThermalRatingCable (Some b)) = true ->
  0 < cb_diameter b /\ 0 <= cb_absorptivity b <= 1 /\ 0 <= cb_emissivity b <= 1 /\
  0 <= cc_capacity_heat (cb_core b) /\ 0 <= cc_capacity_heat (cb_shell b) /\
  (exists p q rest, cb_resistances b = p :: q :: rest) /\ ascending (cb_resistances b).
Proof.
  intros b H. unfold trc_Validate, Cable_Validate, component_valid, CableComponent_Validate in H. cbn [trc_base] in H. revert H. rn. intros H.
  repeat (apply andb_prop in H; destruct H as (H & ?)). rbool.
  repeat match goal with X : (_ || _)%bool = false |- _ => apply orb_false_iff in X; destruct X end. rbool.
  repeat split; try assumption; try lra.
  - destruct (cb_resistances b) as [|p [|q rest]]; [discriminate..|]. eauto.
  - clear - H2. revert H2. induction (cb_resistances b) as [|p [|q rest] IH]; intros H; try exact I.
    cbn [temperatures_ascend] in H. revert H. rn. intros H. rbool. split; [assumption|]. apply IH; assumption.
Qed.

Lemma weather_valid : forall w : ThermalRatingWeather RNum, tw_Validate w = true ->
  0 <= tw_angle_wind w <= 90 /\ 0 <= tw_elevation w /\ 0 <= tw_radiation_solar w /\ 0 <= tw_speed_wind w /\
  -100 <= tw_temperature_air w <= 100.
Proof.
  intros w H. unfold tw_Validate in H. revert H. rn. intros H.
  repeat (apply andb_prop in H; destruct H as (H & ?)). rbool.
  repeat match goal with X : (_ || _)%bool = false |- _ => apply orb_false_iff in X; destruct X end. rbool.
  repeat split; assumption.
Qed.

(** ** The balance *)
Lemma sums_balance : forall (b : Cable RNum) u w (t : R), let s := sums b u w t in
  ht_convection s + ht_radiation s + ht_resistance s + ht_solar s + ht_storage s = 0 /\ (ht_storage s : R) = 0.
Proof. intros b u w t s. unfold s, sums. cbn [ht_convection ht_radiation ht_resistance ht_solar ht_storage]. rn. split; [rring|reflexivity]. Qed.

Lemma amps_square : forall (b : Cable RNum) (t : R) (s : HeatState RNum), 0 < table_resistance (cb_resistances b) t ->
  let i : R := amps b t s in
  i * i * table_resistance (cb_resistances b) t = Rabs (ht_resistance s) /\
  (i < 0 <-> ht_resistance s < 0) /\ (0 < i <-> 0 < ht_resistance s).
Proof.
  intros b t s P i. unfold i, amps. rn. change (F RNum) with R. set (q := ht_resistance s). set (r := table_resistance (cb_resistances b) t) in *. change (F RNum) with R in (type of q), (type of r).
  assert (N0 : 0 <= Rabs q / r) by (apply Rmult_le_pos; [apply Rabs_pos|left; apply Rinv_0_lt_compat, P]).
  assert (S := sqrt_sqrt _ N0). assert (SP := sqrt_pos (Rabs q / r)).
  assert (E : Rabs q / r * r = Rabs q) by (field; lra).
  assert (Z : q <> 0 -> 0 < sqrt (Rabs q / r)).
  { intros H. apply sqrt_lt_R0. apply Rdiv_lt_0_compat; [apply Rabs_pos_lt, H|exact P]. }
  set (x := sqrt (Rabs q / r)) in *. destruct (Rltb q 0) eqn:C; rbool.
  - specialize (Z ltac:(lra)). split; [rewrite <- E, <- S; ring|]. split; split; intros; lra.
  - split; [rewrite S; exact E|]. split; split; intros H; try lra.
    + destruct C as [C|C]; [exact C|]. exfalso. assert (x = 0) by (unfold x; rewrite <- C, Rabs_R0; unfold Rdiv; rewrite Rmult_0_l; apply sqrt_0). lra.
Qed.

(** ** The temperature solver *)
Lemma step_moved : forall (f : R -> R) (t : R) (l r : Point2d RNum),
  let x := step_x (N := RNum) t l r in
  let q := step_points (N := RNum) t l r (mkPoint2d (N := RNum) x (f x)) in
  moved f t l r (fst q) (snd q) /\ x = next_x f t l r.
Proof.
  intros f t l r x q. split; [|reflexivity]. change x with (next_x f t l r) in q. unfold q, step_points. clear q x. cbn [p2x p2y]. rn.
  set (x := next_x f t l r).
  destruct (Rltb x (p2x l)) eqn:E1; [apply mv_left; apply Rltb_true, E1|]. apply Rltb_false in E1.
  destruct (Rltb (p2x l) x) eqn:E2; destruct (Rltb x (p2x r)) eqn:E3; cbn [andb].
  1: apply Rltb_true in E2; apply Rltb_true in E3; destruct (Rltb (f x) t) eqn:E4; [|destruct (Rltb t (f x)) eqn:E5]; cbn [fst snd];
     [apply mv_in_right; [split; assumption|apply Rltb_true, E4]
     |apply mv_in_left; [split; assumption|apply Rltb_true, E5]
     |apply mv_stuck; intros _; apply Rltb_false in E4; apply Rltb_false in E5; apply Rle_antisym; assumption].
  all: destruct (Rltb (p2x r) x) eqn:E4; cbn [fst snd];
      [apply mv_right; [assumption|apply Rltb_true, E4]
      |apply mv_stuck; fold x; intros Q; exfalso; first [apply Rltb_false in E2|apply Rltb_false in E3]; lra].
Qed.

Lemma lit01 : IZR 1 * powerRZ 10 (-1) = 1 / 10.
Proof. simpl. lra. Qed.

Section Secant.
Variable c : option (ThermalRatingCable RNum).
Variable u : UnitSystem.
Variable w : option (ThermalRatingWeather RNum).
Variable target : R.
Let f : R -> R := curve (N := RNum) c u w.

Definition sec_inv (s : TempState RNum) : Prop :=
  (p2y (tl_left s) : R) = f (p2x (tl_left s)) /\ (p2y (tl_right s) : R) = f (p2x (tl_right s)) /\
  (1 / 10 < Rabs (p2x (tl_left s) - p2x (tl_right s)) \/
   secant_close f target (Rabs (p2x (tl_left s) - p2x (tl_right s))) (p2x (tl_current s))).

Lemma temp_loop_sec : forall fuel s, at_some c u w s -> sec_inv s -> (101 <= tl_iter s + Z.of_nat fuel)%Z ->
  forall s', temp_loop (N := RNum) target fuel s = Ok s' -> (tl_iter s' < 100)%Z ->
  secant_close f target (1 / 10) (p2x (tl_current s')).
Proof using.
  induction fuel as [|n IH]; intros s A I HF s' E K; cbn [temp_loop] in E.
  { injection E as <-. lia. }
  destruct (andb _ _) eqn:C.
  - apply andb_prop in C. destruct C as (C1 & C2).
    destruct (temp_pass_ok c u w target s A) as (s1 & E1 & S1 & Cu1 & It1 & P1). rewrite E1 in E. cbn [obind] in E.
    apply (IH s1) with (s' := s'); try assumption; [eexists; exact S1| |rewrite It1; lia].
    destruct I as (I1 & I2 & _).
    revert C1. rn. rewrite flit_R, lit01. intros C1. apply Rltb_true in C1.
    destruct (step_moved f target (tl_left s) (tl_right s)) as (M & X).
    change (curve c u w) with f in P1, Cu1. rewrite <- P1 in M. cbn [fst snd] in M.
    destruct (moved_close (1 / 10) f target _ _ _ _ ltac:(lra) I1 I2 C1 M) as (Q1 & Q2 & Q3).
    split; [exact Q1|]. split; [exact Q2|]. rewrite Cu1. cbn [p2x]. exact Q3.
  - injection E as <-. apply andb_false_iff in C. destruct C as [C|C]; [|apply Z.leb_gt in C; lia].
    revert C. rn. rewrite flit_R, lit01. intros C. apply Rltb_false in C. destruct I as (_ & _ & [I|I]); [exfalso; apply (Rlt_not_le _ _ I C)|].
    destruct I as (a & b & N1 & N2 & E1 & E2). exists a, b. repeat split; try assumption. lra.
Qed.
End Secant.

Lemma solve_temperature_spec : forall c (i : R) u w st t, solve_temperature (N := RNum) c i u (Some w) = Ok (true, (st, t)) ->
  st = hstate c u (Some w) t /\ secant_close (curve (N := RNum) c u (Some w)) i (1 / 10) t.
Proof.
  intros c i u w st t H. destruct (solve_start (N := RNum) c i u w) as (s & P & E). rewrite E in H. clear E.
  assert (A0 : at_some c u (Some w) (start c u w s)) by (eexists; exact P).
  destruct (temp_loop_ok c u (Some w) i (Z.to_nat 102) (start c u w s) A0) as (s3 & E3 & (t3 & P3) & D3).
  rewrite E3 in H. cbn [obind] in H. destruct (tl_iter s3 <? 100)%Z eqn:K; [|discriminate H]. apply Z.ltb_lt in K.
  assert (SC : secant_close (curve (N := RNum) c u (Some w)) i (1 / 10) (p2x (tl_current s3))).
  { apply temp_loop_sec with (fuel := Z.to_nat 102) (s := start c u w s); try assumption.
    - unfold sec_inv, start. cbn [tl_left tl_right tl_current p2x p2y]. split; [reflexivity|]. split; [reflexivity|]. left. rn.
      replace (_ - _) with (-10) by ring. rewrite Rabs_left by lra. lra.
    - unfold start. cbn [tl_iter]. rewrite Z2Nat.id; lia. }
  destruct D3 as [->|D3].
  { exfalso. revert E3. change (Z.to_nat 102) with (S (Z.to_nat 101)). cbn [temp_loop].
    replace (andb _ _) with true.
    2: { symmetry. apply andb_true_intro. split; [|reflexivity]. unfold start. cbn [tl_left tl_right p2x]. rn. rewrite flit_R, lit01.
         apply Rltb_true. replace (_ - _) with (-10) by ring. rewrite Rabs_left by lra. lra. }
    destruct (temp_pass_ok c u (Some w) i _ A0) as (s1 & -> & S1 & _ & It1 & _). cbn [obind].
    intros E3. assert (G : forall fuel s s', at_some c u (Some w) s -> temp_loop (N := RNum) i fuel s = Ok s' -> (tl_iter s <= tl_iter s')%Z).
    { clear. induction fuel as [|n IH]; intros s s' A E; cbn [temp_loop] in E; [injection E as <-; lia|].
      destruct (andb _ _); [|injection E as <-; lia].
      destruct (temp_pass_ok c u (Some w) i s A) as (s1 & E1 & S1 & _ & It1 & _). rewrite E1 in E. cbn [obind] in E.
      assert (X := IH s1 s' ltac:(eexists; exact S1) E). lia. }
    assert (X := G _ s1 _ ltac:(eexists; exact S1) E3). rewrite It1 in X. lia. }
  assert (Q := probe_state _ _ _ _ _ D3). destruct (sc_StateHeatTransfer (tl_solver s3)) as [[st' s4]| |]; try discriminate Q.
  cbn [obind omap fst] in *. injection Q as ->. injection H as <- <-. split; [reflexivity|exact SC].
Qed.
