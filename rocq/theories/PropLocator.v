(** Theorems about CableAttachmentEquilibriumSolver and CablePositionLocator. *)
From Coq Require Import ZArith Bool List Reals Lra.
From Verif Require Import Num NumFacts ModelBase ModelAlignment ModelLine ModelCatenary SpecCatenary SpecCatenary3 ModelThermal ModelLocator
  SpecLocator ProofReal ProofLocator ProofLocatorShape ProofLocatorReal ProofLocatorCase ProofEquilibrium SampleMath SampleLocator
  ProofLocatorCases.
Import ListNotations.
Open Scope R_scope.

(** C51 is false: after every successful update PointsCable reads outside of the container for
    the index of the last attachment. *)
Theorem points_cable_refuted : forall (N : Num) (P : Type) (ks : list (PlCall N P)) s ps s',
  pl_run Locator_new ks = Ok s -> PointsCableAttachment s = Ok (Some ps, s') -> ps <> [] ->
  forall num, PointsCable s (Z.of_nat (length ps) - 1) num = UB.
Proof.
  intros N P ks s ps s' RUN H NE num. apply (points_bounds s ps s' (run_current ks s RUN) H).
  split; [|reflexivity]. destruct ps; [congruence|]. cbn [length]. rewrite Nat2Z.inj_succ. apply Z.le_0_sub, (Zlt_le_succ 0), Zle_lt_succ, Nat2Z.is_nonneg.
Qed.
Print Assumptions points_cable_refuted.

(** C51 for the other indices.  Missing: the index of the last attachment, see above. *)
Theorem points_cable_partial : forall (N : Num) (P : Type) (ks : list (PlCall N P)) s ps s',
  pl_run Locator_new ks = Ok s -> PointsCableAttachment s = Ok (Some ps, s') -> forall index num,
  ((0 <= index < Z.of_nat (length ps) - 1)%Z -> exists qs, PointsCable s index num = Ok (qs, s') /\ length qs = Z.to_nat num) /\
  ((index < 0 \/ Z.of_nat (length ps) <= index)%Z -> PointsCable s index num = Ok ([], s')).
Proof. intros N P ks s ps s' RUN H index num. destruct (points_bounds s ps s' (run_current ks s RUN) H index num) as (A & B & _). exact (conj A B). Qed.
Print Assumptions points_cable_partial.

(** C51 after a failed update. *)
Theorem points_cable_failed : forall (N : Num) (P : Type) (s s' : Locator N P), PointsCableAttachment s = Ok (None, s') ->
  forall index num, PointsCable s index num = Ok ([], s').
Proof. exact @points_none. Qed.
Print Assumptions points_cable_failed.

Example points_cable_case : exists s ps s', pl_run Locator_new r_calls = Ok s /\ PointsCableAttachment s = Ok (Some ps, s') /\ length ps = 3%nat /\
  forall num, PointsCable s 2 num = UB.
Proof. exact last_index. Qed.

(** C103: the answers of an equilibrium solver after any calls are those of a new one with the
    last arguments. *)
Theorem equilibrium_history : forall (N : Num) (ks : list (AeCall N)) s, ae_run Equilibrium_new ks = Ok s ->
  ae_alike s (ae_fresh (last_of pickAe_catenaries ks ferr) (last_of pickAe_hardware ks ferr) (last_of pickAe_back ks None)
                (last_of pickAe_ahead ks None) (last_of pickAe_direction ks ADNull)).
Proof. exact @equilibrium_follows. Qed.
Print Assumptions equilibrium_history.

Example equilibrium_history_case : exists s x s1, ae_run (@Equilibrium_new RNum) e_solver = Ok s /\ ae_AngleEquilibrium s = Ok (x, s1).
Proof. destruct e_case as (s & x & s1 & A & _ & _ & _ & _ & _ & _ & B). exists s, x, s1. exact (conj A B). Qed.

(** C104: a hardware at the equilibrium angle leaves no imbalance (up to a 50000th of the
    tensions), for catenaries of the same horizontal tension without transverse load. *)
Theorem equilibrium_balance : forall (ks : list (AeCall RNum)) s back ahead x s1 kb ka, ae_run Equilibrium_new ks = Ok s ->
  ae_back s = Some back -> ae_ahead s = Some ahead ->
  back = c3_run (@Catenary3d_default RNum) kb -> ahead = c3_run (@Catenary3d_default RNum) ka -> usable3 back -> usable3 ahead ->
  (v3y (c3_weight back) : R) = 0 -> (v3y (c3_weight ahead) : R) = 0 ->
  (c3_tension_horizontal back : R) = c3_tension_horizontal ahead -> 0 <= ae_angle_catenaries s <= 180 ->
  ae_AngleEquilibrium s = Ok (x, s1) ->
  exists t s2, ae_TensionImbalance (ae_set_angle_hardware s1 x) = Ok (t, s2) /\
    0 <= t <= (c3_Tension back (1 : R) + c3_Tension ahead (0 : R)) / 50000.
Proof. exact equilibrium_balances. Qed.
Print Assumptions equilibrium_balance.

Example equilibrium_balance_case : exists s x s1, ae_run (@Equilibrium_new RNum) e_solver = Ok s /\ ae_back s = Some e_span /\ ae_ahead s = Some e_span /\
  usable3 e_span /\ (v3z (c3_TensionVector e_span (1 : R) ADNegative) + v3z (c3_TensionVector e_span (0 : R) ADPositive) < 0) /\
  (v3y (c3_weight e_span) : R) = 0 /\ (ae_angle_catenaries s : R) = 150 /\ ae_AngleEquilibrium s = Ok (x, s1).
Proof. exact e_case. Qed.

(** C105: an attachment pulled down has an equilibrium angle between 90 and 270 degrees. *)
Theorem equilibrium_range_partial : forall (ks : list (AeCall RNum)) s back ahead x s1, ae_run Equilibrium_new ks = Ok s ->
  ae_back s = Some back -> ae_ahead s = Some ahead ->
  (v3z (c3_TensionVector back (1 : R) ADNegative) + v3z (c3_TensionVector ahead (0 : R) ADPositive) < 0) ->
  ae_AngleEquilibrium s = Ok (x, s1) -> 90 - 1 / 1000000000 <= x <= 270 + 1 / 1000000000.
Proof. exact equilibrium_range. Qed.
Print Assumptions equilibrium_range_partial.

(** C105 is false for an attachment pulled up, in doubles. *)
Theorem equilibrium_range_refuted : exists s s' x s'', ae_run Equilibrium_new k_valley = Ok s /\ ae_Validate s = Ok (true, s') /\
  ae_AngleEquilibrium s' = Ok (x, s'') /\ (x <? m64 90)%num = true.
Proof. exact uplift. Qed.
Print Assumptions equilibrium_range_refuted.

(** C106: with a missing catenary the queries and Validate are undefined. *)
Theorem equilibrium_null_refuted : forall (N : Num) a h b c d, let s := ae_fresh (N := N) a h b c d in
  match b, c with
  | Some _, Some _ => is_ok (ae_AngleEquilibrium s) = true /\ is_ok (ae_TensionImbalance s) = true /\ is_ok (ae_Validate s) = true
  | _, _ => ae_AngleEquilibrium s = UB /\ ae_TensionImbalance s = UB /\ ae_Validate s = UB
  end.
Proof. exact @ae_defined. Qed.
Print Assumptions equilibrium_null_refuted.

(** C107: the answers of a locator after any calls are those of a new one with the last
    arguments; the line is the one last set but for its caches. *)
Theorem locator_history : forall (N : Num) (P : Type) (ks : list (PlCall N P)) s, pl_run Locator_new ks = Ok s ->
  same_line (last_of pickPl_line ks None) (pl_line s) /\
  pl_alike s (pl_fresh (last_of pickPl_direction ks ADNull) (last_of pickPl_index ks (-9999)%Z) (pl_line s)
                (last_of pickPl_tension ks ferr) (last_of pickPl_weight ks None)).
Proof. exact @locator_follows. Qed.
Print Assumptions locator_history.

(** C107: after a Validate that accepts the locator the queries answer. *)
Theorem locator_validated : forall (N : Num) (P : Type) parts (s s' : Locator N P), pl_Validate parts s = Ok (true, s') ->
  exists ps, PointsCableAttachment s' = Ok (Some ps, s').
Proof. exact @validated_answers. Qed.
Print Assumptions locator_validated.

Example locator_case : exists s s' a p b, pl_run Locator_new (k_calls (k_line 90 0) 1) = Ok s /\ pl_Validate (Ok true) s = Ok (true, s') /\
  PointsCableAttachment s' = Ok (Some [a; p; b], s') /\ (m64 1007 <? p3y p = true)%num /\ (m64 1 <? p3x p = true)%num.
Proof. exact wind_along. Qed.

(** C108: the search makes at most 100 passes. *)
Theorem locator_passes : forall (N : Num) c st (n : nat) im cs hs,
  (forall i cs' hs', position_loop (N := N) c st n 0 im cs hs = Ok (i, cs', hs') -> (0 <= i <= 100)%Z) /\
  (forall k, (100 < Z.of_nat n)%Z -> position_loop (N := N) c st (n + k) 0 im cs hs = position_loop c st n 0 im cs hs).
Proof.
  intros N c st n im cs hs. split.
  - intros i cs' hs' H. exact (loop_passes c st n 0 im cs hs i cs' hs' (conj (Z.le_refl 0) (Z.lt_le_incl 0 100 eq_refl)) H).
  - intros k L. exact (loop_fuel c st k n 0 im cs hs (Z.le_refl 0) L).
Qed.
Print Assumptions locator_passes.

(** C109: the cable is attached to the structures at the ends, and at the length of the
    hardware from the structures in between. *)
Theorem locator_hardware : forall (P : Type) ks s s' ps, pl_run (@Locator_new RNum P) ks = Ok s -> PointsCableAttachment s = Ok (Some ps, s') ->
  exists l cs, cable_connections s' l cs /\ length ps = length cs /\
    forall k c, nth_error cs k = Some c -> exists p q h,
      attached l c p /\ hangs_on l c h /\ nth_error ps k = Some q /\
      (k = 0%nat \/ S k = length cs -> q = p) /\
      ((0 < k)%nat -> (S k < length cs)%nat -> distance p q = Rabs (hw_length h)).
Proof. exact @rigid_hardware. Qed.
Print Assumptions locator_hardware.

(** C110: the points of a span run from the attachment at its back to the one ahead (up to two
    millionths of the span). *)
Theorem locator_span : forall (P : Type) ks s s' ps, pl_run (@Locator_new RNum P) ks = Ok s -> PointsCableAttachment s = Ok (Some ps, s') ->
  forall index num a b w, (0 <= index)%Z -> (2 <= num)%Z ->
    nth_error ps (Z.to_nat index) = Some a -> nth_error ps (S (Z.to_nat index)) = Some b ->
    ((p3x a : R) <> p3x b \/ (p3y a : R) <> p3y b) ->
    pl_weight s' = Some w -> (v3x w : R) = 0 -> 0 <= v3y w -> 0 < v3z w -> 0 < pl_tension s' ->
    exists qs e, PointsCable s index num = Ok (qs, s') /\ length qs = Z.to_nat num /\
      nth_error qs 0 = Some a /\ nth_error qs (Z.to_nat num - 1) = Some e /\
      let tol := 2 * (distance a b / 1000000) in
      Rabs (p3x e - p3x b) <= tol /\ Rabs (p3y e - p3y b) <= tol /\ Rabs (p3z e - p3z b) <= tol.
Proof. exact @span_ends. Qed.
Print Assumptions locator_span.

(** C109-C111 in one line with three structures. *)
Example locator_positions_case : exists s s' ps l cs p0 p1 p2 h, pl_run (@Locator_new RNum unit) r_calls = Ok s /\
  PointsCableAttachment s = Ok (Some ps, s') /\ length ps = 3%nat /\ cable_connections s' l cs /\ length cs = 3%nat /\
  (exists c0 c1 c2, cs = [c0; c1; c2] /\ attached l c0 p0 /\ attached l c1 p1 /\ attached l c2 p2 /\ hangs_on l c1 h) /\
  p0 = pt 0 0 100 /\ p1 = pt 1000 0 100 /\ p2 = pt 2000 0 100 /\ (hw_length h : R) = 10 /\
  (exists a b w, nth_error ps 0 = Some a /\ nth_error ps 1 = Some b /\ (p3x a : R) <> p3x b /\ pl_weight s' = Some w /\ (v3x w : R) = 0 /\
     0 <= v3y w /\ 0 < v3z w /\ 0 < pl_tension s').
Proof. exact located. Qed.

(** C111 is false: at a structure in a straight piece of line the attachment is always moved
    along the bearing of 81 degrees, whatever the bearing of the line. *)
Theorem locator_swing_refuted : forall (P : Type) ks s s' ps, pl_run (@Locator_new RNum P) ks = Ok s -> PointsCableAttachment s = Ok (Some ps, s') ->
  exists l cs, cable_connections s' l cs /\
    forall k c0 c1 c2 p0 p1 p2 q t, nth_error cs k = Some c0 -> nth_error cs (S k) = Some c1 -> nth_error cs (S (S k)) = Some c2 ->
      attached l c0 p0 -> attached l c1 p1 -> attached l c2 p2 -> nth_error ps (S k) = Some q ->
      ((p3x p0 : R) <> p3x p1 \/ (p3y p0 : R) <> p3y p1) -> 0 < t ->
      (p3x p2 - p3x p1 : R) = t * (p3x p1 - p3x p0) -> (p3y p2 - p3y p1 : R) = t * (p3y p1 - p3y p0) ->
      exists phi r, Rabs (phi - 81 * PI / 180) <= 1 / 10000000000 /\ (p3x q - p3x p1 : R) = r * cos phi /\ (p3y q - p3y p1 : R) = r * sin phi.
Proof. exact @swing_plane. Qed.
Print Assumptions locator_swing_refuted.

(** C111 is false in doubles: a line along the y axis, wind from right to left; the attachment
    of the structure at (0, 1000) is moved along the line by more than 7 and to the right. *)
Theorem locator_wind_refuted : exists s s' a p b, pl_run Locator_new (k_calls (k_line 90 0) 1) = Ok s /\ pl_Validate (Ok true) s = Ok (true, s') /\
  PointsCableAttachment s' = Ok (Some [a; p; b], s') /\ (m64 1007 <? p3y p = true)%num /\ (m64 1 <? p3x p = true)%num.
Proof. exact wind_along. Qed.
Print Assumptions locator_wind_refuted.

(** C112 is false: of two lines with the same turn to the right one has its attachment moved to
    the inside of the turn, and the other, turned by 90 degrees, to the outside.  The
    structures are at (1000, 0) and (0, 1000). *)
Theorem locator_turn_refuted : exists s0 t0 a0 p0 b0 s1 t1 a1 p1 b1,
  pl_run Locator_new (k_calls (k_line 0 (-30)) 0) = Ok s0 /\ pl_Validate (Ok true) s0 = Ok (true, t0) /\
  PointsCableAttachment t0 = Ok (Some [a0; p0; b0], t0) /\
  pl_run Locator_new (k_calls (k_line 90 (-30)) 0) = Ok s1 /\ pl_Validate (Ok true) s1 = Ok (true, t1) /\
  PointsCableAttachment t1 = Ok (Some [a1; p1; b1], t1) /\
  (m64 10 * p3y p0 <? m64 (-90) = true)%num /\ (p3x p1 <? m64 (-9) = true)%num /\ (p3x p0 <? m64 998 = true)%num /\ (m64 1002 <? p3y p1 = true)%num.
Proof. exact turned_line. Qed.
Print Assumptions locator_turn_refuted.

(** C113 is false: wind from right to left moves the attachment at a turn to the right further
    to the right, from more than -9.1 to less than -9.2. *)
Theorem locator_direction_refuted : exists s0 t0 a0 p0 b0 s1 t1 a1 p1 b1,
  pl_run Locator_new (k_calls (k_line 0 (-30)) 0) = Ok s0 /\ pl_Validate (Ok true) s0 = Ok (true, t0) /\
  PointsCableAttachment t0 = Ok (Some [a0; p0; b0], t0) /\
  pl_run Locator_new (k_calls (k_line 0 (-30)) 1) = Ok s1 /\ pl_Validate (Ok true) s1 = Ok (true, t1) /\
  PointsCableAttachment t1 = Ok (Some [a1; p1; b1], t1) /\
  (m64 (-91) <? m64 10 * p3y p0 = true)%num /\ (m64 10 * p3y p1 <? m64 (-92) = true)%num.
Proof. exact wind_against. Qed.
Print Assumptions locator_direction_refuted.

(** C114 is false: without a line, or with an index that is not one of a line cable, the
    queries and Validate are undefined. *)
Theorem locator_missing_refuted : forall (N : Num) (P : Type) ks s, pl_run (@Locator_new N P) ks = Ok s ->
  (pl_line s = None \/ exists l, pl_line s = Some l /\ (pl_index s < 0 \/ Z.of_nat (length (tl_line_cables l)) <= pl_index s)%Z) ->
  PointsCableAttachment s = UB /\ (forall index num, PointsCable s index num = UB) /\
  (forall parts, is_ok (pl_Validate parts s) = false) /\ (pl_line s = None -> forall parts, pl_Validate parts s = UB).
Proof. exact @missing_ub. Qed.
Print Assumptions locator_missing_refuted.

Example locator_missing_case : exists s : Locator RNum unit, pl_run Locator_new [PlSetLine (Some r_line)] = Ok s /\ pl_line s = Some r_line /\
  (pl_index s < 0)%Z.
Proof. eexists. split; [reflexivity|]. split; reflexivity. Qed.

(** C114 is false without a unit weight, too. *)
Theorem locator_weight_refuted : PointsCableAttachment r_unweighted = UB /\ (forall index num, PointsCable r_unweighted index num = UB) /\
  pl_Validate (Ok true) r_unweighted = UB.
Proof. exact weightless. Qed.
Print Assumptions locator_weight_refuted.
