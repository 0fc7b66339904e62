(** Theorems about Polynomial::X and component elongation models on curves that rise. *)
From Coq Require Import ZArith Bool List Reals Lra Lia.
From Verif Require Import Num ModelBase ModelCable ModelPolynomial ModelElongation SpecPolynomial SpecCurve ProofReal ProofPolynomial
  ProofCurve ProofElongCurve SampleElongReal SampleCurve.
Import ListNotations.
Open Scope R_scope.

(** C37, the true part: on a curve that rises and bends down between two points, the answer
    is between them and its value is below the load asked for by at most the precision,
    times the ratio of the slopes if the first guess is already that close. *)
Theorem polynomial_inverse_concave_partial :
  forall (store : addr -> list R) cp cs p a (y g : R) n slope lo hi,
    poly_run (N := RNum) store (Polynomial_new cp) cs = Ok p -> py_coefficients p = CAddr a ->
    store a <> [] -> powerRZ 10 (- n) < 999999 ->
    (forall x, derivable_pt_lim (peval (store a)) x (slope x)) -> rises_concave slope lo hi ->
    lo <= g <= hi -> peval (store a) lo <= y <= peval (store a) hi ->
    peval (store a) g - slope g * (g - lo) <= y ->
    (1 - slope hi / slope lo) ^ 99 * (peval (store a) hi - peval (store a) lo) <= powerRZ 10 (- n) ->
    exists x p', Polynomial_X (N := RNum) store p y n g = Ok (x, p') /\ lo <= x <= hi /\
      0 <= y - peval (store a) x <= powerRZ 10 (- n) * (slope lo / slope hi) /\
      (peval (store a) g <= y \/ powerRZ 10 (- n) < Rabs (peval (store a) g - y) ->
       y - peval (store a) x <= powerRZ 10 (- n)).
Proof. exact X_concave. Qed.
Print Assumptions polynomial_inverse_concave_partial.

Example polynomial_inverse_concave_case : exists p,
  poly_run (N := RNum) (fun _ => cc_loadstrain k_comp) (Polynomial_new (CAddr 0%Z)) [PY (N := RNum) 1] = Ok p /\
  py_coefficients p = CAddr 0%Z /\ cc_loadstrain k_comp <> [] /\ powerRZ 10 (- (2)) < 999999 /\
  (forall x, derivable_pt_lim (peval (cc_loadstrain k_comp)) x (k_slope x)) /\ rises_concave k_slope (-1 / 10) 1 /\
  -1 / 10 <= 1 / 10 <= 1 /\ peval (cc_loadstrain k_comp) (-1 / 10) <= 40000 <= peval (cc_loadstrain k_comp) 1 /\
  peval (cc_loadstrain k_comp) (1 / 10) - k_slope (1 / 10) * (1 / 10 - -1 / 10) <= 40000 /\
  (1 - k_slope 1 / k_slope (-1 / 10)) ^ 99 *
    (peval (cc_loadstrain k_comp) 1 - peval (cc_loadstrain k_comp) (-1 / 10)) <= powerRZ 10 (- (2)) /\
  40000 < peval (cc_loadstrain k_comp) 1.
Proof.
  eexists. split; [reflexivity|]. split; [reflexivity|]. split; [discriminate|]. split; [rewrite tol_2; lra|].
  split; [exact k_deriv|]. split; [exact k_bend|]. split; [lra|]. split; [cbn; lra|]. split; [unfold k_slope; cbn; lra|].
  split; [rewrite tol_2; exact k_enough|cbn; lra].
Qed.

(** C37, the same for a curve that rises and bends up. *)
Theorem polynomial_inverse_convex_partial :
  forall (store : addr -> list R) cp cs p a (y g : R) n slope lo hi,
    poly_run (N := RNum) store (Polynomial_new cp) cs = Ok p -> py_coefficients p = CAddr a ->
    store a <> [] -> powerRZ 10 (- n) < 999999 ->
    (forall x, derivable_pt_lim (peval (store a)) x (slope x)) -> rises_convex slope lo hi ->
    lo <= g <= hi -> peval (store a) lo <= y <= peval (store a) hi ->
    y <= peval (store a) g + slope g * (hi - g) ->
    (1 - slope lo / slope hi) ^ 99 * (peval (store a) hi - peval (store a) lo) <= powerRZ 10 (- n) ->
    exists x p', Polynomial_X (N := RNum) store p y n g = Ok (x, p') /\ lo <= x <= hi /\
      0 <= peval (store a) x - y <= powerRZ 10 (- n) * (slope hi / slope lo) /\
      (y <= peval (store a) g \/ powerRZ 10 (- n) < Rabs (peval (store a) g - y) ->
       peval (store a) x - y <= powerRZ 10 (- n)).
Proof. exact X_convex. Qed.
Print Assumptions polynomial_inverse_convex_partial.

Example polynomial_inverse_convex_case : exists p,
  poly_run (N := RNum) (fun _ => [0; 1; 1]) (Polynomial_new (CAddr 0%Z)) [PY (N := RNum) 1] = Ok p /\
  py_coefficients p = CAddr 0%Z /\ powerRZ 10 (- (2)) < 999999 /\
  (forall x, derivable_pt_lim (peval [0; 1; 1]) x (1 + 2 * x)) /\ rises_convex (fun x => 1 + 2 * x) 0 1 /\
  0 <= 1 / 10 <= 1 /\ peval [0; 1; 1] 0 <= 1 <= peval [0; 1; 1] 1 /\
  1 <= peval [0; 1; 1] (1 / 10) + (1 + 2 * (1 / 10)) * (1 - 1 / 10) /\
  (1 - (1 + 2 * 0) / (1 + 2 * 1)) ^ 99 * (peval [0; 1; 1] 1 - peval [0; 1; 1] 0) <= powerRZ 10 (- (2)).
Proof.
  eexists. split; [reflexivity|]. split; [reflexivity|]. split; [rewrite tol_2; lra|].
  split. { intros x. replace (1 + 2 * x) with (pder [0; 1; 1] x); [apply pder_deriv|cbn; ring]. }
  split. { intros x z H1 H2 H3. lra. }
  split; [lra|]. split; [cbn; lra|]. split; [cbn; lra|]. rewrite tol_2.
  replace (1 - (1 + 2 * 0) / (1 + 2 * 1)) with (2 / 3) by field.
  pose proof (pow_99 (2 / 3) 14 ltac:(lra) ltac:(lia)) as P.
  assert ((2 / 3) ^ 14 <= 1 / 200) by (cbn [pow]; lra). cbn [peval]. lra.
Qed.

(** C48, the polynomial region of a curve that rises and bends down: the load at the strain
    of a load is the scaled load up to the precision of the search.  Missing: loads closer
    to the ends of the region, and the other direction. *)
Theorem component_inverse_concave_partial :
  forall (cs : list (CmCall RNum)) m m1 b s pu ps pe (slope : R -> R) (lo hi v : R),
  cm_run CompModel_new cs = Ok m -> cm_base m = Ok b -> cm_state m = Some s -> st_type s <> PTNull ->
  cm_PointsRegions m = Ok ([pu; ps; pe], m1) -> 0 <= p2y ps -> 0 < cc_modulus_tension b -> 0 < cc_scale_x b ->
  let l : list R := match st_type s with PTCreep => cc_creep b | _ => cc_loadstrain b end in
  l <> [] -> (forall x, derivable_pt_lim (peval l) x (slope x)) -> rises_concave slope lo hi ->
  lo <= 1 / 10 <= hi -> peval l (1 / 10) - slope (1 / 10) * (1 / 10 - lo) <= p2y ps ->
  (1 - slope hi / slope lo) ^ 99 * (peval l hi - peval l lo) <= 1 / 100 ->
  peval l lo <= p2y ps -> p2y pe <= peval l hi ->
  let tolerance := 1 / 100 * (slope lo / slope hi) in
  p2y ps + tolerance < v < p2y pe - tolerance ->
  exists e m2 w m3, cm_Strain m v = Ok (e, m2) /\ p2x ps < e < p2x pe /\ cm_Load m2 e = Ok (w, m3) /\
    Rabs (w - cc_scale_y b * v) <= Rabs (cc_scale_y b) * tolerance.
Proof. exact component_concave. Qed.
Print Assumptions component_inverse_concave_partial.

Example component_inverse_concave_case : exists m m1 pu ps pe,
  cm_run CompModel_new k_calls = Ok m /\ cm_base m = Ok k_comp /\ cm_state m = Some (r_state PTLoadStrain 50) /\
  cm_PointsRegions m = Ok ([pu; ps; pe], m1) /\ 0 <= p2y ps /\ 0 < cc_modulus_tension k_comp /\ 0 < cc_scale_x k_comp /\
  let l : list R := cc_loadstrain k_comp in
  l <> [] /\ (forall x, derivable_pt_lim (peval l) x (k_slope x)) /\ rises_concave k_slope (-1 / 10) 1 /\
  -1 / 10 <= 1 / 10 <= 1 /\ peval l (1 / 10) - k_slope (1 / 10) * (1 / 10 - -1 / 10) <= p2y ps /\
  (1 - k_slope 1 / k_slope (-1 / 10)) ^ 99 * (peval l 1 - peval l (-1 / 10)) <= 1 / 100 /\
  peval l (-1 / 10) <= p2y ps /\ p2y pe <= peval l 1 /\
  let tolerance := 1 / 100 * (k_slope (-1 / 10) / k_slope 1) in
  p2y ps + tolerance < 40000 < p2y pe - tolerance.
Proof.
  destruct k_points as (m & m1 & pu & ps & pe & A & B & C & P & Y1 & Y2). exists m, m1, pu, ps, pe.
  do 4 (split; [assumption|]). rewrite Y1, Y2. split; [lra|]. split; [cbn; lra|]. split; [cbn; lra|]. cbn zeta.
  split; [discriminate|]. split; [exact k_deriv|]. split; [exact k_bend|]. split; [lra|].
  split; [unfold k_slope; cbn; lra|]. split; [exact k_enough|]. split; [cbn; lra|]. split; [cbn; lra|].
  replace (k_slope (-1 / 10) / k_slope 1) with (21 / 10) by (unfold k_slope; field). lra.
Qed.

(** C48 in full for a component with straight curves and the load scale 1: Strain and Load
    undo each other for all loads and strains, and the load rises without jumps. *)
Theorem component_inverse_line_partial : forall (cs : list (CmCall RNum)) m m1 b s pu ps pe (c0 c1 : R),
  cm_run CompModel_new cs = Ok m -> cm_base m = Ok b -> cm_state m = Some s -> st_type s <> PTNull ->
  cc_creep b <> [] -> cc_loadstrain b <> [] ->
  0 < cc_modulus_compression b -> 0 < cc_modulus_tension b -> 0 < cc_scale_x b -> cc_scale_y b = 1 ->
  cm_PointsRegions m = Ok ([pu; ps; pe], m1) -> 0 <= p2y ps < p2y pe ->
  straight (match st_type s with PTCreep => cc_creep b | _ => cc_loadstrain b end) c0 c1 -> 0 < c1 ->
  exists f : R -> R,
    (forall e, exists m2 m3, cm_Load m e = Ok (f e, m2) /\ cm_Strain m2 (f e) = Ok (e, m3)) /\
    (forall v, exists e m2, cm_Strain m v = Ok (e, m2) /\ f e = v) /\
    (exists K, forall e1 e2, e1 < e2 -> 0 < f e2 - f e1 <= K * (e2 - e1)).
Proof. exact component_line. Qed.
Print Assumptions component_inverse_line_partial.

Example component_inverse_line_case : exists m m1 pu ps pe,
  cm_run CompModel_new r_calls = Ok m /\ cm_base m = Ok r_comp /\
  cm_state m = Some (r_state PTLoadStrain 50) /\ cm_PointsRegions m = Ok ([pu; ps; pe], m1) /\
  cc_creep r_comp <> [] /\ cc_loadstrain r_comp <> [] /\
  0 < cc_modulus_compression r_comp /\ 0 < cc_modulus_tension r_comp /\ 0 < cc_scale_x r_comp /\ cc_scale_y r_comp = 1 /\
  0 <= p2y ps < p2y pe /\ straight (cc_loadstrain r_comp) 0 131072.
Proof.
  destruct r_points as (m & m1 & pu & ps & pe & A & B & C & P & Y1 & Y2). exists m, m1, pu, ps, pe.
  do 4 (split; [assumption|]). split; [discriminate|]. split; [discriminate|]. rewrite Y1, Y2.
  split; [cbn; lra|]. split; [cbn; lra|]. split; [cbn; lra|]. split; [reflexivity|]. split; [lra|].
  intros x. cbn. ring.
Qed.
