(** What is true of C59, C63, C90 and C122, which are false in general. *)
From Coq Require Import ZArith Bool List Reals Lra.
From Flocq Require Import IEEE754.BinarySingleNaN.
From Verif Require Import Num NumFacts ModelBase ModelAlignment ModelLine SpecLine SpecTransmission ModelCatenary SpecCatenary ModelSolver
  ModelElongation SpecElong ModelReload SpecReload ModelPolynomial ModelSagging SpecSagging SpecFragments
  SampleLine ProofLineRefuted ProofTransitCases ProofNanStation ProofFragments.
Import ListNotations.
Open Scope R_scope.

(** C59, the part that holds: NaN stations come from ModifyLineStructure only.  If no call of
    it is given one, no structure of the line has a station that is not a number, whatever is
    passed to the other calls. *)
Theorem line_stations_defined_partial : forall lm (P : Type) (calls : list (LineCall (B64 lm) P)) l,
  (forall (i : Z) (s : LineStructure (B64 lm)), In (CModifyLineStructure i s) calls -> num64 (ls_station s)) -> line_run calls = Some l ->
  Forall (fun s : LineStructure (B64 lm) => num64 (ls_station s)) (structures_of l).
Proof. exact line_stations_numbers. Qed.
Print Assumptions line_stations_defined_partial.

Definition nan_calls (lm : Libm) : list (LineCall (B64 lm) nat) :=
  [CAddAlignmentPoint (s_pt lm 0 0); CAddAlignmentPoint (s_pt lm 0 100); CAddLineStructure (nan_ls lm);
   CAddLineStructure (s_ls lm 50 0); CAddLineStructure (nan_ls lm); CModifyLineStructure 0 (s_ls lm 60 0)].
Example line_stations_defined_case : forall lm, exists l, line_run (nan_calls lm) = Some l /\ length (structures_of l) = 1%nat /\
  forall (i : Z) (s : LineStructure (B64 lm)), In (CModifyLineStructure i s) (nan_calls lm) -> num64 (ls_station s).
Proof.
  intros lm. exists (the_line lm (nan_calls lm)). split; [apply run_some; vm_compute; reflexivity|].
  split; [vm_compute; reflexivity|]. intros i s H.
  repeat (destruct H as [H|H]; [try discriminate H|]); [|contradiction]. injection H as _ <-. reflexivity.
Qed.

(** C63, the part that holds: Y reads the vector as it is now; and so do Slope, X and
    Derivative if none of them and no Validate was called since the vector was set.  (Calling
    set_coefficients again thus makes the polynomial see the change.) *)
Theorem polynomial_follows_vector_partial : forall (N : Num) c (hs : list ((addr -> list N) * PolyCall N)) p a,
  poly_history (Polynomial_new c) hs = Ok p -> py_coefficients p = CAddr a ->
  forall store, let fresh := Polynomial_new (CAddr a) in
  (forall x, Polynomial_Y store p x = Polynomial_Y store fresh x) /\
  (derived false (map snd hs) = false ->
   (forall x, omap fst (Polynomial_Slope store p x) = omap fst (Polynomial_Slope store fresh x)) /\
   (forall y n g, omap fst (Polynomial_X store p y n g) = omap fst (Polynomial_X store fresh y n g)) /\
   omap fst (Polynomial_Derivative store p) = omap fst (Polynomial_Derivative store fresh)).
Proof. exact @follows. Qed.
Print Assumptions polynomial_follows_vector_partial.

Definition vec (l : list R) : addr -> list RNum := fun _ => l.
Definition vec_calls : list ((addr -> list RNum) * PolyCall RNum) :=
  [(vec [0; 1], PSlope (N := RNum) 5); (vec [0; 3], PY (N := RNum) 5); (vec [0; 3], PSet (CAddr 0%Z)); (vec [0; 3], PY (N := RNum) 5)].
Example polynomial_follows_vector_case : exists p, poly_history (Polynomial_new (CAddr 0%Z)) vec_calls = Ok p /\
  py_coefficients p = CAddr 0%Z /\ derived false (map snd vec_calls) = false.
Proof. eexists. split; [reflexivity|]. split; reflexivity. Qed.

(** C90, the part that holds: a reload that succeeds, from a valid catenary to a valid weight
    and not for a very light span, gives a valid catenary exactly if its tension is not below
    the lowest one, at which the catenary constant is half the span. *)
Theorem reload_result_valid_partial : forall (cats : Cats RNum) weights ks mem m r a e0 e1 w m' r', tidy_models mem ->
  forallb rl_quiet ks = true -> rl_run cats weights (mem, CatReloader_new) ks = Ok (m, r) ->
  last_of pickR_catenary ks None = Some a -> last_of pickR_reference ks None = Some e0 ->
  last_of pickR_reloaded ks None = Some e1 -> last_of pickR_weight ks None = Some w ->
  1 / 100 < tension_minimum (rehung (cats a) (weights w) (c3_tension_horizontal (cats a))) ->
  c3_Validate (cats a) = true -> weight_valid weights (Some w) = true ->
  rl_Update cats weights m r = Ok (true, (m', r')) ->
  (c3_Validate (rl_result r') = true <-> Vector3d_Magnitude (c3_spacing (cats a)) / 2 * Vector3d_Magnitude (weights w) <= c3_tension_horizontal (rl_result r')).
Proof. exact result_valid. Qed.
Print Assumptions reload_result_valid_partial.

Example reload_result_valid_case : exists (cats : Cats RNum) weights mem ks m r m' r', tidy_models mem /\ forallb rl_quiet ks = true /\
  rl_run cats weights (mem, CatReloader_new) ks = Ok (m, r) /\
  last_of pickR_catenary ks None = Some 0%Z /\ last_of pickR_reference ks None = Some 0%Z /\
  last_of pickR_reloaded ks None = Some 1%Z /\ last_of pickR_weight ks None = Some 0%Z /\
  1 / 100 < tension_minimum (rehung (cats 0%Z) (weights 0%Z) (c3_tension_horizontal (cats 0%Z))) /\
  c3_Validate (cats 0%Z) = true /\ weight_valid weights (Some 0%Z) = true /\
  rl_Update cats weights m r = Ok (true, (m', r')).
Proof. exact valid_case. Qed.

(** C122, the part that holds: a validated stopwatch sagger with a unit system answers for
    every number of waves below 2^30, and with a positive time for a positive number. *)
Theorem stopwatch_answers_partial : forall cks ks s wave, let c := c3_run (@Catenary3d_default RNum) cks in
  sw_run (@Stopwatch_new RNum) ks = Ok s -> sw_catenary s = c -> sw_Validate s = true -> sw_units s <> USNull ->
  (- 2 ^ 30 <= wave < 2 ^ 30)%Z ->
  exists time v : R, omap fst (TimeReturn s wave) = Ok time /\ fst (VelocityWave s) = v /\ 0 < v /\
    ((0 < wave)%Z -> 0 < time) /\ time * v = 2 * IZR wave * c3_Length c.
Proof. exact stopwatch_answer. Qed.
Print Assumptions stopwatch_answers_partial.

Example stopwatch_answers_case : exists s, sw_run (@Stopwatch_new RNum) [SwSetUnits Imperial; SwVelocityWave; SwSetCatenary lv] = Ok s /\
  sw_catenary s = c3_run (@Catenary3d_default RNum) lv_calls /\ sw_Validate s = true /\ sw_units s <> USNull.
Proof. eexists. split; [reflexivity|]. split; [reflexivity|]. split; [exact lv_valid|discriminate]. Qed.
