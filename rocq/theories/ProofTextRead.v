(** IsNumeric accepts exactly the numerals that fit a double. *)
From Coq Require Import ZArith Reals Bool List Ascii Lia Lra.
From Flocq Require Import Core.
From Verif Require Import Num ModelHelper ModelText SpecText ProofText.
Import ListNotations.
Open Scope Z_scope.

(** ** Shapes are numerals *)

Definition sgn (b : bool) : Z := if b then -1 else 1.

Lemma signs_sign : forall sg, signs sg = true -> sign sg (sgn (sign_of sg)).
Proof.
  intros [|c [|]] H; [constructor| |discriminate H]. cbn in H. unfold issign in H.
  apply orb_prop in H. destruct H as [H|H]; apply Ascii.eqb_eq in H; subst c; constructor.
Qed.

Lemma sign_signs : forall sg k, sign sg k -> signs sg = true /\ k = sgn (sign_of sg).
Proof. intros sg k []; split; reflexivity. Qed.

Lemma exp_exponent : forall e, match e with
  | Some (c, sg, s) => ise c = true /\ signs sg = true /\ forallb isd s = true /\ nonempty s = true
  | None => True end -> exponent (exp_text e) (exp_value e).
Proof.
  intros [[[c sg] s]|] H; [|constructor]. destruct H as [A [B [C D]]]. cbn [exp_text exp_value].
  replace (if sign_of sg then - total s else total s) with (sgn (sign_of sg) * total s)
    by (unfold sgn; destruct (sign_of sg); lia).
  constructor; [|apply signs_sign; exact B|apply total_digits; exact C|destruct s; discriminate].
  unfold ise in A. apply orb_prop in A. destruct A as [A|A]; apply Ascii.eqb_eq in A; [left|right]; exact A.
Qed.

Definition shape_value (h : shape) : R :=
  (IZR (sgn (sign_of (sh_sign h))) * IZR (total (sh_int h ++ sh_frac h)) *
   powerRZ 10 (exp_value (sh_exp h) - Z.of_nat (List.length (sh_frac h))))%R.

Lemma shape_numeral : forall h u, shape_ok h u -> shape_whole h = true -> numeral (shape_text h) (shape_value h).
Proof.
  intros h u [A [B [C [D [E G]]]]] W. unfold shape_whole in W. apply andb_prop in W. destruct W as [W1 W2].
  unfold shape_text, shape_value. apply numeral_of.
  - apply signs_sign. exact A.
  - apply total_digits. rewrite forallb_app, B, C. reflexivity.
  - destruct (sh_int h ++ sh_frac h); discriminate.
  - destruct (sh_point h); [right; reflexivity|left; split; [reflexivity|apply D; reflexivity]].
  - apply exp_exponent. destruct (sh_exp h) as [[[c sg] s]|]; [|exact I].
    destruct G as [_ [G1 [G2 [G3 _]]]]. repeat split; assumption.
Qed.

Lemma exponent_shape : forall t x, exponent t x -> exists e, t = exp_text e /\ x = exp_value e /\
  match e with
  | Some (c, sg, s) => ise c = true /\ signs sg = true /\ forallb isd s = true /\ nonempty s = true
  | None => True end.
Proof.
  intros t x [|c sg k s n C G D H].
  - exists None. repeat split.
  - apply sign_signs in G. destruct G as [G ->]. apply digits_total in D. destruct D as [D ->].
    exists (Some (c, sg, s)). cbn [exp_text exp_value]. repeat split; try assumption.
    + unfold sgn; destruct (sign_of sg); lia.
    + destruct C as [-> | ->]; reflexivity.
    + destruct s; [elim H; reflexivity|reflexivity].
Qed.

(** what may follow a numeral *)
Definition ends (u : str) : Prop := forall c r, u = c :: r ->
  isd c = false /\ issign c = false /\ ise c = false /\ Ascii.eqb c point = false.

Lemma ends_starts : forall p u, ends u -> (forall c, isd c = false -> issign c = false -> ise c = false ->
  Ascii.eqb c point = false -> p c = false) -> starts p u = false.
Proof.
  intros p [|c u] E H; [reflexivity|]. destruct (E c u eq_refl) as [A [B [C D]]]. apply H; assumption.
Qed.

Lemma numeral_shape : forall t v, numeral t v -> exists h, t = shape_text h /\ v = shape_value h /\
  shape_whole h = true /\ forall u, ends u -> shape_ok h u.
Proof.
  intros t v [sg k i p f n ex x A D N P X].
  apply sign_signs in A. destruct A as [A ->]. apply digits_total in D. destruct D as [D ->].
  destruct (exponent_shape ex x X) as [e [-> [-> E]]].
  rewrite forallb_app in D. apply andb_prop in D. destruct D as [B C].
  assert (M : nonempty (i ++ f) = true). { destruct (i ++ f); [elim N; reflexivity|reflexivity]. }
  exists (mkShape sg i (nonempty p) f e).
  assert (PT : p = point_text (nonempty p)). { destruct P as [[-> _]| ->]; reflexivity. }
  assert (PF : nonempty p = false -> f = []). { destruct P as [[_ ->]| ->]; [reflexivity|discriminate]. }
  split; [unfold shape_text; cbn [sh_sign sh_int sh_point sh_frac sh_exp]; rewrite <- PT; reflexivity|].
  split; [reflexivity|]. split.
  - unfold shape_whole. cbn [sh_sign sh_int sh_point sh_frac sh_exp]. rewrite M.
    destruct e as [[[c sg'] s]|]; [apply E|reflexivity].
  - intros u U. unfold shape_ok, shape_text. cbn [sh_sign sh_int sh_point sh_frac sh_exp].
    repeat split; try assumption.
    + intros ->. cbn [app]. destruct i as [|c i]; [|cbn in B; apply andb_prop in B; apply isd_sign, B].
      destruct (nonempty p) eqn:Q; [reflexivity|]. rewrite (PF eq_refl) in M. discriminate M.
    + destruct e as [[[c sg'] s]|].
      * destruct E as [E1 [E2 [E3 E4]]]. repeat split; try assumption.
        -- apply ends_starts; [exact U|intros; assumption].
        -- intros _ ->. discriminate E4.
      * apply ends_starts; [exact U|]. intros c H1 H2 H3 H4. unfold goes_on. rewrite H1, H3, H4. reflexivity.
Qed.

(** the value of a numeral is unique *)
Lemma numeral_unique : forall t v w, numeral t v -> numeral t w -> v = w.
Proof.
  intros t v w A B. destruct (numeral_shape t v A) as [h [E [V [H K]]]].
  destruct (numeral_shape t w B) as [h' [E' [V' [H' K']]]].
  assert (N : ends []) by (intros c r Q; discriminate Q).
  specialize (K [] N). specialize (K' [] N).
  pose proof (extract_shape h [] K) as X. pose proof (extract_shape h' [] K') as X'.
  rewrite <- E in X. rewrite <- E' in X'. rewrite X in X'. injection X' as X'.
  pose proof (strtod_shape h [] K) as Y. pose proof (strtod_shape h' [] K') as Y'.
  rewrite X', Y', H, H' in Y. injection Y as Y1 Y2 Y3.
  subst v w. unfold shape_value. rewrite Y1, Y2. do 2 f_equal. lia.
Qed.

(** ** The range of doubles *)

Definition limit : Z := (2 ^ 54 - 1) * 2 ^ 970.

Lemma pow10_R : forall n, (IZR (10 ^ Z.max n 0) / IZR (10 ^ Z.max (- n) 0) = powerRZ 10 n)%R.
Proof.
  assert (P : forall p : positive, IZR (10 ^ Zpos p) = powerRZ 10 (Zpos p)).
  { intros p. rewrite <- (positive_nat_Z p). rewrite <- pow_IZR. rewrite <- pow_powerRZ. reflexivity. }
  intros [|p|p].
  - cbn. lra.
  - replace (Z.max (Zpos p) 0) with (Zpos p) by lia. replace (Z.max (- Zpos p) 0) with 0 by lia.
    rewrite P. cbn [Z.pow]. change (IZR 1) with 1%R. lra.
  - replace (Z.max (Zneg p) 0) with 0 by lia. replace (Z.max (- Zneg p) 0) with (Zpos p) by lia.
    rewrite P. cbn [Z.pow powerRZ]. change (IZR 1) with 1%R. unfold Rdiv. lra.
Qed.

Lemma overflows_R : forall m x, overflows m x = false <-> (IZR m * powerRZ 10 x < IZR limit)%R.
Proof.
  intros m x. unfold overflows. fold limit. rewrite Z.leb_gt. rewrite <- pow10_R.
  assert (D : (0 < IZR (10 ^ Z.max (- x) 0))%R) by (apply IZR_lt, Z.pow_pos_nonneg; lia).
  replace (IZR m * (IZR (10 ^ Z.max x 0) / IZR (10 ^ Z.max (- x) 0)))%R
    with (IZR (m * 10 ^ Z.max x 0) / IZR (10 ^ Z.max (- x) 0))%R by (rewrite mult_IZR; field; lra).
  split; intros H.
  - apply Rmult_lt_reg_r with (1 := D). unfold Rdiv. rewrite Rmult_assoc, Rinv_l, Rmult_1_r by lra.
    rewrite <- mult_IZR. apply IZR_lt. exact H.
  - apply lt_IZR. rewrite (mult_IZR limit). apply Rmult_lt_reg_r with (1 := Rinv_0_lt_compat _ D).
    rewrite Rmult_assoc, Rinv_r, Rmult_1_r by lra. exact H.
Qed.

Local Notation fexp := (FLT_exp (-1074) 53).

Lemma bpow_IZR : forall n, 0 <= n -> bpow radix2 n = IZR (2 ^ n).
Proof. intros n H. symmetry. exact (IZR_Zpower radix2 n H). Qed.

Lemma limit_mag : forall m : Z, 2 ^ 1023 <= m < 2 ^ 1024 -> cexp radix2 fexp (IZR m) = 971.
Proof.
  intros m H. unfold cexp. rewrite (mag_unique_pos radix2 (IZR m) 1024); [reflexivity|].
  rewrite !bpow_IZR by lia. split; [apply IZR_le|apply IZR_lt]; apply H.
Qed.

Lemma limit_round : round radix2 fexp ZnearestE (IZR limit) = bpow radix2 1024.
Proof.
  unfold round, scaled_mantissa. rewrite limit_mag by (vm_compute; split; [discriminate|reflexivity]).
  replace (IZR limit * bpow radix2 (- (971)))%R with (IZR (2 ^ 54 - 1) / 2)%R.
  2: { unfold limit. rewrite mult_IZR. rewrite <- (bpow_IZR 970) by lia.
       rewrite Rmult_assoc, <- bpow_plus. change (bpow radix2 (970 + - (971))) with (/ 2)%R. reflexivity. }
  assert (Q : Zfloor (IZR (2 ^ 54 - 1) / 2) = 2 ^ 53 - 1).
  { apply Zfloor_imp. rewrite !minus_IZR, plus_IZR, minus_IZR.
    change (IZR (2 ^ 54)) with (IZR (2 * 2 ^ 53)). rewrite mult_IZR.
    change (IZR 1) with 1%R. split; lra. }
  assert (T : ZnearestE (IZR (2 ^ 54 - 1) / 2) = 2 ^ 53).
  { unfold Znearest. rewrite Q. rewrite Rcompare_Eq.
    2: { rewrite !minus_IZR. change (IZR (2 ^ 54)) with (IZR (2 * 2 ^ 53)). rewrite mult_IZR. lra. }
    change (negb (Z.even (2 ^ 53 - 1))) with true. cbv iota.
    rewrite Zceil_floor_neq; rewrite Q; [reflexivity|].
    rewrite !minus_IZR. change (IZR (2 ^ 54)) with (IZR (2 * 2 ^ 53)). rewrite mult_IZR. lra. }
  rewrite T. unfold F2R. cbn [Fnum Fexp]. rewrite <- bpow_IZR by lia. rewrite <- bpow_plus. reflexivity.
Qed.

Lemma fits_limit : forall v, fits v <-> (Rabs v < IZR limit)%R.
Proof.
  intros v. unfold fits. assert (Pg : Prec_gt_0 53) by reflexivity.
  assert (Vf : Valid_exp fexp) by typeclasses eauto.
  rewrite <- round_NE_abs by typeclasses eauto. split; intros H.
  - destruct (Rlt_or_le (Rabs v) (IZR limit)) as [L|L]; [exact L|exfalso].
    pose proof (round_le radix2 fexp ZnearestE _ _ L) as W. rewrite limit_round in W. lra.
  - set (u := IZR (2 ^ 1024 - 2 ^ 971)).
    assert (C : cexp radix2 fexp u = 971) by (apply limit_mag; vm_compute; split; [discriminate|reflexivity]).
    assert (Fu : generic_format radix2 fexp u).
    { replace u with (F2R (Float radix2 (2 ^ 53 - 1) 971)).
      - apply generic_format_F2R. intros _. 
        replace (F2R (Float radix2 (2 ^ 53 - 1) 971)) with u; [rewrite C; cbn; lia|].
        unfold F2R, u. cbn [Fnum Fexp]. rewrite bpow_IZR by lia. rewrite <- mult_IZR. reflexivity.
      - unfold F2R, u. cbn [Fnum Fexp]. rewrite bpow_IZR by lia. rewrite <- mult_IZR. reflexivity. }
    assert (Su : succ radix2 fexp u = IZR (2 ^ 1024)).
    { rewrite succ_eq_pos by (apply IZR_le; vm_compute; discriminate).
      rewrite ulp_neq_0 by (apply IZR_neq; vm_compute; discriminate). rewrite C.
      unfold u. rewrite bpow_IZR by lia. rewrite <- plus_IZR. reflexivity. }
    apply Rle_lt_trans with u.
    + apply round_N_le_midp; [typeclasses eauto|exact Fu|]. rewrite Su. unfold u. rewrite <- plus_IZR.
      change (2 ^ 1024 - 2 ^ 971 + 2 ^ 1024) with (limit * 2). rewrite mult_IZR. lra.
    + rewrite bpow_IZR by lia. apply IZR_lt. vm_compute. reflexivity.
Qed.

(** ** Spaces *)

Lemma is_space_blank : forall c, is_space c = true <-> In c (" "%char :: map ascii_of_nat [9; 10; 11; 12; 13]%nat).
Proof.
  intros c. split.
  - destruct c as [[] [] [] [] [] [] [] []]; vm_compute; intros H; try discriminate H; tauto.
  - intros H. cbn in H. repeat (destruct H as [<-|H]; [reflexivity|]). elim H.
Qed.

Lemma space_ends : forall c, is_space c = true ->
  isd c = false /\ issign c = false /\ ise c = false /\ Ascii.eqb c point = false.
Proof.
  intros c H. apply is_space_blank in H. cbn in H.
  repeat (destruct H as [<-|H]; [repeat split; reflexivity|]). elim H.
Qed.

Lemma skip_blank : forall a s, blank a -> skip_spaces (a ++ s) = skip_spaces s.
Proof.
  induction a as [|c a IH]; intros s H; [reflexivity|]. inversion H; subst. cbn.
  apply is_space_blank in H2. rewrite H2. apply IH. assumption.
Qed.

Lemma skip_exists : forall s, exists a, s = a ++ skip_spaces s /\ blank a.
Proof.
  induction s as [|c s [a [E B]]]; [exists []; split; [reflexivity|constructor]|]. cbn.
  destruct (is_space c) eqn:Q.
  - exists (c :: a). cbn. rewrite <- E. split; [reflexivity|]. constructor; [apply is_space_blank; exact Q|exact B].
  - exists []. split; [reflexivity|constructor].
Qed.

Lemma skip_none : forall s, starts is_space s = false -> skip_spaces s = s.
Proof. intros [|c s] H; [reflexivity|]. cbn in *. rewrite H. reflexivity. Qed.

Lemma blank_all : forall s, skip_spaces s = [] <-> blank s.
Proof.
  intros s. split.
  - intros H. destruct (skip_exists s) as [a [E B]]. rewrite H, app_nil_r in E. subst a. exact B.
  - intros H. rewrite <- (app_nil_r s). rewrite skip_blank by exact H. reflexivity.
Qed.

Lemma Rabs_sgn : forall b x, (Rabs (IZR (sgn b) * x) = Rabs x)%R.
Proof. intros [] x; cbn [sgn]; rewrite Rabs_mult; [rewrite (Rabs_left (-1)) by lra|rewrite (Rabs_pos_eq 1) by lra]; lra. Qed.

Lemma numeral_starts : forall t v r, numeral t v -> starts is_space (t ++ r) = false /\ t <> [].
Proof.
  assert (D : forall c, isd c = true -> is_space c = false).
  { intros c H. destruct (is_space c) eqn:Q; [|reflexivity]. apply space_ends in Q. destruct Q. congruence. }
  intros t v r [sg k i p f n ex x [] Dg N P X].
  - cbn [app]. apply digits_total in Dg. destruct Dg as [Dg _]. destruct i as [|c i].
    + destruct P as [[_ ->]| ->]; [elim N; reflexivity|]. split; [reflexivity|discriminate].
    + cbn in Dg. apply andb_prop in Dg. split; [cbn; apply D, Dg|discriminate].
  - split; [reflexivity|discriminate].
  - split; [reflexivity|discriminate].
Qed.

Lemma magnitude_pos : forall m x, 0 <= m -> (0 <= IZR m * powerRZ 10 x)%R.
Proof. intros m x H. apply Rmult_le_pos; [apply IZR_le; exact H|apply powerRZ_le; lra]. Qed.

Lemma shape_fits : forall h, fits (shape_value h) <->
  overflows (total (sh_int h ++ sh_frac h)) (- Z.of_nat (List.length (sh_frac h)) + exp_value (sh_exp h)) = false.
Proof.
  intros h. rewrite fits_limit, overflows_R. unfold shape_value. rewrite Rmult_assoc, Rabs_sgn.
  rewrite Rabs_pos_eq by (apply magnitude_pos, total_nonneg).
  replace (exp_value (sh_exp h) - Z.of_nat (List.length (sh_frac h)))
    with (- Z.of_nat (List.length (sh_frac h)) + exp_value (sh_exp h)) by lia. reflexivity.
Qed.

Theorem numeric_exact : forall s, IsNumeric s = true <->
  exists a t b v, s = a ++ t ++ b /\ blank a /\ blank b /\ numeral t v /\ fits v.
Proof.
  intros s. unfold IsNumeric, read_double, read_char. split.
  - intros H. destruct (skip_exists s) as [a [E A]].
    destruct (shape_exists (skip_spaces s)) as [h [u [T K]]]. rewrite T in H, E.
    rewrite (extract_shape h u K) in H. rewrite (strtod_shape h u K) in H.
    destruct (shape_whole h) eqn:W; [|discriminate H].
    destruct (overflows _ _) eqn:O; [discriminate H|].
    exists a, (shape_text h), u, (shape_value h). split; [exact E|]. split; [exact A|].
    split; [|split; [exact (shape_numeral h u K W)|apply shape_fits; exact O]].
    apply blank_all. destruct (skip_spaces u); [reflexivity|discriminate H].
  - intros [a [t [b [v [-> [A [B [V L]]]]]]]].
    rewrite skip_blank by exact A.
    rewrite skip_none by (apply (numeral_starts t v b V)).
    destruct (numeral_shape t v V) as [h [-> [-> [W K]]]].
    assert (Eb : ends b).
    { intros c r ->. inversion B; subst. apply space_ends, is_space_blank. assumption. }
    rewrite (extract_shape h b (K b Eb)), (strtod_shape h b (K b Eb)), W.
    apply shape_fits in L. rewrite L. apply blank_all in B. rewrite B. reflexivity.
Qed.
