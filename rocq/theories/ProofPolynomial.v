(** Proofs about Polynomial. *)
From Coq Require Import ZArith Bool List Lia Reals Lra Psatz.
From Verif Require Import Num NumFacts ModelBase ModelPolynomial SpecPolynomial ProofReal.
Import ListNotations.
Open Scope num_scope.

(** ** The cached derivative, in any arithmetic *)
Section Cache.
Context {N : Num}.
Variable store : addr -> list N.

Definition poly_inv (p : Polynomial N) : Prop :=
  py_updated p = true ->
  exists a, py_coefficients p = CAddr a /\ py_derivative p = Some (derivative_loop (store a) 0).

Lemma update_spec : forall p p', poly_inv p -> Polynomial_Update store p = Ok p' ->
  poly_inv p' /\ py_coefficients p' = py_coefficients p /\
  exists a, py_coefficients p = CAddr a /\ p' = mkPolynomial (CAddr a) (Some (derivative_loop (store a) 0)) true.
Proof.
  intros p p' I H. unfold Polynomial_Update in H. destruct (py_updated p) eqn:U.
  - injection H as <-. split; [assumption|]. split; [reflexivity|]. destruct (I U) as [a [E D]].
    exists a. split; [assumption|]. destruct p as [c d u]; cbn in *; subst; reflexivity.
  - unfold UpdateDerivative, coeffs in H. destruct (py_coefficients p) eqn:C; try discriminate H.
    cbn in H. injection H as <-. cbn. split.
    + intros _. exists a. auto.
    + split; [reflexivity|]. exists a. auto.
Qed.

Lemma update_ok : forall p a, poly_inv p -> py_coefficients p = CAddr a ->
  Polynomial_Update store p = Ok (mkPolynomial (CAddr a) (Some (derivative_loop (store a) 0)) true).
Proof.
  intros p a I C. unfold Polynomial_Update. destruct (py_updated p) eqn:U.
  - destruct (I U) as [b [E D]]. destruct p as [c d u]; cbn in *; subst. injection E as ->. reflexivity.
  - unfold UpdateDerivative, coeffs. rewrite C. reflexivity.
Qed.

Lemma call_inv : forall p c p', poly_inv p -> poly_call store p c = Ok p' -> poly_inv p'.
Proof.
  intros p c p' I H. destruct c; cbn [poly_call] in H.
  - injection H as <-. intros U. discriminate U.
  - destruct (Polynomial_Y store p x); try discriminate H. injection H as <-. assumption.
  - unfold Polynomial_Slope in H. destruct (Polynomial_Update store p) as [q| |] eqn:E; try discriminate H.
    cbn in H. destruct (derivative_Y q x); try discriminate H. cbn in H. injection H as <-.
    eapply update_spec; eassumption.
  - unfold Polynomial_X in H. destruct (Polynomial_Update store p) as [q| |] eqn:E; cbn [obind] in H; try discriminate H.
    destruct (coeffs store q) as [[|c0 r]| |]; cbn [obind] in H; try discriminate H.
    + injection H as <-. eapply update_spec; eassumption.
    + destruct (py_derivative q); try discriminate H. injection H as <-. eapply update_spec; eassumption.
    + injection H as <-. eapply update_spec; eassumption.
  - unfold Polynomial_Validate in H. destruct (py_coefficients p) eqn:C; try discriminate H.
    + injection H as <-. assumption.
    + destruct (Polynomial_Update store p) as [q| |] eqn:E; try discriminate H. cbn in H. injection H as <-.
      eapply update_spec; eassumption.
  - unfold Polynomial_Derivative in H. destruct (Polynomial_Update store p) as [q| |] eqn:E; try discriminate H.
    cbn in H. destruct (py_derivative q); try discriminate H. injection H as <-. eapply update_spec; eassumption.
Qed.

Lemma run_inv : forall cs p p', poly_inv p -> poly_run store p cs = Ok p' -> poly_inv p'.
Proof.
  induction cs as [|c cs IH]; intros p p' I H; cbn in H.
  - injection H as <-. assumption.
  - destruct (poly_call store p c) as [q| |] eqn:E; try discriminate H. cbn in H.
    apply (IH q p'); [eapply call_inv; eassumption|assumption].
Qed.

Lemma new_inv : forall c, poly_inv (Polynomial_new c).
Proof. intros c U. discriminate U. Qed.

(** Every query answers as a new polynomial of the same vector does. *)
Lemma run_fresh : forall c cs p a, poly_run store (Polynomial_new c) cs = Ok p -> py_coefficients p = CAddr a ->
  let fresh := Polynomial_new (CAddr a) in
  (forall x, Polynomial_Y store p x = Polynomial_Y store fresh x) /\
  (forall x, omap fst (Polynomial_Slope store p x) = omap fst (Polynomial_Slope store fresh x)) /\
  (forall y n g, omap fst (Polynomial_X store p y n g) = omap fst (Polynomial_X store fresh y n g)) /\
  omap fst (Polynomial_Derivative store p) = omap fst (Polynomial_Derivative store fresh).
Proof.
  intros c cs p a H C fresh. assert (I : poly_inv p) by (eapply run_inv; [apply new_inv|exact H]).
  assert (If : poly_inv fresh) by apply new_inv.
  unfold Polynomial_Slope, Polynomial_X, Polynomial_Derivative.
  rewrite (update_ok p a I C), (update_ok fresh a If eq_refl).
  split; [|auto]. intros x. unfold Polynomial_Y, coeffs. rewrite C. reflexivity.
Qed.

Lemma run_new_slope : forall c cs p a x, poly_run store (Polynomial_new c) cs = Ok p -> py_coefficients p = CAddr a ->
  exists p', Polynomial_Slope store p x = Ok (Y_list (derivative_loop (store a) 0) x, p').
Proof.
  intros c cs p a x H C. assert (I : poly_inv p) by (eapply run_inv; [apply new_inv|exact H]).
  unfold Polynomial_Slope. rewrite (update_ok p a I C). eexists. reflexivity.
Qed.

Lemma run_new_X : forall c cs p a c0 r y n g, poly_run store (Polynomial_new c) cs = Ok p -> py_coefficients p = CAddr a ->
  store a = c0 :: r ->
  exists p', Polynomial_X store p y n g =
    Ok (X_loop 100 (#1 / fpow #10 #n) (c0 - y :: r) (derivative_loop (c0 :: r) 0) g ferr g, p').
Proof.
  intros c cs p a c0 r y n g H C S. assert (I : poly_inv p) by (eapply run_inv; [apply new_inv|exact H]).
  unfold Polynomial_X. rewrite (update_ok p a I C). cbn [obind]. unfold coeffs. cbn [py_coefficients obind].
  rewrite S. eexists. reflexivity.
Qed.
End Cache.

(** ** Real values *)
Open Scope R_scope.

Lemma Y_loop_R : forall (l : list R) k x y, (0 <= k)%Z ->
  Y_loop (N := RNum) l k x y = y + powerRZ x k * peval l x.
Proof.
  induction l as [|c r IH]; intros k x y Hk; cbn [Y_loop peval].
  - rring.
  - rewrite IH by lia. rn. rewrite Rpow_c_Z.
    assert (E : powerRZ x (k + 1) = powerRZ x k * x).
    { rewrite <- (Z2Nat.id k) by assumption. replace (Z.of_nat (Z.to_nat k) + 1)%Z with (Z.of_nat (S (Z.to_nat k))) by lia.
      rewrite <- !pow_powerRZ. simpl. ring. }
    rewrite E. rring.
Qed.

Lemma Y_list_R : forall (l : list R) x, Y_list (N := RNum) l x = peval l x.
Proof. intros. unfold Y_list. rewrite Y_loop_R by lia. rn. simpl. rring. Qed.

(** The derivative by the product rule. *)
Fixpoint pder (l : list R) (x : R) : R :=
  match l with
  | [] => 0
  | c :: r => peval r x + x * pder r x
  end.

Lemma pder_deriv : forall l x, derivable_pt_lim (peval l) x (pder l x).
Proof.
  induction l as [|c r IH]; intros x.
  - change (peval []) with (fct_cte 0). apply derivable_pt_lim_const.
  - assert (D : derivable_pt_lim (fct_cte c + (id * peval r))%F x (0 + (1 * peval r x + id x * pder r x))).
    { apply derivable_pt_lim_plus; [apply derivable_pt_lim_const|].
      apply derivable_pt_lim_mult; [apply derivable_pt_lim_id|apply IH]. }
    intros eps He. destruct (D eps He) as [d Hd]. exists d. intros h Hh Hlt.
    specialize (Hd h Hh Hlt). cbn [pder peval]. unfold plus_fct, mult_fct, fct_cte, id in Hd.
    replace (0 + (1 * peval r x + x * pder r x)) with (peval r x + x * pder r x) in Hd by ring. exact Hd.
Qed.

Lemma derivative_loop_R : forall (r : list R) k x, (0 < k)%Z ->
  peval (derivative_loop (N := RNum) r k) x = IZR k * peval r x + x * pder r x.
Proof.
  induction r as [|c r IH]; intros k x Hk; cbn [derivative_loop peval pder].
  - ring.
  - destruct (k =? 0)%Z eqn:E; [apply Z.eqb_eq in E; lia|]. cbn [app peval].
    rewrite IH by lia. rn. rewrite plus_IZR. ring.
Qed.

Lemma derivative_list_R : forall (l : list R) x, peval (derivative_loop (N := RNum) l 0) x = pder l x.
Proof.
  intros [|c r] x; [reflexivity|]. cbn [derivative_loop Z.eqb app pder Z.add].
  rewrite derivative_loop_R by lia. ring.
Qed.

Lemma derivable_ext : forall f g x d, (forall t, f t = g t) -> derivable_pt_lim f x d -> derivable_pt_lim g x d.
Proof.
  intros f g x d E H eps He. destruct (H eps He) as [de Hd]. exists de. intros h Hh Hl.
  rewrite <- !E. apply Hd; assumption.
Qed.

Lemma poly_values : forall (store : addr -> list R) c cs p a,
  poly_run (N := RNum) store (Polynomial_new c) cs = Ok p -> py_coefficients p = CAddr a ->
  forall x,
  (forall t, Polynomial_Y (N := RNum) store p t = Ok (peval (store a) t)) /\
  exists s p', Polynomial_Slope (N := RNum) store p x = Ok (s, p') /\ derivable_pt_lim (peval (store a)) x s.
Proof.
  intros store c cs p a H C x. split.
  - intros t. unfold Polynomial_Y, coeffs. rewrite C. cbn [obind]. rewrite Y_list_R. reflexivity.
  - destruct (run_new_slope (N := RNum) store c cs p a x H C) as [p' E]. eexists. exists p'. split; [exact E|].
    rewrite Y_list_R, derivative_list_R. apply pder_deriv.
Qed.

(** ** The inverse *)
Lemma peval_shift : forall c r (y x : R), peval (c - y :: r) x = peval (c :: r) x - y.
Proof. intros. cbn. ring. Qed.

(** The loop entered with the y value of the previous point. *)
Lemma X_loop_newton : forall (c : R) r (y prec g : R) fuel k,
  let f := peval (c :: r) in
  let x := newton f (pder (c :: r)) y g in
  forall yy, (fuel <> O -> prec < Rabs yy) ->
  exists m, (k <= m <= k + fuel)%nat /\
    (forall yprev, yy = yprev ->
    X_loop (N := RNum) fuel prec (c - y :: r) (derivative_loop (N := RNum) (c :: r) 0) (x k) yy (x k) = x m) /\
    (forall j, (k <= j)%nat -> (S j < m)%nat -> prec < Rabs (f (x j) - y)) /\
    (m = (k + fuel)%nat \/ (k < m)%nat /\ Rabs (f (x (m - 1)%nat) - y) <= prec).
Proof.
  intros c r y prec g fuel. induction fuel as [|fuel IH]; intros k f x yy Hyy.
  - exists k. split; [lia|]. split; [intros; reflexivity|]. split; [intros; lia|left; lia].
  - assert (Hp : prec < Rabs yy) by (apply Hyy; discriminate).
    set (y1 := f (x k) - y).
    assert (STEP : X_loop (N := RNum) (S fuel) prec (c - y :: r) (derivative_loop (N := RNum) (c :: r) 0) (x k) yy (x k) =
      X_loop (N := RNum) fuel prec (c - y :: r) (derivative_loop (N := RNum) (c :: r) 0) (x (S k)) y1 (x (S k))).
    { cbn [X_loop]. rewrite !Y_list_R, derivative_list_R.
      replace (fltb (n := RNum) prec (fabs (n := RNum) yy)) with true by (symmetry; rn; apply Rltb_true; exact Hp).
      rewrite peval_shift. fold f. fold y1. change (x (S k)) with
        (if Req_EM_T (pder (c :: r) (x k)) 0 then x k else x k - (f (x k) - y) / pder (c :: r) (x k)).
      rn. unfold Reqb. destruct (Req_EM_T (pder (c :: r) (x k)) 0); reflexivity. }
    destruct (Rle_lt_dec (Rabs y1) prec) as [L|L].
    + exists (S k). split; [lia|]. split.
      * intros. rewrite STEP. destruct fuel; [reflexivity|]. cbn [X_loop].
        replace (fltb (n := RNum) prec (fabs (n := RNum) y1)) with false by (symmetry; rn; apply Rltb_false; exact L).
        reflexivity.
      * split; [intros; lia|]. right. split; [lia|]. replace (S k - 1)%nat with k by lia. exact L.
    + destruct (IH (S k) y1 (fun _ => L)) as (m & B & E & A & D). exists m. split; [lia|]. split.
      * intros. rewrite STEP. apply (E y1 eq_refl).
      * split.
        -- intros j Hj Hm. destruct (Nat.eq_dec j k) as [->|]; [exact L|]. apply A; lia.
        -- destruct D as [D|D]; [left; lia|right; split; [lia|tauto]].
Qed.

Lemma pder_newton_ext : forall f s s' y g, (forall x, s x = s' x) -> forall k, newton f s y g k = newton f s' y g k.
Proof.
  intros f s s' y g E k. induction k as [|k IH]; [reflexivity|]. cbn [newton]. rewrite IH, E. reflexivity.
Qed.

Lemma prec_R : forall n, fdiv (n := RNum) (@fofZ RNum 1) (fpow (n := RNum) (@fofZ RNum 10) (@fofZ RNum n)) = powerRZ 10 (- n).
Proof. intros n. rn. rewrite Rpow_c_Z, powerRZ_neg'. unfold Rdiv; apply Rmult_1_l. Qed.

Lemma X_is_newton : forall (store : addr -> list R) cp cs p a (y g : R) n slope,
  poly_run (N := RNum) store (Polynomial_new cp) cs = Ok p -> py_coefficients p = CAddr a ->
  store a <> [] -> powerRZ 10 (- n) < 999999 ->
  (forall x, derivable_pt_lim (peval (store a)) x (slope x)) ->
  let x := newton (peval (store a)) slope y g in
  exists m p', (1 <= m <= 100)%nat /\
    Polynomial_X (N := RNum) store p y n g = Ok (x m, p') /\
    (forall j, (S j < m)%nat -> powerRZ 10 (- n) < Rabs (peval (store a) (x j) - y)) /\
    (m = 100%nat \/ Rabs (peval (store a) (x (m - 1)%nat) - y) <= powerRZ 10 (- n)).
Proof.
  intros store cp cs p a y g n slope H C NE Hp HS.
  destruct (store a) as [|c r] eqn:S; [congruence|].
  destruct (run_new_X (N := RNum) store cp cs p a c r y n g H C S) as [p' E].
  rewrite prec_R in E. intros x.
  assert (XE : forall k, newton (peval (c :: r)) (pder (c :: r)) y g k = x k).
  { intros k. apply pder_newton_ext. intros t. eapply uniqueness_limite; [apply pder_deriv|apply HS]. }
  destruct (X_loop_newton c r y (powerRZ 10 (- n)) g 100 0 (@ferr RNum)) as (m & B & L & A & D).
  { intros _. unfold ferr. rewrite Rlit0. rewrite Rabs_left; lra. }
  cbn [Nat.add] in *.
  exists m, p'. assert (M : (1 <= m)%nat) by (destruct D as [D|[D _]]; lia). split; [lia|]. split.
  - rewrite E. specialize (L _ eq_refl). cbn [newton] in L. rewrite <- XE. rewrite <- L. reflexivity.
  - split.
    + intros j Hj. rewrite <- XE. apply A; lia.
    + destruct D as [D|[_ D]]; [left; assumption|right]. rewrite <- XE. exact D.
Qed.

(** A straight line is inverted exactly. *)
Lemma X_linear : forall (store : addr -> list R) cp cs p a (c0 c1 y g : R) n,
  poly_run (N := RNum) store (Polynomial_new cp) cs = Ok p -> py_coefficients p = CAddr a ->
  store a = [c0; c1] -> c1 <> 0 -> powerRZ 10 (- n) < 999999 ->
  exists x p', Polynomial_X (N := RNum) store p y n g = Ok (x, p') /\ peval (store a) x = y.
Proof.
  intros store cp cs p a c0 c1 y g n H C S Hc Hn.
  assert (D : forall x, derivable_pt_lim (peval (store a)) x c1).
  { intros x. replace c1 with (pder (store a) x) by (rewrite S; cbn; ring). apply pder_deriv. }
  destruct (X_is_newton store cp cs p a y g n (fun _ => c1) H C ltac:(rewrite S; discriminate) Hn D) as (m & p' & B & E & _).
  eexists. exists p'. split; [exact E|]. destruct m as [|m]; [lia|].
  cbn [newton]. destruct (Req_EM_T c1 0); [contradiction|]. rewrite S. cbn. field. assumption.
Qed.

(** ** Witnesses against the full claim *)
Definition one_store (l : list R) : addr -> list R := fun _ => l.

Lemma newton_stuck : forall f s y g k, s g = 0 -> newton f s y g k = g.
Proof.
  intros f s y g k H. induction k as [|k IH]; [reflexivity|]. cbn [newton]. rewrite IH.
  destruct (Req_EM_T (s g) 0); [reflexivity|contradiction].
Qed.

Lemma X_stuck : exists p' (x : R), Polynomial_X (N := RNum) (one_store [0; 0; 1]) (Polynomial_new (CAddr 0%Z)) 1 3 0 = Ok (x, p') /\
  Rabs (peval [0; 0; 1] x - 1) > powerRZ 10 (- (3)) /\ peval [0; 0; 1] 1 = 1.
Proof.
  destruct (X_is_newton (one_store [0; 0; 1]) (CAddr 0%Z) [] (Polynomial_new (CAddr 0%Z)) 0%Z 1 0 3
    (pder [0; 0; 1])) as (m & p' & _ & E & _); try reflexivity.
  - discriminate.
  - simpl. lra.
  - intros. apply pder_deriv.
  - rewrite newton_stuck in E by (cbn; ring). exists p', 0. split; [exact E|].
    split; [|cbn; ring]. replace (peval [0; 0; 1] 0 - 1) with (-1) by (cbn; ring).
    rewrite Rabs_left by lra. simpl. lra.
Qed.

(** The guess meets the tolerance; the answer is 500 away and does not. *)
Lemma X_overshoot : exists p' (x : R),
  let l := [1 / 1000; 0; 1] in let guess := 1 / 1000000 in
  Polynomial_X (N := RNum) (one_store l) (Polynomial_new (CAddr 0%Z)) 0 2 guess = Ok (x, p') /\
  Rabs (peval l guess - 0) <= powerRZ 10 (- (2)) /\ Rabs (peval l x - 0) > 200000.
Proof.
  set (l := [1 / 1000; 0; 1]).
  destruct (X_is_newton (one_store l) (CAddr 0%Z) [] (Polynomial_new (CAddr 0%Z)) 0%Z 0 (1 / 1000000) 2
    (pder l)) as (m & p' & B & E & A & _); try reflexivity.
  - discriminate.
  - simpl. lra.
  - intros. apply pder_deriv.
  - change (one_store l 0%Z) with l in *.
    assert (T : Rabs (peval l (1 / 1000000) - 0) <= powerRZ 10 (- (2))).
    { unfold l. cbn [peval]. rewrite Rabs_pos_eq by lra. simpl. lra. }
    assert (M : m = 1%nat).
    { destruct m as [|[|m]]; [lia|reflexivity|]. specialize (A 0%nat ltac:(lia)). cbn [newton] in A. lra. }
    subst m. eexists p', _. split; [exact E|]. split; [exact T|].
    cbn [newton]. assert (P : pder l (1 / 1000000) = 2 / 1000000) by (unfold l; cbn; lra).
    destruct (Req_EM_T (pder l (1 / 1000000)) 0) as [Z|_]; [lra|]. rewrite P. unfold l. cbn [peval].
    rewrite Rabs_pos_eq; nra.
Qed.

(** ** The vector changes behind the polynomial *)
Lemma slope_stale : exists s p,
  Polynomial_Slope (N := RNum) (one_store [0; 1]) (Polynomial_new (CAddr 0%Z)) 5 = Ok (s, p) /\
  exists s' p', Polynomial_Slope (N := RNum) (one_store [0; 3]) p 5 = Ok (s', p') /\ s' = 1 /\
    derivable_pt_lim (peval [0; 3]) 5 3 /\
    Polynomial_Y (N := RNum) (one_store [0; 3]) p 5 = Ok 15.
Proof.
  assert (D : Y_list (N := RNum) (derivative_loop (N := RNum) [0; 1] 0) 5 = 1).
  { rewrite Y_list_R, derivative_list_R. cbn. ring. }
  eexists. exists (mkPolynomial (N := RNum) (CAddr 0%Z) (Some (derivative_loop (N := RNum) [0; 1] 0)) true).
  split; [reflexivity|]. eexists. eexists. split; [reflexivity|]. split; [exact D|]. split.
  - replace 3 with (pder [0; 3] 5) at 2 by (cbn; ring). apply pder_deriv.
  - unfold Polynomial_Y, coeffs, one_store. cbn [py_coefficients obind]. rewrite Y_list_R. f_equal. cbn. lra.
Qed.
