(** The search of the transit sagger ends, in real numbers and in double precision. *)
From Coq Require Import ZArith Bool List Lia Reals Lra.
From Flocq Require Import Core.Core Relative IEEE754.BinarySingleNaN.
From Verif Require Import Num NumFacts ModelBase ModelCatenary ModelSagging ProofReal.
Import ListNotations.
Open Scope R_scope.

(** Half an ulp of 1, and a bound of the smallest double. *)
Definition half_ulp : R := / 9007199254740992.
Definition tiny : R := / 1000000000000000000000000000000.

(** ** What the proof uses of an arithmetic: its operations are rounded real operations. *)
Record RoundLaws (N : Num) (fin : N -> Prop) (v : N -> R) (rnd : R -> R) : Prop := mkRoundLaws {
  rl_add : forall x y, fin x -> fin y -> Rabs (v x) <= 20 -> Rabs (v y) <= 20 -> fin (fadd x y) /\ v (fadd x y) = rnd (v x + v y);
  rl_sub : forall x y, fin x -> fin y -> Rabs (v x) <= 20 -> Rabs (v y) <= 20 -> fin (fsub x y) /\ v (fsub x y) = rnd (v x - v y);
  rl_mul : forall x y, fin x -> fin y -> Rabs (v x) <= 20 -> Rabs (v y) <= 20 -> fin (fmul x y) /\ v (fmul x y) = rnd (v x * v y);
  rl_div : forall x y, fin x -> fin y -> Rabs (v x) <= 20 -> 1 <= v y -> fin (fdiv x y) /\ v (fdiv x y) = rnd (v x / v y);
  rl_ltb : forall x y, fin x -> fin y -> fltb x y = Rltb (v x) (v y);
  rl_int : forall z, (0 <= z <= 20)%Z -> fin (fofZ z) /\ v (fofZ z) = IZR z;
  rl_lit : fin (flit 1 (-5)) /\ v (flit 1 (-5)) = rnd (/ 100000);
  rl_le : forall x y, x <= y -> rnd x <= rnd y;
  rl_0 : rnd 0 = 0;
  rl_1 : rnd 1 = 1;
  rl_err : forall x, Rabs (rnd x - x) <= half_ulp * Rabs x + tiny;
  rl_grid : forall a b i, 0 <= b <= a -> a <= 1 -> a - b <= 3 / 10 -> 0 <= i <= 10 -> rnd (b + rnd (i * rnd (rnd (a - b) / 10))) <= 1;
  rl_tenth : rnd (10 * rnd (1 / 10)) = 1
}.

Section Search.
Context {N : Num} {fin : N -> Prop} {v : N -> R} {rnd : R -> R} (L : RoundLaws N fin v rnd).

Lemma lowest_in : forall (angle : N -> N) ps low found p, lowest angle ps low found = Some p -> In p ps \/ found = Some p.
Proof.
  intros angle. induction ps as [|q ps IH]; intros low found p H; cbn [lowest] in H; [right; exact H|].
  destruct (fltb (angle q) low); destruct (IH _ _ _ H) as [A|A]; cbn [In]; auto.
  injection A as <-. auto.
Qed.

Lemma err_up : forall x b, 0 <= x <= b -> rnd x <= x + half_ulp * b + tiny.
Proof.
  intros x b H. generalize (rl_err _ _ _ _ L x). unfold half_ulp. rewrite (Rabs_pos_eq x) by lra.
  generalize (Rle_abs (rnd x - x)). lra.
Qed.
Lemma err_dn : forall x b, 0 <= x <= b -> x - half_ulp * b - tiny <= rnd x.
Proof.
  intros x b H. generalize (rl_err _ _ _ _ L x). unfold half_ulp. rewrite (Rabs_pos_eq x) by lra.
  generalize (Rle_abs (- (rnd x - x))). rewrite Rabs_Ropp. lra.
Qed.
Lemma rnd_pos : forall x, 0 <= x -> 0 <= rnd x.
Proof. intros x H. rewrite <- (rl_0 _ _ _ _ L). apply (rl_le _ _ _ _ L), H. Qed.

(** A state of the search: an interval inside [0, 1]. *)
Record inside (s : Search N) : Prop := mkInside {
  in_back : fin (se_back s); in_ahead : fin (se_ahead s);
  in_0 : 0 <= v (se_back s); in_le : v (se_back s) <= v (se_ahead s); in_1 : v (se_ahead s) <= 1
}.
Definition width (s : Search N) : R := v (se_ahead s) - v (se_back s).

Lemma step_size : forall s, inside s ->
  let d := fdiv (fsub (se_ahead s) (se_back s)) (fofZ (11 - 1)) in
  fin d /\ v d = rnd (rnd (width s) / 10) /\ 0 <= v d <= width s / 10 + width s * half_ulp + 2 * tiny.
Proof.
  intros s [A B C D E] d. unfold half_ulp.
  destruct (rl_sub _ _ _ _ L (se_ahead s) (se_back s) B A) as (F1 & V1); try (rewrite Rabs_pos_eq; lra).
  destruct (rl_int _ _ _ _ L (11 - 1)%Z ltac:(lia)) as (F2 & V2). change (11 - 1)%Z with 10%Z in *.
  assert (H1 := err_up (width s) (width s)). unfold width in *. fold (width s) in *.
  assert (W : 0 <= width s <= 1) by (unfold width; lra). specialize (H1 ltac:(lra)). assert (H0 := rnd_pos (width s) ltac:(lra)).
  assert (H2 := err_up (rnd (width s) / 10) (rnd (width s) / 10) ltac:(lra)).
  assert (H3 := rnd_pos (rnd (width s) / 10) ltac:(lra)).
  unfold half_ulp, tiny in *.
  destruct (rl_div _ _ _ _ L (fsub (se_ahead s) (se_back s)) (fofZ 10)) as (F3 & V3).
  - exact F1.
  - exact F2.
  - rewrite V1. fold (width s). rewrite Rabs_pos_eq by lra. lra.
  - rewrite V2. lra.
  - subst d. rewrite V1, V2 in V3. fold (width s) in V3. rewrite V3. split; [exact F3|]. split; [reflexivity|].
    lra.
Qed.

(** The positions of a pass. *)
Lemma position_value : forall s i, inside s -> (i <= 10)%nat ->
  let d := fdiv (fsub (se_ahead s) (se_back s)) (fofZ (11 - 1)) in
  let p := fadd (se_back s) (fmul (fofZ (Z.of_nat i)) d) in
  fin p /\ 0 <= v p /\ v p = rnd (v (se_back s) + rnd (INR i * v d)).
Proof.
  intros s i I H d p. destruct (step_size s I) as (F1 & _ & B1). fold d in F1, B1.
  assert (W : 0 <= width s <= 1) by (destruct I; unfold width; lra).
  destruct (rl_int _ _ _ _ L (Z.of_nat i) ltac:(lia)) as (F2 & V2). rewrite <- INR_IZR_INZ in V2.
  assert (I10 : 0 <= INR i <= 10) by (split; [apply pos_INR|]; replace 10 with (INR 10) by (cbn; lra); apply le_INR, H).
  unfold half_ulp, tiny in B1.
  destruct (rl_mul _ _ _ _ L (fofZ (Z.of_nat i)) d F2 F1) as (F3 & V3).
  { rewrite V2, Rabs_pos_eq; lra. }
  { rewrite Rabs_pos_eq; lra. }
  rewrite V2 in V3.
  assert (P : 0 <= INR i * v d <= 10 * (2 / 10)) by (split; [apply Rmult_le_pos; lra|apply Rmult_le_compat; lra]).
  assert (E3 := err_up (INR i * v d) 2 ltac:(lra)). assert (P3 := rnd_pos (INR i * v d) ltac:(lra)). unfold half_ulp, tiny in E3.
  destruct I as [A B C D E].
  destruct (rl_add _ _ _ _ L (se_back s) (fmul (fofZ (Z.of_nat i)) d) A F3) as (F4 & V4).
  { rewrite Rabs_pos_eq; lra. }
  { rewrite V3, Rabs_pos_eq; lra. }
  rewrite V3 in V4. fold p in F4, V4. split; [exact F4|]. split; [|exact V4]. rewrite V4. apply rnd_pos. lra.
Qed.

Lemma position_capped : forall s i, inside s -> (i <= 10)%nat -> width s <= 3 / 10 ->
  let d := fdiv (fsub (se_ahead s) (se_back s)) (fofZ (11 - 1)) in
  v (fadd (se_back s) (fmul (fofZ (Z.of_nat i)) d)) <= 1.
Proof.
  intros s i I H W d. destruct (position_value s i I H) as (_ & _ & E0). fold d in E0. rewrite E0.
  destruct (step_size s I) as (_ & E & B). fold d in E, B.
  assert (I10 : 0 <= INR i <= 10) by (split; [apply pos_INR|]; replace 10 with (INR 10) by (cbn; lra); apply le_INR, H).
  rewrite E. destruct I as [_ _ C D F]. apply (rl_grid _ _ _ _ L); [lra|lra|exact W|exact I10].
Qed.

Lemma position_first : forall i, (i <= 10)%nat -> let s := @Search_start N in
  let d := fdiv (fsub (se_ahead s) (se_back s)) (fofZ (11 - 1)) in
  v (fadd (se_back s) (fmul (fofZ (Z.of_nat i)) d)) <= 1.
Proof.
  intros i H s d.
  assert (Z0 := proj2 (rl_int _ _ _ _ L 0 ltac:(lia))). assert (Z1 := proj2 (rl_int _ _ _ _ L 1 ltac:(lia))).
  assert (I : inside s).
  { constructor; cbn [s Search_start se_back se_ahead]; try apply (rl_int _ _ _ _ L); try lia; rewrite ?Z0, ?Z1; lra. }
  destruct (position_value s i I H) as (_ & _ & E0). fold d in E0. rewrite E0.
  destruct (step_size s I) as (_ & E & B). fold d in E, B.
  replace (width s) with 1 in E by (unfold width; cbn [s Search_start se_back se_ahead]; rewrite Z0, Z1; ring).
  rewrite (rl_1 _ _ _ _ L) in E. cbn [s Search_start se_back]. rewrite Z0, Rplus_0_l.
  assert (I10 : 0 <= INR i <= 10) by (split; [apply pos_INR|]; replace 10 with (INR 10) by (cbn; lra); apply le_INR, H).
  replace 1 with (rnd (rnd (10 * rnd (1 / 10)))) by (rewrite (rl_tenth _ _ _ _ L); apply (rl_1 _ _ _ _ L)).
  rewrite <- E. apply (rl_le _ _ _ _ L), (rl_le _ _ _ _ L). apply Rmult_le_compat_r; lra.
Qed.

(** One pass. *)
Record passed (s : Search N) : Prop := mkPassed {
  pa_inside : inside s;
  pa_tolerance : fin (se_tolerance s);
  pa_size : 0 <= v (se_tolerance s) <= 1;
  pa_width : width s <= 2 * v (se_tolerance s) + / 100000000000000;
  pa_position : fin (se_position s);
  pa_range : 0 <= v (se_position s) <= 1
}.

Lemma pass_passed : forall (angle : N -> N) s s', inside s -> search_pass angle s = Ok s' ->
  (forall i, (i <= 10)%nat ->
    v (fadd (se_back s) (fmul (fofZ (Z.of_nat i)) (fdiv (fsub (se_ahead s) (se_back s)) (fofZ (11 - 1))))) <= 1) ->
  passed s' /\ v (se_tolerance s') <= width s / 10 + / 100000000000000.
Proof.
  intros angle s s' I H CAP. unfold search_pass, PositionCatenaryLowAngle in H.
  destruct (lowest angle (sight_positions (se_back s) (se_ahead s) 11) (fofZ 999999) None) as [p|] eqn:E; [|discriminate H].
  cbn [obind] in H. assert (H' : In p (sight_positions (se_back s) (se_ahead s) 11)).
  { destruct (lowest_in _ _ _ _ _ E) as [A|A]; [exact A|discriminate A]. }
  unfold sight_positions in H'. apply in_map_iff in H'. destruct H' as (i & Hp & Hi). apply in_seq in Hi.
  change (Z.to_nat 11) with 11%nat in Hi. assert (Hi' : (i <= 10)%nat) by lia.
  destruct (step_size s I) as (F1 & _ & B1). destruct (position_value s i I Hi') as (F2 & P2 & _). specialize (CAP i Hi').
  set (d := fdiv (fsub (se_ahead s) (se_back s)) (fofZ (11 - 1))) in *. rewrite Hp in F2, P2, CAP. clear Hp E.
  assert (W : 0 <= width s <= 1) by (destruct I; unfold width; lra).
  unfold half_ulp, tiny in B1.
  assert (D1 : 0 <= v d <= 2 / 10) by lra.
  destruct (rl_sub _ _ _ _ L p d F2 F1) as (F3 & V3); try (rewrite Rabs_pos_eq; lra).
  destruct (rl_add _ _ _ _ L p d F2 F1) as (F4 & V4); try (rewrite Rabs_pos_eq; lra).
  destruct (rl_int _ _ _ _ L 0 ltac:(lia)) as (FZ & VZ). destruct (rl_int _ _ _ _ L 1 ltac:(lia)) as (FO & VO).
  set (back := if fltb (fsub p d) (fofZ 0) then fofZ 0 else fsub p d) in H.
  set (ahead := if fltb (fofZ 1) (fadd p d) then fofZ 1 else fadd p d) in H.
  injection H as <-.
  assert (E3 : v p - v d - 3 * half_ulp - tiny <= rnd (v p - v d)).
  { generalize (rl_err _ _ _ _ L (v p - v d)). generalize (Rle_abs (- (rnd (v p - v d) - (v p - v d)))). rewrite Rabs_Ropp.
    assert (Rabs (v p - v d) <= 2) by (apply Rabs_le; lra). unfold half_ulp. lra. }
  assert (E4 := err_up (v p + v d) 2 ltac:(lra)).
  assert (M1 : rnd (v p - v d) <= 1) by (rewrite <- (rl_1 _ _ _ _ L); apply (rl_le _ _ _ _ L); lra).
  assert (M2 : 0 <= rnd (v p + v d)) by (apply rnd_pos; lra).
  assert (M3 : rnd (v p - v d) <= rnd (v p + v d)) by (apply (rl_le _ _ _ _ L); lra).
  assert (FB : fin back) by (unfold back; destruct (fltb (fsub p d) (fofZ 0)); assumption).
  assert (FA : fin ahead) by (unfold ahead; destruct (fltb (fofZ 1) (fadd p d)); assumption).
  assert (VB : v back = Rmax 0 (rnd (v p - v d))).
  { unfold back. rewrite (rl_ltb _ _ _ _ L (fsub p d) (fofZ 0) F3 FZ), V3, VZ. unfold Rltb. destruct (Rlt_dec (rnd (v p - v d)) 0).
    - rewrite Rmax_left by lra. exact VZ.
    - rewrite Rmax_right by lra. exact V3. }
  assert (VA : v ahead = Rmin 1 (rnd (v p + v d))).
  { unfold ahead. rewrite (rl_ltb _ _ _ _ L (fofZ 1) (fadd p d) FO F4), V4, VO. unfold Rltb. destruct (Rlt_dec 1 (rnd (v p + v d))).
    - rewrite Rmin_left by lra. exact VO.
    - rewrite Rmin_right by lra. exact V4. }
  unfold half_ulp, tiny in *. split; [constructor; cbn [se_back se_ahead se_tolerance se_position]|cbn [se_tolerance]]; try assumption; try lra.
  - constructor; cbn [se_back se_ahead]; try assumption; rewrite ?VA, ?VB; unfold Rmax, Rmin;
      destruct (Rle_dec 0 (rnd (v p - v d))), (Rle_dec 1 (rnd (v p + v d))); lra.
  - unfold width. cbn [se_back se_ahead]. rewrite VA, VB. unfold Rmax, Rmin;
      destruct (Rle_dec 0 (rnd (v p - v d))), (Rle_dec 1 (rnd (v p + v d))); lra.
Qed.

(** The passes that are left for a tolerance. *)
Definition left_for (n : nat) : R := 9 / 1000000 * 5 ^ n + 2 / 100000000000000.

Lemma literal_value : 99 / 10000000 <= v (flit 1 (-5)) <= 1 / 100000 + / 10000000000.
Proof.
  destruct (rl_lit _ _ _ _ L) as (_ & ->). generalize (err_up (/ 100000) 1 ltac:(lra)), (err_dn (/ 100000) 1 ltac:(lra)).
  unfold half_ulp, tiny. lra.
Qed.

Definition found (r : outcome (option (Search N))) : Prop :=
  match r with
  | Ok None | Throw => False
  | Ok (Some s) => fin (se_position s) /\ 0 <= v (se_position s) <= 1 /\ fltb (flit 1 (-5)) (se_tolerance s) = false
  | UB => True
  end.

Lemma search_left : forall (angle : N -> N) n s fuel, (n <= 6)%nat -> (n <= fuel)%nat -> passed s -> v (se_tolerance s) <= left_for n ->
  found (search angle fuel s) /\ search angle fuel s = search angle n s.
Proof.
  intros angle. induction n as [|n IH]; intros s fuel N6 NF P T.
  - assert (E : fltb (flit 1 (-5)) (se_tolerance s) = false).
    { rewrite (rl_ltb _ _ _ _ L) by (apply (rl_lit _ _ _ _ L) || apply P). apply Rltb_false. generalize literal_value.
      unfold left_for in T. cbn [pow] in T. lra. }
    assert (E' : forall f, search angle f s = Ok (Some s)) by (intros [|f]; cbn [search]; rewrite E; reflexivity).
    rewrite !E'. split; [|reflexivity]. cbn [found]. split; [apply P|split; [apply P|exact E]].
  - destruct fuel as [|fuel]; [lia|]. cbn [search].
    destruct (fltb (flit 1 (-5)) (se_tolerance s)) eqn:E.
    2: { split; [|reflexivity]. cbn [found]. split; [apply P|split; [apply P|exact E]]. }
    destruct (search_pass angle s) as [s'| |] eqn:Q; cbn [obind].
    + assert (W : width s <= 3 / 10).
      { assert (A := pa_width _ P). unfold left_for in T. assert (5 ^ S n <= 5 ^ 6) by (apply Rle_pow; [lra|exact N6]).
        assert (5 ^ 6 = 15625) by (cbn; lra). lra. }
      destruct (pass_passed angle s s' (pa_inside _ P) Q) as (P' & T').
      { intros i Hi. apply position_capped; [apply P|exact Hi|exact W]. }
      apply IH; [lia|lia|exact P'|]. assert (A := pa_width _ P). unfold left_for in *. cbn [pow] in T. lra.
    + exfalso. unfold search_pass, PositionCatenaryLowAngle in Q. destruct (lowest _ _ _ _); discriminate Q.
    + split; [exact I|reflexivity].
Qed.

Lemma search_all : forall (angle : N -> N) fuel, (7 <= fuel)%nat ->
  found (search angle fuel Search_start) /\ search angle fuel Search_start = search angle 7 Search_start.
Proof.
  intros angle [|fuel] H; [lia|].
  assert (Z0 := rl_int _ _ _ _ L 0 ltac:(lia)). assert (Z1 := rl_int _ _ _ _ L 1 ltac:(lia)).
  assert (I : inside Search_start).
  { constructor; cbn [Search_start se_back se_ahead]; try apply Z0; try apply Z1; rewrite ?(proj2 Z0), ?(proj2 Z1); lra. }
  assert (E : fltb (flit 1 (-5)) (se_tolerance (@Search_start N)) = true).
  { cbn [Search_start se_tolerance].
    destruct (rl_sub _ _ _ _ L (fofZ 1) (fofZ 0) (proj1 Z1) (proj1 Z0)) as (F1 & V1);
      try (rewrite ?(proj2 Z0), ?(proj2 Z1), Rabs_pos_eq; lra).
    rewrite (proj2 Z0), (proj2 Z1), Rminus_0_r, (rl_1 _ _ _ _ L) in V1.
    destruct (rl_int _ _ _ _ L 2 ltac:(lia)) as (F2 & V2).
    destruct (rl_div _ _ _ _ L (fsub (fofZ 1) (fofZ 0)) (fofZ 2) F1 F2) as (F3 & V3); try (rewrite ?V1, ?V2; try rewrite Rabs_pos_eq; lra).
    rewrite (rl_ltb _ _ _ _ L) by (apply (rl_lit _ _ _ _ L) || exact F3). apply Rltb_true. rewrite V3, V1, V2.
    generalize literal_value, (err_dn (1 / 2) 1 ltac:(lra)). unfold half_ulp, tiny. lra. }
  assert (STEP : forall f, search angle (S f) Search_start = obind (search_pass angle Search_start) (search angle f))
    by (intros f; cbn [search]; rewrite E; reflexivity).
  rewrite !STEP. destruct (search_pass angle Search_start) as [s'| |] eqn:Q; cbn [obind].
  - destruct (pass_passed angle Search_start s' I Q position_first) as (P & T).
    apply search_left; [lia|lia|exact P|]. unfold width in T. cbn [Search_start se_back se_ahead] in T.
    rewrite (proj2 Z0), (proj2 Z1) in T. unfold left_for. cbn [pow]. lra.
  - exfalso. unfold search_pass, PositionCatenaryLowAngle in Q. destruct (lowest _ _ _ _); discriminate Q.
  - split; [exact Logic.I|reflexivity].
Qed.

End Search.

(** ** Real numbers *)
Lemma RNum_round : RoundLaws RNum (fun _ => True) (fun x => x) (fun x => x).
Proof.
  assert (HU : 0 < half_ulp) by (unfold half_ulp; lra). assert (HT : 0 < tiny) by (unfold tiny; lra).
  constructor; intros; try (split; [exact Logic.I|reflexivity]); try reflexivity; try assumption.
  - split; [exact Logic.I|]. rn. reflexivity.
  - split; [exact Logic.I|]. rewrite flit_R. cbn [powerRZ]. change (Pos.to_nat 5) with 5%nat. cbn [pow]. field.
  - replace (x - x) with 0 by ring. rewrite Rabs_R0. assert (0 <= half_ulp * Rabs x) by (apply Rmult_le_pos; [lra|apply Rabs_pos]). lra.
  - assert (i * ((a - b) / 10) <= 10 * ((a - b) / 10)) by (apply Rmult_le_compat_r; lra). lra.
  - lra.
Qed.

(** ** Double precision *)
Section Double.
Variable lm : Libm.

Definition rnd64 : R -> R := round radix2 (SpecFloat.fexp 53 1024) (round_mode mode_NE).
Local Instance valid64 : Valid_exp (SpecFloat.fexp 53 1024) := FLT_exp_valid (-1074) 53 (prec_gt_0_ := Hprec64).

Lemma rnd64_le : forall x y, x <= y -> rnd64 x <= rnd64 y.
Proof. intros x y H. apply round_le; [apply valid64|apply valid_rnd_round_mode|exact H]. Qed.

Lemma format_bpow : forall e, (-1074 <= e < 1024)%Z -> generic_format radix2 (SpecFloat.fexp 53 1024) (bpow radix2 e).
Proof. intros e H. apply generic_format_bpow. unfold SpecFloat.fexp, SpecFloat.emin. lia. Qed.

Lemma rnd64_small : forall x, Rabs x <= 512 -> Rabs (rnd64 x) < bpow radix2 1024.
Proof.
  intros x H. apply Rle_lt_trans with (bpow radix2 9).
  - apply abs_round_le_generic; [apply valid64|apply valid_rnd_round_mode|apply format_bpow; lia|]. exact H.
  - apply bpow_lt. lia.
Qed.

Lemma rnd64_err : forall x, Rabs (rnd64 x - x) <= half_ulp * Rabs x + tiny.
Proof.
  intros x. destruct (error_N_FLT radix2 (-1074) 53 Hprec64 (fun z => negb (Z.even z)) x) as (eps & eta & A & B & _ & E).
  change (rnd64 x) with (round radix2 (FLT_exp (-1074) 53) ZnearestE x). rewrite E.
  replace (x * (1 + eps) + eta - x) with (x * eps + eta) by ring.
  apply Rle_trans with (1 := Rabs_triang _ _). rewrite Rabs_mult.
  assert (U : / 2 * bpow radix2 (-53 + 1) = half_ulp) by (unfold half_ulp; cbn; lra).
  change (- (53) + 1)%Z with (-53 + 1)%Z in A. rewrite U in A.
  assert (T : / 2 * bpow radix2 (-1074) <= tiny).
  { apply Rle_trans with (bpow radix2 (-110)).
    - change (/ 2) with (bpow radix2 (-1)). rewrite <- bpow_plus. apply bpow_le. lia.
    - unfold tiny. cbn. apply Rinv_le; lra. }
  assert (Rabs x * Rabs eps <= Rabs x * half_ulp) by (apply Rmult_le_compat_l; [apply Rabs_pos|exact A]). lra.
Qed.

Lemma rnd64_int : forall z, (0 <= z <= 1)%Z -> rnd64 (IZR z) = IZR z.
Proof.
  intros z H. assert (z = 0 \/ z = 1)%Z as [-> | ->] by lia; [apply round_0; apply valid_rnd_round_mode|].
  apply round_generic; [apply valid_rnd_round_mode|]. exact (format_bpow 0 ltac:(lia)).
Qed.

Lemma rnd64_cap : forall x, x < 1 + half_ulp -> rnd64 x <= 1.
Proof.
  intros x H. apply round_N_le_midp; [apply valid64|exact (format_bpow 0 ltac:(lia))|].
  apply Rlt_le_trans with (1 := H). 
  assert (S : succ radix2 (SpecFloat.fexp 53 1024) 1 = 1 + 2 * half_ulp).
  { rewrite succ_eq_pos by lra. change 1 with (bpow radix2 0) at 2. rewrite ulp_bpow. unfold half_ulp. cbn. lra. }
  rewrite S. lra.
Qed.

Lemma rnd64_pos : forall x, 0 <= x -> 0 <= rnd64 x.
Proof. intros x H. rewrite <- (rnd64_int 0 ltac:(lia)). apply rnd64_le, H. Qed.
Lemma rnd64_up : forall x, 0 <= x -> rnd64 x <= x + half_ulp * x + tiny.
Proof. intros x H. generalize (rnd64_err x), (Rle_abs (rnd64 x - x)). rewrite (Rabs_pos_eq x) by exact H. lra. Qed.

Lemma rnd64_grid : forall a b i, 0 <= b <= a -> a <= 1 -> a - b <= 3 / 10 -> 0 <= i <= 10 ->
  rnd64 (b + rnd64 (i * rnd64 (rnd64 (a - b) / 10))) <= 1.
Proof.
  intros a b i A B C D. apply rnd64_cap.
  assert (H1 := rnd64_up (a - b) ltac:(lra)). assert (P1 := rnd64_pos (a - b) ltac:(lra)).
  assert (H2 := rnd64_up (rnd64 (a - b) / 10) ltac:(lra)). assert (P2 := rnd64_pos (rnd64 (a - b) / 10) ltac:(lra)).
  set (d := rnd64 (rnd64 (a - b) / 10)) in *.
  assert (P : 0 <= i * d <= 10 * d) by (split; [apply Rmult_le_pos; lra|apply Rmult_le_compat_r; lra]).
  assert (H3 := rnd64_up (i * d) ltac:(lra)). unfold half_ulp, tiny in *. lra.
Qed.

Definition fin64 (x : b64) : Prop := is_finite x = true.

Lemma fin_num : forall x, fin64 x -> num64 x.
Proof. intros [s|s| |s m e H]; cbn; intros; try easy. Qed.

Lemma ofZ_value : forall z, (0 <= z < 2 ^ 53)%Z -> fin64 (b64_ofZ z) /\ B2R (b64_ofZ z) = IZR z.
Proof.
  intros z H. generalize (binary_normalize_correct 53 1024 Hprec64 Hemax64 mode_NE z 0 false).
  assert (G : generic_format radix2 (SpecFloat.fexp 53 1024) (F2R (Float radix2 z 0))).
  { apply generic_format_FLT with (emin := (-1074)%Z). exists (Float radix2 z 0); [reflexivity| |]; cbn; lia. }
  assert (Q : round radix2 (SpecFloat.fexp 53 1024) (round_mode mode_NE) (F2R (Float radix2 z 0)) = IZR z).
  { rewrite round_generic; [unfold F2R; cbn [Fnum Fexp bpow]; apply Rmult_1_r|apply valid_rnd_round_mode|exact G]. }
  cbv zeta. match goal with |- context [Rlt_bool (Rabs ?x) _] => replace x with (IZR z) by (symmetry; exact Q) end. rewrite Rlt_bool_true.
  - intros (A & B & _). split; [exact B|exact A].
  - rewrite <- abs_IZR. apply Rlt_trans with (IZR (2 ^ 53)); [apply IZR_lt; lia|].
    change (IZR (2 ^ 53)) with (bpow radix2 53). apply bpow_lt. lia.
Qed.

(** Ten times the double next to 1/10 is rounded to 1. *)
Lemma tenth_beq : Beqb (@Bmult 53 1024 Hprec64 Hemax64 mode_NE (b64_ofZ 10) (@Bdiv 53 1024 Hprec64 Hemax64 mode_NE (b64_ofZ 1) (b64_ofZ 10))) (b64_ofZ 1) = true.
Proof. vm_cast_no_check (eq_refl true). Qed.
Lemma rnd64_tenth : rnd64 (10 * rnd64 (1 / 10)) = 1.
Proof.
  destruct (ofZ_value 1%Z ltac:(lia)) as (F1 & V1). destruct (ofZ_value 10%Z ltac:(lia)) as (F2 & V2).
  generalize tenth_beq.
  generalize (Bdiv_correct 53 1024 Hprec64 Hemax64 mode_NE (b64_ofZ 1) (b64_ofZ 10)). rewrite V1, V2.
  intros G. specialize (G ltac:(lra)). revert G.
  assert (S := rnd64_small (1 / 10) ltac:(rewrite Rabs_pos_eq; lra)).
  rewrite Rlt_bool_true by exact S. intros (D & DF & _). set (t := @Bdiv 53 1024 Hprec64 Hemax64 mode_NE (b64_ofZ 1) (b64_ofZ 10)) in *.
  fold (rnd64 (1 / 10)) in D. rewrite F1 in DF.
  generalize (Bmult_correct 53 1024 Hprec64 Hemax64 mode_NE (b64_ofZ 10) t). rewrite V2, D, DF, F2.
  rewrite Rlt_bool_true.
  - intros (E & EF & _) Q. fold (rnd64 (10 * rnd64 (1 / 10))) in E. rewrite Beqb_correct in Q by (exact EF || exact F1).
    rewrite E, V1 in Q. revert Q. case Req_bool_spec; [intros Q _; exact Q|discriminate].
  - apply rnd64_small. assert (0 <= rnd64 (1 / 10)) by (apply rnd64_pos; lra).
    assert (rnd64 (1 / 10) <= 1) by (apply rnd64_cap; unfold half_ulp; lra). rewrite Rabs_pos_eq; lra.
Qed.

Lemma B64_round : RoundLaws (B64 lm) fin64 B2R rnd64.
Proof.
  constructor.
  - intros x y Hx Hy Bx By. generalize (Bplus_correct 53 1024 Hprec64 Hemax64 mode_NE x y Hx Hy).
    rewrite Rlt_bool_true; [intros (A & B & _); split; [exact B|exact A]|]. apply rnd64_small.
    generalize (Rabs_triang (B2R x) (B2R y)). lra.
  - intros x y Hx Hy Bx By. generalize (Bminus_correct 53 1024 Hprec64 Hemax64 mode_NE x y Hx Hy).
    rewrite Rlt_bool_true; [intros (A & B & _); split; [exact B|exact A]|]. apply rnd64_small.
    generalize (Rabs_triang (B2R x) (- B2R y)). rewrite Rabs_Ropp. unfold Rminus. lra.
  - intros x y Hx Hy Bx By. generalize (Bmult_correct 53 1024 Hprec64 Hemax64 mode_NE x y).
    rewrite Rlt_bool_true; [intros (A & B & _); split; [unfold fin64 in *; cbn; rewrite B, Hx, Hy; reflexivity|exact A]|].
    apply rnd64_small. rewrite Rabs_mult. apply Rle_trans with (20 * 20); [|lra]. apply Rmult_le_compat; auto using Rabs_pos.
  - intros x y Hx Hy Bx By. generalize (Bdiv_correct 53 1024 Hprec64 Hemax64 mode_NE x y).
    intros G. specialize (G ltac:(lra)). revert G.
    rewrite Rlt_bool_true; [intros (A & B & _); split; [unfold fin64 in *; cbn; rewrite B, Hx; reflexivity|exact A]|].
    apply rnd64_small. unfold Rdiv. rewrite Rabs_mult. rewrite (Rabs_pos_eq (/ B2R y)) by (left; apply Rinv_0_lt_compat; lra).
    apply Rle_trans with (20 * 1); [|lra]. apply Rmult_le_compat; auto using Rabs_pos.
    + left; apply Rinv_0_lt_compat; lra.
    + rewrite <- Rinv_1. apply Rinv_le; lra.
  - intros x y Hx Hy. cbn -[Bltb]. rewrite ltb64 by (apply fin_num; assumption). rewrite !key64_fin by assumption. reflexivity.
  - intros z H. unfold fofZ. cbn [flit B64]. unfold b64_lit. rewrite Z.mul_1_r. apply ofZ_value. lia.
  - destruct (ofZ_value 1%Z ltac:(lia)) as (F1 & V1). destruct (ofZ_value 100000%Z ltac:(lia)) as (F2 & V2).
    cbn [flit B64]. unfold b64_lit. change (10 ^ 5)%Z with 100000%Z.
    generalize (Bdiv_correct 53 1024 Hprec64 Hemax64 mode_NE (b64_ofZ 1) (b64_ofZ 100000)). rewrite V1, V2.
    intros G. specialize (G ltac:(lra)). revert G. replace (1 / 100000) with (/ 100000) by lra.
    rewrite Rlt_bool_true; [intros (B & C & _); split; [unfold fin64 in *; rewrite C; exact F1|exact B]|].
    apply rnd64_small. rewrite Rabs_pos_eq; lra.
  - exact rnd64_le.
  - exact (rnd64_int 0 ltac:(lia)).
  - exact (rnd64_int 1 ltac:(lia)).
  - exact rnd64_err.
  - exact rnd64_grid.
  - exact rnd64_tenth.
Qed.
End Double.
