(** Properties C33, C34 and C35. *)
From Coq Require Import ZArith Bool List Ascii Reals Lra.
From Verif Require Import Num NumFacts ModelBase ModelHelper SpecHelper ProofReal ProofHelper.
Import ListNotations.
Open Scope Z_scope.

Definition chars (l : list Z) : str := map (fun z => ascii_of_nat (Z.to_nat z)) l.

(** C33 is false: the result for "ab" and "abc" is 0 although they differ, and the
    swapped call gives 1. *)
Theorem compare_strings_order_refuted :
  exists s1 s2, CompareStrings tolower_C s1 s2 = 0 /\ ~ same_fold tolower_C s1 s2 /\
    CompareStrings tolower_C s2 s1 = 1.
Proof.
  exists (chars [97; 98]), (chars [97; 98; 99]). split; [reflexivity|]. split; [intros H; discriminate H|reflexivity].
Qed.
Print Assumptions compare_strings_order_refuted.

(** C33, the true part, in every locale: the sign says which string comes later in
    the dictionary, except that 0 is also returned for a proper prefix. *)
Theorem compare_strings_result_partial :
  forall key s1 s2,
    (CompareStrings key s1 s2 = 1 <-> dict_less key s2 s1) /\
    (CompareStrings key s1 s2 = 0 <-> fold_prefix key s1 s2) /\
    (CompareStrings key s1 s2 = -1 <-> dict_less key s1 s2 /\ ~ fold_prefix key s1 s2) /\
    (CompareStrings key s1 s2 = 1 \/ CompareStrings key s1 s2 = 0 \/ CompareStrings key s1 s2 = -1).
Proof. exact cmp_spec. Qed.
Print Assumptions compare_strings_result_partial.

(** C33, the true part: for strings of the same length it holds. *)
Theorem compare_strings_equal_length_partial :
  forall key s1 s2, length s1 = length s2 ->
    CompareStrings key s1 s2 = - CompareStrings key s2 s1 /\
    (CompareStrings key s1 s2 = 0 <-> same_fold key s1 s2).
Proof. exact cmp_equal_length. Qed.
Print Assumptions compare_strings_equal_length_partial.

(** C33, the true part: case is ignored. *)
Theorem compare_strings_ignores_case :
  forall key s1 s1' s2 s2', same_fold key s1 s1' -> same_fold key s2 s2' ->
    CompareStrings key s1 s2 = CompareStrings key s1' s2'.
Proof. exact cmp_fold. Qed.
Print Assumptions compare_strings_ignores_case.

(** C34: what the items are. *)
Theorem parse_items :
  forall d s,
    Forall (fun i => ~ In d i) (Parse s d) /\
    (Parse s d = [] <-> s = []) /\
    (Parse s d <> [] -> s = join d (Parse s d) \/ s = join d (Parse s d) ++ [d]).
Proof. exact (fun d s => conj (proj1 (Parse_spec d s)) (conj (Parse_empty d s) (Parse_join d s))). Qed.
Print Assumptions parse_items.

(** C34: the items put into a string come out again. *)
Theorem parse_round_trip :
  forall d items i, Forall (fun i => ~ In d i) items -> ~ In d i ->
    Parse (terminated d items) d = items /\
    (i <> [] -> Parse (join d (items ++ [i])) d = items ++ [i]).
Proof. exact (fun d items i F N => conj (Parse_of_terminated d items F) (Parse_of_join d items i F N)). Qed.
Print Assumptions parse_round_trip.

Open Scope R_scope.

(** C35: Round gives the nearest multiple of 10^-p, ties away from zero. *)
Theorem round_nearest :
  forall (x : R) p,
    (exists k : Z, Round (N := RNum) x p = IZR k * powerRZ 10 (- p) /\
       Rabs (x - Round (N := RNum) x p) <= powerRZ 10 (- p) / 2) /\
    (forall k : Z, x = (IZR k + / 2) * powerRZ 10 (- p) ->
       Round (N := RNum) x p = IZR (if Z_lt_dec k 0 then k else k + 1) * powerRZ 10 (- p)) /\
    Round (N := RNum) (Round (N := RNum) x p) p = Round (N := RNum) x p.
Proof.
  exact (fun x p => conj (Round_grid x p) (conj
    (fun k E => eq_ind_r (fun y => Round (N := RNum) y p = _) (Round_tie k p) E) (Round_idem x p))).
Qed.
Print Assumptions round_nearest.

(** C35: LinearY is the line through both points. *)
Theorem linear_y_line :
  forall x1 y1 x2 y2 : R, x1 <> x2 ->
    LinearY (N := RNum) x1 y1 x2 y2 x1 = y1 /\ LinearY (N := RNum) x1 y1 x2 y2 x2 = y2 /\
    forall a b t : R, LinearY (N := RNum) x1 y1 x2 y2 ((1 - t) * a + t * b) =
      (1 - t) * LinearY (N := RNum) x1 y1 x2 y2 a + t * LinearY (N := RNum) x1 y1 x2 y2 b.
Proof. exact LinearY_spec. Qed.
Print Assumptions linear_y_line.

(** ** Concrete cases *)
Example compare_case :
  same_fold tolower_C (chars [65; 98]%Z) (chars [97; 66]%Z) /\
  CompareStrings tolower_C (chars [65; 98]%Z) (chars [97; 67]%Z) = (-1)%Z /\
  length (chars [65; 98]%Z) = length (chars [97; 67]%Z).
Proof. repeat split; reflexivity. Qed.

(** "a,,b" and "a,,b," both give "a", "" and "b". *)
Example parse_case :
  let a := chars [97]%Z in let b := chars [98]%Z in let d := ascii_of_nat 44 in
  Parse (chars [97; 44; 44; 98]%Z) d = [a; []; b] /\ Parse (chars [97; 44; 44; 98; 44]%Z) d = [a; []; b] /\
  Forall (fun i => ~ In d i) [a; []] /\ ~ In d b /\ b <> [].
Proof.
  cbn zeta. split; [reflexivity|]. split; [reflexivity|]. split.
  - constructor; [|constructor; [intros []|constructor]]. intros [H|[]]. discriminate H.
  - split; [intros [H|[]]; discriminate H|discriminate].
Qed.

Example round_case : Round (N := RNum) (2345 / 1000) 2 = 235 / 100 /\ Round (N := RNum) (-2345 / 1000) 2 = -235 / 100.
Proof.
  split.
  - replace (2345 / 1000) with ((IZR 234 + / 2) * powerRZ 10 (- (2))) by (simpl; lra).
    rewrite Round_tie. simpl. lra.
  - replace (-2345 / 1000) with ((IZR (-235) + / 2) * powerRZ 10 (- (2))) by (simpl; lra).
    rewrite Round_tie. simpl. lra.
Qed.
