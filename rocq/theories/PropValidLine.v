(** C199: what LineCable::Validate checks. *)
From Coq Require Import ZArith Bool List Reals.
From Verif Require Import Num ModelBase ModelLine ModelCatenary SpecCatenary3 ModelLoad ModelSagtension SpecValidLine
  ProofCorrectorCases ProofValidLine.
Import ListNotations.
Open Scope R_scope.

(** A line cable is valid exactly if its inputs are in range, its connections can be read, and
    its ruling span has a valid catenary; this has the spacing of the ruling span, a load
    downwards and a positive horizontal tension. *)
Theorem line_cable_valid : forall env (l : Strung RNum),
  Strung_Validate env l = Ok true <->
  inputs_in_range (lc_payload l) /\ connections_readable env (lc_connections l) /\
  exists k, CatenaryRulingSpan (lc_payload l) = Ok k /\ c3_Validate k = true /\
    usable3 k /\ c3_spacing k = sr_spacing (lc_payload l).
Proof. exact valid_line_iff. Qed.
Print Assumptions line_cable_valid.

(** A light wire over 100 between two structures with hardware at attachment 1. *)
Example line_cable_valid_case : Strung_Validate [] vl_line = Ok true /\
  length (lc_connections vl_line) = 2%nat /\ inputs_in_range (lc_payload vl_line).
Proof. exact (conj vl_valid (conj eq_refl vl_inputs)). Qed.
