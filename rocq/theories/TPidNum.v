(** Property theorems: a controller fed with sensible numbers gives numbers. *)

From Coq Require Import ZArith Bool List Reals.
From Flocq Require Import Core BinarySingleNaN.
From Verif Require Import Scalar Float64 LinAlg MPid MPid1 SpecRound SpecNumber SpecPidNum PPidNum EPidNum.
Import ListNotations.
Local Open Scope R_scope.

(** ** C102
    Settings and steps of size g, errors of size h: results of size h + 2 g + 60, after any number of calls. *)
Theorem C102_vector :
  forall L, let O := F64Ops L in
  forall g h, (0 <= g <= h)%Z -> (h + 2 * g + 60 <= 1000)%Z ->
  forall pp ops, sane_settings g pp -> Forall (sane_op g h) ops -> let p := pid_run (pid_new pp) ops in
  upto3 (h + 2 * g + 60) (pid_output p) /\ upto3 (h + 2 * g + 60) (pid_prop_part p) /\ upto3 (h + 2 * g + 60) (pid_int_part p) /\ upto3 (h + 2 * g + 60) (pid_der_part p).
Proof. exact (fun L => history_numbers L). Qed.
Print Assumptions C102_vector.

Theorem C102_scalar :
  forall L, let O := F64Ops L in
  forall g h, (0 <= g <= h)%Z -> (h + 2 * g + 60 <= 1000)%Z ->
  forall pp ops, sane_settings1 g pp -> Forall (sane_op1 g h) ops ->
  exists p, pid1_run (pid1_new pp) ops = Some p /\ upto (h + 2 * g + 60) (pid1_output p) /\ upto (h + 2 * g + 60) (pid1_int_part p).
Proof. exact (fun L => history1_numbers L). Qed.
Print Assumptions C102_scalar.

(** Limits that exclude zero are accepted; with proportional saturation a zero error then gives NaN. *)
Theorem C102_band_refuted :
  forall L, let O := F64Ops L in
  exists pp dt e, upto3 64 (pp_kp pp) /\ upto3 64 (pp_ki pp) /\ upto3 64 (pp_kd pp) /\ upto3 64 (pp_aw pp) /\ weights (pp_alpha pp) /\
  upto3 64 (pp_up pp) /\ upto3 64 (pp_lo pp) /\ pid_sat_on (pid_new pp) = true /\ sane_op 64 64 (OpCompute dt e) /\
  is_nan (vx (pid_output (pid_step (pid_new pp) (OpCompute dt e)))) = true.
Proof. exact (fun L => band_refuted L). Qed.
Print Assumptions C102_band_refuted.

Example C102_case : forall L, let O := F64Ops L in
  sane_settings 64 (num_pp L) /\ Forall (sane_op 64 64) (num_ops L) /\
  Bltb (b64_ofZ 0) (vx (pid_output (pid_run (pid_new (num_pp L)) (num_ops L)))) = true /\
  Beqb (vy (pid_int_part (pid_run (pid_new (num_pp L)) (num_ops L)))) (b64_ofZ 0) = false.
Proof. exact (fun L => num_case L). Qed.
Example C102_case_scalar : forall L, let O := F64Ops L in
  sane_settings1 64 (num1_pp L) /\ Forall (sane_op1 64 64) (num1_ops L) /\
  match pid1_run (pid1_new (num1_pp L)) (num1_ops L) with Some p => Bleb (b64_ofZ 1) (pid1_output p) | None => false end = true.
Proof. exact (fun L => num1_case L). Qed.
