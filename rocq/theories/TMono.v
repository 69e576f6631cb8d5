(** Property theorems: a larger error never gives a smaller command. *)

From Coq Require Import ZArith Bool List Reals.
From Flocq Require Import Core BinarySingleNaN.
From Verif Require Import Scalar Float64 LinAlg MUtils MPid MPid1 SpecDyn SpecPid SpecRound SpecNumber SpecPidNum SpecExact SpecMono
  PBase PMono PMono64 PMono1 EPid ENumber EMono.
Import ListNotations.
Local Open Scope R_scope.

(** ** C116
    On an axis whose gains, filter constant and integral bound are not negative,
    of two errors the larger one never gives the smaller command, whatever the
    controller did before and whatever the other axes see. *)
Theorem C116_vector :
  forall (p : Pid R) a dt e1 e2, Reached p -> willing a p -> 0 < dt -> pr a e1 <= pr a e2 ->
  pr a (pid_output (pid_step p (OpCompute dt e1))) <= pr a (pid_output (pid_step p (OpCompute dt e2))).
Proof. exact larger. Qed.
Print Assumptions C116_vector.

(** The same when the rate of the error is given. *)
Theorem C116_vector_rate :
  forall (p : Pid R) a dt e1 e2 d1 d2, Reached p -> willing a p -> 0 < dt -> pr a e1 <= pr a e2 -> pr a d1 <= pr a d2 ->
  pr a (pid_output (pid_step p (OpComputeD dt e1 d1))) <= pr a (pid_output (pid_step p (OpComputeD dt e2 d2))).
Proof. exact larger_d. Qed.
Print Assumptions C116_vector_rate.

Example C116_vector_case : Reached (pid_new m_pp) /\ willing AX (pid_new m_pp) /\ pid_sat_on (pid_new m_pp) = true /\
  pr AX (pid_output (pid_step (pid_new m_pp) (OpCompute 1 (mkV 1 7 0)))) = 2 /\
  pr AX (pid_output (pid_step (pid_new m_pp) (OpCompute 1 (mkV 9 (-3) 0)))) = 5.
Proof. exact mono_case. Qed.

(** Limiting the axes together must be excluded: then a larger error can give a
    smaller command on its own axis. *)
Theorem C116_together :
  exists (p : Pid R) e1 e2, Reached p /\ pid_prop_on p = true /\ pr AX e1 < pr AX e2 /\
  pr AX (pid_output (pid_step p (OpCompute 1 e2))) < pr AX (pid_output (pid_step p (OpCompute 1 e1))).
Proof. exact together. Qed.
Print Assumptions C116_together.

(** The scalar controller: both calls are defined and ordered. *)
Theorem C116_scalar :
  forall (p : Pid1 R) dt e1 e2, Reached1 p -> willing1 p -> 0 < dt -> e1 <= e2 ->
  exists q1 q2, pid1_step p (Op1Compute dt e1) = Some q1 /\ pid1_step p (Op1Compute dt e2) = Some q2 /\ pid1_output q1 <= pid1_output q2.
Proof. exact larger1_defined. Qed.
Print Assumptions C116_scalar.

Theorem C116_scalar_rate :
  forall (p : Pid1 R) dt e1 e2 d1 d2, Reached1 p -> willing1 p -> 0 < dt -> e1 <= e2 -> d1 <= d2 ->
  exists q1 q2, pid1_step p (Op1ComputeD dt e1 d1) = Some q1 /\ pid1_step p (Op1ComputeD dt e2 d2) = Some q2 /\ pid1_output q1 <= pid1_output q2.
Proof. exact larger1_d_defined. Qed.
Print Assumptions C116_scalar_rate.

Example C116_scalar_case : Reached1 (pid1_new m_pp1) /\ willing1 (pid1_new m_pp1) /\
  exists q1 q2, pid1_step (pid1_new m_pp1) (Op1Compute 1 1) = Some q1 /\ pid1_step (pid1_new m_pp1) (Op1Compute 1 9) = Some q2 /\
  pid1_output q1 = 3 /\ pid1_output q2 = 5.
Proof. exact mono1_case. Qed.

(** Double precision: no rounding error turns the order round, unless the integral is
    cleared on a change of sign and the two errors are zeros. *)
Theorem C116_binary64 :
  forall L, let O := F64Ops L in
  forall g h, (0 <= g <= h)%Z -> (h + 2 * g + 60 <= 1000)%Z ->
  forall pp ops dt e1 e2 a, sane_settings g pp -> Forall (sane_op g h) ops -> sane_step g dt -> upto3 h e1 -> upto3 h e2 ->
  let p := pid_run (pid_new pp) ops in willing64 a p -> val (pr a e1) <= val (pr a e2) ->
  pid_reset_flag p = false \/ val (pr a e1) < val (pr a e2) ->
  val (pr a (pid_output (pid_step p (OpCompute dt e1)))) <= val (pr a (pid_output (pid_step p (OpCompute dt e2)))).
Proof. exact (fun L => larger64 L). Qed.
Print Assumptions C116_binary64.

Example C116_binary64_case : forall L, let O := F64Ops L in
  sane_settings 64 (n_pp L) /\ Forall (sane_op 64 64) (n_ops L) /\ sane_step 64 (lit 1 100) /\ upto3 64 (n_e1 L) /\ upto3 64 (n_e2 L) /\
  let p := pid_run (pid_new (n_pp L)) (n_ops L) in willing64 AX p /\ pid_reset_flag p = true /\ val (vx (n_e1 L)) < val (vx (n_e2 L)) /\
  Bltb (vx (pid_output (pid_step p (OpCompute (lit 1 100) (n_e1 L))))) (vx (pid_output (pid_step p (OpCompute (lit 1 100) (n_e2 L))))) = true.
Proof. exact (fun L => mono64_case L). Qed.

Theorem C116_binary64_rate :
  forall L, let O := F64Ops L in
  forall g h, (0 <= g <= h)%Z -> (h + 2 * g + 60 <= 1000)%Z ->
  forall pp ops dt e1 e2 d1 d2 a, sane_settings g pp -> Forall (sane_op g h) ops -> sane_step g dt -> upto3 h e1 -> upto3 h e2 -> upto3 h d1 -> upto3 h d2 ->
  let p := pid_run (pid_new pp) ops in willing64 a p -> val (pr a e1) <= val (pr a e2) -> val (pr a d1) <= val (pr a d2) ->
  pid_reset_flag p = false \/ val (pr a e1) < val (pr a e2) ->
  val (pr a (pid_output (pid_step p (OpComputeD dt e1 d1)))) <= val (pr a (pid_output (pid_step p (OpComputeD dt e2 d2)))).
Proof. exact (fun L => larger64_d L). Qed.
Print Assumptions C116_binary64_rate.

Theorem C116_binary64_scalar :
  forall L, let O := F64Ops L in
  forall g h, (0 <= g <= h)%Z -> (h + 2 * g + 60 <= 1000)%Z ->
  forall pp ops p dt e1 e2, sane_settings1 g pp -> Forall (sane_op1 g h) ops -> sane_step g dt -> upto h e1 -> upto h e2 ->
  pid1_run (pid1_new pp) ops = Some p -> willing641 p -> val e1 <= val e2 -> pp1_rflag (pid1_get_params p) = false \/ val e1 < val e2 ->
  exists q1 q2, pid1_step p (Op1Compute dt e1) = Some q1 /\ pid1_step p (Op1Compute dt e2) = Some q2 /\ val (pid1_output q1) <= val (pid1_output q2).
Proof. exact (fun L => larger64_1 L). Qed.
Print Assumptions C116_binary64_scalar.

Example C116_binary64_scalar_case : forall L, let O := F64Ops L in
  sane_settings1 64 (n_pp1 L) /\ Forall (sane_op1 64 64) (n_ops1 L) /\ sane_step 64 (lit 1 100) /\ upto 64 (lit 1 10) /\ upto 64 (lit 1 9) /\
  val (lit 1 10) < val (lit 1 9) /\
  exists p q1 q2, pid1_run (pid1_new (n_pp1 L)) (n_ops1 L) = Some p /\ willing641 p /\
  pid1_step p (Op1Compute (lit 1 100) (lit 1 10)) = Some q1 /\ pid1_step p (Op1Compute (lit 1 100) (lit 1 9)) = Some q2 /\ val (pid1_output q1) < val (pid1_output q2).
Proof. exact (fun L => mono64_scalar_case L). Qed.

(** The zeros must be excluded: plus and minus zero are equal, yet get different commands. *)
Theorem C116_minus_zero :
  forall L, let O := F64Ops L in
  sane_settings 64 (z_pp L) /\ Forall (sane_op 64 64) (z_ops L) /\ sane_step 64 (ofZ 1) /\
  exists e1 e2, upto3 64 e1 /\ upto3 64 e2 /\ let p := pid_run (pid_new (z_pp L)) (z_ops L) in willing64 AX p /\ val (vx e1) = val (vx e2) /\
  Bltb (vx (pid_output (pid_step p (OpCompute (ofZ 1) e2)))) (vx (pid_output (pid_step p (OpCompute (ofZ 1) e1)))) = true.
Proof. exact (fun L => minus_zero L). Qed.
Print Assumptions C116_minus_zero.
