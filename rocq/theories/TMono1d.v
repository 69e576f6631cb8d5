(** Property theorems: larger errors, the scalar controller with given rates in double precision. *)

From Coq Require Import ZArith List Reals.
From Flocq Require Import BinarySingleNaN.
From Verif Require Import Scalar Float64 LinAlg MPid1 SpecRound SpecNumber SpecPidNum SpecMono PMono1d EMono1d.
Local Open Scope R_scope.

(** ** C116 *)
Theorem C116_binary64_scalar_rate :
  forall L, let O := F64Ops L in
  forall g h, (0 <= g <= h)%Z -> (h + 2 * g + 60 <= 1000)%Z ->
  forall pp ops p dt e1 e2 d1 d2, sane_settings1 g pp -> Forall (sane_op1 g h) ops -> sane_step g dt -> upto h e1 -> upto h e2 -> upto h d1 -> upto h d2 ->
  pid1_run (pid1_new pp) ops = Some p -> willing641 p -> val e1 <= val e2 -> val d1 <= val d2 -> pp1_rflag (pid1_get_params p) = false \/ val e1 < val e2 ->
  exists q1 q2, pid1_step p (Op1ComputeD dt e1 d1) = Some q1 /\ pid1_step p (Op1ComputeD dt e2 d2) = Some q2 /\ val (pid1_output q1) <= val (pid1_output q2).
Proof. exact (fun L => larger64_1_d L). Qed.
Print Assumptions C116_binary64_scalar_rate.

Example C116_binary64_scalar_rate_case : forall L, let O := F64Ops L in
  sane_settings1 64 (r_pp1 L) /\ Forall (sane_op1 64 64) (r_ops1 L) /\ sane_step 64 (lit 1 100) /\ upto 64 (lit 1 10) /\ upto 64 (lit 1 9) /\
  upto 64 (lit 1 3) /\ upto 64 (lit 2 3) /\ val (lit 1 10) < val (lit 1 9) /\ val (lit 1 3) < val (lit 2 3) /\
  exists p q1 q2, pid1_run (pid1_new (r_pp1 L)) (r_ops1 L) = Some p /\ willing641 p /\
  pid1_step p (Op1ComputeD (lit 1 100) (lit 1 10) (lit 1 3)) = Some q1 /\ pid1_step p (Op1ComputeD (lit 1 100) (lit 1 9) (lit 2 3)) = Some q2 /\ val (pid1_output q1) < val (pid1_output q2).
Proof. exact (fun L => mono64_scalar_rate_case L). Qed.
