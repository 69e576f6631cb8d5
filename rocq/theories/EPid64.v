(** A controller in binary64 whose integral is held at its bound, and its first call after a reset. *)

From Coq Require Import ZArith Bool List Reals Lra Lia.
From Flocq Require Import Core BinarySingleNaN.
From Verif Require Import Scalar Float64 LinAlg MUtils MPid SpecDyn SpecPid SpecRound SpecNumber SpecPidNum SpecExact
  PBase PFloat PRound PQuat64 PUnit64 PUp PNumber PExact PPidNum ERound ENumber EPidNum.
Import ListNotations.
Local Open Scope R_scope.

Section Cases.
Variable L : Libm.
#[local] Instance FO : Ops b64 := F64Ops L.
Notation c3 x := (mkV x x x).
Definition w_pp : PidParams b64 := mkPP (c3 (lit 6 1)) (c3 (lit 1 10)) (c3 (lit 3 7)) (mkV (lit 1 3) (lit 2 3) zero) (c3 (lit 1 3)) false false v0 v0.
Definition w_ops : list (PidOp b64) := [OpCompute (lit 1 100) (mkV (lit 7 3) (lit 1 5) (ofZ (-2))); OpCompute (lit 1 50) (mkV (lit 1 9) (ofZ 4) (ofZ 7))].
Definition w_op : PidOp b64 := OpCompute (lit 1 10) (mkV (ofZ 5) (ofZ 5) (ofZ 5)).
Definition w_e : V3 b64 := mkV (ofZ 1000) (lit 1 3) (lit (-1) 7).

Lemma w_settings : sane_settings 64 w_pp.
Proof.
  split; [apply upto3b_ok; vm_compute; reflexivity|]. split; [apply upto3b_ok; vm_compute; reflexivity|]. split; [apply upto3b_ok; vm_compute; reflexivity|].
  split; [apply upto3b_ok; vm_compute; reflexivity|]. split; [split; [|split]; apply weightb_ok; vm_compute; reflexivity|]. split; [|split]; apply pairb_ok; vm_compute; reflexivity.
Qed.
Lemma w_sane : Forall (sane_op 64 64) w_ops.
Proof.
  unfold w_ops. constructor; [split; [apply stepb_ok; vm_compute; reflexivity|apply upto3b_ok; vm_compute; reflexivity]|].
  constructor; [split; [apply stepb_ok; vm_compute; reflexivity|apply upto3b_ok; vm_compute; reflexivity]|]. constructor.
Qed.
Lemma w_case : sane_settings 64 w_pp /\ Forall (sane_op 64 64) w_ops /\ sane_op 64 64 w_op /\
  let p := pid_run (pid_new w_pp) w_ops in
  Bltb (b64_ofZ 0) (vx (pid_aw p)) = true /\ Beqb (vx (pid_int_part (pid_step p w_op))) (Bmult mode_NE (vx (pid_ki p)) (vx (pid_aw p))) = true.
Proof.
  split; [exact w_settings|]. split; [exact w_sane|]. split; [split; [apply stepb_ok; vm_compute; reflexivity|apply upto3b_ok; vm_compute; reflexivity]|].
  cbv zeta. split; vm_compute; reflexivity.
Qed.
Lemma w_first : sane_step 64 (lit 1 100) /\ upto3 64 w_e /\
  let p := pid_run (pid_new w_pp) w_ops in
  Beqb (vy (pid_der_part (pid_step p (OpCompute (lit 1 100) w_e)))) (b64_ofZ 0) = false /\
  Beqb (vy (pid_der_part (pid_step (pid_reset p) (OpCompute (lit 1 100) w_e)))) (b64_ofZ 0) = true.
Proof.
  split; [apply stepb_ok; vm_compute; reflexivity|]. split; [apply upto3b_ok; vm_compute; reflexivity|]. cbv zeta. split; vm_compute; reflexivity.
Qed.
End Cases.
