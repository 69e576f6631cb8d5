(** Concrete controllers and what they report. *)

From Coq Require Import ZArith List Bool Lia Reals Lra.
From Verif Require Import Scalar LinAlg MUtils MPid MPid1 MControl MCtlRun MReport SpecDyn SpecPid SpecCtl SpecReport
  PBase PPid PPid1 PPidR EPid ECtl PReport.
Import ListNotations.
Local Open Scope R_scope.

(** Derivative gain only: the error grows by 2 in one second. *)
Definition pp_rate : PidParams R := mkPP v0 v0 (r3 1) v0 v1 false false v0 v0.

Lemma derivative_refuted : exists pp ops a, let p := pid_run (pid_new pp) ops in
  last_call ops = Some (r3 2, None) /\ pr a (pid_der_part p) = 2 /\ pr a (pid_kd p) = 1 /\ pr a (pid_der_error p) = 0.
Proof.
  exists pp_rate, [OpCompute 1 (r3 0); OpCompute 1 (r3 2)], AX. cbv zeta.
  rewrite given_reported. cbn [last_given pr].
  rewrite new_cfg_off by (intros a; destruct a; reflexivity).
  split; [reflexivity|]. split; [|split; reflexivity].
  cbn [pid_run fold_left pid_step pid_compute pid_der_part pid_s pid_c ps_cd pp_rate pp_kd pp_alpha pc_kd]. unfold pid_filt. cbn. unR. field.
Qed.

(** The value of an old call stays: set once to 7, then the error is left alone. *)
Lemma stale_ex : let ops := [OpComputeD 1 (r3 0) (r3 7); OpCompute 1 (r3 0); OpReset; OpKd (r3 3)] in
  last_call ops = Some (r3 0, None) /\ last_given ops = Some (r3 7) /\
  pid_der_error (pid_run (pid_new pp_rate) ops) = r3 7 /\ pid_prop_error (pid_run (pid_new pp_rate) ops) = r3 0.
Proof.
  cbv zeta. split; [reflexivity|]. split; [reflexivity|]. split; [apply given_reported|].
  apply (last_reported_new pp_rate _ (r3 0) None). reflexivity.
Qed.

Lemma scalar_defined (p : Pid1 R) dt e de : c1_aw (pid1_c p) = 0 -> c1_sflag (pid1_c p) = false -> exists p', pid1_compute_d p dt e de = Some p'.
Proof.
  intros A S. unfold pid1_compute_d. cbv zeta. unfold pid1_acc, pid1_out. rewrite A, S.
  assert (E : eqb (0 : R) zero = true) by (apply Reqb_true; reflexivity). rewrite E. cbn [negb bindo]. eexists. reflexivity.
Qed.
Lemma scalar_new : let p := pid1_new (mkPP1 1 0 0 0 1 false 0 0 : P1Params R) in c1_aw (pid1_c p) = 0 /\ c1_sflag (pid1_c p) = false.
Proof.
  unfold pid1_new, pid1_reset, pid1_update, c1_update. cbn [pp1_up pp1_lo pid1_c].
  assert (E : eqb (0 : R) zero = true) by (apply Reqb_true; reflexivity). rewrite E. split; reflexivity.
Qed.
Lemma scalar_ex : exists p, pid1_run (pid1_new (mkPP1 1 0 0 0 1 false 0 0)) [Op1ComputeD 1 5 6; Op1Kp 3; Op1Reset] = Some p /\
  last_call1 [Op1ComputeD 1 5 6; Op1Kp 3; Op1Reset] = Some (5, Some 6).
Proof.
  destruct scalar_new as [A S]. revert A S. generalize (pid1_new (mkPP1 1 0 0 0 1 false 0 0 : P1Params R)). intros p A S.
  destruct (scalar_defined p 1 5 6 A S) as [q E]. cbn [pid1_run pid1_step]. rewrite E. cbn [bindo]. eexists. split; reflexivity.
Qed.

(** The whole controller of the examples, asked to turn at 3 rad/s while it turns at 1. *)
Lemma asks_ex : let op := CAcro (r3 1) 10 (r3 3) 1 in
  asks WIndi (ctl_step c_ex op) op = Some (r3 1, r3 3) /\ asked_thrust (ctl_step c_ex op) op = Some 10 /\
  asks WPos (ctl_step c_ex op) op = None /\ by_hand WPos op = false /\
  forall a, pr a (indi_get_angular_velocity_error (ctl_step c_ex op)) = 2.
Proof.
  cbv zeta. split; [reflexivity|]. split; [reflexivity|]. split; [reflexivity|]. split; [reflexivity|].
  intros a. etransitivity; [apply (loops_report c_ex (CAcro (r3 1) 10 (r3 3) 1) WIndi (r3 1) (r3 3) a eq_refl)|].
  rewrite !pr_r3. unR. lra.
Qed.
