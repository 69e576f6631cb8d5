(** Examples: default objects. *)

From Coq Require Import ZArith List Bool Reals Lra.
From Verif Require Import Scalar LinAlg MUtils MPid MPid1 MControl MCtlRun SpecDyn SpecTune SpecDefault PBase PDynR PDefault EBase EPid ECtl.
Import ListNotations.
Local Open Scope R_scope.

Lemma idle_ex : let ops := [OpCompute (1/10) (r3 3); OpComputeD (1/10) (r3 4) (r3 5); OpReset; OpCompute 0 (r3 1)] in
  Forall (fun o => flies o = true) ops /\ pid_output (pid_run (pid_new pp0) ops) = mkV 0 0 0 /\
  pid_output (pid_run (pid_new pp0) (OpKp (r3 2) :: ops)) <> mkV 0 0 0.
Proof.
  intros ops. assert (F : Forall (fun o => flies o = true) ops) by (do 4 (apply Forall_cons; [reflexivity|]); apply Forall_nil).
  split; [exact F|]. split; [exact (idle_loop ops F)|].
  set (p := pid_run (pid_new pp0) [OpKp (r3 2); OpCompute (1/10) (r3 3); OpComputeD (1/10) (r3 4) (r3 5); OpReset]).
  change (pid_output (pid_run (pid_new pp0) (OpKp (r3 2) :: ops))) with (pid_output (pid_compute p 0 (r3 1))).
  assert (C : pid_c p = pc_set_kp (pid_c (pid_new pp0)) (r3 2)) by reflexivity.
  unfold pid_output, pid_compute. cbn [pid_s ps_out]. rewrite C. destruct idle_new as [(K & I & D & S) _].
  set (c := pid_c (pid_new pp0)) in *. unfold pid_out. cbn [pc_set_kp pc_kp pc_ki pc_kd pc_sflag]. rewrite I, D, S, !zero_gain.
  intros Q. apply (f_equal vx) in Q. revert Q. unfold vdiagm, mdiag, r3. unV. lra.
Qed.

Lemma idle_ctl_ex : let ops := [CAcro (r3 1) 10 (r3 3) (1/100); CReset; CVel (r3 1) mI (r3 0) (r3 5) 1 (1/100)] in
  Forall (fun o => steers o = true) ops /\ get_desired_motor_angular_velocity (ctl_run (ctl_new 4 (cp0 4)) ops) = [0; 0; 0; 0].
Proof.
  intros ops. assert (F : Forall (fun o => steers o = true) ops) by (do 3 (apply Forall_cons; [reflexivity|]); apply Forall_nil).
  split; [exact F|]. exact (still_run 4 ops F).
Qed.
