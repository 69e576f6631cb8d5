(** Property theorems: objects used as they come. *)

From Coq Require Import ZArith List Bool Reals.
From Flocq Require Import BinarySingleNaN.
From Verif Require Import Scalar Float64 LinAlg MUtils MModel MDynamics MPid MPid1 MControl MCtlRun MImu MSim
  SpecDyn SpecRun SpecPid SpecTune SpecSim SpecDefault PDefault EBase EPid ECtl EDefault.
Import ListNotations.
Local Open Scope R_scope.

(** ** C91 *)
Theorem C91_loop : forall ops, Forall (fun o => flies o = true) ops -> pid_output (pid_run (pid_new pp0) ops) = mkV 0 0 0.
Proof. exact idle_loop. Qed.
Print Assumptions C91_loop.

Theorem C91_scalar_loop :
  forall ops, Forall (fun o => flies1 o = true) ops -> exists p, pid1_run (pid1_new pp10) ops = Some p /\ pid1_output p = 0.
Proof. exact idle_scalar. Qed.
Print Assumptions C91_scalar_loop.

Theorem C91_controller :
  forall n ops, Forall (fun o => steers o = true) ops -> get_desired_motor_angular_velocity (ctl_run (ctl_new n (cp0 n)) ops) = repeat 0 n.
Proof. exact still_run. Qed.
Print Assumptions C91_controller.

(** The default vehicle does not stay at rest: after its first update it turns at
    a rate that is not a number. *)
Theorem C91_vehicle_refuted :
  forall L, let O := F64Ops L in forall (G H : Gen b64) dt, ltb zero dt = true -> leb dt dtmax = true ->
  exists s : Sim b64 G H, sim_after 4 (sp0 4) [SDynamics dt] = Some s /\
  Forall not_a_number (s_mvel (sim_state s)) /\ forall a, not_a_number (pr a (s_angvel (sim_state s))).
Proof. exact @default_nan. Qed.
Print Assumptions C91_vehicle_refuted.

Example C91_case : let ops := [OpCompute (1/10) (r3 3); OpComputeD (1/10) (r3 4) (r3 5); OpReset; OpCompute 0 (r3 1)] in
  Forall (fun o => flies o = true) ops /\ pid_output (pid_run (pid_new pp0) ops) = mkV 0 0 0 /\
  pid_output (pid_run (pid_new pp0) (OpKp (r3 2) :: ops)) <> mkV 0 0 0.
Proof. exact idle_ex. Qed.

Example C91_case_controller : let ops := [CAcro (r3 1) 10 (r3 3) (1/100); CReset; CVel (r3 1) mI (r3 0) (r3 5) 1 (1/100)] in
  Forall (fun o => steers o = true) ops /\ get_desired_motor_angular_velocity (ctl_run (ctl_new 4 (cp0 4)) ops) = [0; 0; 0; 0].
Proof. exact idle_ctl_ex. Qed.
