(** Property theorems: what the controllers report about their last calls. *)

From Coq Require Import ZArith List Bool Reals.
From Verif Require Import Scalar LinAlg MUtils MPid MPid1 MControl MCtlRun MReport SpecDyn SpecPid SpecCtl SpecReport
  PReport EReport EPid ECtl.
Import ListNotations.
Local Open Scope R_scope.

(** ** C85 *)
Theorem C85_error :
  forall {T} {O : Ops T} pp (ops : list (PidOp T)) e d, last_call ops = Some (e, d) ->
  pid_prop_error (pid_run (pid_new pp) ops) = e.
Proof. exact @last_reported_new. Qed.
Print Assumptions C85_error.

Theorem C85_kept :
  forall {T} {O : Ops T} (ops : list (PidOp T)) (p : Pid T), last_call ops = None ->
  let p' := pid_run p ops in
  pid_prop_error p' = pid_prop_error p /\ pid_der_error p' = pid_der_error p /\
  pid_prop_part p' = pid_prop_part p /\ pid_int_part p' = pid_int_part p /\
  pid_der_part p' = pid_der_part p /\ pid_output p' = pid_output p.
Proof. exact @kept_since. Qed.
Print Assumptions C85_kept.

Theorem C85_parts :
  forall p op e d a, Reached p -> call_of op = Some (e, d) ->
  let p' := pid_step p op in
  pr a (pid_prop_part p') = pr a (pid_kp p) * pr a e /\
  match d with Some de => pr a (pid_der_part p') = pr a (pid_kd p) * pr a de | None => True end.
Proof. exact parts_report. Qed.
Print Assumptions C85_parts.

(** The derivative error getter belongs to the last call that was given a
    derivative, which need not be the last call. *)
Theorem C85_derivative :
  forall {T} {O : Ops T} pp (ops : list (PidOp T)),
  pid_der_error (pid_run (pid_new pp) ops) = match last_given ops with Some d => d | None => v0 end.
Proof. exact @given_reported. Qed.
Print Assumptions C85_derivative.

Theorem C85_derivative_refuted :
  exists pp ops a, let p := pid_run (pid_new pp) ops in
  last_call ops = Some (r3 2, None) /\ pr a (pid_der_part p) = 2 /\ pr a (pid_kd p) = 1 /\ pr a (pid_der_error p) = 0.
Proof. exact derivative_refuted. Qed.
Print Assumptions C85_derivative_refuted.

Example C85_case : let ops := [OpComputeD 1 (r3 0) (r3 7); OpCompute 1 (r3 0); OpReset; OpKd (r3 3)] in
  last_call ops = Some (r3 0, None) /\ last_given ops = Some (r3 7) /\
  pid_der_error (pid_run (pid_new pp_rate) ops) = r3 7 /\ pid_prop_error (pid_run (pid_new pp_rate) ops) = r3 0.
Proof. exact stale_ex. Qed.

Theorem C85_scalar :
  forall {T} {O : Ops T} pp (ops : list (Pid1Op T)) p e d, pid1_run (pid1_new pp) ops = Some p -> last_call1 ops = Some (e, d) ->
  pid1_prop_error p = e /\ match d with Some de => pid1_der_error p = de | None => True end.
Proof. exact @last_reported1_new. Qed.
Print Assumptions C85_scalar.

Theorem C85_scalar_parts :
  forall {T} {O : Ops T} (p p' : Pid1 T) op e d, pid1_step p op = Some p' -> call1_of op = Some (e, d) ->
  pid1_prop_part p' = mul (pp1_kp (pid1_get_params p)) e /\
  match d with Some de => pid1_der_part p' = mul (pp1_kd (pid1_get_params p)) de | None => True end.
Proof. exact @parts1_report. Qed.
Print Assumptions C85_scalar_parts.

Theorem C85_scalar_kept :
  forall {T} {O : Ops T} (p p' : Pid1 T) op, pid1_step p op = Some p' -> call1_of op = None ->
  pid1_prop_error p' = pid1_prop_error p /\ pid1_der_error p' = pid1_der_error p /\ pid1_prop_part p' = pid1_prop_part p /\
  pid1_int_part p' = pid1_int_part p /\ pid1_der_part p' = pid1_der_part p /\ pid1_output p' = pid1_output p.
Proof. exact @kept1. Qed.
Print Assumptions C85_scalar_kept.

Example C85_case_scalar : exists p, pid1_run (pid1_new (mkPP1 1 0 0 0 1 false 0 0)) [Op1ComputeD 1 5 6; Op1Kp 3; Op1Reset] = Some p /\
  last_call1 [Op1ComputeD 1 5 6; Op1Kp 3; Op1Reset] = Some (5, Some 6).
Proof. exact scalar_ex. Qed.

(** The loops of the flight controller. *)
Theorem C85_loops :
  forall {T} {O : Ops T} (c : Ctl T) op w x y a, asks w (ctl_step c op) op = Some (x, y) ->
  pr a (reported_error w (ctl_step c op)) = sub (pr a y) (pr a x).
Proof. exact @loops_report. Qed.
Print Assumptions C85_loops.

Theorem C85_loops_kept :
  forall {T} {O : Ops T} (c : Ctl T) op w, asks w (ctl_step c op) op = None -> by_hand w op = false ->
  reported_error w (ctl_step c op) = reported_error w c.
Proof. exact @loops_keep. Qed.
Print Assumptions C85_loops_kept.

Theorem C85_trajectory_velocity :
  forall {T} {O : Ops T} (c : Ctl T) cp cv R cw dp dv da yaw dt a,
  pr a (traj_get_velocity_error (ctl_step c (CTraj cp cv R cw dp dv da yaw dt))) = sub (pr a dv) (pr a cv) /\
  pr a (traj_get_velocity_error (ctl_step c (CConvTraj cp cv dp dv da dt))) = sub (pr a dv) (pr a cv).
Proof. exact @traj_velocity_report. Qed.
Print Assumptions C85_trajectory_velocity.

Theorem C85_outputs :
  forall {T} {O : Ops T} (c : Ctl T) op, let c' := ctl_step c op in
  (match op with CPos _ _ _ _ _ _ _ => pos_get_desired_linear_velocity c' = get_desired_linear_velocity c' | _ => True end) /\
  (match op with CPos _ _ _ _ _ _ _ | CVel _ _ _ _ _ _ => vel_get_desired_linear_acceleration c' = get_desired_linear_acceleration c' | _ => True end) /\
  (match op with CAcro _ _ _ _ | CAcc _ _ _ _ _ | CTraj _ _ _ _ _ _ _ _ _ | CVel _ _ _ _ _ _ | CPos _ _ _ _ _ _ _ =>
     indi_get_motor_angular_velocity c' = get_desired_motor_angular_velocity c' | _ => True end).
Proof. exact @outputs_agree. Qed.
Print Assumptions C85_outputs.

Theorem C85_allocation :
  forall (c : Ctl R) op th x y, asked_thrust (ctl_step c op) op = Some th -> asks WIndi (ctl_step c op) op = Some (x, y) ->
  let c' := ctl_step c op in
  indi_get_desired_thrust c' = mkV 0 0 th /\
  forall a, pr a (indi_get_desired_torque c') = torque_for (in_inertia (ct_indi c)) (indi_get_desired_angular_acceleration c') y a.
Proof. exact allocation_report. Qed.
Print Assumptions C85_allocation.

Example C85_case_loops : let op := CAcro (r3 1) 10 (r3 3) 1 in
  asks WIndi (ctl_step c_ex op) op = Some (r3 1, r3 3) /\ asked_thrust (ctl_step c_ex op) op = Some 10 /\
  asks WPos (ctl_step c_ex op) op = None /\ by_hand WPos op = false /\
  forall a, pr a (indi_get_angular_velocity_error (ctl_step c_ex op)) = 2.
Proof. exact asks_ex. Qed.
