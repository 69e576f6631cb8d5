(** Property theorems: asked for more height, never less thrust. *)

From Coq Require Import Reals.
From Verif Require Import Scalar LinAlg MUtils MModel MDynamics MPid MControl MCtlRun MImu MSim SpecDyn SpecRun SpecPid SpecCtl SpecMono SpecHigher PHigher EBase EHigher.
Local Open Scope R_scope.

(** ** C117
    An upright vehicle asked for more upward acceleration, speed or height never
    demands less thrust, whatever its controllers have been through. *)
Theorem C117_acceleration :
  forall (c : Ctl R) A w yaw dt a1 a2, 0 <= ac_mass (ct_acro c) -> upright A -> no_lower a1 a2 ->
  get_desired_thrust (ctl_step c (CAcc A w a1 yaw dt)) <= get_desired_thrust (ctl_step c (CAcc A w a2 yaw dt)).
Proof. exact (fun c A w yaw dt a1 a2 M U => higher_acc c A w yaw dt M U a1 a2). Qed.
Print Assumptions C117_acceleration.

Theorem C117_velocity :
  forall n (c : Ctl R) A w yaw dt cv v1 v2, CtlReached n c -> 0 <= ac_mass (ct_acro c) -> upright A -> 0 < dt ->
  willing_loop (get_pid WVel c) -> no_lower v1 v2 ->
  get_desired_thrust (ctl_step c (CVel cv A w v1 yaw dt)) <= get_desired_thrust (ctl_step c (CVel cv A w v2 yaw dt)).
Proof. exact (fun n c A w yaw dt cv v1 v2 R M U D => higher_vel n c A w yaw dt R M U D cv v1 v2). Qed.
Print Assumptions C117_velocity.

Theorem C117_position :
  forall n (c : Ctl R) A w yaw dt cp cv p1 p2, CtlReached n c -> 0 <= ac_mass (ct_acro c) -> upright A -> 0 < dt ->
  willing_loop (get_pid WPos c) -> willing_loop (get_pid WVel c) -> no_lower p1 p2 ->
  get_desired_thrust (ctl_step c (CPos cp A cv w p1 yaw dt)) <= get_desired_thrust (ctl_step c (CPos cp A cv w p2 yaw dt)).
Proof. exact (fun n c A w yaw dt cp cv p1 p2 R M U D => higher_pos n c A w yaw dt R M U D cp cv p1 p2). Qed.
Print Assumptions C117_position.

Theorem C117_trajectory :
  forall n (c : Ctl R) A w yaw dt cp cv p1 p2 v1 v2 a1 a2, CtlReached n c -> 0 <= ac_mass (ct_acro c) -> upright A -> 0 < dt ->
  willing_loop (get_pid WTraj c) -> no_lower p1 p2 -> no_lower v1 v2 -> no_lower a1 a2 ->
  get_desired_thrust (ctl_step c (CTraj cp cv A w p1 v1 a1 yaw dt)) <= get_desired_thrust (ctl_step c (CTraj cp cv A w p2 v2 a2 yaw dt)).
Proof. exact (fun n c A w yaw dt cp cv p1 p2 v1 v2 a1 a2 R M U D => higher_traj n c A w yaw dt R M U D cp cv p1 p2 v1 v2 a1 a2). Qed.
Print Assumptions C117_trajectory.

Example C117_case : CtlReached 4 c_high /\ 0 <= ac_mass (ct_acro c_high) /\ upright (mkM 1 0 0 0 1 0 0 0 1) /\ willing_loop (get_pid WPos c_high) /\ willing_loop (get_pid WVel c_high) /\ no_lower (mkV 1 0 1) (mkV 1 0 2) /\
  get_desired_thrust (ctl_step c_high (CPos (mkV 0 0 0) (mkM 1 0 0 0 1 0 0 0 1) (mkV 0 0 0) (mkV 0 0 0) (mkV 1 0 1) 0 (1/100))) = 14 /\
  get_desired_thrust (ctl_step c_high (CPos (mkV 0 0 0) (mkM 1 0 0 0 1 0 0 0 1) (mkV 0 0 0) (mkV 0 0 0) (mkV 1 0 2) 0 (1/100))) = 18.
Proof. exact high_case. Qed.

(** The same through the simulator's reference. *)
Theorem C117_simulator :
  forall {G H : Gen R} n (s : Sim R G H) dt p1 p2, CtlReached n (sm_ctl s) -> sm_armed s = true ->
  (sm_mode s = POSITION \/ sm_mode s = HOVER) -> 0 <= ac_mass (ct_acro (sm_ctl s)) -> upright (qmat (s_ori (sim_state s))) -> 0 < dt ->
  willing_loop (get_pid WPos (sm_ctl s)) -> willing_loop (get_pid WVel (sm_ctl s)) -> no_lower p1 p2 ->
  get_desired_thrust (sm_ctl (update_controller n (set_ref_pos s p1) dt)) <= get_desired_thrust (sm_ctl (update_controller n (set_ref_pos s p2) dt)).
Proof. exact @higher_sim. Qed.
Print Assumptions C117_simulator.

Example C117_simulator_case : CtlReached 4 (sm_ctl s_high) /\ sm_armed s_high = true /\ sm_mode s_high = POSITION /\ 0 <= ac_mass (ct_acro (sm_ctl s_high)) /\
  upright (qmat (s_ori (sim_state s_high))) /\ willing_loop (get_pid WPos (sm_ctl s_high)) /\ willing_loop (get_pid WVel (sm_ctl s_high)).
Proof. exact high_sim_case. Qed.

(** Upside down the order is turned round: asked to fall less fast, it demands less thrust. *)
Theorem C117_upside_down :
  exists (c : Ctl R) A v1 v2, CtlReached 4 c /\ 0 <= ac_mass (ct_acro c) /\ rotation A /\ willing_loop (get_pid WVel c) /\ no_lower v1 v2 /\
  get_desired_thrust (ctl_step c (CVel (mkV 0 0 0) A (mkV 0 0 0) v2 0 (1/100))) < get_desired_thrust (ctl_step c (CVel (mkV 0 0 0) A (mkV 0 0 0) v1 0 (1/100))).
Proof. exact upside_down. Qed.
Print Assumptions C117_upside_down.
