(** Property theorems: flying with perfect sensors. *)

From Coq Require Import ZArith List Bool Reals.
From Verif Require Import Scalar LinAlg MUtils MModel MDynamics MImu MSim SpecDyn SpecRun SpecImu SpecSim SpecNav PNav ESim ENav.
Import ListNotations.
Local Open Scope R_scope.

(** ** C86 *)
Theorem C86_attitude :
  forall {G H : Gen R} n sp dt rounds (s s' : Sim R G H), 0 < dt <= 1/100 -> perfect_sensors sp -> Forall (Forall piloting) rounds ->
  sim_after n sp (flight dt rounds) = Some s -> sim_step n s (SDynamics dt) = Ok s' ->
  s_ori (sim_state s') = odom_get_orientation (sm_odom s).
Proof. exact @attitude_known. Qed.
Print Assumptions C86_attitude.

Theorem C86_rates :
  forall {G H : Gen R} n sp dt rounds (s : Sim R G H), 0 < dt <= 1/100 -> perfect_sensors sp -> Forall (Forall piloting) rounds -> rounds <> [] ->
  sim_after n sp (flight dt rounds) = Some s -> odom_get_angular_velocity (sm_odom s) = s_angvel (sim_state s).
Proof. exact @rates_known. Qed.
Print Assumptions C86_rates.

(** What the simulator returns as odometry. *)
Theorem C86_reported :
  forall {G H : Gen R} n sp dt rounds (s s' : Sim R G H), 0 < dt <= 1/100 -> perfect_sensors sp -> Forall (Forall piloting) rounds -> rounds <> [] ->
  sim_after n sp (flight dt rounds) = Some s -> sim_step n s (SDynamics dt) = Ok s' ->
  let o := sm_odom s in
  get_odometry s = (odom_get_position o, s_ori (sim_state s'), odom_get_linear_velocity o, s_angvel (sim_state s), odom_get_linear_acceleration o).
Proof. exact @report_known. Qed.
Print Assumptions C86_reported.

(** The attitude of the same instant is not what the odometry reports. *)
Theorem C86_attitude_refuted :
  forall {G H : Gen R}, exists sp (s : Sim R G H), let rounds := [[SRefVel (mkV 1 0 0)]] in
  perfect_sensors sp /\ Forall (Forall (piloting (G := G) (H := H))) rounds /\ sim_after 4 sp (flight (1/100) rounds) = Some s /\
  odom_get_orientation (sm_odom s) <> s_ori (sim_state s) /\
  exists s', sim_step 4 s (SDynamics (1/100)) = Ok s' /\ s_ori (sim_state s') = odom_get_orientation (sm_odom s).
Proof. exact @ahead_refuted. Qed.
Print Assumptions C86_attitude_refuted.

(** Momentum and its integral since the start, away from floors. *)
Theorem C86_motion :
  forall {G H : Gen R} n sp dt rounds (s : Sim R G H), 0 < dt <= 1/100 -> perfect_sensors sp ->
  check_params (sp_model sp) = true -> p_mass (sp_model sp) <> 0 ->
  Forall (Forall piloting) rounds -> Forall (Forall without_floor) rounds ->
  sim_after n sp (flight dt rounds) = Some s ->
  let m := p_mass (sp_model sp) in let o := sm_odom s in
  forall a, let x := pr a (s_pos (sim_state s)) in let v := pr a (s_vel (sim_state s)) in
            let x0 := pr a (s_pos (sp_state sp)) in let v0 := pr a (s_vel (sp_state sp)) in
  pr a (odom_get_linear_velocity o) = m * (v - v0) /\
  pr a (odom_get_position o) = m * (x + v * dt - x0 - INR (S (length rounds)) * v0 * dt) /\
  (rounds <> [] -> pr a (odom_get_linear_acceleration o) = m * pr a (s_linacc (sim_state s))).
Proof. exact @motion_known. Qed.
Print Assumptions C86_motion.

Example C86_case : forall {G H : Gen R}, exists s : Sim R G H, let rounds := [[SRefVel (mkV 1 0 0)]] in
  perfect_sensors sp_roll /\ check_params (sp_model sp_roll) = true /\ p_mass (sp_model sp_roll) = 2 /\
  Forall (Forall (piloting (G := G) (H := H))) rounds /\ Forall (Forall (without_floor (G := G) (H := H))) rounds /\
  sim_after 4 sp_roll (flight (1/100) rounds) = Some s /\
  vz (s_vel (sim_state s)) = -3/200 /\ vz (odom_get_linear_velocity (sm_odom s)) = -3/100 /\
  vx (s_pos (sim_state s)) = 1 + 1/100 /\ vx (odom_get_position (sm_odom s)) = 0.
Proof. exact @motion_ex. Qed.
