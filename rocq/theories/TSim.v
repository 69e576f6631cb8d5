(** Simulator properties. *)

From Coq Require Import ZArith List Bool Reals Lra.
From Verif Require Import Scalar Float64 LinAlg MUtils MModel MDynamics MPid MControl MCtlRun MImu MSim
  SpecDyn SpecRun SpecPid SpecCtl SpecImu SpecSim SpecEuler
  PBase PFloat EBase ECtl EImu PSim PSimR PHover PEuler PSimEnd PFollow PWell ESim.
Import ListNotations.
Local Open Scope R_scope.

(** ** C01 in the simulator *)
Theorem C01_simulator :
  forall {T} {O : Ops T} {G H : Gen T} n, Sane O -> forall p (ops : list (SimOp T G H)) s s',
  get_params (d_model (sm_dyn s)) = Some p -> speeds_ok (p_motors p) (s_mvel (sim_state s)) ->
  Forall hands_off ops -> sim_run n s ops = Some s' ->
  get_params (d_model (sm_dyn s')) = Some p /\ speeds_ok (p_motors p) (s_mvel (sim_state s')).
Proof. exact @run_limits. Qed.
Print Assumptions C01_simulator.

Theorem C01_simulator_binary64 :
  forall L : Libm, let O := F64Ops L in
  forall (G H : Gen b64) n p (ops : list (SimOp b64 G H)) s s',
  get_params (d_model (sm_dyn s)) = Some p -> speeds_ok (p_motors p) (s_mvel (sim_state s)) ->
  Forall hands_off ops -> sim_run n s ops = Some s' ->
  get_params (d_model (sm_dyn s')) = Some p /\ speeds_ok (p_motors p) (s_mvel (sim_state s')).
Proof. exact (fun L G H n => @run_limits _ (F64Ops L) G H n (F64_sane L)). Qed.
Print Assumptions C01_simulator_binary64.

Example C01_simulator_case : forall {G H : Gen R}, exists sp (s : Sim R G H), sim_after 4 sp [] = Some s /\
  get_params (d_model (sm_dyn s)) = Some (sp_model sp) /\ speeds_ok (p_motors (sp_model sp)) (s_mvel (sim_state s)) /\
  unitq (s_ori (sim_state s)) /\ s_mvel (sim_state s) = [1;1;1;1].
Proof. exact @speeds_ex. Qed.

(** ** C02 in the simulator *)
Theorem C02_simulator :
  forall {G H : Gen R} n (ops : list (SimOp R G H)) s s',
  unitq (s_ori (sim_state s)) -> Forall hands_off ops -> sim_run n s ops = Some s' -> unitq (s_ori (sim_state s')).
Proof. exact @sim_unit. Qed.
Print Assumptions C02_simulator.

(** ** C43: false; the force is turned the wrong way *)
Theorem C43_refuted :
  forall {G H : Gen R}, exists sp (s s' : Sim R G H) a,
  ideal (sp_imu sp) /\ imp_ori (sp_imu sp) = mkQ 1 0 0 0 /\ unitq (s_ori (sim_state s)) /\
  sim_after 4 sp [] = Some s /\ sim_step 4 s (SImu (1/100)) = Ok s' /\
  pr a (snd (imu_get_measurement (sm_imu s'))) <> to_body (s_ori (sim_state s)) (s_force (sim_state s)) a.
Proof. exact @imu_frame_refuted. Qed.
Print Assumptions C43_refuted.

(** What an ideal IMU reads: the force as if it were a body vector turned to
    the world, and the true angular velocity, both seen from the mounting. *)
Theorem C43_reading :
  forall {G H : Gen R} n (s s' : Sim R G H) ip iops dt,
  sm_imu s = imu_after ip iops -> ideal ip -> Forall ideal_op iops -> unitq (mount_of ip iops) -> 0 < dt ->
  sim_step n s (SImu dt) = Ok s' ->
  forall a, pr a (snd (imu_get_measurement (sm_imu s'))) = to_body (mount_of ip iops) (vec_of (to_world (s_ori (sim_state s)) (s_force (sim_state s)))) a /\
            pr a (fst (imu_get_measurement (sm_imu s'))) = to_body (mount_of ip iops) (s_angvel (sim_state s)) a.
Proof. exact @sim_imu_reading. Qed.
Print Assumptions C43_reading.

(** The odometry turns it back, so its acceleration is the true world force. *)
Theorem C43_round_trip :
  forall {G H : Gen R} n (s s1 s2 : Sim R G H) ip iops op oops dti dto,
  sm_imu s = imu_after ip iops -> ideal ip -> Forall ideal_op iops -> mount_of ip iops = mkQ 1 0 0 0 -> 0 < dti ->
  sm_odom s = odom_run (odom_new op) oops -> nonzeroq (odp_ori op) -> Forall proper_init oops -> odp_alpha op = 1 ->
  odom_get_orientation (sm_odom s) = s_ori (sim_state s) -> unitq (s_ori (sim_state s)) ->
  sim_step n s (SImu dti) = Ok s1 -> sim_step n s1 (SOdom dto) = Ok s2 ->
  forall a, pr a (odom_get_linear_acceleration (sm_odom s2)) = pr a (s_force (sim_state s2)) /\
            pr a (odom_get_angular_velocity (sm_odom s2)) = pr a (s_angvel (sim_state s2)).
Proof. exact @sim_odometry. Qed.
Print Assumptions C43_round_trip.

(** ** C44 *)
Theorem C44_above_floor :
  forall {T} {O : Ops T} {G H : Gen T} n, Irrefl O -> forall p (ops : list (SimOp T G H)) dt s s' h,
  sim_after n p ops = Some s -> floor_of None ops = Some h -> sim_step n s (SDynamics dt) = Ok s' ->
  ltb (vz (s_pos (sim_state s'))) h = false.
Proof. exact @above_floor. Qed.
Print Assumptions C44_above_floor.

Theorem C44_binary64 :
  forall L : Libm, let O := F64Ops L in
  forall (G H : Gen b64) n p (ops : list (SimOp b64 G H)) dt s s' h,
  sim_after n p ops = Some s -> floor_of None ops = Some h -> sim_step n s (SDynamics dt) = Ok s' ->
  ltb (vz (s_pos (sim_state s'))) h = false.
Proof. exact (fun L G H n => @above_floor _ (F64Ops L) G H n (F64_irrefl L)). Qed.
Print Assumptions C44_binary64.

Example C44_case : forall {G H : Gen R}, exists sp (s s' : Sim R G H),
  sim_after 4 sp [SEnableFloor 0] = Some s /\ floor_of (G := G) (H := H) None [SEnableFloor 0] = Some 0 /\
  sim_step 4 s (SDynamics (1/100)) = Ok s' /\
  vz (s_pos (sim_state s)) = -1 /\ vz (s_pos (sim_state s')) = 0 /\ s_vel (sim_state s) = mkV 3 0 (-1) /\ s_vel (sim_state s') = mkV 0 0 0.
Proof. exact @contact_ex. Qed.

(** ** C45 *)
Theorem C45_contact :
  forall {T} {O : Ops T} {G H : Gen T} (s : Sim T G H) dt s', update_dynamics s dt = Ok s' ->
  exists ext d, free_motion s dt ext d /\
  (sm_floor_en s = true /\ ltb (vz (s_pos (d_state d))) (sm_floor_h s) = true /\
     stopped_at (sm_floor_h s) (d_state d) (sim_state s') /\ d_model (sm_dyn s') = d_model d /\
     sm_imu s' = imu_step (sm_imu s) IReset /\
     sm_odom s' = odom_step (odom_step (sm_odom s) (OInit (s_ori (d_state d)))) OReset /\ sm_ext s' = v0
   \/ (sm_floor_en s = false \/ ltb (vz (s_pos (d_state d))) (sm_floor_h s) = false) /\
     sm_dyn s' = d /\ sm_imu s' = sm_imu s /\ sm_odom s' = sm_odom s /\ sm_ext s' = v0).
Proof. exact @contact_cases. Qed.
Print Assumptions C45_contact.

(** The force on the vehicle during the update: minus gravity times mass while
    below the floor, else the external force left in the simulator. *)
Theorem C45_reaction :
  forall {T} {O : Ops T} {G H : Gen T} (s : Sim T G H) dt s' p,
  update_dynamics s dt = Ok s' -> get_params (d_model (sm_dyn s)) = Some p ->
  exists d, free_motion s dt
    (if sm_floor_en s && ltb (vz (s_pos (sim_state s))) (sm_floor_h s)
     then vscaler (vneg (p_grav p)) (p_mass p) else sm_ext s) d /\ d_model (sm_dyn s') = d_model d.
Proof. exact @force_during. Qed.
Print Assumptions C45_reaction.

(** ** C46 *)
Theorem C46_from_construction :
  forall {T} {O : Ops T} {G H : Gen T} n p (ops : list (SimOp T G H)) s,
  sim_after n p ops = Some s -> armed_of false ops = false ->
  sm_armed s = false /\ sm_act s = repeat zero n /\
  forall dt, exists s', sim_step n s (SController dt) = Ok s' /\ sm_act s' = repeat zero n /\ sm_ctl s' = sm_ctl s.
Proof. exact @disarmed_after_construction. Qed.
Print Assumptions C46_from_construction.

Theorem C46_after_disarm :
  forall {T} {O : Ops T} {G H : Gen T} n (s : Sim T G H) ops s',
  sim_run n s (SDisarm :: ops) = Some s' -> Forall not_arm ops ->
  sm_armed s' = false /\ sm_act s' = repeat zero n /\
  forall dt, exists s'', sim_step n s' (SController dt) = Ok s'' /\ sm_act s'' = repeat zero n /\ sm_ctl s'' = sm_ctl s'.
Proof. exact @disarmed_anyhow. Qed.
Print Assumptions C46_after_disarm.

(** Rotors that may stop do stop, exponentially. *)
Theorem C46_rotors_stop :
  forall {G H : Gen R} n (ops : list (SimOp R G H)) s s' p i m w,
  get_params (d_model (sm_dyn s)) = Some p -> length (s_mvel (sim_state s)) = n ->
  nth_error (p_motors p) i = Some m -> mt_min m <= 0 <= mt_max m ->
  nth_error (s_mvel (sim_state s)) i = Some w -> mt_min m <= w <= mt_max m -> 0 < mt_tau m ->
  Forall hands_off ops -> Forall not_arm ops -> Forall (short_steps (mt_tau m)) ops ->
  sim_run n s (SDisarm :: ops) = Some s' ->
  exists w', nth_error (s_mvel (sim_state s')) i = Some w' /\ w' = decay (mt_tau m) ops * w /\
    Rabs w' <= exp (- flown ops / mt_tau m) * Rabs w.
Proof. exact @rotors_stop. Qed.
Print Assumptions C46_rotors_stop.

(** Rotors with a positive minimum speed keep turning while disarmed. *)
Theorem C46_stop_refuted :
  forall {G H : Gen R}, exists sp, fitting_params 4 sp /\
  forall (ops : list (SimOp R G H)) s', Forall hands_off ops -> sim_after 4 sp (SDisarm :: ops) = Some s' ->
  forall i w, nth_error (s_mvel (sim_state s')) i = Some w -> 1 <= w.
Proof. exact @rotors_idle_refuted. Qed.
Print Assumptions C46_stop_refuted.

Example C46_case : forall {G H : Gen R},
  armed_of (G := G) (H := H) false [SArm; SController 1; SDisarm; SMode VELOCITY RATE; SRefVel (mkV 1 2 3); SDynamics 1; SController 1] = false.
Proof. reflexivity. Qed.
Example C46_case_stop : forall {G H : Gen R},
  decay (G := G) (H := H) (1/10) [SDynamics (1/100); SController 1; SDynamics (1/100)] = 81/100 /\
  Forall (short_steps (G := G) (H := H) (1/10)) [SDynamics (1/100); SController 1; SDynamics (1/100)].
Proof. exact @decay_ex. Qed.

(** ** C47 *)
Theorem C47_same_mode :
  forall {T} {O : Ops T} {G H : Gen T} n (s : Sim T G H), sim_step n s (SMode (sm_mode s) (sm_yawmode s)) = Ok s.
Proof. exact @same_mode. Qed.
Print Assumptions C47_same_mode.

Theorem C47_new_mode :
  forall {T} {O : Ops T} {G H : Gen T} n (s : Sim T G H) m y, (m, y) <> (sm_mode s, sm_yawmode s) ->
  exists s', sim_step n s (SMode m y) = Ok s' /\ sm_mode s' = m /\ sm_yawmode s' = y /\
  sm_refs s' = mkRefs (rf_motors (sm_refs s)) zero v0 (s_pos (sim_state s)) v0 v0
                 (vz (quat_to_euler (s_ori (sim_state s)))) (rf_yawrate (sm_refs s)) /\
  sm_dyn s' = sm_dyn s /\ sm_ctl s' = sm_ctl s /\ sm_imu s' = sm_imu s /\ sm_odom s' = sm_odom s /\
  sm_armed s' = sm_armed s /\ sm_act s' = sm_act s /\ sm_ext s' = sm_ext s /\
  sm_floor_en s' = sm_floor_en s /\ sm_floor_h s' = sm_floor_h s.
Proof. exact @new_mode. Qed.
Print Assumptions C47_new_mode.

(** The mode is the one last asked for. *)
Theorem C47_mode_is_last_asked :
  forall {T} {O : Ops T} {G H : Gen T} n (ops : list (SimOp T G H)) s s',
  sim_run n s ops = Some s' -> (sm_mode s', sm_yawmode s') = mode_of (sm_mode s, sm_yawmode s) ops.
Proof. exact @run_mode. Qed.
Print Assumptions C47_mode_is_last_asked.

Example C47_case : forall {G H : Gen R},
  mode_of (G := G) (H := H) (MOTOR_W, ANGLE) [SMode ACRO RATE; SArm; SDynamics 1; SMode HOVER ANGLE; SController 1] = (HOVER, ANGLE).
Proof. reflexivity. Qed.

(** Integrals wound up in the old mode act in the new one. *)
Theorem C47_memory_refuted :
  forall {G H : Gen R}, exists sp (h1 h2 : list (SimOp R G H)) a b a' b',
  sim_after 4 sp h1 = Some a /\ sim_after 4 sp h2 = Some b /\
  last h1 SArm = SMode POSITION ANGLE /\ last h2 SArm = SMode POSITION ANGLE /\
  sm_dyn a = sm_dyn b /\ sm_refs a = sm_refs b /\ sm_armed a = sm_armed b /\ sm_mode a = sm_mode b /\ sm_yawmode a = sm_yawmode b /\
  sim_step 4 a (SController 1) = Ok a' /\ sim_step 4 b (SController 1) = Ok b' /\
  get_desired_linear_acceleration (sm_ctl a') <> get_desired_linear_acceleration (sm_ctl b').
Proof. exact @memory_refuted. Qed.
Print Assumptions C47_memory_refuted.

(** ** C48 *)
Theorem C48_twins_stay_twins :
  forall {T} {O : Ops T} {G H : Gen T} n ops (a b : Sim T G H), hold_twins a b -> Forall no_hold ops ->
  both hold_twins (sim_run n a ops) (sim_run n b ops).
Proof. exact @run_twins. Qed.
Print Assumptions C48_twins_stay_twins.

Theorem C48_entering :
  forall {T} {O : Ops T} {G H : Gen T} n (s : Sim T G H) y a b, sm_mode s <> HOVER -> sm_mode s <> POSITION ->
  sim_step n s (SMode HOVER y) = Ok a -> sim_step n s (SMode POSITION y) = Ok b -> hold_twins a b.
Proof. exact @enter_twins. Qed.
Print Assumptions C48_entering.

Example C48_case : forall {G H : Gen R}, exists sp (s a b : Sim R G H), sim_after 4 sp [SArm] = Some s /\
  sim_step 4 s (SMode HOVER RATE) = Ok a /\ sim_step 4 s (SMode POSITION RATE) = Ok b /\ hold_twins a b /\ sm_mode a <> sm_mode b.
Proof. exact @twins_ex. Qed.

(** ** C49 *)
Theorem C49_controller :
  forall {T} {O : Ops T} {G H : Gen T} n (s : Sim T G H) dt s', sim_step n s (SController dt) = Ok s' ->
  sm_dyn s' = sm_dyn s /\ sm_imu s' = sm_imu s /\ sm_odom s' = sm_odom s /\ sm_armed s' = sm_armed s /\
  sm_floor_en s' = sm_floor_en s /\ sm_floor_h s' = sm_floor_h s /\ sm_ext s' = sm_ext s /\
  sm_mode s' = sm_mode s /\ sm_yawmode s' = sm_yawmode s /\
  refs_but_yaw (sm_refs s) (sm_refs s') /\
  (sm_yawmode s = ANGLE -> sm_refs s' = sm_refs s).
Proof. exact @frame_controller. Qed.
Print Assumptions C49_controller.

Theorem C49_imu :
  forall {T} {O : Ops T} {G H : Gen T} n (s : Sim T G H) dt s', sim_step n s (SImu dt) = Ok s' ->
  sm_dyn s' = sm_dyn s /\ sm_ctl s' = sm_ctl s /\ sm_odom s' = sm_odom s /\ sm_armed s' = sm_armed s /\
  sm_floor_en s' = sm_floor_en s /\ sm_floor_h s' = sm_floor_h s /\ sm_ext s' = sm_ext s /\ sm_act s' = sm_act s /\
  sm_mode s' = sm_mode s /\ sm_yawmode s' = sm_yawmode s /\ sm_refs s' = sm_refs s.
Proof. exact @frame_imu. Qed.
Print Assumptions C49_imu.

Theorem C49_odometry :
  forall {T} {O : Ops T} {G H : Gen T} n (s : Sim T G H) dt s', sim_step n s (SOdom dt) = Ok s' ->
  sm_dyn s' = sm_dyn s /\ sm_ctl s' = sm_ctl s /\ sm_imu s' = sm_imu s /\ sm_armed s' = sm_armed s /\
  sm_floor_en s' = sm_floor_en s /\ sm_floor_h s' = sm_floor_h s /\ sm_ext s' = sm_ext s /\ sm_act s' = sm_act s /\
  sm_mode s' = sm_mode s /\ sm_yawmode s' = sm_yawmode s /\ sm_refs s' = sm_refs s.
Proof. exact @frame_odom. Qed.
Print Assumptions C49_odometry.

Theorem C49_dynamics :
  forall {T} {O : Ops T} {G H : Gen T} n (s : Sim T G H) dt s',
  sim_step n s (SDynamics dt) = Ok s' \/ sim_step n s (SDynamics dt) = Throw s' ->
  sm_ctl s' = sm_ctl s /\ sm_armed s' = sm_armed s /\ sm_floor_en s' = sm_floor_en s /\ sm_floor_h s' = sm_floor_h s /\
  sm_refs s' = sm_refs s /\ sm_act s' = sm_act s /\ sm_mode s' = sm_mode s /\ sm_yawmode s' = sm_yawmode s.
Proof. exact @frame_dynamics. Qed.
Print Assumptions C49_dynamics.

(** ** C50: false below the floor *)
Theorem C50_above :
  forall {T} {O : Ops T} {G H : Gen T} n, Sane O -> forall (s : Sim T G H) dt, leb dt zero = true ->
  sm_floor_en s = false \/ ltb (vz (s_pos (sim_state s))) (sm_floor_h s) = false ->
  sim_step n s (SDynamics dt) = Throw s.
Proof. exact @failed_above. Qed.
Print Assumptions C50_above.

Theorem C50_below :
  forall {T} {O : Ops T} {G H : Gen T} n (s : Sim T G H) dt p, leb dt zero = true -> get_params (d_model (sm_dyn s)) = Some p ->
  sm_floor_en s = true -> ltb (vz (s_pos (sim_state s))) (sm_floor_h s) = true ->
  exists s', sim_step n s (SDynamics dt) = Throw s' /\ sm_ext s' = vscaler (vneg (p_grav p)) (p_mass p) /\
    sm_dyn s' = sm_dyn s /\ sm_imu s' = sm_imu s /\ sm_odom s' = sm_odom s.
Proof. exact @failed_below. Qed.
Print Assumptions C50_below.

Theorem C50_refuted :
  forall {G H : Gen R}, exists sp (ops : list (SimOp R G H)) s s', fitting_params 4 sp /\
  sim_after 4 sp ops = Some s /\ sim_step 4 s (SDynamics 0) = Throw s' /\ sm_ext s = mkV 0 0 0 /\ sm_ext s' = mkV 0 0 4.
Proof. exact @failed_refuted. Qed.
Print Assumptions C50_refuted.

(** ** C51 *)
Theorem C51_rebuilds :
  forall q, nonzeroq q -> not_vertical q -> let e := quat_to_euler q in
  forall a b, rpy (vx e) (vy e) (vz e) a b = attitude q a b.
Proof. exact euler_rebuilds. Qed.
Print Assumptions C51_rebuilds.

Theorem C51_ranges :
  forall q, nonzeroq q -> let e := quat_to_euler q in
  - PI < vx e <= PI /\ - (PI / 2) <= vy e <= PI / 2 /\ - PI < vz e <= PI.
Proof. exact euler_ranges. Qed.
Print Assumptions C51_ranges.

Theorem C51_scale :
  forall k q, k <> 0 -> nonzeroq q -> quat_to_euler (scaled_quat k q) = quat_to_euler q.
Proof. exact euler_scaled. Qed.
Print Assumptions C51_scale.

Theorem C51_unique :
  forall q roll pitch yaw, nonzeroq q ->
  - PI < roll <= PI -> - (PI/2) < pitch < PI/2 -> - PI < yaw <= PI ->
  (forall a b, attitude q a b = rpy roll pitch yaw a b) -> quat_to_euler q = mkV roll pitch yaw.
Proof. exact euler_unique. Qed.
Print Assumptions C51_unique.

(** Nose straight up or down: roll and yaw are both reported as zero. *)
Theorem C51_vertical :
  forall q, nonzeroq q -> ~ not_vertical q -> vx (quat_to_euler q) = 0 /\ vz (quat_to_euler q) = 0 /\
  (vy (quat_to_euler q) = PI / 2 \/ vy (quat_to_euler q) = - (PI / 2)) /\ sin (vy (quat_to_euler q)) = - attitude q AZ AX.
Proof. exact gimbal. Qed.
Print Assumptions C51_vertical.

(** The restriction to attitudes that are not vertical is needed. *)
Theorem C51_vertical_lost :
  exists q, unitq q /\ ~ not_vertical q /\
  exists a b, let e := quat_to_euler q in rpy (vx e) (vy e) (vz e) a b <> attitude q a b.
Proof. exact quarter_up. Qed.
Print Assumptions C51_vertical_lost.

Example C51_case : nonzeroq q_tilt /\ not_vertical q_tilt /\ attitude q_tilt AZ AY = 4/5 /\ attitude q_tilt AZ AZ = 3/5.
Proof. exact tilt_ex. Qed.

(** ** C53 in the simulator *)
Theorem C53_simulator :
  forall {G H : Gen R} n sp (ops : list (SimOp R G H)),
  fitting_params n sp -> Forall (fits n) ops -> exists s', sim_after n sp ops = Some s'.
Proof. exact @simulator_defined. Qed.
Print Assumptions C53_simulator.

(** In binary64, with updates of at most 10 ms. *)
Theorem C53_simulator_binary64 :
  forall L : Libm, let O := F64Ops L in forall (G H : Gen b64) n sp (ops : list (SimOp b64 G H)),
  fitting_params n sp -> Forall (fits_short n) ops -> exists s', sim_after n sp ops = Some s'.
Proof. exact (fun L G H => @gsimulator_defined _ (F64Ops L) G H (F64_sane L)). Qed.
Print Assumptions C53_simulator_binary64.

Example C53_simulator_case : forall {G H : Gen R}, fitting_params 4 (sp_ex 1 4 4 st_hover imp_plain) /\
  Forall (fits (G := G) (H := H) 4) (SArm :: SMode HOVER RATE :: SRefMotors [1;2;3;4] :: SDynamics 7 :: SDynamics (-1) :: SEnableFloor 5 :: SSetImu imp_upside :: ops_hover).
Proof. exact @defined_ex. Qed.

(** ** C54 in the simulator *)
Theorem C54_simulator :
  forall {G H : Gen R} n (s : Sim R G H) dt yaw,
  sm_armed s = true -> sm_yawmode s = RATE -> s_ori (sim_state s) = level yaw -> - PI < yaw <= PI ->
  let k := m22 (ac_kp (ct_acro (sm_ctl s))) in k <> 0 ->
  rf_yaw (sm_refs (update_controller n s dt)) = yaw + rf_yawrate (sm_refs s) / k.
Proof. exact @rate_reference. Qed.
Print Assumptions C54_simulator.

Example C54_simulator_case : forall {G H : Gen R}, exists sp (s : Sim R G H), sim_after 4 sp [SArm; SMode HOVER RATE; SRefYawRate 3] = Some s /\
  sm_armed s = true /\ sm_yawmode s = RATE /\ s_ori (sim_state s) = level 0 /\ m22 (ac_kp (ct_acro (sm_ctl s))) = 1 /\ rf_yawrate (sm_refs s) = 3.
Proof. exact @rate_ex. Qed.

(** ** C57: false; what the odometry reports is mass times acceleration *)
Theorem C57_refuted :
  forall {G H : Gen R}, exists sp (s : Sim R G H),
  sim_after 4 sp [SDynamics (1/100); SImu (1/100); SOdom (1/100)] = Some s /\
  ideal (sp_imu sp) /\ imp_ori (sp_imu sp) = mkQ 1 0 0 0 /\ odp_alpha (sp_odom sp) = 1 /\
  odp_ori (sp_odom sp) = s_ori (sp_state sp) /\ s_ori (sim_state s) = s_ori (sp_state sp) /\ p_mass (sp_model sp) = 2 /\
  vz (s_linacc (sim_state s)) = -2 /\ vz (odom_get_linear_acceleration (sm_odom s)) = -4.
Proof. exact @odometry_mass_refuted. Qed.
Print Assumptions C57_refuted.

Theorem C57_mass_times_acceleration :
  forall {G H : Gen R} n (s s0 s1 s2 : Sim R G H) p ip iops op oops dt dti dto,
  vehicle n (sm_dyn s) (sm_act s) p -> p_mass p <> 0 -> sm_floor_en s = false -> sim_step n s (SDynamics dt) = Ok s0 ->
  sm_imu s0 = imu_after ip iops -> ideal ip -> Forall ideal_op iops -> mount_of ip iops = mkQ 1 0 0 0 -> 0 < dti ->
  sm_odom s0 = odom_run (odom_new op) oops -> nonzeroq (odp_ori op) -> Forall proper_init oops -> odp_alpha op = 1 ->
  odom_get_orientation (sm_odom s0) = s_ori (sim_state s0) -> unitq (s_ori (sim_state s0)) ->
  sim_step n s0 (SImu dti) = Ok s1 -> sim_step n s1 (SOdom dto) = Ok s2 ->
  forall a, pr a (odom_get_linear_acceleration (sm_odom s2)) = p_mass p * pr a (s_linacc (sim_state s2)).
Proof. exact @sim_accel_law. Qed.
Print Assumptions C57_mass_times_acceleration.

(** ** C58: false; the odometry does not know the mounting *)
Theorem C58_refuted :
  forall {G H : Gen R}, exists sp (s : Sim R G H),
  sim_after 4 sp [SImu (1/100); SOdom (1/100)] = Some s /\
  ideal (sp_imu sp) /\ unitq (imp_ori (sp_imu sp)) /\ odp_alpha (sp_odom sp) = 1 /\ odp_ori (sp_odom sp) = s_ori (sim_state s) /\
  vz (s_angvel (sim_state s)) = 1 /\ vz (odom_get_angular_velocity (sm_odom s)) = -1.
Proof. exact @mounting_refuted. Qed.
Print Assumptions C58_refuted.

Theorem C58_rates_as_mounted :
  forall {G H : Gen R} n (s s1 s2 : Sim R G H) ip iops dti dto,
  sm_imu s = imu_after ip iops -> ideal ip -> Forall ideal_op iops -> unitq (mount_of ip iops) -> 0 < dti ->
  od_alpha (sm_odom s) = 1 ->
  sim_step n s (SImu dti) = Ok s1 -> sim_step n s1 (SOdom dto) = Ok s2 ->
  forall a, pr a (odom_get_angular_velocity (sm_odom s2)) = to_body (mount_of ip iops) (s_angvel (sim_state s2)) a.
Proof. exact @sim_odom_rates. Qed.
Print Assumptions C58_rates_as_mounted.

(** ** C59 *)
Theorem C59_stays_landed :
  forall {G H : Gen R} n p h pos q ops (s s' : Sim R G H),
  length (p_motors p) = n -> (forall m, In m (p_motors p) -> mt_min m <= 0 <= mt_max m) -> p_fnoise p = 0 ->
  vx (p_grav p) = 0 -> vy (p_grav p) = 0 -> vz (p_grav p) <= 0 -> 0 < p_mass p -> unitq q -> vz pos = h ->
  vehicle n (sm_dyn s) (sm_act s) p -> standing n h s -> s_pos (sim_state s) = pos -> s_ori (sim_state s) = q ->
  Forall hands_off ops -> Forall not_arm ops -> Forall keeps_floor ops -> Forall small_steps ops ->
  sim_run n s (SEnableFloor h :: SDisarm :: ops) = Some s' ->
  s_pos (sim_state s') = pos /\ s_ori (sim_state s') = q /\ standing n h s'.
Proof. exact @landed. Qed.
Print Assumptions C59_stays_landed.

Example C59_case : forall {G H : Gen R}, exists sp (s : Sim R G H), sim_after 4 sp [] = Some s /\
  vehicle 4 (sm_dyn s) (sm_act s) (sp_model sp) /\ standing 4 0 s /\ vz (p_grav (sp_model sp)) = -4 /\
  Forall hands_off (@ops_ground G H) /\ Forall not_arm (@ops_ground G H) /\ Forall keeps_floor (@ops_ground G H) /\ Forall small_steps (@ops_ground G H).
Proof. exact @ground_ex. Qed.

(** ** C60: true when the gravity parameter is the weight, false otherwise *)
Theorem C60_holds_weight_partial :
  forall {G H : Gen R} sp m g0 w pos yaw dt ops (s' : Sim R G H),
  hover_setup m g0 w pos yaw sp -> p_grav (sp_model sp) = mkV 0 0 (- (m * g0)) -> Forall is_update ops ->
  sim_after 4 sp (SArm :: SMode HOVER ANGLE :: SController dt :: ops) = Some s' ->
  s_pos (sim_state s') = pos /\ s_ori (sim_state s') = level yaw /\ s_vel (sim_state s') = mkV 0 0 0 /\
  s_angvel (sim_state s') = mkV 0 0 0 /\ sm_act s' = [w; w; w; w].
Proof. exact @hover_end. Qed.
Print Assumptions C60_holds_weight_partial.

Theorem C60_drift :
  forall {G H : Gen R} sp m g0 w pos yaw dt dt' (s : Sim R G H),
  hover_setup m g0 w pos yaw sp -> p_grav (sp_model sp) = mkV 0 0 (- g0) -> p_mass (sp_model sp) = m -> 0 < dt' <= 1/100 ->
  sim_after 4 sp [SArm; SMode HOVER ANGLE; SController dt; SDynamics dt'] = Some s ->
  vz (s_vel (sim_state s)) = dt' * ((m - 1) * g0 / m).
Proof. exact @hover_drift. Qed.
Print Assumptions C60_drift.

Theorem C60_refuted :
  forall {G H : Gen R}, exists sp (s' : Sim R G H), hover_setup 2 2 1 (mkV 1 2 3) 0 sp /\
  p_mass (sp_model sp) = 2 /\ p_grav (sp_model sp) = mkV 0 0 (-2) /\
  sim_after 4 sp [SArm; SMode HOVER ANGLE; SController (1/100); SDynamics (1/100)] = Some s' /\
  vz (s_vel (sim_state s')) = 1/100.
Proof. exact @hover_refuted. Qed.
Print Assumptions C60_refuted.

Example C60_case : forall {G H : Gen R}, exists (s' : Sim R G H), Forall is_update (@ops_hover G H) /\
  sim_after 4 (sp_ex 1 4 4 st_hover imp_plain) (SArm :: SMode HOVER ANGLE :: SController (1/100) :: ops_hover) = Some s'.
Proof. exact @hover_holds. Qed.
Example C60_case_setup : hover_setup 1 4 1 (mkV 1 2 3) 0 (sp_ex 1 4 4 st_hover imp_plain) /\
  p_grav (sp_model (sp_ex 1 4 4 st_hover imp_plain)) = mkV 0 0 (- (1 * 4)).
Proof. split; [apply hover_ex; lra|]. cbn. f_equal. lra. Qed.

(** ** C61 *)
Theorem C61_followed_references :
  forall {T} {O : Ops T} {G H : Gen T} n (s : Sim T G H) a b dt, follows_same (sm_mode s) (sm_yawmode s) a b ->
  let sa := update_controller n (with_refs s a) dt in let sb := update_controller n (with_refs s b) dt in
  sm_act sa = sm_act sb /\ sm_ctl sa = sm_ctl sb.
Proof. exact @mode_references. Qed.
Print Assumptions C61_followed_references.

Theorem C61_motor_mode :
  forall {T} {O : Ops T} {G H : Gen T} n (s : Sim T G H) dt,
  sm_armed s = true -> sm_mode s = MOTOR_W -> sm_act (update_controller n s dt) = rf_motors (sm_refs s).
Proof. exact @motor_mode. Qed.
Print Assumptions C61_motor_mode.

Example C61_case : follows_same VELOCITY ANGLE (mkRefs [1] 2 (mkV 1 1 1) (mkV 2 2 2) (mkV 3 3 3) (mkV 4 4 4) 5 6)
                                               (mkRefs [2] 1 (mkV 2 1 1) (mkV 1 2 2) (mkV 3 3 3) (mkV 4 5 4) 5 7).
Proof. split; reflexivity. Qed.
