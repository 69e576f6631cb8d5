(** Specification vocabulary for the simulator: what a history of calls asked
    for, read off the history itself. *)

From Coq Require Import ZArith List Bool Reals.
From Verif Require Import Scalar LinAlg MUtils MModel MDynamics MControl MCtlRun MImu MSim SpecDyn SpecRun SpecPid SpecCtl.
Import ListNotations.

Section SpecSim.
Context {T : Type} {O : Ops T} {G H : Gen T}.

(** The simulator built from [p] after the calls [ops]. *)
Definition sim_after (n : nat) (p : SimParams T) (ops : list (SimOp T G H)) : option (Sim T G H) :=
  match sim_new n p with Some s => sim_run n s ops | None => None end.

(** The floor in force after a history: the height of the last
    enable_floor_collision unless disable_floor_collision came after it. *)
Fixpoint floor_of (cur : option T) (ops : list (SimOp T G H)) : option T :=
  match ops with
  | [] => cur
  | SEnableFloor h :: r => floor_of (Some h) r
  | SDisableFloor :: r => floor_of None r
  | _ :: r => floor_of cur r
  end.

(** Armed after a history. *)
Fixpoint armed_of (cur : bool) (ops : list (SimOp T G H)) : bool :=
  match ops with
  | [] => cur
  | SArm :: r => armed_of true r
  | SDisarm :: r => armed_of false r
  | _ :: r => armed_of cur r
  end.

(** Mode after a history. *)
Fixpoint mode_of (cur : Mode * YawMode) (ops : list (SimOp T G H)) : Mode * YawMode :=
  match ops with
  | [] => cur
  | SMode m y :: r => mode_of (m, y) r
  | _ :: r => mode_of cur r
  end.

(** Calls that leave the vehicle object to the simulator: no replacement of
    its parameters or state from outside. *)
Definition hands_off (op : SimOp T G H) : Prop :=
  match op with SSetDyn _ _ _ | SMutDyn _ => False | _ => True end.
(** No switch to HOVER or POSITION. *)
Definition no_hold (op : SimOp T G H) : Prop :=
  match op with SMode HOVER _ | SMode POSITION _ => False | _ => True end.
(** Not an arm() call. *)
Definition not_arm (op : SimOp T G H) : Prop := match op with SArm => False | _ => True end.

(** Everything but the control mode agrees. *)
Definition same_but_mode (a b : Sim T G H) : Prop :=
  sm_dyn a = sm_dyn b /\ sm_ctl a = sm_ctl b /\ sm_imu a = sm_imu b /\ sm_odom a = sm_odom b /\
  sm_armed a = sm_armed b /\ sm_floor_en a = sm_floor_en b /\ sm_floor_col a = sm_floor_col b /\
  sm_floor_h a = sm_floor_h b /\ sm_refs a = sm_refs b /\ sm_act a = sm_act b /\ sm_ext a = sm_ext b /\
  sm_yawmode a = sm_yawmode b.
(** One holds with HOVER, the other with POSITION. *)
Definition hold_twins (a b : Sim T G H) : Prop :=
  same_but_mode a b /\ ((sm_mode a = HOVER /\ sm_mode b = POSITION) \/ sm_mode a = sm_mode b).

(** References equal except the yaw angle. *)
Definition refs_but_yaw (a b : Refs T) : Prop :=
  rf_motors a = rf_motors b /\ rf_thrust a = rf_thrust b /\ rf_ang a = rf_ang b /\ rf_pos a = rf_pos b /\
  rf_vel a = rf_vel b /\ rf_acc a = rf_acc b /\ rf_yawrate a = rf_yawrate b.

(** Results of two calls agree up to [Rel]. *)
Definition same_outcome (Rel : Sim T G H -> Sim T G H -> Prop) (x y : outcome (Sim T G H)) : Prop :=
  match x, y with
  | Ok a, Ok b => Rel a b | Throw a, Throw b => Rel a b | UB, UB => True | _, _ => False end.

(** The free motion a call of update_dynamics starts from: the dynamics step
    with the commanded speeds and the force on the vehicle. *)
Definition free_motion (s : Sim T G H) (dt : T) (ext : V3 T) (d : Dyn T G) : Prop :=
  process (sm_dyn s) (sm_act s) dt ext (negb (sm_floor_col s)) = Ok d.

(** What contact does: height set, motion stopped, the rest kept. *)
Definition stopped_at (h : T) (before after : State T) : Prop :=
  vx (s_pos after) = vx (s_pos before) /\ vy (s_pos after) = vy (s_pos before) /\ vz (s_pos after) = h /\
  s_ori after = s_ori before /\
  s_vel after = v0 /\ s_angvel after = v0 /\ s_linacc after = v0 /\ s_angacc after = v0 /\
  s_mvel after = s_mvel before /\ s_macc after = s_macc before /\
  s_force after = s_force before /\ s_torque after = s_torque before.

End SpecSim.

Local Open Scope R_scope.

(** Time simulated by a history, and the factor by which a first-order lag of
    time constant [tau] shrinks over it, one factor per dynamics step. *)
Fixpoint flown {G H : Gen R} (ops : list (SimOp R G H)) : R :=
  match ops with
  | [] => 0
  | SDynamics dt :: r => dt + flown r
  | _ :: r => flown r
  end.
Fixpoint decay {G H : Gen R} (tau : R) (ops : list (SimOp R G H)) : R :=
  match ops with
  | [] => 1
  | SDynamics dt :: r => (1 - dt / tau) * decay tau r
  | _ :: r => decay tau r
  end.
(** Dynamics steps are positive, at most 10 ms and at most [tau]. *)
Definition short_steps {G H : Gen R} (tau : R) (op : SimOp R G H) : Prop :=
  match op with SDynamics dt => 0 < dt <= 1/100 /\ dt <= tau | _ => True end.
(** Dynamics steps are at most 10 ms. *)
Definition small_steps {G H : Gen R} (op : SimOp R G H) : Prop :=
  match op with SDynamics dt => dt <= 1/100 | _ => True end.
(** Leaves the floor where it is. *)
Definition keeps_floor {G H : Gen R} (op : SimOp R G H) : Prop :=
  match op with SEnableFloor _ | SDisableFloor => False | _ => True end.

(** Standing on the floor: at floor height, not moving sideways or up, not
    turning, rotors stopped. *)
Definition standing {G H : Gen R} (n : nat) (h : R) (s : Sim R G H) : Prop :=
  vz (s_pos (sim_state s)) = h /\
  vx (s_vel (sim_state s)) = 0 /\ vy (s_vel (sim_state s)) = 0 /\ vz (s_vel (sim_state s)) <= 0 /\
  s_angvel (sim_state s) = mkV 0 0 0 /\ s_mvel (sim_state s) = repeat 0 n.

(** The four periodic updates, in any order and with any time steps. *)
Definition is_update {G H : Gen R} (op : SimOp R G H) : Prop :=
  match op with SDynamics _ | SController _ | SImu _ | SOdom _ => True | _ => False end.
(** Level attitude with heading [yaw]. *)
Definition level (yaw : R) : Quat R := mkQ (cos (yaw / 2)) 0 0 (sin (yaw / 2)).

(** The two built-in quadrotor layouts. *)
Definition quad_layout (kf kt x y mn mx tau J : R) (ms : list (Motor R)) : Prop :=
  ms = quad_x kf kt x y mn mx tau J \/ ms = quad_plus kf kt x y mn mx tau J.
(** A quadrotor of the built-in layouts without process noise, its controller
    set up for a vehicle of mass [m] under gravity [g0], started level with
    heading [yaw], at rest, with the rotors at the speed [w]. *)
Definition hover_setup (m g0 w : R) (pos : V3 R) (yaw : R) (sp : SimParams R) : Prop :=
  (exists kf kt x y mn mx tau J,
     0 < kf /\ kt <> 0 /\ x <> 0 /\ y <> 0 /\ mn <= w <= mx /\ 4 * kf * (w * w) = m * g0 /\
     quad_layout kf kt x y mn mx tau J (p_motors (sp_model sp))) /\
  check_params (sp_model sp) = true /\ p_fnoise (sp_model sp) = 0 /\
  quad_inverse (p_motors (sp_model sp)) = Some (ip_minv (cp_indi (sp_ctl sp))) /\
  ap_mass (cp_acro (sp_ctl sp)) = m /\ ap_grav (cp_acro (sp_ctl sp)) = mkV 0 0 (- g0) /\
  0 < m /\ 0 < g0 /\ 0 <= w /\
  (forall k, rests (get_pid k (ctl_new 4 (sp_ctl sp)))) /\
  s_pos (sp_state sp) = pos /\ s_ori (sp_state sp) = level yaw /\ - PI < yaw <= PI /\
  s_vel (sp_state sp) = mkV 0 0 0 /\ s_angvel (sp_state sp) = mkV 0 0 0 /\ s_mvel (sp_state sp) = [w; w; w; w].

(** Calls whose arguments fit a vehicle with [n] rotors: vectors of the right
    size, accepted parameters, at most INT_MAX sub-steps. *)
Definition fits {G H : Gen R} (n : nat) (op : SimOp R G H) : Prop :=
  match op with
  | SDynamics dt => dt <= 2147483647 / 100
  | SRefMotors w => length w = n
  | SSetDyn p _ st => check_params p = true /\ length (p_motors p) = n /\ length (s_mvel st) = n
  | SSetCtl p => length (ip_minv (cp_indi p)) = n
  | SMutDyn d => exists p, vehicle n d (repeat 0 n) p /\ length (p_motors p) = n
  | SMutCtl c => length (in_minv (ct_indi c)) = n
  | _ => True
  end.
Definition fitting_params {T} {O : Ops T} (n : nat) (sp : SimParams T) : Prop :=
  check_params (sp_model sp) = true /\ length (p_motors (sp_model sp)) = n /\ length (s_mvel (sp_state sp)) = n /\
  length (ip_minv (cp_indi (sp_ctl sp))) = n.

(** The same in any arithmetic, for dynamics steps that are not above 10 ms
    (a NaN step is not). *)
Definition fits_short {T} {O : Ops T} {G H : Gen T} (n : nat) (op : SimOp T G H) : Prop :=
  match op with
  | SDynamics dt => ltb dtmax dt = false
  | SRefMotors w => length w = n
  | SSetDyn p _ st => check_params p = true /\ length (p_motors p) = n /\ length (s_mvel st) = n
  | SSetCtl p => length (ip_minv (cp_indi p)) = n
  | SMutDyn d => exists p, vehicle n d (repeat zero n) p /\ length (p_motors p) = n
  | SMutCtl c => length (in_minv (ct_indi c)) = n
  | _ => True
  end.

(** The references each mode follows. *)
Definition follows_same {T} (m : Mode) (y : YawMode) (a b : Refs T) : Prop :=
  match m with
  | MOTOR_W => rf_motors a = rf_motors b
  | ACRO => rf_thrust a = rf_thrust b /\ rf_ang a = rf_ang b
  | TRAJECTORY => rf_pos a = rf_pos b /\ rf_vel a = rf_vel b /\ rf_acc a = rf_acc b
  | VELOCITY => rf_vel a = rf_vel b
  | POSITION | HOVER => rf_pos a = rf_pos b
  end /\
  match m, y with
  | MOTOR_W, _ | ACRO, _ => True
  | _, ANGLE => rf_yaw a = rf_yaw b
  | _, RATE => rf_yawrate a = rf_yawrate b
  end.
