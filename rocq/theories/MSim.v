(** Model of multirotor_simulator/multirotor_simulator.hpp: the Simulator. *)

From Coq Require Import ZArith List Bool.
From Verif Require Import Scalar LinAlg MUtils MModel MDynamics MPid MControl MImu.
Import ListNotations.

(** multirotor_simulator.hpp:55 ControlMode, 64 YawControlMode. *)
Inductive Mode := HOVER | MOTOR_W | ACRO | TRAJECTORY | VELOCITY | POSITION.
Inductive YawMode := ANGLE | RATE.

Definition mode_eqb (a b : Mode) : bool :=
  match a, b with
  | HOVER, HOVER | MOTOR_W, MOTOR_W | ACRO, ACRO | TRAJECTORY, TRAJECTORY
  | VELOCITY, VELOCITY | POSITION, POSITION => true
  | _, _ => false end.
Definition yaw_eqb (a b : YawMode) : bool :=
  match a, b with ANGLE, ANGLE | RATE, RATE => true | _, _ => false end.

(** multirotor_simulator.hpp:612-625 the motion references. *)
Record Refs (T : Type) := mkRefs {
  rf_motors : list T; rf_thrust : T; rf_ang : V3 T;
  rf_pos : V3 T; rf_vel : V3 T; rf_acc : V3 T; rf_yaw : T; rf_yawrate : T }.
Arguments mkRefs {T}. Arguments rf_motors {T}. Arguments rf_thrust {T}. Arguments rf_ang {T}.
Arguments rf_pos {T}. Arguments rf_vel {T}. Arguments rf_acc {T}. Arguments rf_yaw {T}.
Arguments rf_yawrate {T}.

(** multirotor_simulator.hpp:599-633 members.  [G] drives the process noise,
    [H] the IMU noise.  Every member except [sm_floor_col] has a getter that
    returns it: 410-417 state, 460-539 the four sub-objects, 643-680 arming and
    floor, 687-811 references, 818-831 actuation, 837-846 external force,
    853-876 modes. *)
Record Sim (T : Type) (G H : Gen T) := mkSim {
  sm_dyn : Dyn T G;
  sm_ctl : Ctl T;
  sm_imu : Imu T H;
  sm_odom : Odom T;
  sm_armed : bool;
  sm_floor_en : bool;      (* floor_collision_enable_ *)
  sm_floor_col : bool;     (* floor_collision_ *)
  sm_floor_h : T;          (* floor_height_ *)
  sm_refs : Refs T;
  sm_act : list T;         (* actuation_motors_angular_velocity_ *)
  sm_ext : V3 T;           (* external_force_ *)
  sm_mode : Mode;
  sm_yawmode : YawMode
}.
Arguments mkSim {T G H}. Arguments sm_dyn {T G H}. Arguments sm_ctl {T G H}.
Arguments sm_imu {T G H}. Arguments sm_odom {T G H}. Arguments sm_armed {T G H}.
Arguments sm_floor_en {T G H}. Arguments sm_floor_col {T G H}. Arguments sm_floor_h {T G H}.
Arguments sm_refs {T G H}. Arguments sm_act {T G H}. Arguments sm_ext {T G H}.
Arguments sm_mode {T G H}. Arguments sm_yawmode {T G H}.

(** multirotor_simulator.hpp:72-88 SimulatorParams (dynamics parameters are
    the model parameters, the seed and the initial state). *)
Record SimParams (T : Type) := mkSP {
  sp_model : Params T; sp_seed : Z; sp_state : State T;
  sp_ctl : CtlParams T; sp_imu : ImuParams T; sp_odom : OdomParams T }.
Arguments mkSP {T}. Arguments sp_model {T}. Arguments sp_seed {T}. Arguments sp_state {T}.
Arguments sp_ctl {T}. Arguments sp_imu {T}. Arguments sp_odom {T}.

Section Sim.
Context {T : Type} {O : Ops T} {G H : Gen T}.
Local Open Scope sc_scope.
Variable n : nat.       (* num_rotors *)

Definition vsetz (v : V3 T) (z : T) : V3 T := mkV (vx v) (vy v) z.

(** Field updates. *)
Definition with_dyn (s : Sim T G H) (d : Dyn T G) : Sim T G H :=
  mkSim d (sm_ctl s) (sm_imu s) (sm_odom s) (sm_armed s) (sm_floor_en s) (sm_floor_col s)
        (sm_floor_h s) (sm_refs s) (sm_act s) (sm_ext s) (sm_mode s) (sm_yawmode s).
Definition with_ctl (s : Sim T G H) (c : Ctl T) : Sim T G H :=
  mkSim (sm_dyn s) c (sm_imu s) (sm_odom s) (sm_armed s) (sm_floor_en s) (sm_floor_col s)
        (sm_floor_h s) (sm_refs s) (sm_act s) (sm_ext s) (sm_mode s) (sm_yawmode s).
Definition with_imu (s : Sim T G H) (i : Imu T H) : Sim T G H :=
  mkSim (sm_dyn s) (sm_ctl s) i (sm_odom s) (sm_armed s) (sm_floor_en s) (sm_floor_col s)
        (sm_floor_h s) (sm_refs s) (sm_act s) (sm_ext s) (sm_mode s) (sm_yawmode s).
Definition with_odom (s : Sim T G H) (o : Odom T) : Sim T G H :=
  mkSim (sm_dyn s) (sm_ctl s) (sm_imu s) o (sm_armed s) (sm_floor_en s) (sm_floor_col s)
        (sm_floor_h s) (sm_refs s) (sm_act s) (sm_ext s) (sm_mode s) (sm_yawmode s).
Definition with_refs (s : Sim T G H) (r : Refs T) : Sim T G H :=
  mkSim (sm_dyn s) (sm_ctl s) (sm_imu s) (sm_odom s) (sm_armed s) (sm_floor_en s) (sm_floor_col s)
        (sm_floor_h s) r (sm_act s) (sm_ext s) (sm_mode s) (sm_yawmode s).
(** multirotor_simulator.hpp:583-585 set_actuation. *)
Definition with_act (s : Sim T G H) (a : list T) : Sim T G H :=
  mkSim (sm_dyn s) (sm_ctl s) (sm_imu s) (sm_odom s) (sm_armed s) (sm_floor_en s) (sm_floor_col s)
        (sm_floor_h s) (sm_refs s) a (sm_ext s) (sm_mode s) (sm_yawmode s).
Definition with_ext (s : Sim T G H) (e : V3 T) : Sim T G H :=
  mkSim (sm_dyn s) (sm_ctl s) (sm_imu s) (sm_odom s) (sm_armed s) (sm_floor_en s) (sm_floor_col s)
        (sm_floor_h s) (sm_refs s) (sm_act s) e (sm_mode s) (sm_yawmode s).
Definition with_col (s : Sim T G H) (b : bool) : Sim T G H :=
  mkSim (sm_dyn s) (sm_ctl s) (sm_imu s) (sm_odom s) (sm_armed s) (sm_floor_en s) b
        (sm_floor_h s) (sm_refs s) (sm_act s) (sm_ext s) (sm_mode s) (sm_yawmode s).

(** multirotor_simulator.hpp:614-625 initial references. *)
Definition refs0 : Refs T := mkRefs (repeat zero n) zero v0 v0 v0 v0 zero zero.

(** multirotor_simulator.hpp:123-127 constructor, 606-633 initialisers. *)
Definition sim_new (p : SimParams T) : option (Sim T G H) :=
  option_map (fun d =>
    mkSim d (ctl_new n (sp_ctl p)) (imu_new (sp_imu p)) (odom_new (sp_odom p))
          false false false zero refs0 (repeat zero n) v0 MOTOR_W ANGLE)
    (dyn_new n (sp_model p) (sp_seed p) (sp_state p)).

(** 83-87 default SimulatorParams. *)
Definition sp0 : SimParams T := mkSP (params0 n) 0%Z (state0 n) (cp0 n) imp0 odp0.

Definition sim_state (s : Sim T G H) : State T := d_state (sm_dyn s).   (* 417 get_state *)
(** multirotor_simulator.hpp:139, 147: the floor test. *)
Definition below_floor (s : Sim T G H) : bool :=
  sm_floor_en s && (vz (s_pos (sim_state s)) <? sm_floor_h s).

(** multirotor_simulator.hpp:150-157 the state written on contact. *)
Definition floor_state (st : State T) (h : T) : State T :=
  mkState (vsetz (s_pos st) h) (s_ori st) v0 v0 v0 v0 (s_force st) (s_torque st) (s_mvel st) (s_macc st).

(** multirotor_simulator.hpp:138-167 update_dynamics. *)
Definition update_dynamics (s : Sim T G H) (dt : T) : outcome (Sim T G H) :=
  match (if below_floor s
         then option_map (fun c => with_ext s (vscaler (vneg (p_grav (cf_params c))) (p_mass (cf_params c))))
                         (mo_cfg (d_model (sm_dyn s)))
         else Some s) with
  | None => UB
  | Some s1 =>
    match process (sm_dyn s1) (sm_act s1) dt (sm_ext s1) (negb (sm_floor_col s1)) with
    | UB => UB
    | Throw d => Throw (with_dyn s1 d)
    | Ok d =>
      let s2 := with_col (with_ext (with_dyn s1 d) v0) false in
      if below_floor s2 then
        let st := floor_state (d_state d) (sm_floor_h s2) in
        let s3 := with_dyn (with_col s2 true) (dyn_set_state d st) in
        let s4 := with_imu s3 (imu_reset (sm_imu s3)) in
        Ok (with_odom s4 (odom_reset (odom_set_init (sm_odom s4) (s_ori st))))
      else Ok s2
    end
  end.

(** multirotor_simulator.hpp:591-597 update_yaw_reference_with_yaw_rate. *)
Definition set_ref_yaw (r : Refs T) (y : T) : Refs T :=
  mkRefs (rf_motors r) (rf_thrust r) (rf_ang r) (rf_pos r) (rf_vel r) (rf_acc r) y (rf_yawrate r).
Definition update_yaw_reference (s : Sim T G H) : Sim T G H :=
  let cur := vz (quat_to_euler (s_ori (sim_state s))) in
  with_refs s (set_ref_yaw (sm_refs s) (yaw_rate_to_angle (sm_ctl s) cur (rf_yawrate (sm_refs s)))).

(** Controller result stored and used as actuation. *)
Definition with_control (s : Sim T G H) (c : Ctl T) : Sim T G H :=
  with_act (with_ctl s c) (ct_dmotor c).

(** multirotor_simulator.hpp:174-236 update_controller. *)
Definition update_controller (s0 : Sim T G H) (dt : T) : Sim T G H :=
  if negb (sm_armed s0) then with_act s0 (repeat zero n)
  else
    let s := match sm_yawmode s0 with RATE => update_yaw_reference s0 | ANGLE => s0 end in
    let st := sim_state s in
    let r := sm_refs s in
    let R := qmat (s_ori st) in
    match sm_mode s with
    | MOTOR_W => with_act s (rf_motors r)
    | ACRO => with_control s (ctl_acro (sm_ctl s) (s_angvel st) (rf_thrust r) (rf_ang r) dt)
    | TRAJECTORY => with_control s (ctl_traj (sm_ctl s) (s_pos st) (s_vel st) R (s_angvel st)
                                      (rf_pos r) (rf_vel r) (rf_acc r) (rf_yaw r) dt)
    | VELOCITY => with_control s (ctl_vel (sm_ctl s) (s_vel st) R (s_angvel st)
                                      (rf_vel r) (rf_yaw r) dt)
    | POSITION => with_control s (ctl_pos (sm_ctl s) (s_pos st) R (s_vel st) (s_angvel st)
                                      (rf_pos r) (rf_yaw r) dt)
    | HOVER => with_control s (ctl_pos (sm_ctl s) (s_pos st) R (s_vel st) (s_angvel st)
                                      (rf_pos r) (rf_yaw r) dt)
    end.

(** multirotor_simulator.hpp:243-248 update_imu. *)
Definition update_imu (s : Sim T G H) (dt : T) : Sim T G H :=
  let st := sim_state s in
  with_imu s (imu_update (sm_imu s) dt (qrot (s_ori st) (s_force st)) (s_angvel st)).

(** multirotor_simulator.hpp:255-257 update_inertial_odometry. *)
Definition update_odom (s : Sim T G H) (dt : T) : Sim T G H :=
  with_odom s (odom_update (sm_odom s) (im_gyro (sm_imu s)) (im_accel (sm_imu s)) dt).

(** multirotor_simulator.hpp:265-270 arm. *)
Definition arm (s : Sim T G H) : Sim T G H :=
  let r := sm_refs s in
  mkSim (sm_dyn s) (sm_ctl s) (sm_imu s) (sm_odom s) true (sm_floor_en s) (sm_floor_col s)
        (sm_floor_h s)
        (mkRefs (rf_motors r) (lit 981 100) v0 (vsetz (rf_pos r) (sm_floor_h s)) (rf_vel r)
                (rf_acc r) (rf_yaw r) (rf_yawrate r))
        (sm_act s) (sm_ext s) (sm_mode s) (sm_yawmode s).
(** multirotor_simulator.hpp:276-279 disarm. *)
Definition disarm (s : Sim T G H) : Sim T G H :=
  mkSim (sm_dyn s) (sm_ctl s) (sm_imu s) (sm_odom s) false (sm_floor_en s) (sm_floor_col s)
        (sm_floor_h s) (sm_refs s) (repeat zero n) (sm_ext s) (sm_mode s) (sm_yawmode s).
(** multirotor_simulator.hpp:286-290 enable_floor_collision. *)
Definition enable_floor (s : Sim T G H) (h : T) : Sim T G H :=
  mkSim (sm_dyn s) (sm_ctl s) (sm_imu s) (sm_odom s) (sm_armed s) true (sm_floor_col s)
        h (sm_refs s) (sm_act s) v0 (sm_mode s) (sm_yawmode s).
(** multirotor_simulator.hpp:296-299 disable_floor_collision. *)
Definition disable_floor (s : Sim T G H) : Sim T G H :=
  mkSim (sm_dyn s) (sm_ctl s) (sm_imu s) (sm_odom s) (sm_armed s) false (sm_floor_col s)
        (sm_floor_h s) (sm_refs s) (sm_act s) v0 (sm_mode s) (sm_yawmode s).

(** multirotor_simulator.hpp:308-325 set_control_mode. *)
Definition set_control_mode (s : Sim T G H) (m : Mode) (y : YawMode) : Sim T G H :=
  if mode_eqb (sm_mode s) m && yaw_eqb (sm_yawmode s) y then s
  else
    let st := sim_state s in
    let r := sm_refs s in
    mkSim (sm_dyn s) (sm_ctl s) (sm_imu s) (sm_odom s) (sm_armed s) (sm_floor_en s) (sm_floor_col s)
          (sm_floor_h s)
          (mkRefs (rf_motors r) zero v0 (s_pos st) v0 v0
                  (vz (quat_to_euler (s_ori st))) (rf_yawrate r))
          (sm_act s) (sm_ext s) m y.

(** multirotor_simulator.hpp:332-401 reference setters. *)
Definition set_ref_motors (s : Sim T G H) (w : list T) : Sim T G H :=
  let r := sm_refs s in with_refs s (mkRefs w (rf_thrust r) (rf_ang r) (rf_pos r) (rf_vel r) (rf_acc r) (rf_yaw r) (rf_yawrate r)).
Definition set_ref_acro (s : Sim T G H) (th : T) (w : V3 T) : Sim T G H :=
  let r := sm_refs s in with_refs s (mkRefs (rf_motors r) th w (rf_pos r) (rf_vel r) (rf_acc r) (rf_yaw r) (rf_yawrate r)).
Definition set_ref_traj (s : Sim T G H) (p v a : V3 T) : Sim T G H :=
  let r := sm_refs s in with_refs s (mkRefs (rf_motors r) (rf_thrust r) (rf_ang r) p v a (rf_yaw r) (rf_yawrate r)).
Definition set_ref_vel (s : Sim T G H) (v : V3 T) : Sim T G H :=
  let r := sm_refs s in with_refs s (mkRefs (rf_motors r) (rf_thrust r) (rf_ang r) (rf_pos r) v (rf_acc r) (rf_yaw r) (rf_yawrate r)).
Definition set_ref_pos (s : Sim T G H) (p : V3 T) : Sim T G H :=
  let r := sm_refs s in with_refs s (mkRefs (rf_motors r) (rf_thrust r) (rf_ang r) p (rf_vel r) (rf_acc r) (rf_yaw r) (rf_yawrate r)).
Definition set_ref_yaw_angle (s : Sim T G H) (y : T) : Sim T G H :=
  with_refs s (set_ref_yaw (sm_refs s) y).
Definition set_ref_yawrate (s : Sim T G H) (y : T) : Sim T G H :=
  let r := sm_refs s in with_refs s (mkRefs (rf_motors r) (rf_thrust r) (rf_ang r) (rf_pos r) (rf_vel r) (rf_acc r) (rf_yaw r) y).

(** multirotor_simulator.hpp:548-550 set_dynamics_params; undefined if the
    parameters list more motors than rotors. *)
Definition set_dynamics_params (s : Sim T G H) (p : Params T) (seed : Z) (st : State T) : option (Sim T G H) :=
  option_map (with_dyn s) (dyn_new n p seed st).
(** multirotor_simulator.hpp:557-575 the other parameter setters. *)
Definition set_controller_params (s : Sim T G H) (p : CtlParams T) : Sim T G H := with_ctl s (ctl_new n p).
Definition set_imu_params (s : Sim T G H) (p : ImuParams T) : Sim T G H := with_imu s (imu_new p).
Definition set_odom_params (s : Sim T G H) (p : OdomParams T) : Sim T G H := with_odom s (odom_new p).

(** multirotor_simulator.hpp:435-441 get_odometry: the fields of Kinematics the
    odometry fills in (angular acceleration keeps its default). *)
Definition get_odometry (s : Sim T G H) : V3 T * Quat T * V3 T * V3 T * V3 T :=
  let o := sm_odom s in (od_pos o, od_ori o, od_vel o, od_angvel o, od_linacc o).

(** Every public mutating operation.  The last four stand for anything done
    through the mutable references returned by get_dynamics (467), get_controller
    (488), get_imu (509), get_inertial_odometry (532): an arbitrary replacement
    of the sub-object. *)
Inductive SimOp :=
| SDynamics (dt : T) | SController (dt : T) | SImu (dt : T) | SOdom (dt : T)
| SArm | SDisarm | SEnableFloor (h : T) | SDisableFloor
| SMode (m : Mode) (y : YawMode)
| SRefMotors (w : list T) | SRefAcro (th : T) (w : V3 T) | SRefTraj (p v a : V3 T)
| SRefVel (v : V3 T) | SRefPos (p : V3 T) | SRefYaw (y : T) | SRefYawRate (y : T)
| SSetDyn (p : Params T) (seed : Z) (st : State T) | SSetCtl (p : CtlParams T)
| SSetImu (p : ImuParams T) | SSetOdom (p : OdomParams T)
| SMutDyn (d : Dyn T G) | SMutCtl (c : Ctl T) | SMutImu (i : Imu T H) | SMutOdom (o : Odom T).

Definition sim_step (s : Sim T G H) (op : SimOp) : outcome (Sim T G H) :=
  match op with
  | SDynamics dt => update_dynamics s dt
  | SController dt => Ok (update_controller s dt)
  | SImu dt => Ok (update_imu s dt)
  | SOdom dt => Ok (update_odom s dt)
  | SArm => Ok (arm s)
  | SDisarm => Ok (disarm s)
  | SEnableFloor h => Ok (enable_floor s h)
  | SDisableFloor => Ok (disable_floor s)
  | SMode m y => Ok (set_control_mode s m y)
  | SRefMotors w => Ok (set_ref_motors s w)
  | SRefAcro th w => Ok (set_ref_acro s th w)
  | SRefTraj p v a => Ok (set_ref_traj s p v a)
  | SRefVel v => Ok (set_ref_vel s v)
  | SRefPos p => Ok (set_ref_pos s p)
  | SRefYaw y => Ok (set_ref_yaw_angle s y)
  | SRefYawRate y => Ok (set_ref_yawrate s y)
  | SSetDyn p seed st => of_opt (set_dynamics_params s p seed st)
  | SSetCtl p => Ok (set_controller_params s p)
  | SSetImu p => Ok (set_imu_params s p)
  | SSetOdom p => Ok (set_odom_params s p)
  | SMutDyn d => Ok (with_dyn s d)
  | SMutCtl c => Ok (with_ctl s c)
  | SMutImu i => Ok (with_imu s i)
  | SMutOdom o => Ok (with_odom s o)
  end.

(** A history of calls.  The caller may catch an exception and go on with the
    object as it was left; undefined behaviour ends the history ([None]). *)
Fixpoint sim_run (s : Sim T G H) (ops : list SimOp) : option (Sim T G H) :=
  match ops with
  | [] => Some s
  | op :: r => match sim_step s op with
               | Ok s' => sim_run s' r
               | Throw s' => sim_run s' r
               | UB => None
               end
  end.

End Sim.
Arguments SimOp : clear implicits.
Arguments SimOp T G H : assert.
