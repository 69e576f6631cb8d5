(** Model of multirotor_simulator/multirotor_controllers: the acro, INDI,
    position, velocity and trajectory controllers and the Controller class that
    composes them (multirotor_controllers.hpp).

    Rotor vectors are lists; the N x 6 inverse mixer is a list of rows, each row
    split into its three force and three torque coefficients. *)

From Coq Require Import ZArith List Bool.
From Verif Require Import Scalar LinAlg MUtils MPid.
Import ListNotations.

(** acro_controller.hpp:48-61 AcroControllerParams. *)
Record AcroParams (T : Type) := mkAP { ap_mass : T; ap_kp : M3 T; ap_grav : V3 T }.
Arguments mkAP {T}. Arguments ap_mass {T}. Arguments ap_kp {T}. Arguments ap_grav {T}.

(** acro_controller.hpp:229-239 members. *)
Record Acro (T : Type) := mkAcro {
  ac_kp : M3 T; ac_mass : T; ac_grav : V3 T;
  ac_thrust : T;           (* thrust_ *)
  ac_angvel : V3 T         (* vehicle_angular_velocity_ *)
}.
Arguments mkAcro {T}. Arguments ac_kp {T}. Arguments ac_mass {T}. Arguments ac_grav {T}.
Arguments ac_thrust {T}. Arguments ac_angvel {T}.

(** indi_controller.hpp:71-85 IndiControllerParams. *)
Record IndiParams (T : Type) := mkIP {
  ip_inertia : M3 T; ip_minv : list (V3 T * V3 T); ip_pid : PidParams T }.
Arguments mkIP {T}. Arguments ip_inertia {T}. Arguments ip_minv {T}. Arguments ip_pid {T}.

(** indi_controller.hpp:258-267 members; the PID base class is [in_pid]. *)
Record Indi (T : Type) := mkIndi {
  in_pid : Pid T;
  in_inertia : M3 T;
  in_minv : list (V3 T * V3 T);   (* mixer_matrix_inverse_ *)
  in_thrust : V3 T;               (* desired_thrust_ *)
  in_torque : V3 T;               (* desired_torque_ *)
  in_motor : list T               (* motor_angular_velocity_ *)
}.
Arguments mkIndi {T}. Arguments in_pid {T}. Arguments in_inertia {T}. Arguments in_minv {T}.
Arguments in_thrust {T}. Arguments in_torque {T}. Arguments in_motor {T}.

(** multirotor_controllers.hpp:57-79 ControllerParams. *)
Record CtlParams (T : Type) := mkCP {
  cp_acro : AcroParams T; cp_indi : IndiParams T;
  cp_pos : PidParams T; cp_traj : PidParams T; cp_vel : PidParams T }.
Arguments mkCP {T}. Arguments cp_acro {T}. Arguments cp_indi {T}. Arguments cp_pos {T}.
Arguments cp_traj {T}. Arguments cp_vel {T}.

(** multirotor_controllers.hpp:590-603 members. *)
Record Ctl (T : Type) := mkCtl {
  ct_acro : Acro T; ct_indi : Indi T;
  ct_pos : Pid T; ct_traj : Pid T; ct_vel : Pid T;
  ct_dpos : V3 T;          (* desired_position_ *)
  ct_dvel : V3 T;          (* desired_linear_velocity_ *)
  ct_dacc : V3 T;          (* desired_linear_acceleration_ *)
  ct_dthrust : T;          (* desired_thrust_ *)
  ct_dang : V3 T;          (* desired_angular_velocity_ *)
  ct_dmotor : list T       (* desired_motor_angular_velocity_ *)
}.
Arguments mkCtl {T}. Arguments ct_acro {T}. Arguments ct_indi {T}. Arguments ct_pos {T}.
Arguments ct_traj {T}. Arguments ct_vel {T}. Arguments ct_dpos {T}. Arguments ct_dvel {T}.
Arguments ct_dacc {T}. Arguments ct_dthrust {T}. Arguments ct_dang {T}. Arguments ct_dmotor {T}.

Section Control.
Context {T : Type} {O : Ops T}.
Local Open Scope sc_scope.

(** acro_controller.hpp:89-100 constructors and 231-238 initialisers. *)
Definition acro_new (p : AcroParams T) : Acro T :=
  mkAcro (ap_kp p) (ap_mass p) (ap_grav p) zero v0.

(** acro_controller.hpp:58-60 default parameters. *)
Definition ap0 : AcroParams T := mkAP zero mzero (mkV zero zero (neg (lit 981 100))).

(** acro_controller.hpp:116-119 acceleration_to_thrust (the [thrust_] on line
    117 is a local variable). *)
Definition acc_to_thrust (a : Acro T) (acc : V3 T) : V3 T :=
  vscaler (vsub acc (ac_grav a)) (ac_mass a).

(** acro_controller.hpp:133-142 the desired attitude. *)
Definition desired_attitude (yaw : T) (thrust : V3 T) : M3 T :=
  let xc := mkV (cosT yaw) (sinT yaw) zero in
  let zb := vnormalized thrust in
  let yb := vnormalized (vcross zb xc) in
  let xb := vnormalized (vcross yb zb) in
  mofcols xb yb zb.

(** acro_controller.hpp:144-152 rotation error between desired and current. *)
Definition rotation_error (Rd R : M3 T) : V3 T :=
  let E := msub (mmul (mtrans Rd) R) (mmul (mtrans R) Rd) in
  vscale half (mkV (m21 E) (m02 E) (m10 E)).

Definition mneg (m : M3 T) : M3 T :=
  mkM (neg (m00 m)) (neg (m01 m)) (neg (m02 m))
      (neg (m10 m)) (neg (m11 m)) (neg (m12 m))
      (neg (m20 m)) (neg (m21 m)) (neg (m22 m)).

(** acro_controller.hpp:130-158 yaw_angle_to_angular_velocity; the result is
    also the new [ac_angvel]. *)
Definition yaw_to_angvel (a : Acro T) (R : M3 T) (yaw : T) (thrust : V3 T) : Acro T :=
  let w := mmulv (mneg (ac_kp a)) (rotation_error (desired_attitude yaw thrust) R) in
  mkAcro (ac_kp a) (ac_mass a) (ac_grav a) (ac_thrust a) w.

(** acro_controller.hpp:186-190 update_params. *)
Definition acro_update (a : Acro T) (p : AcroParams T) : Acro T :=
  mkAcro (ap_kp p) (ap_mass p) (ap_grav p) (ac_thrust a) (ac_angvel a).

(** acro_controller.hpp:206 get_desired_thrust. *)
Definition acro_get_desired_thrust (a : Acro T) : T := ac_thrust a.

(** indi_controller.hpp:81-84 default parameters; 121-133 constructors. *)
Definition ip0 (n : nat) : IndiParams T := mkIP mzero (repeat (v0, v0) n) pp0.
Definition indi_new (n : nat) (p : IndiParams T) : Indi T :=
  mkIndi (pid_new (ip_pid p)) (ip_inertia p) (ip_minv p) v0 v0 (repeat zero n).

(** indi_controller.hpp:171 one coefficient of mixer_matrix_inverse_ * desired. *)
Definition row6 (r : V3 T * V3 T) (thrust torque : V3 T) : T :=
  vx (fst r) * vx thrust + vy (fst r) * vy thrust + vz (fst r) * vz thrust
  + vx (snd r) * vx torque + vy (snd r) * vy torque + vz (snd r) * vz torque.

(** indi_controller.hpp:151-176 acro_to_motor_angular_velocity; the result is
    [in_motor] of the new object.  sqrt_keep_sign is lines 51-64. *)
Definition acro_to_motor (i : Indi T) (cur : V3 T) (thrust : T) (des : V3 T) (dt : T) : Indi T :=
  let pid := pid_compute (in_pid i) dt (get_error cur des) in
  let acc := ps_out (pid_s pid) in
  let torque := vadd (mmulv (in_inertia i) acc) (vcross des (mmulv (in_inertia i) des)) in
  let th := mkV zero zero thrust in
  let motor := map (fun r => sqrtks (row6 r th torque)) (in_minv i) in
  mkIndi pid (in_inertia i) (in_minv i) th torque motor.

(** indi_controller.hpp:199-203 update_params. *)
Definition indi_update (i : Indi T) (p : IndiParams T) : Indi T :=
  mkIndi (pid_update (in_pid i) (ip_pid p)) (ip_inertia p) (ip_minv p)
         (in_thrust i) (in_torque i) (in_motor i).

(** indi_controller.hpp:278-306 compute_quadrotor_mixer_matrix_inverse: from
    the four columns of the 6x4 mixer, the rows of the 4x6 inverse. *)
Definition mixer_rows4 (a b c d : V3 T * V3 T) : M4 T :=
  mkM4 (mkV4 (vz (fst a)) (vz (fst b)) (vz (fst c)) (vz (fst d)))
       (mkV4 (vx (snd a)) (vx (snd b)) (vx (snd c)) (vx (snd d)))
       (mkV4 (vy (snd a)) (vy (snd b)) (vy (snd c)) (vy (snd d)))
       (mkV4 (vz (snd a)) (vz (snd b)) (vz (snd c)) (vz (snd d))).
Definition quad_mixer_inverse (a b c d : V3 T * V3 T) : list (V3 T * V3 T) :=
  let m := m4inv (mixer_rows4 a b c d) in
  let row r := (mkV zero zero (v4a r), mkV (v4b r) (v4c r) (v4d r)) in
  [row (r4a m); row (r4b m); row (r4c m); row (r4d m)].

(** position_controller.hpp:108-118 position_to_linear_velocity and
    velocity_controller.hpp:108-118 linear_velocity_to_linear_acceleration:
    the PID base class on (desired - current). *)
Definition pid_on_error (p : Pid T) (cur des : V3 T) (dt : T) : Pid T :=
  pid_compute p dt (get_error cur des).

(** trajectory_controller.hpp:113-128 trajectory_to_linear_acceleration:
    new controller and returned acceleration. *)
Definition traj_control (p : Pid T) (cpos cvel dpos dvel dacc : V3 T) (dt : T) : Pid T * V3 T :=
  let p' := pid_compute_d p dt (get_error cpos dpos) (get_error cvel dvel) in
  (p', vadd (ps_out (pid_s p')) dacc).

(** trajectory_controller.hpp:146 get_desired_linear_acceleration. *)
Definition traj_get_desired_acc (p : Pid T) : V3 T := ps_out (pid_s p).

(** multirotor_controllers.hpp:116-137 constructors, 597-602 initialisers. *)
Definition ctl_new (n : nat) (p : CtlParams T) : Ctl T :=
  mkCtl (acro_new (cp_acro p)) (indi_new n (cp_indi p))
        (pid_new (cp_pos p)) (pid_new (cp_traj p)) (pid_new (cp_vel p))
        v0 v0 v0 zero v0 (repeat zero n).
Definition cp0 (n : nat) : CtlParams T := mkCP ap0 (ip0 n) pp0 pp0 pp0.

(** multirotor_controllers.hpp:172-193 convert_linear_acceleration_to_acro:
    new acro controller and the pair (thrust, angular velocity). *)
Definition acc_to_acro (a : Acro T) (acc : V3 T) (R : M3 T) (yaw : T) : Acro T * (T * V3 T) :=
  let tw := acc_to_thrust a acc in
  let a' := yaw_to_angvel a R yaw tw in
  let tb := vdot tw (vnormalized (mcol2 R)) in
  (a', if tb <? zero then (zero, v0) else (tb, ac_angvel a')).

(** multirotor_controllers.hpp:264-273 compute_acro_control (with 151-159). *)
Definition ctl_acro (c : Ctl T) (cur : V3 T) (thrust : T) (des : V3 T) (dt : T) : Ctl T :=
  let i := acro_to_motor (ct_indi c) cur thrust des dt in
  mkCtl (ct_acro c) i (ct_pos c) (ct_traj c) (ct_vel c)
        (ct_dpos c) (ct_dvel c) (ct_dacc c) thrust des (in_motor i).

(** multirotor_controllers.hpp:275-286 compute_acceleration_control. *)
Definition ctl_acc (c : Ctl T) (R : M3 T) (curw acc : V3 T) (yaw dt : T) : Ctl T :=
  let '(a', (th, w)) := acc_to_acro (ct_acro c) acc R yaw in
  ctl_acro (mkCtl a' (ct_indi c) (ct_pos c) (ct_traj c) (ct_vel c)
                  (ct_dpos c) (ct_dvel c) acc th w (ct_dmotor c)) curw th w dt.

(** multirotor_controllers.hpp:303-321 compute_trajectory_control. *)
Definition ctl_traj (c : Ctl T) (cpos cvel : V3 T) (R : M3 T) (curw dpos dvel dacc : V3 T)
  (yaw dt : T) : Ctl T :=
  let '(p', acc) := traj_control (ct_traj c) cpos cvel dpos dvel dacc dt in
  ctl_acc (mkCtl (ct_acro c) (ct_indi c) (ct_pos c) p' (ct_vel c)
                 dpos dvel acc (ct_dthrust c) (ct_dang c) (ct_dmotor c)) R curw acc yaw dt.

(** multirotor_controllers.hpp:335-348 compute_velocity_control. *)
Definition ctl_vel (c : Ctl T) (cvel : V3 T) (R : M3 T) (curw dvel : V3 T) (yaw dt : T) : Ctl T :=
  let p' := pid_on_error (ct_vel c) cvel dvel dt in
  let acc := ps_out (pid_s p') in
  ctl_acc (mkCtl (ct_acro c) (ct_indi c) (ct_pos c) (ct_traj c) p'
                 (ct_dpos c) dvel acc (ct_dthrust c) (ct_dang c) (ct_dmotor c)) R curw acc yaw dt.

(** multirotor_controllers.hpp:362-376 compute_position_control. *)
Definition ctl_pos (c : Ctl T) (cpos : V3 T) (R : M3 T) (cvel curw dpos : V3 T) (yaw dt : T) : Ctl T :=
  let p' := pid_on_error (ct_pos c) cpos dpos dt in
  let dvel := ps_out (pid_s p') in
  ctl_vel (mkCtl (ct_acro c) (ct_indi c) p' (ct_traj c) (ct_vel c)
                 dpos dvel (ct_dacc c) (ct_dthrust c) (ct_dang c) (ct_dmotor c)) cvel R curw dvel yaw dt.

(** multirotor_controllers.hpp:381-386 reset_controller. *)
Definition indi_reset (i : Indi T) : Indi T :=
  mkIndi (pid_reset (in_pid i)) (in_inertia i) (in_minv i) (in_thrust i) (in_torque i) (in_motor i).
Definition ctl_reset (c : Ctl T) : Ctl T :=
  mkCtl (ct_acro c) (indi_reset (ct_indi c)) (pid_reset (ct_pos c)) (pid_reset (ct_traj c))
        (pid_reset (ct_vel c)) (ct_dpos c) (ct_dvel c) (ct_dacc c) (ct_dthrust c) (ct_dang c) (ct_dmotor c).

(** multirotor_controllers.hpp:442-448 update_params (393-435 the parts). *)
Definition ctl_update (c : Ctl T) (p : CtlParams T) : Ctl T :=
  mkCtl (acro_update (ct_acro c) (cp_acro p)) (indi_update (ct_indi c) (cp_indi p))
        (pid_update (ct_pos c) (cp_pos p)) (pid_update (ct_traj c) (cp_traj p))
        (pid_update (ct_vel c) (cp_vel p))
        (ct_dpos c) (ct_dvel c) (ct_dacc c) (ct_dthrust c) (ct_dang c) (ct_dmotor c).

(** multirotor_controllers.hpp:458-464 yaw_rate_to_angle. *)
Definition yaw_rate_to_angle (c : Ctl T) (cur rate : T) : T :=
  let kp := m22 (ac_kp (ct_acro c)) in
  if kp =? zero then cur else cur + rate / kp.

End Control.
