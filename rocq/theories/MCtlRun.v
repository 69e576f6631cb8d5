(** The public interface of the Controller class (multirotor_controllers.hpp)
    and of the AcroController it contains, as operations: for statements about
    every history of calls.  The getters that return non-const references
    (multirotor_controllers.hpp:473, 487, 501, 517, 533) give access to every
    public operation of the five controllers. *)

From Coq Require Import ZArith List Bool.
From Verif Require Import Scalar LinAlg MUtils MPid MControl.
Import ListNotations.

(** The four controllers that are PIDs. *)
Inductive Which := WIndi | WPos | WTraj | WVel.

Inductive CtlOp (T : Type) :=
| CAcro (cur : V3 T) (thrust : T) (des : V3 T) (dt : T)            (* compute_acro_control *)
| CAcc (R : M3 T) (curw acc : V3 T) (yaw dt : T)                   (* compute_acceleration_control *)
| CTraj (cpos cvel : V3 T) (R : M3 T) (curw dpos dvel dacc : V3 T) (yaw dt : T)
                                                                   (* compute_trajectory_control *)
| CVel (cvel : V3 T) (R : M3 T) (curw dvel : V3 T) (yaw dt : T)    (* compute_velocity_control *)
| CPos (cpos : V3 T) (R : M3 T) (cvel curw dpos : V3 T) (yaw dt : T)
                                                                   (* compute_position_control *)
| CConvAcro (cur : V3 T) (thrust : T) (des : V3 T) (dt : T)        (* convert_acro_to_motor_angular_velocity *)
| CConvAcc (acc : V3 T) (R : M3 T) (yaw : T)                       (* convert_linear_acceleration_to_acro *)
| CConvTraj (cpos cvel dpos dvel dacc : V3 T) (dt : T)             (* convert_trajectory_to_linear_acceleration *)
| CConvVel (cvel dvel : V3 T) (dt : T)                             (* convert_linear_velocity_to_linear_acceleration *)
| CConvPos (cpos dpos : V3 T) (dt : T)                             (* convert_position_to_linear_velocity *)
| CReset                                                           (* reset_controller *)
| CUpdate (p : CtlParams T)                                        (* update_params *)
| CUpdAcro (p : AcroParams T)                                      (* update_acro_controller_params *)
| CUpdIndi (p : IndiParams T)                                      (* update_indi_controller_params *)
| CUpdPid (w : Which) (p : PidParams T)                            (* update_{position,...}_controller_params *)
| CPid (w : Which) (op : PidOp T)                                  (* get_*_controller().op *)
| CMass (m : T)                                                    (* get_acro_controller().update_vehicle_mass *)
| CGrav (g : V3 T)                                                 (* get_acro_controller().update_gravity *)
| CKp (k : M3 T)                                                   (* get_acro_controller().update_kp_rot *)
| CYaw (R : M3 T) (yaw : T) (thrust : V3 T)                        (* get_acro_controller().yaw_angle_to_angular_velocity *)
| CInertia (m : M3 T)                                              (* get_indi_controller().update_inertia *)
| CMixer (m : list (V3 T * V3 T)).                                 (* get_indi_controller().update_mixer_matrix_inverse *)
Arguments CAcro {T}. Arguments CAcc {T}. Arguments CTraj {T}. Arguments CVel {T}. Arguments CPos {T}.
Arguments CConvAcro {T}. Arguments CConvAcc {T}. Arguments CConvTraj {T}. Arguments CConvVel {T}.
Arguments CConvPos {T}. Arguments CReset {T}. Arguments CUpdate {T}. Arguments CUpdAcro {T}.
Arguments CUpdIndi {T}. Arguments CUpdPid {T}. Arguments CPid {T}. Arguments CMass {T}. Arguments CGrav {T}.
Arguments CKp {T}. Arguments CYaw {T}. Arguments CInertia {T}. Arguments CMixer {T}.

Section Run.
Context {T : Type} {O : Ops T}.

Definition with_acro (c : Ctl T) (a : Acro T) : Ctl T :=
  mkCtl a (ct_indi c) (ct_pos c) (ct_traj c) (ct_vel c)
        (ct_dpos c) (ct_dvel c) (ct_dacc c) (ct_dthrust c) (ct_dang c) (ct_dmotor c).
Definition with_indi (c : Ctl T) (i : Indi T) : Ctl T :=
  mkCtl (ct_acro c) i (ct_pos c) (ct_traj c) (ct_vel c)
        (ct_dpos c) (ct_dvel c) (ct_dacc c) (ct_dthrust c) (ct_dang c) (ct_dmotor c).
Definition indi_with_pid (i : Indi T) (p : Pid T) : Indi T :=
  mkIndi p (in_inertia i) (in_minv i) (in_thrust i) (in_torque i) (in_motor i).

(** multirotor_controllers.hpp:473-542: the controller objects. *)
Definition get_pid (w : Which) (c : Ctl T) : Pid T :=
  match w with WIndi => in_pid (ct_indi c) | WPos => ct_pos c | WTraj => ct_traj c | WVel => ct_vel c end.
Definition on_pid (w : Which) (c : Ctl T) (f : Pid T -> Pid T) : Ctl T :=
  match w with
  | WIndi => with_indi c (indi_with_pid (ct_indi c) (f (in_pid (ct_indi c))))
  | WPos => mkCtl (ct_acro c) (ct_indi c) (f (ct_pos c)) (ct_traj c) (ct_vel c)
              (ct_dpos c) (ct_dvel c) (ct_dacc c) (ct_dthrust c) (ct_dang c) (ct_dmotor c)
  | WTraj => mkCtl (ct_acro c) (ct_indi c) (ct_pos c) (f (ct_traj c)) (ct_vel c)
              (ct_dpos c) (ct_dvel c) (ct_dacc c) (ct_dthrust c) (ct_dang c) (ct_dmotor c)
  | WVel => mkCtl (ct_acro c) (ct_indi c) (ct_pos c) (ct_traj c) (f (ct_vel c))
              (ct_dpos c) (ct_dvel c) (ct_dacc c) (ct_dthrust c) (ct_dang c) (ct_dmotor c)
  end.

(** multirotor_controllers.hpp:549-588 getters. *)
Definition get_desired_motor_angular_velocity (c : Ctl T) : list T := ct_dmotor c.
Definition get_desired_thrust (c : Ctl T) : T := ct_dthrust c.
Definition get_desired_angular_velocity (c : Ctl T) : V3 T := ct_dang c.
Definition get_desired_linear_acceleration (c : Ctl T) : V3 T := ct_dacc c.
Definition get_desired_linear_velocity (c : Ctl T) : V3 T := ct_dvel c.
Definition get_desired_position (c : Ctl T) : V3 T := ct_dpos c.
(** acro_controller.hpp:199 get_desired_angular_velocity; 206
    get_desired_thrust is [acro_get_desired_thrust]. *)
Definition acro_get_desired_angular_velocity (a : Acro T) : V3 T := ac_angvel a.

(** acro_controller.hpp:165 update_vehicle_mass, 172 update_gravity, 179
    update_kp_rot. *)
Definition acro_set_mass (a : Acro T) (m : T) := mkAcro (ac_kp a) m (ac_grav a) (ac_thrust a) (ac_angvel a).
Definition acro_set_grav (a : Acro T) (g : V3 T) := mkAcro (ac_kp a) (ac_mass a) g (ac_thrust a) (ac_angvel a).
Definition acro_set_kp (a : Acro T) (k : M3 T) := mkAcro k (ac_mass a) (ac_grav a) (ac_thrust a) (ac_angvel a).
(** indi_controller.hpp:183 update_inertia, 190-192 update_mixer_matrix_inverse. *)
Definition indi_set_inertia (i : Indi T) (m : M3 T) :=
  mkIndi (in_pid i) m (in_minv i) (in_thrust i) (in_torque i) (in_motor i).
Definition indi_set_minv (i : Indi T) (m : list (V3 T * V3 T)) :=
  mkIndi (in_pid i) (in_inertia i) m (in_thrust i) (in_torque i) (in_motor i).

(** multirotor_controllers.hpp:151-159, 172-193, 207-218, 228-235, 246-252: the
    convert functions change only the controllers they call. *)
Definition ctl_step (c : Ctl T) (op : CtlOp T) : Ctl T :=
  match op with
  | CAcro cur th des dt => ctl_acro c cur th des dt
  | CAcc R cw acc yaw dt => ctl_acc c R cw acc yaw dt
  | CTraj cp cv R cw dp dv da yaw dt => ctl_traj c cp cv R cw dp dv da yaw dt
  | CVel cv R cw dv yaw dt => ctl_vel c cv R cw dv yaw dt
  | CPos cp R cv cw dp yaw dt => ctl_pos c cp R cv cw dp yaw dt
  | CConvAcro cur th des dt => with_indi c (acro_to_motor (ct_indi c) cur th des dt)
  | CConvAcc acc R yaw => with_acro c (fst (acc_to_acro (ct_acro c) acc R yaw))
  | CConvTraj cp cv dp dv da dt => on_pid WTraj c (fun p => fst (traj_control p cp cv dp dv da dt))
  | CConvVel cv dv dt => on_pid WVel c (fun p => pid_on_error p cv dv dt)
  | CConvPos cp dp dt => on_pid WPos c (fun p => pid_on_error p cp dp dt)
  | CReset => ctl_reset c
  | CUpdate p => ctl_update c p
  | CUpdAcro p => with_acro c (acro_update (ct_acro c) p)
  | CUpdIndi p => with_indi c (indi_update (ct_indi c) p)
  | CUpdPid w p => on_pid w c (fun q => pid_update q p)
  | CPid w o => on_pid w c (fun q => pid_step q o)
  | CMass m => with_acro c (acro_set_mass (ct_acro c) m)
  | CGrav g => with_acro c (acro_set_grav (ct_acro c) g)
  | CKp k => with_acro c (acro_set_kp (ct_acro c) k)
  | CYaw R yaw th => with_acro c (yaw_to_angvel (ct_acro c) R yaw th)
  | CInertia m => with_indi c (indi_set_inertia (ct_indi c) m)
  | CMixer m => with_indi c (indi_set_minv (ct_indi c) m)
  end.

Definition ctl_run (c : Ctl T) (ops : list (CtlOp T)) : Ctl T := fold_left ctl_step ops c.

End Run.
