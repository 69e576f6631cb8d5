(** Model of the getters that report what the last control calls did. *)

From Coq Require Import ZArith List Bool.
From Verif Require Import Scalar LinAlg MUtils MPid MPid1 MControl MCtlRun.
Import ListNotations.

Section Report.
Context {T : Type} {O : Ops T}.

(** pid.hpp:577 get_proportional_error, 584 get_derivative_error. *)
Definition pid_prop_error (p : Pid T) : V3 T := ps_perr (pid_s p).
Definition pid_der_error (p : Pid T) : V3 T := ps_derr (pid_s p).
(** pid_1d.hpp:487 get_proportional_error, 494 get_derivative_error. *)
Definition pid1_prop_error (p : Pid1 T) : T := s1_perr (pid1_s p).
Definition pid1_der_error (p : Pid1 T) : T := s1_derr (pid1_s p).
(** pid_1d.hpp:501 get_proportional_error_contribution, 517
    get_derivative_error_contribution. *)
Definition pid1_prop_part (p : Pid1 T) : T := s1_cp (pid1_s p).
Definition pid1_der_part (p : Pid1 T) : T := s1_cd (pid1_s p).

(** position_controller.hpp:143 get_desired_linear_velocity, 150 get_position_error. *)
Definition pos_get_desired_linear_velocity (c : Ctl T) : V3 T := pid_output (ct_pos c).
Definition pos_get_position_error (c : Ctl T) : V3 T := pid_prop_error (ct_pos c).
(** velocity_controller.hpp:136 get_desired_linear_acceleration, 143 get_velocity_error. *)
Definition vel_get_desired_linear_acceleration (c : Ctl T) : V3 T := pid_output (ct_vel c).
Definition vel_get_velocity_error (c : Ctl T) : V3 T := pid_prop_error (ct_vel c).
(** trajectory_controller.hpp:153 get_position_error, 160 get_velocity_error. *)
Definition traj_get_position_error (c : Ctl T) : V3 T := pid_prop_error (ct_traj c).
Definition traj_get_velocity_error (c : Ctl T) : V3 T := pid_der_error (ct_traj c).
(** indi_controller.hpp:226 get_desired_angular_acceleration, 233 get_desired_thrust,
    240 get_desired_torque, 247 get_motor_angular_velocity, 254-256
    get_angular_velocity_error. *)
Definition indi_get_desired_angular_acceleration (c : Ctl T) : V3 T := pid_output (in_pid (ct_indi c)).
Definition indi_get_desired_thrust (c : Ctl T) : V3 T := in_thrust (ct_indi c).
Definition indi_get_desired_torque (c : Ctl T) : V3 T := in_torque (ct_indi c).
Definition indi_get_motor_angular_velocity (c : Ctl T) : list T := in_motor (ct_indi c).
Definition indi_get_angular_velocity_error (c : Ctl T) : V3 T := pid_prop_error (in_pid (ct_indi c)).

End Report.
