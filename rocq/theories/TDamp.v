(** Property theorems: rotors that brake a rotation. *)

From Coq Require Import List Reals.
From Verif Require Import Scalar LinAlg MUtils MModel MDynamics MPid MControl MCtlRun MImu MSim SpecDyn SpecRun SpecPid SpecCtl SpecMono SpecHigher SpecDamp
  PDamp ECtl EDamp.
Import ListNotations.
Local Open Scope R_scope.

(** ** C119
    Found to turn faster about an axis, the ready-made quadrotors slow down the rotors
    that turn them that way and speed up those that turn them the other way, or leave
    them alone. *)
Theorem C119 :
  forall n (c : Ctl R) ms kf kt x y mn mx tau J inv a w1 w2 th des dt, CtlReached n c ->
  kf <> 0 -> kt <> 0 -> x <> 0 -> y <> 0 -> ms = quad_x kf kt x y mn mx tau J \/ ms = quad_plus kf kt x y mn mx tau J ->
  quad_inverse ms = Some inv -> in_minv (ct_indi c) = inv -> willing_loop (get_pid WIndi c) -> principal (in_inertia (ct_indi c)) -> 0 < dt -> apart a w1 w2 ->
  brakes a ms (get_desired_motor_angular_velocity (ctl_step c (CAcro w1 th des dt))) (get_desired_motor_angular_velocity (ctl_step c (CAcro w2 th des dt))).
Proof. exact damped. Qed.
Print Assumptions C119.

Example C119_case : CtlReached 4 c_damp /\ quad_inverse (quad_x 1 1 1 1 0 100 (1/10) 0) = Some inv_ex /\ in_minv (ct_indi c_damp) = inv_ex /\
  willing_loop (get_pid WIndi c_damp) /\ principal (in_inertia (ct_indi c_damp)) /\ apart AX (mkV 0 0 0) (mkV 1 0 0) /\
  rotor_torque (quad_x 1 1 1 1 0 100 (1/10) 0) (get_desired_motor_angular_velocity (ctl_step c_damp (CAcro (mkV 0 0 0) 40 (mkV 2 0 1) (1/100)))) [0; 0; 0; 0] AX = 4 /\
  rotor_torque (quad_x 1 1 1 1 0 100 (1/10) 0) (get_desired_motor_angular_velocity (ctl_step c_damp (CAcro (mkV 1 0 0) 40 (mkV 2 0 1) (1/100)))) [0; 0; 0; 0] AX = 2.
Proof. exact damp_case. Qed.

(** Asked to turn faster about an axis, the rotors never turn the vehicle less about it. *)
Theorem C119_requested :
  forall n (c : Ctl R) ms kf kt x y mn mx tau J inv a w th des1 des2 dt, CtlReached n c ->
  kf <> 0 -> kt <> 0 -> x <> 0 -> y <> 0 -> ms = quad_x kf kt x y mn mx tau J \/ ms = quad_plus kf kt x y mn mx tau J ->
  quad_inverse ms = Some inv -> in_minv (ct_indi c) = inv -> willing a (get_pid WIndi c) -> principal (in_inertia (ct_indi c)) -> 0 < dt -> apart a des1 des2 ->
  rotor_torque ms (get_desired_motor_angular_velocity (ctl_step c (CAcro w th des1 dt))) [0; 0; 0; 0] a <=
  rotor_torque ms (get_desired_motor_angular_velocity (ctl_step c (CAcro w th des2 dt))) [0; 0; 0; 0] a.
Proof. exact harder. Qed.
Print Assumptions C119_requested.

(** The same through the simulator's reference. *)
Theorem C119_simulator :
  forall {G H : Gen R} n (s : Sim R G H) ms kf kt x y mn mx tau J inv a th des1 des2 dt, CtlReached n (sm_ctl s) -> sm_armed s = true -> sm_mode s = ACRO ->
  kf <> 0 -> kt <> 0 -> x <> 0 -> y <> 0 -> ms = quad_x kf kt x y mn mx tau J \/ ms = quad_plus kf kt x y mn mx tau J ->
  quad_inverse ms = Some inv -> in_minv (ct_indi (sm_ctl s)) = inv -> willing a (get_pid WIndi (sm_ctl s)) -> principal (in_inertia (ct_indi (sm_ctl s))) -> 0 < dt -> apart a des1 des2 ->
  rotor_torque ms (sm_act (update_controller n (set_ref_acro s th des1) dt)) [0; 0; 0; 0] a <=
  rotor_torque ms (sm_act (update_controller n (set_ref_acro s th des2) dt)) [0; 0; 0; 0] a.
Proof. exact @harder_sim. Qed.
Print Assumptions C119_simulator.

Example C119_simulator_case : CtlReached 4 (sm_ctl s_damp) /\ sm_armed s_damp = true /\ sm_mode s_damp = ACRO /\
  rotor_torque (quad_x 1 1 1 1 0 100 (1/10) 0) (sm_act (update_controller 4 (set_ref_acro s_damp 40 (mkV 1 0 1)) (1/100))) [0; 0; 0; 0] AX = 0 /\
  rotor_torque (quad_x 1 1 1 1 0 100 (1/10) 0) (sm_act (update_controller 4 (set_ref_acro s_damp 40 (mkV 2 0 1)) (1/100))) [0; 0; 0; 0] AX = 2.
Proof. exact damp_sim_case. Qed.

(** Not so rotor by rotor: asked to roll faster while turning about the vertical, a
    rotor that rolls the vehicle that way slows down. *)
Theorem C119_rotor_slows :
  exists (c : Ctl R) ms inv w th des1 des2 dt i m u v, CtlReached 4 c /\ ms = quad_x 1 1 1 1 0 100 (1/10) 0 /\
  quad_inverse ms = Some inv /\ in_minv (ct_indi c) = inv /\ willing_loop (get_pid WIndi c) /\ principal (in_inertia (ct_indi c)) /\ 0 < dt /\ apart AX des1 des2 /\
  nth_error ms i = Some m /\ 0 < turns AX m /\
  nth_error (get_desired_motor_angular_velocity (ctl_step c (CAcro w th des1 dt))) i = Some u /\
  nth_error (get_desired_motor_angular_velocity (ctl_step c (CAcro w th des2 dt))) i = Some v /\ v < u.
Proof. exact helper_slows. Qed.
Print Assumptions C119_rotor_slows.
