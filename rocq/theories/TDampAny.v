(** Property theorems: rotors that brake a rotation, any allocation. *)

From Coq Require Import List Reals.
From Verif Require Import Scalar LinAlg MUtils MModel MDynamics MPid MControl MCtlRun MImu MSim SpecDyn SpecRun SpecPid SpecCtl SpecMono SpecHigher SpecDamp SpecDampAny
  PDampAny EDampAny.
Import ListNotations.
Local Open Scope R_scope.

(** ** C119
    Any number of rotors, in terms of the shares the allocation gives them. *)
Theorem C119_rows :
  forall n (c : Ctl R) a w1 w2 th des dt, CtlReached n c ->
  willing_loop (get_pid WIndi c) -> principal (in_inertia (ct_indi c)) -> 0 < dt -> apart a w1 w2 ->
  brakes_by a (in_minv (ct_indi c)) (get_desired_motor_angular_velocity (ctl_step c (CAcro w1 th des dt))) (get_desired_motor_angular_velocity (ctl_step c (CAcro w2 th des dt))).
Proof. exact damped_any. Qed.
Print Assumptions C119_rows.

(** The same for two simulations that differ in how fast the vehicle turns. *)
Theorem C119_simulators :
  forall {G H : Gen R} n (s1 s2 : Sim R G H) a th des dt, CtlReached n (sm_ctl s1) -> sm_ctl s2 = sm_ctl s1 ->
  sm_armed s1 = true -> sm_mode s1 = ACRO -> sm_armed s2 = true -> sm_mode s2 = ACRO ->
  willing_loop (get_pid WIndi (sm_ctl s1)) -> principal (in_inertia (ct_indi (sm_ctl s1))) -> 0 < dt -> apart a (s_angvel (sim_state s1)) (s_angvel (sim_state s2)) ->
  brakes_by a (in_minv (ct_indi (sm_ctl s1))) (sm_act (update_controller n (set_ref_acro s1 th des) dt)) (sm_act (update_controller n (set_ref_acro s2 th des) dt)).
Proof. exact @damped_any_sim. Qed.
Print Assumptions C119_simulators.

Example C119_rows_case : CtlReached 6 c_six /\ willing_loop (get_pid WIndi c_six) /\ principal (in_inertia (ct_indi c_six)) /\ apart AX (mkV 0 0 0) (mkV 2 0 0) /\
  List.length (in_minv (ct_indi c_six)) = 6%nat /\
  nth_error (get_desired_motor_angular_velocity (ctl_step c_six (CAcro (mkV 0 0 0) 2 (mkV 1 0 0) (1/100)))) 1 = Some 2 /\
  nth_error (get_desired_motor_angular_velocity (ctl_step c_six (CAcro (mkV 2 0 0) 2 (mkV 1 0 0) (1/100)))) 1 = Some 0.
Proof. exact six_case. Qed.
