(** Property theorems: steering. *)

From Coq Require Import ZArith List Bool Reals.
From Verif Require Import Scalar LinAlg MUtils MModel MPid MControl MCtlRun SpecDyn SpecPid SpecCtl SpecSteer PSteer ECtl EPid ESteer.
Import ListNotations.
Local Open Scope R_scope.

(** ** C83 *)
Theorem C83_steer_x :
  forall n kf kt x y mn mx tau J inv (c0 : Ctl R) b th s dt jx jy jz,
  0 < kf -> 0 < kt -> 0 < x -> 0 < y -> CtlReached n c0 -> reacts b (get_pid WIndi c0) ->
  in_inertia (ct_indi c0) = mkM jx 0 0 0 jy 0 0 0 jz -> 0 < jx -> 0 < jy -> 0 < jz ->
  quad_inverse (quad_x kf kt x y mn mx tau J) = Some inv -> in_minv (ct_indi c0) = inv -> 0 < dt ->
  steers b s (quad_x kf kt x y mn mx tau J) (get_desired_motor_angular_velocity (ctl_step (ctl_step c0 CReset) (CAcro v0 th (along b s) dt))).
Proof. exact steer_x. Qed.
Print Assumptions C83_steer_x.

Theorem C83_steer_plus :
  forall n kf kt x y mn mx tau J inv (c0 : Ctl R) b th s dt jx jy jz,
  0 < kf -> 0 < kt -> 0 < x -> 0 < y -> CtlReached n c0 -> reacts b (get_pid WIndi c0) ->
  in_inertia (ct_indi c0) = mkM jx 0 0 0 jy 0 0 0 jz -> 0 < jx -> 0 < jy -> 0 < jz ->
  quad_inverse (quad_plus kf kt x y mn mx tau J) = Some inv -> in_minv (ct_indi c0) = inv -> 0 < dt ->
  steers b s (quad_plus kf kt x y mn mx tau J) (get_desired_motor_angular_velocity (ctl_step (ctl_step c0 CReset) (CAcro v0 th (along b s) dt))).
Proof. exact steer_plus. Qed.
Print Assumptions C83_steer_plus.

(** The rotors 1 and 2 of the X layout are on the left. *)
Example C83_case : forall dt, 0 < dt ->
  let w := get_desired_motor_angular_velocity (ctl_step (ctl_step c_ex CReset) (CAcro v0 4 (along AX 2) dt)) in
  exists w0 w1 w2 w3, w = [w0; w1; w2; w3] /\ w0 < w1 /\ w3 < w2 /\ ~ w0 < w3 /\ ~ w3 < w0.
Proof. exact steer_ok. Qed.
