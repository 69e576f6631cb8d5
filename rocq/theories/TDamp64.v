(** Property theorems: rotors that brake a rotation, in double precision. *)

From Coq Require Import List Reals.
From Flocq Require Import BinarySingleNaN.
From Verif Require Import Scalar Float64 LinAlg MUtils MPid MControl MCtlRun SpecDyn SpecPid SpecRound SpecNumber SpecPidNum SpecCtl SpecCtlNum SpecMono SpecHigher64 SpecDamp64
  PDamp64 ECtlNum EHigher64 EDamp64.
Import ListNotations.
Local Open Scope R_scope.

(** ** C119
    Any number of rotors and any allocation, whatever the controller has been through:
    found to turn faster about an axis, no rotor with a positive share of a torque about
    that axis speeds up, and none with a negative share slows down. *)
Theorem C119_binary64 :
  forall L, let O := F64Ops L in forall n p ops a w1 w2 th des dt, trig_range L -> sane_ctl p -> Forall sane_ctl_op ops ->
  let c := ctl_run (ctl_new n p) ops in
  upto3 32 w1 -> upto3 32 w2 -> upto 32 th -> upto3 32 des -> sane_step 32 dt -> willing_loop64 (get_pid WIndi c) -> principal64 (in_inertia (ct_indi c)) -> apart64 a w1 w2 ->
  brakes64 a (in_minv (ct_indi c)) (get_desired_motor_angular_velocity (ctl_step c (CAcro w1 th des dt))) (get_desired_motor_angular_velocity (ctl_step c (CAcro w2 th des dt))).
Proof. exact damped64. Qed.
Print Assumptions C119_binary64.

Example C119_binary64_case : let O := F64Ops flat_libm in
  trig_range flat_libm /\ sane_ctl h_ctl /\ Forall sane_ctl_op h_ops /\
  let c := ctl_run (ctl_new 4 h_ctl) h_ops in
  sane_step 32 (lit 1 10) /\ willing_loop64 (get_pid WIndi c) /\ principal64 (in_inertia (ct_indi c)) /\ apart64 AX v0 (mkV (lit 1 5) zero zero) /\
  List.length (in_minv (ct_indi c)) = 4%nat /\
  braked (in_minv (ct_indi c)) (get_desired_motor_angular_velocity (ctl_step c (CAcro v0 (ofZ 4) (mkV one zero zero) (lit 1 10))))
    (get_desired_motor_angular_velocity (ctl_step c (CAcro (mkV (lit 1 5) zero zero) (ofZ 4) (mkV one zero zero) (lit 1 10)))) = true.
Proof. exact damp64_case. Qed.
