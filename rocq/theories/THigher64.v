(** Property theorems: asked for more height, never less thrust, in double precision. *)

From Coq Require Import List Reals.
From Flocq Require Import BinarySingleNaN.
From Verif Require Import Scalar Float64 LinAlg MUtils MPid MControl MCtlRun SpecDyn SpecPid SpecRound SpecNumber SpecPidNum SpecCtl SpecCtlNum SpecMono SpecHigher64
  PHigher64 ECtlNum EHigher64.
Local Open Scope R_scope.

(** ** C117 *)
Theorem C117_binary64_acceleration :
  forall L, let O := F64Ops L in
  forall n p ops A w yaw dt, trig_range L -> sane_ctl p -> Forall sane_ctl_op ops -> let c := ctl_run (ctl_new n p) ops in
  0 <= val (ac_mass (ct_acro c)) -> upto9 32 A -> upright64 A -> forall a1 a2, upto3 32 a1 -> upto3 32 a2 -> no_lower64 a1 a2 ->
  val (get_desired_thrust (ctl_step c (CAcc A w a1 yaw dt))) <= val (get_desired_thrust (ctl_step c (CAcc A w a2 yaw dt))).
Proof. exact acc64. Qed.
Print Assumptions C117_binary64_acceleration.

Theorem C117_binary64_velocity :
  forall L, let O := F64Ops L in
  forall n p ops A w yaw dt, trig_range L -> sane_ctl p -> Forall sane_ctl_op ops -> let c := ctl_run (ctl_new n p) ops in
  0 <= val (ac_mass (ct_acro c)) -> upto9 32 A -> upright64 A -> sane_step 32 dt ->
  forall cv v1 v2, upto3 32 cv -> upto3 32 v1 -> upto3 32 v2 -> willing_loop64 (get_pid WVel c) -> no_lower64 v1 v2 ->
  val (get_desired_thrust (ctl_step c (CVel cv A w v1 yaw dt))) <= val (get_desired_thrust (ctl_step c (CVel cv A w v2 yaw dt))).
Proof. exact vel64. Qed.
Print Assumptions C117_binary64_velocity.

Theorem C117_binary64_position :
  forall L, let O := F64Ops L in
  forall n p ops A w yaw dt, trig_range L -> sane_ctl p -> Forall sane_ctl_op ops -> let c := ctl_run (ctl_new n p) ops in
  0 <= val (ac_mass (ct_acro c)) -> upto9 32 A -> upright64 A -> sane_step 32 dt ->
  forall cp cv p1 p2, upto3 32 cp -> upto3 32 cv -> upto3 32 p1 -> upto3 32 p2 -> willing_loop64 (get_pid WPos c) -> willing_loop64 (get_pid WVel c) -> no_lower64 p1 p2 ->
  val (get_desired_thrust (ctl_step c (CPos cp A cv w p1 yaw dt))) <= val (get_desired_thrust (ctl_step c (CPos cp A cv w p2 yaw dt))).
Proof. exact pos64. Qed.
Print Assumptions C117_binary64_position.

Theorem C117_binary64_trajectory :
  forall L, let O := F64Ops L in
  forall n p ops A w yaw dt, trig_range L -> sane_ctl p -> Forall sane_ctl_op ops -> let c := ctl_run (ctl_new n p) ops in
  0 <= val (ac_mass (ct_acro c)) -> upto9 32 A -> upright64 A -> sane_step 32 dt ->
  forall cp cv p1 p2 v1 v2 a1 a2, upto3 32 cp -> upto3 32 cv -> upto3 32 p1 -> upto3 32 p2 -> upto3 32 v1 -> upto3 32 v2 -> upto3 32 a1 -> upto3 32 a2 ->
  willing_loop64 (get_pid WTraj c) -> no_lower64 p1 p2 -> no_lower64 v1 v2 -> no_lower64 a1 a2 ->
  val (get_desired_thrust (ctl_step c (CTraj cp cv A w p1 v1 a1 yaw dt))) <= val (get_desired_thrust (ctl_step c (CTraj cp cv A w p2 v2 a2 yaw dt))).
Proof. exact traj64. Qed.
Print Assumptions C117_binary64_trajectory.

Example C117_binary64_case : let O := F64Ops flat_libm in
  trig_range flat_libm /\ sane_ctl h_ctl /\ Forall sane_ctl_op h_ops /\
  let c := ctl_run (ctl_new 4 h_ctl) h_ops in
  0 <= val (ac_mass (ct_acro c)) /\ upright64 mI /\ sane_step 32 (lit 1 10) /\ willing_loop64 (get_pid WPos c) /\ willing_loop64 (get_pid WVel c) /\ willing_loop64 (get_pid WTraj c) /\
  no_lower64 (mkV one zero one) (mkV one zero (lit 3 2)) /\
  Bltb (get_desired_thrust (ctl_step c (CPos v0 mI v0 v0 (mkV one zero one) zero (lit 1 10)))) (get_desired_thrust (ctl_step c (CPos v0 mI v0 v0 (mkV one zero (lit 3 2)) zero (lit 1 10)))) = true.
Proof. exact high64_case. Qed.
