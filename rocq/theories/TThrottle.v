(** Property theorems: opening the throttle. *)

From Coq Require Import List Reals.
From Flocq Require Import BinarySingleNaN.
From Verif Require Import Scalar Float64 LinAlg MUtils MModel MDynamics MPid MControl MCtlRun MImu MSim SpecDyn SpecRun SpecPid SpecCtl SpecRound SpecNumber SpecPidNum SpecCtlNum SpecThrottle
  PThrottle PThrottle64 ECtl ECtlNum EThrottle.
Import ListNotations.
Local Open Scope R_scope.

(** ** C118
    Asked for more thrust at the same rates, every rotor of the two ready-made
    quadrotors is asked to turn faster, and each carries a quarter of the change. *)
Theorem C118_x :
  forall kf kt x y mn mx tau J inv (c : Ctl R) w des dt t1 t2,
  0 < kf -> kt <> 0 -> x <> 0 -> y <> 0 -> quad_inverse (quad_x kf kt x y mn mx tau J) = Some inv -> in_minv (ct_indi c) = inv ->
  let w1 := get_desired_motor_angular_velocity (ctl_step c (CAcro w t1 des dt)) in
  let w2 := get_desired_motor_angular_velocity (ctl_step c (CAcro w t2 des dt)) in
  shares (4 * kf) (t2 - t1) w1 w2 /\ (t1 < t2 -> Forall2 Rlt w1 w2).
Proof. exact throttle_x. Qed.
Print Assumptions C118_x.

Theorem C118_plus :
  forall kf kt x y mn mx tau J inv (c : Ctl R) w des dt t1 t2,
  0 < kf -> kt <> 0 -> x <> 0 -> y <> 0 -> quad_inverse (quad_plus kf kt x y mn mx tau J) = Some inv -> in_minv (ct_indi c) = inv ->
  let w1 := get_desired_motor_angular_velocity (ctl_step c (CAcro w t1 des dt)) in
  let w2 := get_desired_motor_angular_velocity (ctl_step c (CAcro w t2 des dt)) in
  shares (4 * kf) (t2 - t1) w1 w2 /\ (t1 < t2 -> Forall2 Rlt w1 w2).
Proof. exact throttle_plus. Qed.
Print Assumptions C118_plus.

Example C118_case : forall dt,
  let w1 := get_desired_motor_angular_velocity (ctl_step c_ex (CAcro (mkV 1 0 0) 4 (mkV 1 2 3) dt)) in
  let w2 := get_desired_motor_angular_velocity (ctl_step c_ex (CAcro (mkV 1 0 0) 16 (mkV 1 2 3) dt)) in
  List.length w1 = 4%nat /\ Forall2 (fun u v => sq_signed v = sq_signed u + 3) w1 w2 /\ Forall2 Rlt w1 w2.
Proof. exact throttle_case. Qed.

(** The same through the simulator's reference. *)
Theorem C118_simulator :
  forall {G H : Gen R} n (s : Sim R G H) kf kt x y mn mx tau J inv w dt t1 t2,
  sm_armed s = true -> sm_mode s = ACRO ->
  0 < kf -> kt <> 0 -> x <> 0 -> y <> 0 ->
  (quad_inverse (quad_x kf kt x y mn mx tau J) = Some inv \/ quad_inverse (quad_plus kf kt x y mn mx tau J) = Some inv) -> in_minv (ct_indi (sm_ctl s)) = inv -> t1 < t2 ->
  Forall2 Rlt (sm_act (update_controller n (set_ref_acro s t1 w) dt)) (sm_act (update_controller n (set_ref_acro s t2 w) dt)).
Proof. exact @throttle_sim. Qed.
Print Assumptions C118_simulator.

(** Any number of rotors: no rotor the allocation gives a share of the thrust slows down. *)
Theorem C118_rows :
  forall (c : Ctl R) w des dt t1 t2, t1 <= t2 -> Forall (fun r => 0 <= vz (fst r)) (in_minv (ct_indi c)) ->
  Forall2 Rle (get_desired_motor_angular_velocity (ctl_step c (CAcro w t1 des dt))) (get_desired_motor_angular_velocity (ctl_step c (CAcro w t2 des dt))).
Proof. exact throttle_rows. Qed.
Print Assumptions C118_rows.

(** The same in double precision, whatever the controller has been through. *)
Theorem C118_binary64 :
  forall L, let O := F64Ops L in forall n p ops w des dt t1 t2, trig_range L -> sane_ctl p -> Forall sane_ctl_op ops ->
  let c := ctl_run (ctl_new n p) ops in
  upto3 32 w -> upto 32 t1 -> upto 32 t2 -> upto3 32 des -> sane_step 32 dt -> Forall (fun r => 0 <= val (vz (fst r))) (in_minv (ct_indi c)) -> val t1 <= val t2 ->
  Forall2 (fun u v => val u <= val v) (get_desired_motor_angular_velocity (ctl_step c (CAcro w t1 des dt))) (get_desired_motor_angular_velocity (ctl_step c (CAcro w t2 des dt))).
Proof. exact throttle64. Qed.
Print Assumptions C118_binary64.

Example C118_binary64_case : let O := F64Ops flat_libm in
  trig_range flat_libm /\ sane_ctl k_ctl /\ Forall sane_ctl_op k_ops /\
  Forall (fun r => 0 <= val (vz (fst r))) (in_minv (ct_indi (ctl_run (ctl_new 4 k_ctl) k_ops))) /\
  let w t := get_desired_motor_angular_velocity (ctl_step (ctl_run (ctl_new 4 k_ctl) k_ops) (CAcro v0 t (mkV (lit 1 5) zero zero) (lit 1 100))) in
  List.length (w (ofZ 3)) = 4%nat /\ ltb2 (w (ofZ 3)) (w (ofZ 4)) = true.
Proof. exact throttle64_case. Qed.

(** Not so for every layout that can be flown: with its rotors on one side of the
    centre of mass one of them slows down when more thrust is asked for. *)
Theorem C118_one_sided :
  exists (ms : list (Motor R)) inv (c : Ctl R) w des dt t1 t2 u v l1 l2,
  (forall th tq, exists ws, List.length ws = 4%nat /\ rotor_force ms ws AZ = th /\ forall a, rotor_torque ms ws [0; 0; 0; 0] a = pr a tq) /\
  quad_inverse ms = Some inv /\ CtlReached 4 c /\ in_minv (ct_indi c) = inv /\ t1 < t2 /\
  get_desired_motor_angular_velocity (ctl_step c (CAcro w t1 des dt)) = u :: l1 /\
  get_desired_motor_angular_velocity (ctl_step c (CAcro w t2 des dt)) = v :: l2 /\ v < u.
Proof. exact skew_refuted. Qed.
Print Assumptions C118_one_sided.
