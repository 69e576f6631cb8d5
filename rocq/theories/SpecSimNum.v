(** Specification vocabulary for binary64: a simulator whose vehicle stays within a range. *)

From Coq Require Import ZArith Bool List Reals.
From Flocq Require Import Core BinarySingleNaN.
From Verif Require Import Scalar Float64 LinAlg MUtils MModel MDynamics MPid MControl MImu MSim SpecDyn SpecRun SpecRound SpecNumber SpecPidNum SpecImuNum SpecCtlNum.
Import ListNotations.
Local Open Scope R_scope.

(** atan2 of the C library: of numbers, a number between -4 and 4. *)
Definition atan_range (L : Libm) : Prop := forall y x, fin y -> fin x -> upto 2 (lm_atan2 L y x).

(** A vehicle of reasonable size: accepted, mass up to 2^31, gravity up to 2^32. *)
Definition sane_vehicle (p : Params b64) : Prop := reasonable_params p /\ upto 31 (p_mass p) /\ upto3 32 (p_grav p).
(** A yaw gain that is zero or at least 2^-32. *)
Definition yaw_gain (x : b64) : Prop := val x = 0 \/ bpow radix2 (-32) <= Rabs (val x).
Definition sane_cascade (n : nat) (p : CtlParams b64) : Prop :=
  sane_ctl p /\ length (ip_minv (cp_indi p)) = n /\ yaw_gain (m22 (ap_kp (cp_acro p))).
Definition sane_odom (p : OdomParams b64) : Prop := weight (odp_alpha p) /\ unit_within (1/2) (odp_ori p).
Definition sane_start (n : nat) (st : State b64) : Prop := numbers st /\ length (s_mvel st) = n.
Definition sane_sim (L : Libm) (n : nat) (p : SimParams b64) : Prop :=
  sane_vehicle (sp_model p) /\ @check_params _ (F64Ops L) (sp_model p) = true /\ sane_start n (sp_state p) /\
  sane_cascade n (sp_ctl p) /\ sane_imu (sp_imu p) /\ sane_odom (sp_odom p).

Section Range.
Variable L : Libm.
Context {G H : Gen b64}.
#[local] Instance SO : Ops b64 := F64Ops L.

(** Calls with sensible arguments.  Objects changed through the mutable references are left out. *)
Definition sane_sim_op (n : nat) (op : SimOp b64 G H) : Prop :=
  match op with
  | SDynamics dt => fin dt /\ bpow radix2 (-64) <= val dt
  | SController dt => sane_step 32 dt
  | SImu dt => sane_step 64 dt \/ fin dt /\ val dt <= 0
  | SOdom dt => fin dt /\ 0 < val dt <= 1
  | SArm | SDisarm | SDisableFloor | SMode _ _ => True
  | SEnableFloor h => upto 32 h
  | SRefMotors w => length w = n /\ Forall fin w
  | SRefAcro th w => upto 32 th /\ upto3 32 w
  | SRefTraj p v a => upto3 32 p /\ upto3 32 v /\ upto3 32 a
  | SRefVel v => upto3 32 v
  | SRefPos p => upto3 32 p
  | SRefYaw y => fin y
  | SRefYawRate y => upto 32 y
  | SSetDyn p _ st => sane_vehicle p /\ check_params p = true /\ sane_start n st
  | SSetCtl p => sane_cascade n p
  | SSetImu p => sane_imu p
  | SSetOdom p => sane_odom p
  | SMutDyn _ | SMutCtl _ | SMutImu _ | SMutOdom _ => False
  end.

(** A state of the vehicle made of numbers does not exceed 2^32 (2^57 for the force, 2^64 for
    the rotors) and its orientation is close to unit length; nor do measurements made of numbers exceed 2^64. *)
Definition small_motion (s : Sim b64 G H) : Prop :=
  (numbers (sim_state s) -> reasonable_state (sim_state s) /\
     upto3 32 (s_pos (sim_state s)) /\ upto3 32 (s_vel (sim_state s)) /\ upto3 32 (s_angvel (sim_state s)) /\ upto3 57 (s_force (sim_state s))) /\
  (finv (im_gyro (sm_imu s)) -> finv (im_accel (sm_imu s)) -> upto3 64 (im_gyro (sm_imu s)) /\ upto3 64 (im_accel (sm_imu s))).
(** The force from outside during a step: below the floor the weight is carried. *)
Definition outer_force (s : Sim b64 G H) : V3 b64 :=
  match get_params (d_model (sm_dyn s)) with
  | Some p => if below_floor s then vscaler (vneg (p_grav p)) (p_mass p) else sm_ext s
  | None => sm_ext s
  end.
(** ... and this holds throughout a history, also between the 10 ms parts of a long step. *)
Fixpoint stays_small (n : nat) (s : Sim b64 G H) (ops : list (SimOp b64 G H)) : Prop :=
  small_motion s /\
  match ops with
  | [] => True
  | op :: r =>
      sane_sim_op n op /\
      match op with
      | SDynamics dt => in_range L (sm_dyn s) (mkCall (sm_act s) dt (outer_force s) (negb (sm_floor_col s)))
      | _ => True
      end /\
      match sim_step n s op with Ok s' | Throw s' => stays_small n s' r | UB => True end
  end.

(** Every number that can be read from the simulator is finite. *)
Definition all_numbers (s : Sim b64 G H) : Prop :=
  numbers (sim_state s) /\ Forall fin (sm_act s) /\
  (Forall fin (rf_motors (sm_refs s)) /\ fin (rf_thrust (sm_refs s)) /\ finv (rf_ang (sm_refs s)) /\ finv (rf_pos (sm_refs s)) /\
   finv (rf_vel (sm_refs s)) /\ finv (rf_acc (sm_refs s)) /\ fin (rf_yaw (sm_refs s)) /\ fin (rf_yawrate (sm_refs s))) /\
  (finv (ct_dpos (sm_ctl s)) /\ finv (ct_dvel (sm_ctl s)) /\ finv (ct_dacc (sm_ctl s)) /\ fin (ct_dthrust (sm_ctl s)) /\ finv (ct_dang (sm_ctl s)) /\ Forall fin (ct_dmotor (sm_ctl s))) /\
  (finv (im_gyro (sm_imu s)) /\ finv (im_accel (sm_imu s)) /\ finv (im_gbias (sm_imu s)) /\ finv (im_abias (sm_imu s))) /\
  (finv (od_pos (sm_odom s)) /\ finq (od_ori (sm_odom s)) /\ finv (od_vel (sm_odom s)) /\ finv (od_angvel (sm_odom s)) /\ finv (od_linacc (sm_odom s))) /\
  finv (sm_ext s) /\ fin (sm_floor_h s).
End Range.
