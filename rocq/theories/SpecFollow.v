(** Specification vocabulary: runs that ignore the references a mode does not follow. *)

From Coq Require Import List Bool.
From Verif Require Import Scalar LinAlg MUtils MModel MDynamics MPid MControl MImu MSim SpecDyn SpecRun SpecSim.
Import ListNotations.

(** Two simulators alike in everything but their references. *)
Definition alike {T} {G H : Gen T} (a b : Sim T G H) : Prop :=
  sm_dyn a = sm_dyn b /\ sm_ctl a = sm_ctl b /\ sm_imu a = sm_imu b /\ sm_odom a = sm_odom b /\ sm_armed a = sm_armed b /\
  sm_floor_en a = sm_floor_en b /\ sm_floor_col a = sm_floor_col b /\ sm_floor_h a = sm_floor_h b /\ sm_act a = sm_act b /\
  sm_ext a = sm_ext b /\ sm_mode a = sm_mode b /\ sm_yawmode a = sm_yawmode b.

(** Any call, but no change to a mode that follows what a change of mode does not
    reset: the motor references and the yaw rate. *)
Definition no_stale_mode {T} {G H : Gen T} (op : SimOp T G H) : Prop :=
  match op with SMode m y => m <> MOTOR_W /\ y <> RATE | _ => True end.
