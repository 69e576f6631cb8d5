(** Specification vocabulary: flying with the inertial odometry running along. *)

From Coq Require Import ZArith List Bool Reals.
From Verif Require Import Scalar LinAlg MUtils MModel MDynamics MImu MSim SpecDyn SpecRun SpecImu SpecSim.
Import ListNotations.
Local Open Scope R_scope.

Section Spec.
Context {G H : Gen R}.

(** Calls a pilot makes between updates: controller updates, arming, floors,
    modes, references and controller settings. *)
Definition piloting (op : SimOp R G H) : Prop :=
  match op with
  | SController _ | SArm | SDisarm | SEnableFloor _ | SDisableFloor | SMode _ _
  | SRefMotors _ | SRefAcro _ _ | SRefTraj _ _ _ | SRefVel _ | SRefPos _ | SRefYaw _ | SRefYawRate _
  | SSetCtl _ | SMutCtl _ => True
  | _ => False
  end.
Definition without_floor (op : SimOp R G H) : Prop := match op with SEnableFloor _ => False | _ => True end.

(** Rounds of piloting, each followed by updates of vehicle, IMU and odometry. *)
Definition flight (dt : R) (rounds : list (list (SimOp R G H))) : list (SimOp R G H) :=
  flat_map (fun pilot => pilot ++ [SDynamics dt; SImu dt; SOdom dt]) rounds.
End Spec.

(** Noiseless IMU along the body axes, unfiltered odometry started with the
    orientation of a vehicle that is not turning. *)
Definition perfect_sensors (sp : SimParams R) : Prop :=
  ideal (sp_imu sp) /\ imp_ori (sp_imu sp) = mkQ 1 0 0 0 /\ odp_alpha (sp_odom sp) = 1 /\
  odp_ori (sp_odom sp) = s_ori (sp_state sp) /\ unitq (s_ori (sp_state sp)) /\ s_angvel (sp_state sp) = mkV 0 0 0.
