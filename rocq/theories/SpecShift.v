(** Specification vocabulary: the same flight somewhere else. *)

From Coq Require Import ZArith List Bool Reals.
From Verif Require Import Scalar LinAlg MUtils MModel MDynamics MPid MControl MImu MSim SpecDyn SpecRun SpecSim.
Import ListNotations.
Local Open Scope R_scope.

Definition plus3 (p d : V3 R) : V3 R := mkV (vx p + vx d) (vy p + vy d) (vz p + vz d).

Section Spec.
Context {G H : Gen R}.

(** The displaced simulator: position, floor and reference position move along;
    [q] is the position request that its controller remembers. *)
Definition displaced (d q : V3 R) (s : Sim R G H) : Sim R G H :=
  let c := sm_ctl s in let r := sm_refs s in
  mkSim (mkDyn (d_model (sm_dyn s)) (moved (d_state (sm_dyn s)) d))
        (mkCtl (ct_acro c) (ct_indi c) (ct_pos c) (ct_traj c) (ct_vel c) q (ct_dvel c) (ct_dacc c) (ct_dthrust c) (ct_dang c) (ct_dmotor c))
        (sm_imu s) (sm_odom s) (sm_armed s) (sm_floor_en s) (sm_floor_col s) (sm_floor_h s + vz d)
        (mkRefs (rf_motors r) (rf_thrust r) (rf_ang r) (plus3 (rf_pos r) d) (rf_vel r) (rf_acc r) (rf_yaw r) (rf_yawrate r))
        (sm_act s) (sm_ext s) (sm_mode s) (sm_yawmode s).

(** The same calls, with places moved along. *)
Definition displaced_call (d : V3 R) (op : SimOp R G H) : SimOp R G H :=
  match op with
  | SEnableFloor h => SEnableFloor (h + vz d)
  | SRefTraj p v a => SRefTraj (plus3 p d) v a
  | SRefPos p => SRefPos (plus3 p d)
  | SSetDyn p seed st => SSetDyn p seed (moved st d)
  | SMutDyn x => SMutDyn (mkDyn (d_model x) (moved (d_state x) d))
  | _ => op
  end.

End Spec.

Definition displaced_start (d : V3 R) (sp : SimParams R) : SimParams R :=
  mkSP (sp_model sp) (sp_seed sp) (moved (sp_state sp) d) (sp_ctl sp) (sp_imu sp) (sp_odom sp).
