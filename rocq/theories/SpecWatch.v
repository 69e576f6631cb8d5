(** Specification vocabulary: the flight without its observers. *)

From Coq Require Import ZArith List Bool.
From Verif Require Import Scalar LinAlg MUtils MModel MDynamics MPid MControl MImu MSim SpecRun SpecSim.
Import ListNotations.

Section Spec.
Context {T : Type} {O : Ops T} {G : Gen T}.

(** Everything of a simulator but its sensors. *)
Definition flight_of {H : Gen T} (s : Sim T G H) :=
  (sm_dyn s, sm_ctl s, (sm_armed s, sm_mode s, sm_yawmode s), (sm_floor_en s, sm_floor_col s, sm_floor_h s), sm_refs s, sm_act s, sm_ext s).

(** The same call without its sensors; calls of sensors are dropped. *)
Definition unwatched {H1 H2 : Gen T} (op : SimOp T G H1) : list (SimOp T G H2) :=
  match op with
  | SImu _ | SOdom _ | SSetImu _ | SSetOdom _ | SMutImu _ | SMutOdom _ => []
  | SDynamics dt => [SDynamics dt] | SController dt => [SController dt]
  | SArm => [SArm] | SDisarm => [SDisarm] | SEnableFloor h => [SEnableFloor h] | SDisableFloor => [SDisableFloor]
  | SMode m y => [SMode m y] | SRefMotors w => [SRefMotors w] | SRefAcro th w => [SRefAcro th w] | SRefTraj p v a => [SRefTraj p v a]
  | SRefVel v => [SRefVel v] | SRefPos p => [SRefPos p] | SRefYaw y => [SRefYaw y] | SRefYawRate y => [SRefYawRate y]
  | SSetDyn p seed st => [SSetDyn p seed st] | SSetCtl p => [SSetCtl p] | SMutDyn d => [SMutDyn d] | SMutCtl c => [SMutCtl c]
  end.

(** Calls that matter to a vehicle on its own: its updates, floors and its own
    settings. *)
Definition own_call {H : Gen T} (op : SimOp T G H) : bool :=
  match op with SDynamics _ | SEnableFloor _ | SDisableFloor | SSetDyn _ _ _ | SMutDyn _ => true | _ => false end.
Definition not_arming {H : Gen T} (op : SimOp T G H) : Prop := match op with SArm => False | _ => True end.

(** Simulations of the same vehicle and controller, whatever their sensors. *)
Definition same_but_sensors (a b : SimParams T) : Prop :=
  sp_model a = sp_model b /\ sp_seed a = sp_seed b /\ sp_state a = sp_state b /\ sp_ctl a = sp_ctl b.
Definition same_vehicle (a b : SimParams T) : Prop :=
  sp_model a = sp_model b /\ sp_seed a = sp_seed b /\ sp_state a = sp_state b.
End Spec.
