(** Specification vocabulary: flights that are asked to go up and down only. *)

From Coq Require Import ZArith List Bool Reals.
From Verif Require Import Scalar LinAlg MUtils MModel MDynamics MPid MControl MCtlRun MImu MSim SpecDyn SpecRun SpecPid SpecCtl SpecSim.
Import ListNotations.
Local Open Scope R_scope.

(** No horizontal part. *)
Definition upright (v : V3 R) : Prop := vx v = 0 /\ vy v = 0.
(** The same horizontal position. *)
Definition above (p q : V3 R) : Prop := vx p = vx q /\ vy p = vy q.
(** Four equal numbers. *)
Definition even4 (l : list R) : Prop := exists w, l = [w; w; w; w].

(** Settings that let a zero output through on axis [a]: limits around zero
    (or none), no negative anti-windup. *)
Definition passes_zero (pp : PidParams R) (a : Ax) : Prop :=
  0 <= pr a (pp_aw pp) /\ pr a (pp_lo pp) <= 0 <= pr a (pp_up pp).
(** Controller settings for the rotors [ms]: the inverse mixer belongs to the
    rotors, gravity is vertical, the outer loops can output zero sideways and
    the rate loop zero on all axes.  Mass, inertia, gains and vertical limits
    are free. *)
Definition fair_ctl (ms : list (Motor R)) (cp : CtlParams R) : Prop :=
  quad_inverse ms = Some (ip_minv (cp_indi cp)) /\ upright (ap_grav (cp_acro cp)) /\
  (forall a, passes_zero (ip_pid (cp_indi cp)) a) /\
  forall pp, In pp [cp_pos cp; cp_traj cp; cp_vel cp] -> passes_zero pp AX /\ passes_zero pp AY.

(** A quadrotor of the built-in layouts without process noise, level with
    heading [yaw], moving at most vertically, its rotors at equal speeds. *)
Definition fair_start (yaw : R) (sp : SimParams R) : Prop :=
  (exists kf kt x y mn mx tau J, kf <> 0 /\ kt <> 0 /\ x <> 0 /\ y <> 0 /\
     quad_layout kf kt x y mn mx tau J (p_motors (sp_model sp))) /\
  check_params (sp_model sp) = true /\ p_fnoise (sp_model sp) = 0 /\ upright (p_grav (sp_model sp)) /\
  fair_ctl (p_motors (sp_model sp)) (sp_ctl sp) /\
  s_ori (sp_state sp) = level yaw /\ - PI < yaw <= PI /\
  upright (s_vel (sp_state sp)) /\ s_angvel (sp_state sp) = mkV 0 0 0 /\ even4 (s_mvel (sp_state sp)).

(** Calls that ask for nothing sideways and no turn: any update with any time
    step, any mode, floors, arming, sensors, another controller as fair;
    references over the starting point, vertical velocities and accelerations,
    no rates, equal rotor speeds, the heading [yaw]. *)
Definition asks_vertical {G H : Gen R} (ms : list (Motor R)) (pos : V3 R) (yaw : R) (op : SimOp R G H) : Prop :=
  match op with
  | SDynamics _ | SController _ | SImu _ | SOdom _ | SArm | SDisarm | SEnableFloor _ | SDisableFloor | SMode _ _
  | SSetImu _ | SSetOdom _ | SMutImu _ | SMutOdom _ => True
  | SRefMotors w => even4 w
  | SRefAcro _ w => w = mkV 0 0 0
  | SRefTraj p v a => above p pos /\ upright v /\ upright a
  | SRefVel v => upright v
  | SRefPos p => above p pos
  | SRefYaw y => y = yaw
  | SRefYawRate r => r = 0
  | SSetCtl p => fair_ctl ms p
  | SSetDyn _ _ _ | SMutDyn _ | SMutCtl _ => False
  end.
