(** Specification vocabulary: the same vehicle with its rotors numbered
    differently. *)

From Coq Require Import ZArith List Bool Permutation Reals.
From Verif Require Import Scalar LinAlg MUtils MModel MDynamics MPid MControl MImu MSim SpecDyn SpecRun SpecSim.
Import ListNotations.

(** The entries of [l] in the order [pi]. *)
Definition pick {A} (l : list A) (i : nat) : list A := match nth_error l i with Some x => [x] | None => [] end.
Definition renum {A} (pi : list nat) (l : list A) : list A := flat_map (pick l) pi.

Section Spec.
Context {T : Type} {O : Ops T} {G H : Gen T}.
Variable pi : list nat.

Definition renum_params (p : Params T) : Params T :=
  mkParams (renum pi (p_motors p)) (p_mass p) (p_inertia p) (p_drag p) (p_aero p) (p_grav p) (p_fnoise p) (p_mnoise p).
Definition renum_state (s : State T) : State T :=
  mkState (s_pos s) (s_ori s) (s_vel s) (s_angvel s) (s_linacc s) (s_angacc s) (s_force s) (s_torque s) (renum pi (s_mvel s)) (renum pi (s_macc s)).
Definition renum_cfg (c : Cfg T) : Cfg T :=
  mkCfg (renum_params (cf_params c)) (renum pi (cf_fvec c)) (renum pi (cf_fmat c)) (renum pi (cf_tmat c)) (renum pi (cf_imat c)).
Definition renum_model (m : ModelObj T G) : ModelObj T G :=
  mkModel (option_map renum_cfg (mo_cfg m)) (mo_mixer m) (mo_eng m) (mo_dist m) (mo_sforce m) (mo_smoment m).
Definition renum_dyn (d : Dyn T G) : Dyn T G := mkDyn (renum_model (d_model d)) (renum_state (d_state d)).

(** The allocation matrix of the rate controller has a row per rotor. *)
Definition renum_indi (i : Indi T) : Indi T :=
  mkIndi (in_pid i) (in_inertia i) (renum pi (in_minv i)) (in_thrust i) (in_torque i) (renum pi (in_motor i)).
Definition renum_ctl (c : Ctl T) : Ctl T :=
  mkCtl (ct_acro c) (renum_indi (ct_indi c)) (ct_pos c) (ct_traj c) (ct_vel c) (ct_dpos c) (ct_dvel c) (ct_dacc c) (ct_dthrust c) (ct_dang c)
        (renum pi (ct_dmotor c)).
Definition renum_ctl_params (p : CtlParams T) : CtlParams T :=
  let i := cp_indi p in mkCP (cp_acro p) (mkIP (ip_inertia i) (renum pi (ip_minv i)) (ip_pid i)) (cp_pos p) (cp_traj p) (cp_vel p).
Definition renum_refs (r : Refs T) : Refs T :=
  mkRefs (renum pi (rf_motors r)) (rf_thrust r) (rf_ang r) (rf_pos r) (rf_vel r) (rf_acc r) (rf_yaw r) (rf_yawrate r).
Definition renum_sim (s : Sim T G H) : Sim T G H :=
  mkSim (renum_dyn (sm_dyn s)) (renum_ctl (sm_ctl s)) (sm_imu s) (sm_odom s) (sm_armed s) (sm_floor_en s) (sm_floor_col s) (sm_floor_h s)
        (renum_refs (sm_refs s)) (renum pi (sm_act s)) (sm_ext s) (sm_mode s) (sm_yawmode s).
Definition renum_call (op : SimOp T G H) : SimOp T G H :=
  match op with
  | SRefMotors w => SRefMotors (renum pi w)
  | SSetDyn p seed st => SSetDyn (renum_params p) seed (renum_state st)
  | SSetCtl p => SSetCtl (renum_ctl_params p)
  | SMutDyn d => SMutDyn (renum_dyn d)
  | SMutCtl c => SMutCtl (renum_ctl c)
  | _ => op
  end.
Definition renum_start (sp : SimParams T) : SimParams T :=
  mkSP (renum_params (sp_model sp)) (sp_seed sp) (renum_state (sp_state sp)) (renum_ctl_params (sp_ctl sp)) (sp_imu sp) (sp_odom sp).
End Spec.

(** The motion and the readings of two simulators agree, rotor by rotor in
    the order [pi]. *)
Definition same_flight {T} {G H : Gen T} (pi : list nat) (a b : Sim T G H) : Prop :=
  let x := d_state (sm_dyn a) in let y := d_state (sm_dyn b) in
  s_pos x = s_pos y /\ s_ori x = s_ori y /\ s_vel x = s_vel y /\ s_angvel x = s_angvel y /\ s_linacc x = s_linacc y /\
  s_angacc x = s_angacc y /\ s_force x = s_force y /\ s_torque x = s_torque y /\
  sm_imu a = sm_imu b /\ sm_odom a = sm_odom b /\
  s_mvel y = renum pi (s_mvel x) /\ s_macc y = renum pi (s_macc x) /\ sm_act b = renum pi (sm_act a).
