(** Specification vocabulary: a flight seen in a mirror, turned about the
    vertical, or flown by a vehicle that is heavier and stronger throughout. *)

From Coq Require Import ZArith List Bool Reals.
From Verif Require Import Scalar LinAlg MUtils MModel MDynamics MPid MControl MImu MSim SpecDyn SpecRun SpecMotion SpecPid SpecCtl SpecSim SpecEuler SpecRenum.
Import ListNotations.
Local Open Scope R_scope.

(** What is changed: the whole scene is mirrored left to right (or not),
    turned by [ch_turn] about the vertical, and every mass, force and torque is
    multiplied by [ch_scale]. *)
Record Change := mkChange { ch_turn : R; ch_mirror : bool; ch_scale : R }.
Definition mirror_image : Change := mkChange 0 true 1.
Definition turned_by (a : R) : Change := mkChange a false 1.
Definition scaled_by (k : R) : Change := mkChange 0 false k.

Section Change.
Variable c : Change.

Definition side : R := if ch_mirror c then -1 else 1.
(** Vectors in the body: the left side becomes the right side. *)
Definition flip (v : V3 R) : V3 R := mkV (vx v) (side * vy v) (vz v).
(** Rates and torques in the body: roll and yaw change their sense in a
    mirror, pitch does not. *)
Definition spin (v : V3 R) : V3 R := mkV (side * vx v) (vy v) (side * vz v).
(** Vectors in the world: mirrored, then turned. *)
Definition around (v : V3 R) : V3 R :=
  mkV (cos (ch_turn c) * vx v - sin (ch_turn c) * (side * vy v))
      (sin (ch_turn c) * vx v + cos (ch_turn c) * (side * vy v)) (vz v).
Definition times (v : V3 R) : V3 R := mkV (ch_scale c * vx v) (ch_scale c * vy v) (ch_scale c * vz v).
Definition reattitude (q : Quat R) : Quat R :=
  turnq (level (ch_turn c)) (mkQ (qw q) (side * qx q) (qy q) (side * qz q)).
Definition heading (y : R) : R := side * y + ch_turn c.
(** Matrices in the body: what maps [v] to [m v] now maps [flip v] to
    [flip (m v)]. *)
Definition flip_mat (m : M3 R) : M3 R :=
  mkM (m00 m) (side * m01 m) (m02 m) (side * m10 m) (m11 m) (side * m12 m) (m20 m) (side * m21 m) (m22 m).
Definition times_mat (m : M3 R) : M3 R :=
  let k := ch_scale c in
  mkM (k * m00 m) (k * m01 m) (k * m02 m) (k * m10 m) (k * m11 m) (k * m12 m) (k * m20 m) (k * m21 m) (k * m22 m).

Definition changed_motor (m : Motor R) : Motor R :=
  mkMotor (if ch_mirror c then - mt_dir m else mt_dir m)%Z (ch_scale c * mt_kf m) (ch_scale c * mt_kt m)
    (flip_mat (mt_rot m)) (flip (mt_pos m)) (mt_min m) (mt_max m) (mt_tau m) (ch_scale c * mt_J m).
Definition changed_model (p : Params R) : Params R :=
  mkParams (map changed_motor (p_motors p)) (ch_scale c * p_mass p) (times_mat (flip_mat (p_inertia p)))
    (ch_scale c * p_drag p) (times_mat (flip_mat (p_aero p))) (times (around (p_grav p))) (p_fnoise p) (p_mnoise p).
Definition changed_state (s : State R) : State R :=
  mkState (around (s_pos s)) (reattitude (s_ori s)) (around (s_vel s)) (spin (s_angvel s))
    (around (s_linacc s)) (spin (s_angacc s)) (times (around (s_force s))) (times (spin (s_torque s))) (s_mvel s) (s_macc s).
(** The controller is told the new mass, inertia, gravity and rotors; the PID
    settings stay. *)
Definition changed_row (r : V3 R * V3 R) : V3 R * V3 R :=
  (vdiv (flip (fst r)) (ch_scale c), vdiv (spin (snd r)) (ch_scale c)).
Definition changed_ctl (p : CtlParams R) : CtlParams R :=
  mkCP (mkAP (ch_scale c * ap_mass (cp_acro p)) (flip_mat (ap_kp (cp_acro p))) (around (ap_grav (cp_acro p))))
       (mkIP (times_mat (flip_mat (ip_inertia (cp_indi p)))) (map changed_row (ip_minv (cp_indi p))) (ip_pid (cp_indi p)))
       (cp_pos p) (cp_traj p) (cp_vel p).
Definition changed_sim (sp : SimParams R) : SimParams R :=
  mkSP (changed_model (sp_model sp)) (sp_seed sp) (changed_state (sp_state sp)) (changed_ctl (sp_ctl sp)) (sp_imu sp) (sp_odom sp).
Definition changed_call {G H : Gen R} (op : SimOp R G H) : SimOp R G H :=
  match op with
  | SRefAcro th w => SRefAcro (ch_scale c * th) (spin w)
  | SRefTraj p v a => SRefTraj (around p) (around v) (around a)
  | SRefVel v => SRefVel (around v)
  | SRefPos p => SRefPos (around p)
  | SRefYaw y => SRefYaw (heading y)
  | SRefYawRate r => SRefYawRate (side * r)
  | SSetDyn p seed st => SSetDyn (changed_model p) seed (changed_state st)
  | SSetCtl p => SSetCtl (changed_ctl p)
  | _ => op
  end.

(** PID settings that treat both directions of axis [a] alike. *)
Definition balanced (pp : PidParams R) (a : Ax) : Prop :=
  pp_rflag pp = false /\ 0 <= pr a (pp_aw pp) /\ pr a (pp_lo pp) = - pr a (pp_up pp).
(** PID settings that treat all horizontal directions alike. *)
Definition round_pid (pp : PidParams R) : Prop :=
  vx (pp_kp pp) = vy (pp_kp pp) /\ vx (pp_ki pp) = vy (pp_ki pp) /\ vx (pp_kd pp) = vy (pp_kd pp) /\
  vx (pp_alpha pp) = vy (pp_alpha pp) /\ pp_rflag pp = false /\
  pp_aw pp = mkV 0 0 0 /\ pp_up pp = mkV 0 0 0 /\ pp_lo pp = mkV 0 0 0.

(** What is asked of the vehicle and of the controller.  A turn needs drag-free
    air (the drag law is per axis) and round PIDs, a mirror balanced ones; a
    mere change of scale needs nothing. *)
Definition suits_dyn (p : Params R) (st : State R) : Prop :=
  unitq (s_ori st) /\ p_fnoise p = 0 /\ (ch_turn c = 0 \/ p_drag p = 0).
Definition suits_ctl (p : CtlParams R) : Prop :=
  (forall pp, In pp [cp_pos p; cp_traj p; cp_vel p] ->
     round_pid pp \/ ch_turn c = 0 /\ (ch_mirror c = true -> balanced pp AY)) /\
  (ch_mirror c = true -> balanced (ip_pid (cp_indi p)) AX /\ balanced (ip_pid (cp_indi p)) AZ).
(** Calls considered: everything but replacing the vehicle or the controller
    by one that does not suit.  A change of scale leaves out the floor and the
    ACRO mode. *)
Definition suits_call {G H : Gen R} (op : SimOp R G H) : Prop :=
  match op with
  | SEnableFloor _ | SMode ACRO _ => ch_scale c = 1
  | SSetDyn p _ st => suits_dyn p st
  | SSetCtl p => suits_ctl p
  | SMutDyn _ | SMutCtl _ => False
  | _ => True
  end.
(** When the simulator looks at the heading, the nose is not vertical (only
    asked for a turn). *)
Definition looks_at_heading {G H : Gen R} (s : Sim R G H) (op : SimOp R G H) : Prop :=
  match op with SMode _ _ => True | SController _ => sm_yawmode s = RATE | _ => False end.
Definition headed {G H : Gen R} (n : nat) (sp : SimParams R) (ops : list (SimOp R G H)) : Prop :=
  ch_turn c = 0 \/ forall pre op post s, ops = pre ++ op :: post -> sim_after n sp pre = Some s ->
    looks_at_heading s op -> not_vertical (s_ori (sim_state s)).
End Change.

(** ** The same vehicle on a mirrored mission *)
(** Left and right rotors of an X quadrotor. *)
Definition across : list nat := [1; 0; 3; 2]%nat.
Definition mirrored_state (s : State R) : State R := renum_state across (changed_state mirror_image s).
Definition mirrored_start (sp : SimParams R) : SimParams R :=
  mkSP (sp_model sp) (sp_seed sp) (mirrored_state (sp_state sp)) (sp_ctl sp) (sp_imu sp) (sp_odom sp).
Definition mirrored_call {G H : Gen R} (op : SimOp R G H) : SimOp R G H :=
  match op with
  | SRefMotors w => SRefMotors (renum across w)
  | SRefAcro th w => SRefAcro th (mkV (- vx w) (vy w) (- vz w))
  | SRefTraj p v a => SRefTraj (mkV (vx p) (- vy p) (vz p)) (mkV (vx v) (- vy v) (vz v)) (mkV (vx a) (- vy a) (vz a))
  | SRefVel v => SRefVel (mkV (vx v) (- vy v) (vz v))
  | SRefPos p => SRefPos (mkV (vx p) (- vy p) (vz p))
  | SRefYaw y => SRefYaw (- y)
  | SRefYawRate r => SRefYawRate (- r)
  | _ => op
  end.
(** Nothing that couples the left-right axis with the other two. *)
Definition uncoupled (m : M3 R) : Prop := m01 m = 0 /\ m10 m = 0 /\ m12 m = 0 /\ m21 m = 0.
(** An X quadrotor whose vehicle and controller treat left and right alike. *)
Definition left_right (sp : SimParams R) : Prop :=
  (exists kf kt x y mn mx tau J, p_motors (sp_model sp) = quad_x kf kt x y mn mx tau J) /\
  quad_inverse (p_motors (sp_model sp)) = Some (ip_minv (cp_indi (sp_ctl sp))) /\
  uncoupled (p_inertia (sp_model sp)) /\ uncoupled (p_aero (sp_model sp)) /\ vy (p_grav (sp_model sp)) = 0 /\
  uncoupled (ip_inertia (cp_indi (sp_ctl sp))) /\ uncoupled (ap_kp (cp_acro (sp_ctl sp))) /\ vy (ap_grav (cp_acro (sp_ctl sp))) = 0.
Definition keeps_parts {G H : Gen R} (op : SimOp R G H) : Prop :=
  match op with SSetDyn _ _ _ | SSetCtl _ | SMutDyn _ | SMutCtl _ => False | _ => True end.
