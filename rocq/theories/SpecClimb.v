(** Specification vocabulary: a climb at a requested speed. *)

From Coq Require Import ZArith List Bool Reals.
From Verif Require Import Scalar LinAlg MUtils MModel MDynamics MPid MControl MCtlRun MImu MSim SpecDyn SpecRun SpecPid SpecCtl SpecSim SpecVertical.
Import ListNotations.
Local Open Scope R_scope.

(** [k] rounds of control and motion. *)
Definition rounds {G H : Gen R} (dt : R) (k : nat) : list (SimOp R G H) := concat (repeat [SController dt; SDynamics dt] k).

(** A level quadrotor of weight [W] in still air, without noise and without
    drag, whose controller knows mass and weight; its velocity loop is a mere
    gain [Kp] on the vertical axis, small against the time constant [tau] of the
    rotors.  It is [e0] short of the requested climb speed; the rotors turn at [w0],
    carry at least the weight and at most the weight and twice what is
    demanded, and have the range for that.  Mass, inertia, layout, heading,
    the other loops and the other axes are free. *)
Record climbs (yaw W Kp tau kf mn mx w0 e0 : R) (sp : SimParams R) : Prop := {
  cl_fits : fitting_params 4 sp;
  cl_fair : fair_start yaw sp;
  cl_rotors : exists kt x y J, kt <> 0 /\ x <> 0 /\ y <> 0 /\ quad_layout kf kt x y mn mx tau J (p_motors (sp_model sp));
  cl_kf : 0 < kf; cl_tau : 0 < tau; cl_mass : 0 < p_mass (sp_model sp);
  cl_drag : p_drag (sp_model sp) = 0;
  cl_grav : vz (p_grav (sp_model sp)) = - W; cl_weight : 0 < W;
  cl_cmass : ap_mass (cp_acro (sp_ctl sp)) = p_mass (sp_model sp);
  cl_cgrav : p_mass (sp_model sp) * vz (ap_grav (cp_acro (sp_ctl sp))) = - W;
  cl_kp : vz (pp_kp (cp_vel (sp_ctl sp))) = Kp;
  cl_ki : vz (pp_ki (cp_vel (sp_ctl sp))) = 0;
  cl_kd : vz (pp_kd (cp_vel (sp_ctl sp))) = 0;
  cl_gain : 0 < Kp; cl_slow : Kp * tau <= 1/4;
  cl_limits : vz (pp_lo (cp_vel (sp_ctl sp))) = 0 /\ vz (pp_up (cp_vel (sp_ctl sp))) = 0 \/
              vz (pp_lo (cp_vel (sp_ctl sp))) <= 0 /\ Kp * e0 <= vz (pp_up (cp_vel (sp_ctl sp)));
  cl_speed : s_mvel (sp_state sp) = [w0; w0; w0; w0];
  cl_error : 0 <= e0;
  cl_lift : 0 <= w0 /\ W <= 4 * kf * (w0 * w0) <= W + 2 * p_mass (sp_model sp) * Kp * e0;
  cl_slowest : 0 <= mn /\ 4 * kf * (mn * mn) <= W;
  cl_fastest : 0 <= mx /\ W + 2 * p_mass (sp_model sp) * Kp * e0 <= 4 * kf * (mx * mx) }.

(** The calls: velocity mode, armed, the request, then rounds. *)
Definition climb_calls {G H : Gen R} (y : YawMode) (vr dt : R) (k : nat) : list (SimOp R G H) :=
  [SMode VELOCITY y; SArm; SRefVel (mkV 0 0 vr)] ++ rounds dt k.

(** Part of the missing speed that is gained in each round at least. *)
Definition gain_per_round (m W Kp dt e0 : R) : R := dt * Kp / (1 + m * Kp * e0 / (4 * W)).

(** The same vehicle in air of drag [c]. *)
Definition in_drag (c : R) (sp : SimParams R) : SimParams R :=
  let p := sp_model sp in
  mkSP (mkParams (p_motors p) (p_mass p) (p_inertia p) c (p_aero p) (p_grav p) (p_fnoise p) (p_mnoise p)) (sp_seed sp) (sp_state sp) (sp_ctl sp) (sp_imu sp) (sp_odom sp).
