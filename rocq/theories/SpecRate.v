(** Specification vocabulary: a requested rotation rate. *)

From Coq Require Import ZArith List Bool Reals.
From Verif Require Import Scalar LinAlg MUtils MModel MDynamics MPid MControl MCtlRun MImu MSim SpecDyn SpecRun SpecPid SpecCtl SpecSim SpecClimb.
Import ListNotations.
Local Open Scope R_scope.

(** The vector of length [x] along axis [a]. *)
Definition along (a : Ax) (x : R) : V3 R :=
  match a with AX => mkV x 0 0 | AY => mkV 0 x 0 | AZ => mkV 0 0 x end.
(** Lever of the X layout about an axis: distances of the rotors from it, and
    about the vertical the ratio of torque and thrust. *)
Definition lever (kf kt x y : R) (a : Ax) : R := match a with AX => y | AY => x | AZ => kt / kf end.

(** A quadrotor in X layout without process noise and aerodynamic moment; [a] is a principal
    axis with moment of inertia [I].  Its rate controller knows inertia and
    mixer and is a mere gain, [Kp] on that axis, small against the time constant
    [tau] of the rotors.  It turns about [a], [e0] short of the requested
    rate ([up]: to be raised, else to be lowered), its rotors give the
    requested thrust [T], and the torque that is asked for shifts at most half of
    it.  Attitude, position, velocity, mass, gravity, drag, the outer loops are
    free.  About the vertical the rotors are to be light ([J = 0]), since they react
    on the vehicle when their speed changes. *)
Record turns (a : Ax) (up : bool) (I T Kp tau kf mn mx e0 : R) (sp : SimParams R) : Prop := {
  tn_fits : fitting_params 4 sp;
  tn_rotors : exists kt x y J, 0 < kt /\ 0 < x /\ 0 < y /\ (a = AZ -> J = 0) /\
    p_motors (sp_model sp) = quad_x kf kt x y mn mx tau J /\ 2 * (I * Kp * e0) <= T * lever kf kt x y a;
  tn_kf : 0 < kf; tn_tau : 0 < tau; tn_noise : p_fnoise (sp_model sp) = 0; tn_aero : p_aero (sp_model sp) = mzero;
  tn_axis : forall b, mat_vec (p_inertia (sp_model sp)) (along a 1) b = pr b (along a I);
  tn_inertia : 0 < I; tn_det : det3 (p_inertia (sp_model sp)) <> 0;
  tn_same : ip_inertia (cp_indi (sp_ctl sp)) = p_inertia (sp_model sp);
  tn_mixer : quad_inverse (p_motors (sp_model sp)) = Some (ip_minv (cp_indi (sp_ctl sp)));
  tn_kp : pr a (pp_kp (ip_pid (cp_indi (sp_ctl sp)))) = Kp;
  tn_mere : pp_ki (ip_pid (cp_indi (sp_ctl sp))) = mkV 0 0 0 /\ pp_kd (ip_pid (cp_indi (sp_ctl sp))) = mkV 0 0 0;
  tn_gain : 0 < Kp; tn_slow : Kp * tau <= 1/5;
  tn_limits : forall b, let lo := pr b (pp_lo (ip_pid (cp_indi (sp_ctl sp)))) in let hi := pr b (pp_up (ip_pid (cp_indi (sp_ctl sp)))) in
    lo = 0 /\ hi = 0 \/ lo <= - (Kp * e0) /\ Kp * e0 <= hi;
  tn_rate : s_angvel (sp_state sp) = along a (pr a (s_angvel (sp_state sp)));
  tn_error : 0 <= e0;
  tn_thrust : 0 < T;
  tn_speed : exists w0, 0 <= w0 /\ 4 * kf * (w0 * w0) = T /\ s_mvel (sp_state sp) = [w0; w0; w0; w0];
  tn_slowest : 0 <= mn /\ 16 * kf * (mn * mn) <= T;
  tn_fastest : 0 <= mx /\ 2 * T <= 4 * kf * (mx * mx) }.

(** The rate asked for. *)
Definition asked (up : bool) (w0 e0 : R) : R := if up then w0 + e0 else w0 - e0.
(** The calls: rates mode, armed, the request, then rounds. *)
Definition turn_calls {G H : Gen R} (a : Ax) (y : YawMode) (T r dt : R) (k : nat) : list (SimOp R G H) :=
  [SMode ACRO y; SArm; SRefAcro T (along a r)] ++ rounds dt k.

(** The same vehicle in air that resists turning, and started from another state. *)
Definition in_thick_air (C : M3 R) (sp : SimParams R) : SimParams R :=
  let p := sp_model sp in
  mkSP (mkParams (p_motors p) (p_mass p) (p_inertia p) (p_drag p) C (p_grav p) (p_fnoise p) (p_mnoise p)) (sp_seed sp) (sp_state sp) (sp_ctl sp) (sp_imu sp) (sp_odom sp).
Definition started_from (st : State R) (sp : SimParams R) : SimParams R :=
  mkSP (sp_model sp) (sp_seed sp) st (sp_ctl sp) (sp_imu sp) (sp_odom sp).
