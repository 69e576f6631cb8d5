(** Specification vocabulary: a descent at a requested speed. *)

From Coq Require Import ZArith List Bool Reals.
From Verif Require Import Scalar LinAlg MUtils MModel MDynamics MPid MControl MCtlRun MImu MSim SpecDyn SpecRun SpecPid SpecCtl SpecSim SpecVertical SpecClimb.
Import ListNotations.
Local Open Scope R_scope.

(** A level quadrotor of weight [W] in still air, without noise and without
    drag, whose controller knows mass and weight; its velocity loop is a mere
    gain [Kp] on the vertical axis, small against the time constant [tau] of the
    rotors.  It rises [d0] faster than requested; the rotors turn at [w0],
    carry at most the weight and at least what is demanded at first, and may
    turn slowly enough to carry the weight less twice the demand.  Mass,
    inertia, layout, heading, the other loops and the other axes are free. *)
Record sinks (yaw W Kp tau kf mn mx w0 d0 : R) (sp : SimParams R) : Prop := {
  sk_fits : fitting_params 4 sp;
  sk_fair : fair_start yaw sp;
  sk_rotors : exists kt x y J, kt <> 0 /\ x <> 0 /\ y <> 0 /\ quad_layout kf kt x y mn mx tau J (p_motors (sp_model sp));
  sk_kf : 0 < kf; sk_tau : 0 < tau; sk_mass : 0 < p_mass (sp_model sp);
  sk_drag : p_drag (sp_model sp) = 0;
  sk_grav : vz (p_grav (sp_model sp)) = - W; sk_weight : 0 < W;
  sk_cmass : ap_mass (cp_acro (sp_ctl sp)) = p_mass (sp_model sp);
  sk_cgrav : p_mass (sp_model sp) * vz (ap_grav (cp_acro (sp_ctl sp))) = - W;
  sk_kp : vz (pp_kp (cp_vel (sp_ctl sp))) = Kp;
  sk_ki : vz (pp_ki (cp_vel (sp_ctl sp))) = 0;
  sk_kd : vz (pp_kd (cp_vel (sp_ctl sp))) = 0;
  sk_gain : 0 < Kp; sk_slow : Kp * tau <= 1/5;
  sk_limits : vz (pp_lo (cp_vel (sp_ctl sp))) = 0 /\ vz (pp_up (cp_vel (sp_ctl sp))) = 0 \/
              vz (pp_lo (cp_vel (sp_ctl sp))) <= - (Kp * d0) /\ 0 <= vz (pp_up (cp_vel (sp_ctl sp)));
  sk_speed : s_mvel (sp_state sp) = [w0; w0; w0; w0];
  sk_error : 0 <= d0;
  sk_lift : 0 <= w0 /\ W - p_mass (sp_model sp) * Kp * d0 <= 4 * kf * (w0 * w0) <= W;
  sk_slowest : 0 <= mn /\ 4 * kf * (mn * mn) <= W - 2 * p_mass (sp_model sp) * Kp * d0;
  sk_fastest : 0 <= mx /\ W <= 4 * kf * (mx * mx) }.
