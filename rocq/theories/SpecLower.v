(** Specification vocabulary: a descent to a requested height. *)

From Coq Require Import ZArith List Bool Reals.
From Verif Require Import Scalar LinAlg MUtils MModel MDynamics MPid MControl MCtlRun MImu MSim SpecDyn SpecRun SpecPid SpecCtl SpecSim SpecVertical SpecClimb SpecHeight.
Import ListNotations.
Local Open Scope R_scope.

(** A level quadrotor of weight [W] hangs still in still air, its rotors at [w0]
    carry it; no noise, no drag and no floor.  The controller knows mass and
    weight; on the vertical axis the position loop is a mere gain [Kx] and the
    velocity loop a mere gain [Kv].  The way [h] down is such that at most a
    quarter of the weight is taken away, and the rotors have the range for it.
    Mass, inertia, layout, heading, the other loops and axes are free. *)
Record hovers (yaw W Kv Kx tau kf mn mx w0 h : R) (sp : SimParams R) : Prop := {
  hv_fits : fitting_params 4 sp;
  hv_fair : fair_start yaw sp;
  hv_rotors : exists kt x y J, kt <> 0 /\ x <> 0 /\ y <> 0 /\ quad_layout kf kt x y mn mx tau J (p_motors (sp_model sp));
  hv_kf : 0 < kf; hv_tau : 0 < tau; hv_mass : 0 < p_mass (sp_model sp);
  hv_drag : p_drag (sp_model sp) = 0;
  hv_grav : vz (p_grav (sp_model sp)) = - W; hv_weight : 0 < W;
  hv_cmass : ap_mass (cp_acro (sp_ctl sp)) = p_mass (sp_model sp);
  hv_cgrav : p_mass (sp_model sp) * vz (ap_grav (cp_acro (sp_ctl sp))) = - W;
  hv_pos : gain_loop Kx (- (Kx * h)) (Kx * h) (cp_pos (sp_ctl sp));
  hv_vel : gain_loop Kv (- (Kv * Kx * h)) (Kv * Kx * h) (cp_vel (sp_ctl sp));
  hv_gain : 0 < Kx /\ 0 < Kv;
  hv_way : 0 <= h /\ 4 * (p_mass (sp_model sp) * Kv * Kx * h) <= W;
  hv_speed : s_mvel (sp_state sp) = [w0; w0; w0; w0]; hv_lift : 0 <= w0 /\ 4 * kf * (w0 * w0) = W;
  hv_still : vz (s_vel (sp_state sp)) = 0;
  hv_slowest : 0 <= mn /\ 4 * kf * (mn * mn) <= W - 2 * (p_mass (sp_model sp) * Kv * Kx * h);
  hv_fastest : 0 <= mx /\ W + 5 * (p_mass (sp_model sp) * Kv * Kx * h) <= 4 * kf * (mx * mx) }.

(** Each loop is slower than the one inside it. *)
Definition slower_loops (Kv Kx tau : R) : Prop := 5 * Kx <= Kv /\ Kv * tau <= 1/5.
Definition down_by (h : R) (v : V3 R) : V3 R := mkV (vx v) (vy v) (vz v - h).
