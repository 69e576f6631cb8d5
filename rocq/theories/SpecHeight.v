(** Specification vocabulary: a climb to a requested height. *)

From Coq Require Import ZArith List Bool Reals.
From Verif Require Import Scalar LinAlg MUtils MModel MDynamics MPid MControl MCtlRun MImu MSim SpecDyn SpecRun SpecPid SpecCtl SpecSim SpecVertical SpecClimb.
Import ListNotations.
Local Open Scope R_scope.

(** The vertical axis of a loop is a mere gain [K], with limits switched off or
    beyond the range from [lo] to [hi]. *)
Definition gain_loop (K lo hi : R) (pp : PidParams R) : Prop :=
  vz (pp_kp pp) = K /\ vz (pp_ki pp) = 0 /\ vz (pp_kd pp) = 0 /\
  (vz (pp_lo pp) = 0 /\ vz (pp_up pp) = 0 \/ vz (pp_lo pp) <= lo /\ hi <= vz (pp_up pp)).

(** A level quadrotor of weight [W] hangs still in still air, its rotors at [w0]
    carry it; no noise and no drag.  The controller knows mass and weight; on
    the vertical axis the position loop is a mere gain [Kx] and the velocity loop a mere
    gain [Kv].  The way [h] up is such that at
    most a quarter of the weight is demanded on top, and the rotors have the range for
    it.  Mass, inertia, layout, heading, the other loops and axes are free. *)
Record hangs (yaw W Kv Kx tau kf mn mx w0 h : R) (sp : SimParams R) : Prop := {
  hg_fits : fitting_params 4 sp;
  hg_fair : fair_start yaw sp;
  hg_rotors : exists kt x y J, kt <> 0 /\ x <> 0 /\ y <> 0 /\ quad_layout kf kt x y mn mx tau J (p_motors (sp_model sp));
  hg_kf : 0 < kf; hg_tau : 0 < tau; hg_mass : 0 < p_mass (sp_model sp);
  hg_drag : p_drag (sp_model sp) = 0;
  hg_grav : vz (p_grav (sp_model sp)) = - W; hg_weight : 0 < W;
  hg_cmass : ap_mass (cp_acro (sp_ctl sp)) = p_mass (sp_model sp);
  hg_cgrav : p_mass (sp_model sp) * vz (ap_grav (cp_acro (sp_ctl sp))) = - W;
  hg_pos : gain_loop Kx 0 (Kx * h) (cp_pos (sp_ctl sp));
  hg_vel : gain_loop Kv (- (Kv * Kx * h)) (Kv * Kx * h) (cp_vel (sp_ctl sp));
  hg_gain : 0 < Kx /\ 0 < Kv;
  hg_way : 0 <= h;
  hg_speed : s_mvel (sp_state sp) = [w0; w0; w0; w0]; hg_lift : 0 <= w0 /\ 4 * kf * (w0 * w0) = W;
  hg_still : vz (s_vel (sp_state sp)) = 0;
  hg_slowest : 0 <= mn /\ 4 * kf * (mn * mn) <= W - 4 * (p_mass (sp_model sp) * Kv * Kx * h);
  hg_fastest : 0 <= mx /\ W + 2 * (p_mass (sp_model sp) * Kv * Kx * h) <= 4 * kf * (mx * mx) }.

(** Each loop is slower than the one inside it. *)
Definition nested_loops (Kv Kx tau : R) : Prop := 4 * Kx <= Kv /\ Kv * tau <= 1/5.

(** The calls: position mode, armed, the place [h] above, then rounds. *)
Definition up_by (h : R) (v : V3 R) : V3 R := mkV (vx v) (vy v) (vz v + h).
Definition lift_calls {G H : Gen R} (y : YawMode) (target : V3 R) (dt : R) (k : nat) : list (SimOp R G H) :=
  [SMode POSITION y; SArm; SRefPos target] ++ rounds dt k.
