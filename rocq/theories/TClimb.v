(** C95: a requested climb speed is reached without overshoot. *)

From Coq Require Import ZArith List Bool Reals.
From Verif Require Import Scalar LinAlg MUtils MModel MDynamics MPid MControl MCtlRun MImu MSim
  SpecDyn SpecRun SpecPid SpecCtl SpecImu SpecSim SpecVertical SpecClimb PBase PClimbSim EClimb.
Import ListNotations.
Local Open Scope R_scope.

Theorem C95_climb : forall (G H : Gen R) yaw W Kp tau kf mn mx w0 e0 sp, climbs yaw W Kp tau kf mn mx w0 e0 sp ->
  forall y dt, 0 < dt <= tau -> dt <= 1/100 -> let v0 := vz (s_vel (sp_state sp)) in let vr := v0 + e0 in
  exists v : nat -> R, v 0%nat = v0 /\
  (forall k, exists s : Sim R G H, sim_after 4 sp (climb_calls y vr dt k) = Some s /\ s_vel (sim_state s) = mkV 0 0 (v k)) /\
  forall k, v k <= v (S k) <= vr /\ vr - v k <= 2 * (1 - gain_per_round (p_mass (sp_model sp)) W Kp dt e0) ^ k * e0.
Proof. intros G H. exact (climb_flight (G := G) (H := H)). Qed.
Print Assumptions C95_climb.

Theorem C95_reached : forall (G H : Gen R) yaw W Kp tau kf mn mx w0 e0 sp, climbs yaw W Kp tau kf mn mx w0 e0 sp ->
  forall y dt, 0 < dt <= tau -> dt <= 1/100 -> let vr := vz (s_vel (sp_state sp)) + e0 in
  forall eps, 0 < eps -> exists N, forall k, (N <= k)%nat -> exists s : Sim R G H,
    sim_after 4 sp (climb_calls y vr dt k) = Some s /\ Rabs (vr - vz (s_vel (sim_state s))) < eps.
Proof. intros G H. exact (climb_reached (G := G) (H := H)). Qed.
Print Assumptions C95_reached.

Theorem C95_drag_refuted : forall (G H : Gen R), exists (sp : SimParams R) (s : Sim R G H),
  climbs 0 4 1 (1/10) 1 0 100 1 0 sp /\ fitting_params 4 (in_drag 1 sp) /\ s_vel (sp_state sp) = mkV 0 0 1 /\
  sim_after 4 (in_drag 1 sp) (climb_calls ANGLE 1 (1/100) 1) = Some s /\ vz (s_vel (sim_state s)) = 99/100.
Proof. intros G H. exact (drag_loses (G := G) (H := H)). Qed.
Print Assumptions C95_drag_refuted.

Example C95_case : forall (G H : Gen R), climbs 0 4 1 (1/10) 1 0 100 1 2 (sp_rise 0) /\ gain_per_round 1 4 1 (1/100) 2 = 2/225 /\
  exists v : nat -> R, v 0%nat = 0 /\
  (forall k, exists s : Sim R G H, sim_after 4 (sp_rise 0) (climb_calls ANGLE 2 (1/100) k) = Some s /\ s_vel (sim_state s) = mkV 0 0 (v k)) /\
  forall k, v k <= v (S k) <= 2 /\ 2 - v k <= 2 * (223/225) ^ k * 2.
Proof. intros G H. exact (rise_ex (G := G) (H := H)). Qed.
