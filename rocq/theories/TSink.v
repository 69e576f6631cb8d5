(** C95: the same for a descent. *)

From Coq Require Import ZArith List Bool Reals.
From Verif Require Import Scalar LinAlg MUtils MModel MDynamics MPid MControl MCtlRun MImu MSim
  SpecDyn SpecRun SpecPid SpecCtl SpecImu SpecSim SpecVertical SpecClimb SpecSink PBase PSinkSim EClimb ESink.
Import ListNotations.
Local Open Scope R_scope.

Theorem C95_descent : forall (G H : Gen R) yaw W Kp tau kf mn mx w0 d0 sp, sinks yaw W Kp tau kf mn mx w0 d0 sp ->
  forall y dt, 0 < dt <= tau -> dt <= 1/100 -> let v0 := vz (s_vel (sp_state sp)) in let vr := v0 - d0 in
  exists v : nat -> R, v 0%nat = v0 /\
  (forall k, exists s : Sim R G H, sim_after 4 sp (climb_calls y vr dt k) = Some s /\ s_vel (sim_state s) = mkV 0 0 (v k)) /\
  forall k, vr <= v (S k) <= v k /\ v k - vr <= 2 * (1 - 3 / 4 * (dt * Kp)) ^ k * d0.
Proof. intros G H. exact (sink_flight (G := G) (H := H)). Qed.
Print Assumptions C95_descent.

Theorem C95_descent_reached : forall (G H : Gen R) yaw W Kp tau kf mn mx w0 d0 sp, sinks yaw W Kp tau kf mn mx w0 d0 sp ->
  forall y dt, 0 < dt <= tau -> dt <= 1/100 -> let vr := vz (s_vel (sp_state sp)) - d0 in
  forall eps, 0 < eps -> exists N, forall k, (N <= k)%nat -> exists s : Sim R G H,
    sim_after 4 sp (climb_calls y vr dt k) = Some s /\ Rabs (vr - vz (s_vel (sim_state s))) < eps.
Proof. intros G H. exact (sink_reached (G := G) (H := H)). Qed.
Print Assumptions C95_descent_reached.

Example C95_case_descent : forall (G H : Gen R), sinks 0 4 1 (1/10) 1 0 100 1 2 (sp_rise 1) /\
  exists v : nat -> R, v 0%nat = 1 /\
  (forall k, exists s : Sim R G H, sim_after 4 (sp_rise 1) (climb_calls ANGLE (-1) (1/100) k) = Some s /\ s_vel (sim_state s) = mkV 0 0 (v k)) /\
  forall k, -1 <= v (S k) <= v k /\ v k - -1 <= 2 * (397/400) ^ k * 2.
Proof. intros G H. exact (sink_ex (G := G) (H := H)). Qed.
