(** C99: asked to hold a place below, the vehicle descends there without undershoot. *)

From Coq Require Import ZArith List Bool Reals.
From Verif Require Import Scalar LinAlg MUtils MModel MDynamics MPid MControl MCtlRun MImu MSim
  SpecDyn SpecRun SpecPid SpecCtl SpecImu SpecSim SpecVertical SpecClimb SpecHeight SpecLower PBase PLowerSim EHeight ELower.
Import ListNotations.
Local Open Scope R_scope.

Theorem C99_descent : forall (G H : Gen R) yaw W Kv Kx tau kf mn mx w0 h sp,
  hovers yaw W Kv Kx tau kf mn mx w0 h sp -> slower_loops Kv Kx tau ->
  forall y dt, 0 < dt <= tau -> dt <= 1/100 -> let start := s_pos (sp_state sp) in let target := down_by h start in
  exists z : nat -> R, z 0%nat = vz start /\
  (forall k, exists s : Sim R G H, sim_after 4 sp (lift_calls y target dt k) = Some s /\ s_pos (sim_state s) = mkV (vx start) (vy start) (z k)) /\
  forall k, vz target <= z (S k) <= z k /\ z k - vz target <= 2 * (1 - 1 / 3 * (dt * Kx)) ^ k * h.
Proof. intros G H. exact (drop_flight (G := G) (H := H)). Qed.
Print Assumptions C99_descent.

Theorem C99_descent_reached : forall (G H : Gen R) yaw W Kv Kx tau kf mn mx w0 h sp,
  hovers yaw W Kv Kx tau kf mn mx w0 h sp -> slower_loops Kv Kx tau ->
  forall y dt, 0 < dt <= tau -> dt <= 1/100 -> let start := s_pos (sp_state sp) in let target := down_by h start in
  forall eps, 0 < eps -> exists N, forall k, (N <= k)%nat -> exists s : Sim R G H,
    sim_after 4 sp (lift_calls y target dt k) = Some s /\ above (s_pos (sim_state s)) target /\ Rabs (vz (s_pos (sim_state s)) - vz target) < eps.
Proof. intros G H. exact (drop_reached (G := G) (H := H)). Qed.
Print Assumptions C99_descent_reached.

Example C99_descent_case : forall (G H : Gen R), hovers 0 4 2 (2/5) (1/10) 1 0 100 1 1 (sp_hang 2 (2/5) (1/10)) /\ slower_loops 2 (2/5) (1/10) /\
  exists z : nat -> R, z 0%nat = 3 /\
  (forall k, exists s : Sim R G H, sim_after 4 (sp_hang 2 (2/5) (1/10)) (lift_calls ANGLE (mkV 1 2 2) (1/100) k) = Some s /\ s_pos (sim_state s) = mkV 1 2 (z k)) /\
  forall k, 2 <= z (S k) <= z k /\ z k - 2 <= 2 * (749/750) ^ k.
Proof. intros G H. exact (lower_ex (G := G) (H := H)). Qed.
