(** C99: asked to hold a place above, the vehicle climbs there without overshoot. *)

From Coq Require Import ZArith List Bool Reals.
From Verif Require Import Scalar LinAlg MUtils MModel MDynamics MPid MControl MCtlRun MImu MSim
  SpecDyn SpecRun SpecPid SpecCtl SpecImu SpecSim SpecVertical SpecClimb SpecHeight PBase PHeightSim EHeight.
Import ListNotations.
Local Open Scope R_scope.

Theorem C99_flight : forall (G H : Gen R) yaw W Kv Kx tau kf mn mx w0 h sp,
  hangs yaw W Kv Kx tau kf mn mx w0 h sp -> nested_loops Kv Kx tau ->
  forall y dt, 0 < dt <= tau -> dt <= 1/100 -> let start := s_pos (sp_state sp) in let target := up_by h start in
  exists z : nat -> R, z 0%nat = vz start /\
  (forall k, exists s : Sim R G H, sim_after 4 sp (lift_calls y target dt k) = Some s /\ s_pos (sim_state s) = mkV (vx start) (vy start) (z k)) /\
  forall k, z k <= z (S k) <= vz target /\ vz target - z k <= 2 * (1 - 3 / 4 * (dt * Kx)) ^ k * h.
Proof. intros G H. exact (lift_flight (G := G) (H := H)). Qed.
Print Assumptions C99_flight.

Theorem C99_reached : forall (G H : Gen R) yaw W Kv Kx tau kf mn mx w0 h sp,
  hangs yaw W Kv Kx tau kf mn mx w0 h sp -> nested_loops Kv Kx tau ->
  forall y dt, 0 < dt <= tau -> dt <= 1/100 -> let start := s_pos (sp_state sp) in let target := up_by h start in
  forall eps, 0 < eps -> exists N, forall k, (N <= k)%nat -> exists s : Sim R G H,
    sim_after 4 sp (lift_calls y target dt k) = Some s /\ above (s_pos (sim_state s)) target /\ Rabs (vz target - vz (s_pos (sim_state s))) < eps.
Proof. intros G H. exact (lift_reached (G := G) (H := H)). Qed.
Print Assumptions C99_reached.

Theorem C99_gains_matter : forall (G H : Gen R), exists sp Kv Kx tau h (s : Sim R G H), hangs 0 4 Kv Kx tau 1 0 100 1 h sp /\ 1/100 <= tau /\
  sim_after 4 sp (lift_calls ANGLE (up_by h (s_pos (sp_state sp))) (1/100) 4) = Some s /\ vz (s_pos (sim_state s)) = vz (s_pos (sp_state sp)) + 3 * h /\ 0 < h.
Proof. intros G H. exact (hasty_over (G := G) (H := H)). Qed.
Print Assumptions C99_gains_matter.

Example C99_case : forall (G H : Gen R), hangs 0 4 2 (1/2) (1/10) 1 0 100 1 1 (sp_hang 2 (1/2) (1/10)) /\ nested_loops 2 (1/2) (1/10) /\
  exists z : nat -> R, z 0%nat = 3 /\
  (forall k, exists s : Sim R G H, sim_after 4 (sp_hang 2 (1/2) (1/10)) (lift_calls ANGLE (mkV 1 2 4) (1/100) k) = Some s /\ s_pos (sim_state s) = mkV 1 2 (z k)) /\
  forall k, z k <= z (S k) <= 4 /\ 4 - z k <= 2 * (797/800) ^ k.
Proof. intros G H. exact (hang_ex (G := G) (H := H)). Qed.
