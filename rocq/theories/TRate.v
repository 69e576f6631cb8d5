(** C110: a requested rotation rate is reached without overshoot. *)

From Coq Require Import ZArith List Bool Reals.
From Verif Require Import Scalar LinAlg MUtils MModel MDynamics MPid MControl MCtlRun MImu MSim
  SpecDyn SpecRun SpecPid SpecCtl SpecSim SpecClimb SpecRate PRateSim ERate.
Import ListNotations.
Local Open Scope R_scope.

(** The error of the rate about the chosen axis shrinks by at least [3/4 dt Kp] per
    round up to a factor of two, it never grows and never changes its sign, and
    the vehicle does not start to turn about the other axes. *)
Theorem C110_rate : forall (G H : Gen R) a up I T Kp tau kf mn mx e0 (sp : SimParams R), turns a up I T Kp tau kf mn mx e0 sp ->
  forall y dt, 0 < dt <= tau -> dt <= 1/100 -> let r0 := pr a (s_angvel (sp_state sp)) in let r := asked up r0 e0 in
  exists e : nat -> R, e 0%nat = e0 /\
  (forall k, exists s : Sim R G H, sim_after 4 sp (turn_calls a y T r dt k) = Some s /\ s_angvel (sim_state s) = along a (asked (negb up) r (e k))) /\
  forall k, 0 <= e (S k) <= e k /\ e k <= 2 * (1 - 3/4 * (dt * Kp)) ^ k * e0.
Proof. exact @rate_flight. Qed.
Print Assumptions C110_rate.

Theorem C110_reached : forall (G H : Gen R) a up I T Kp tau kf mn mx e0 (sp : SimParams R), turns a up I T Kp tau kf mn mx e0 sp ->
  forall y dt, 0 < dt <= tau -> dt <= 1/100 -> let r := asked up (pr a (s_angvel (sp_state sp))) e0 in
  forall eps, 0 < eps -> exists N, forall k, (N <= k)%nat -> exists s : Sim R G H,
    sim_after 4 sp (turn_calls a y T r dt k) = Some s /\ forall b, Rabs (pr b (s_angvel (sim_state s)) - pr b (along a r)) < eps.
Proof. exact @rate_reached. Qed.
Print Assumptions C110_reached.

(** Where the air resists turning, the claim is false: this vehicle turns at 1 and was asked for 3/2. *)
Theorem C110_thick_air_refuted : forall (G H : Gen R), exists (sp : SimParams R) (st : State R), turns AX true 1 4 2 (1/10) 1 0 100 (1/2) sp /\
  s_angvel (sp_state sp) = mkV 1 0 0 /\ s_angvel st = mkV 1 0 0 /\
  let thick := started_from st (in_thick_air mI sp) in fitting_params 4 thick /\
  forall y dt, 0 < dt <= 1/100 -> forall k, exists s : Sim R G H,
    sim_after 4 thick (turn_calls AX y 4 (3/2) dt k) = Some s /\ s_angvel (sim_state s) = mkV 1 0 0.
Proof. exact @thick_air. Qed.
Print Assumptions C110_thick_air_refuted.

(** Every axis, both ways. *)
Example C110_vehicle : forall a up w e0, 0 <= e0 <= 1 / moment a -> turns a up (moment a) 4 2 (1/10) 1 0 100 e0 (sp_roll a w).
Proof. exact roll_turns. Qed.
Example C110_case : forall (G H : Gen R), turns AZ true 3 4 2 (1/10) 1 0 100 (1/3) (sp_roll AZ (-1)) /\
  exists e : nat -> R, e 0%nat = 1/3 /\
  (forall k, exists s : Sim R G H, sim_after 4 (sp_roll AZ (-1)) (turn_calls AZ RATE 4 (-2/3) (1/100) k) = Some s /\ s_angvel (sim_state s) = mkV 0 0 (-2/3 - e k)) /\
  forall k, 0 <= e (S k) <= e k /\ e k <= 2 * (197/200) ^ k * (1/3).
Proof. exact @roll_ex. Qed.
