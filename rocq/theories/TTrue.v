(** C100: with smaller steps the simulated flight approaches the true motion. *)

From Coq Require Import ZArith List Bool Reals.
From Verif Require Import Scalar LinAlg MUtils MModel MDynamics MPid MControl MCtlRun MImu MSim
  SpecDyn SpecRun SpecMotion SpecPid SpecCtl SpecImu SpecSim SpecTrue SpecTrueSim PBase PTrue PTrueSim ETrue.
Import ListNotations.
Local Open Scope R_scope.

Theorem C100_converges : forall (G : Gen R) n p cmd ext ns T X, ns = false \/ p_fnoise p = 0 -> 0 <= T -> 0 < p_mass p -> det3 (p_inertia p) <> 0 ->
  true_motion p cmd ext T X -> length cmd = n ->
  exists C d1, 0 < d1 /\ 0 <= C /\ forall (D : nat -> Dyn R G) dt d0, 0 < dt <= d1 -> dt <= 1/100 -> 0 <= d0 <= d1 ->
    (forall m, In m (p_motors p) -> dt <= mt_tau m) -> vehicle n (D 0%nat) cmd p -> (forall k, process (D k) cmd dt ext ns = Ok (D (S k))) ->
    unitq (s_ori (d_state (D 0%nat))) -> speeds_between (p_motors p) (s_mvel (d_state (D 0%nat))) -> agree d0 (d_state (D 0%nat)) (X 0) ->
    forall k, INR k * dt <= T -> agree (C * (dt + d0)) (d_state (D k)) (X (INR k * dt)).
Proof. intros G. exact (flight_converges (G := G)). Qed.
Print Assumptions C100_converges.

Theorem C100_simulator : forall (G H : Gen R) n sp cmd T X, fitting_params n sp -> p_fnoise (sp_model sp) = 0 -> 0 < p_mass (sp_model sp) -> det3 (p_inertia (sp_model sp)) <> 0 ->
  unitq (s_ori (sp_state sp)) -> speeds_between (p_motors (sp_model sp)) (s_mvel (sp_state sp)) -> length cmd = n -> 0 <= T ->
  true_motion (sp_model sp) cmd (mkV 0 0 0) T X ->
  exists C d1, 0 < d1 /\ 0 <= C /\ forall d dt d0, 0 < dt <= d1 -> dt <= 1/100 -> 0 <= d0 <= d1 ->
    (forall m, In m (p_motors (sp_model sp)) -> dt <= mt_tau m) -> agree d0 (sp_state sp) (X 0) ->
    forall k, INR k * dt <= T -> exists s : Sim R G H, sim_after n sp (motor_calls cmd d dt k) = Some s /\ agree (C * (dt + d0)) (sim_state s) (X (INR k * dt)).
Proof. intros G H. exact (sim_converges (G := G) (H := H)). Qed.
Print Assumptions C100_simulator.

Example C100_case : forall (G H : Gen R), true_motion whirl_model whirl_cmd (mkV 0 0 0) 1 whirl /\ coord CZ (whirl 1) = sin 1 /\
  exists C d1, 0 < d1 /\ 0 <= C /\ forall dt k, 0 < dt <= d1 -> dt <= 1/100 -> INR k * dt <= 1 ->
    exists s : Sim R G H, sim_after 4 sp_whirl (motor_calls whirl_cmd dt dt k) = Some s /\ agree (C * dt) (sim_state s) (whirl (INR k * dt)).
Proof. intros G H. exact (whirl_case (G := G) (H := H)). Qed.
