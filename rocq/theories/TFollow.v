(** C61: whole flights ignore the references their mode does not follow, in every arithmetic. *)

From Coq Require Import ZArith List Bool Reals.
From Verif Require Import Scalar LinAlg MUtils MModel MDynamics MPid MControl MCtlRun MImu MSim SpecDyn SpecRun SpecPid SpecCtl SpecImu SpecSim SpecFollow
  PBase PFollow EFollow.
Import ListNotations.

Theorem C61_whole_flight : forall {T} {O : Ops T} {G H : Gen T} n (s : Sim T G H) a b ops,
  follows_same (sm_mode s) (sm_yawmode s) a b -> Forall no_stale_mode ops ->
  both alike (sim_run n (with_refs s a) ops) (sim_run n (with_refs s b) ops).
Proof. exact @runs_alike. Qed.
Print Assumptions C61_whole_flight.

(** Changes to motor mode have to be left out: the vehicle takes up its last motor command. *)
Theorem C61_stale_motors : forall {T} {O : Ops T} {G H : Gen T} n (s : Sim T G H) m y dt,
  sm_armed s = true -> sm_mode s = MOTOR_W -> sm_yawmode s = y -> m <> MOTOR_W ->
  exists s' : Sim T G H, sim_run n s [SMode m y; SMode MOTOR_W y; SController dt] = Some s' /\ sm_act s' = rf_motors (sm_refs s).
Proof. exact @stale_motors. Qed.
Print Assumptions C61_stale_motors.

Example C61_flight_case : forall (G H : Gen R), follows_same POSITION ANGLE refs_one refs_two /\ rf_vel refs_one <> rf_vel refs_two /\
  Forall (no_stale_mode (G := G) (H := H)) one_flight.
Proof. exact @follow_ex. Qed.
