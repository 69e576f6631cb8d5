(** Property theorems: watching a flight does not change it. *)

From Coq Require Import ZArith List Bool Reals.
From Verif Require Import Scalar LinAlg MUtils MModel MDynamics MPid MControl MImu MSim SpecDyn SpecRun SpecSim SpecWatch PWatch ESim EWatch.
Import ListNotations.

(** ** C88 *)
Theorem C88_sensors :
  forall {T} {O : Ops T} {G H1 H2 : Gen T} n pa pb (ops : list (SimOp T G H1)), same_but_sensors pa pb ->
  both (fun (a : Sim T G H1) (b : Sim T G H2) => flight_of a = flight_of b)
    (sim_after n pa ops) (sim_after n pb (flat_map unwatched ops)).
Proof. exact @after_watch. Qed.
Print Assumptions C88_sensors.

Theorem C88_sensors_midway :
  forall {T} {O : Ops T} {G H1 H2 : Gen T} n (ops : list (SimOp T G H1)) (a : Sim T G H1) (b : Sim T G H2),
  flight_of a = flight_of b ->
  both (fun (x : Sim T G H1) (y : Sim T G H2) => flight_of x = flight_of y) (sim_run n a ops) (sim_run n b (flat_map unwatched ops)).
Proof. exact @run_watch. Qed.
Print Assumptions C88_sensors_midway.

(** A vehicle that is never armed moves by itself. *)
Theorem C88_disarmed :
  forall {T} {O : Ops T} {G H : Gen T} n pa pb (ops : list (SimOp T G H)), same_vehicle pa pb -> Forall not_arming ops ->
  both (fun a b : Sim T G H => sm_dyn a = sm_dyn b) (sim_after n pa ops) (sim_after n pb (filter own_call ops)).
Proof. exact @after_idle. Qed.
Print Assumptions C88_disarmed.

Local Open Scope R_scope.
Example C88_case : forall {G H : Gen R}, exists a b : Sim R G H, same_but_sensors sp_noisy sp_plain /\
  sim_after 4 sp_noisy watch_ops = Some a /\
  sim_after 4 sp_plain [SMode VELOCITY RATE; SArm; SRefVel (mkV 1 2 3); SController (1/100); SDynamics (1/100); SDynamics (1/100)] = Some b /\
  flight_of a = flight_of b.
Proof. exact @watch_ex. Qed.

Example C88_case_disarmed : forall {G H : Gen R}, exists a b : Sim R G H, same_vehicle sp_noisy sp_plain /\ Forall (not_arming (G := G) (H := H)) idle_ops /\
  sim_after 4 sp_noisy idle_ops = Some a /\ sim_after 4 sp_plain [SDynamics (1/100); SEnableFloor 0; SDynamics (1/100)] = Some b /\ sm_dyn a = sm_dyn b.
Proof. exact @idle_ex. Qed.
