(** Property theorems: vertical flights. *)

From Coq Require Import ZArith List Bool Reals.
From Verif Require Import Scalar LinAlg MUtils MModel MDynamics MPid MControl MCtlRun MImu MSim
  SpecDyn SpecRun SpecPid SpecCtl SpecSim SpecVertical PVertical EBase ESim EVertical.
Import ListNotations.
Local Open Scope R_scope.

(** ** C84 *)
Theorem C84_vertical :
  forall {G H : Gen R} yaw sp ops (s' : Sim R G H), fair_start yaw sp ->
  Forall (asks_vertical (p_motors (sp_model sp)) (s_pos (sp_state sp)) yaw) ops -> sim_after 4 sp ops = Some s' ->
  above (s_pos (sim_state s')) (s_pos (sp_state sp)) /\ upright (s_vel (sim_state s')) /\
  s_ori (sim_state s') = level yaw /\ s_angvel (sim_state s') = mkV 0 0 0 /\
  even4 (s_mvel (sim_state s')) /\ even4 (sm_act s').
Proof. exact @vertical_end. Qed.
Print Assumptions C84_vertical.

(** A flight through all modes. *)
Example C84_case : forall {G H : Gen R}, fair_start 0 (sp_ex 1 3 4 st_hover imp_plain) /\
  Forall (asks_vertical (G := G) (H := H) (p_motors (sp_model (sp_ex 1 3 4 st_hover imp_plain))) (mkV 1 2 3) 0) ops_lift /\
  exists s' : Sim R G H, sim_after 4 (sp_ex 1 3 4 st_hover imp_plain) ops_lift = Some s'.
Proof. exact @lift_ex. Qed.

(** A flight that climbs. *)
Example C84_case_climb : forall {G H : Gen R}, exists sp (s' : Sim R G H), fair_start 0 sp /\
  Forall (asks_vertical (G := G) (H := H) (p_motors (sp_model sp)) (s_pos (sp_state sp)) 0) [SArm; SMode HOVER ANGLE; SController (1/100); SDynamics (1/100)] /\
  sim_after 4 sp [SArm; SMode HOVER ANGLE; SController (1/100); SDynamics (1/100)] = Some s' /\
  vz (s_vel (sim_state s')) = 1/100.
Proof. exact @climb_ex. Qed.
