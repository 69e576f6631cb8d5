(** Property theorems: mirrored, turned and rescaled flights. *)

From Coq Require Import ZArith List Bool Reals.
From Verif Require Import Scalar LinAlg MUtils MModel MDynamics MPid MControl MCtlRun MImu MSim SpecDyn SpecRun SpecMotion SpecPid SpecCtl SpecSim SpecEuler
  SpecRenum SpecSym PSymSim PSymMix EBase EPid ESim ESym.
Import ListNotations.
Local Open Scope R_scope.

(** ** C92 *)
Theorem C92_mirrored :
  forall {G H : Gen R} n sp ops, let c := mirror_image in
  fitting_params n sp -> Forall (fits n) ops ->
  suits_dyn c (sp_model sp) (sp_state sp) -> suits_ctl c (sp_ctl sp) -> Forall (suits_call c) ops ->
  exists a b : Sim R G H, sim_after n sp ops = Some a /\ sim_after n (changed_sim c sp) (map (changed_call c) ops) = Some b /\
    sim_state b = changed_state c (sim_state a) /\ sm_act b = sm_act a.
Proof. exact (fun G H n sp ops F Q D C S => flight_changed mirror_image mirror_pos n sp ops F Q D C S (or_introl eq_refl)). Qed.
Print Assumptions C92_mirrored.

(** One and the same X quadrotor on a mission and on its mirror image. *)
Theorem C92_same_vehicle :
  forall {G H : Gen R} sp ops, fitting_params 4 sp -> Forall (fits 4) ops -> Forall keeps_parts ops -> left_right sp ->
  suits_dyn mirror_image (sp_model sp) (sp_state sp) -> suits_ctl mirror_image (sp_ctl sp) ->
  exists a b : Sim R G H, sim_after 4 sp ops = Some a /\ sim_after 4 (mirrored_start sp) (map mirrored_call ops) = Some b /\
    sim_state b = mirrored_state (sim_state a) /\ sm_act b = renum across (sm_act a).
Proof. exact @mirrored_mission. Qed.
Print Assumptions C92_same_vehicle.

(** With the integral reset on, balanced limits are not enough. *)
Theorem C92_reset_refuted :
  exists pp (es : list (V3 R)),
  (forall a, 0 <= pr a (pp_aw pp) /\ pr a (pp_lo pp) = - pr a (pp_up pp)) /\ pp_rflag pp = true /\
  pid_output (pid_run (pid_new pp) (map (OpCompute 1) es)) = mkV 1 1 1 /\
  pid_output (pid_run (pid_new pp) (map (fun e => OpCompute 1 (vneg e)) es)) = mkV 0 0 0.
Proof. exact reset_refuted. Qed.
Print Assumptions C92_reset_refuted.

Example C92_case : forall {G H : Gen R}, exists a b : Sim R G H,
  fitting_params 4 sp_busy /\ Forall (fits (G := G) (H := H) 4) busy_ops /\ Forall (keeps_parts (G := G) (H := H)) busy_ops /\ left_right sp_busy /\
  suits_dyn mirror_image (sp_model sp_busy) (sp_state sp_busy) /\ suits_ctl mirror_image (sp_ctl sp_busy) /\
  s_pos (sp_state (mirrored_start sp_busy)) = mkV 1 (-2) 3 /\ s_angvel (sp_state (mirrored_start sp_busy)) = mkV (-7) 8 (-9) /\
  s_mvel (sp_state (mirrored_start sp_busy)) = [2; 1; 4; 3] /\
  sim_after 4 sp_busy busy_ops = Some a /\ sim_after 4 (mirrored_start sp_busy) (map mirrored_call busy_ops) = Some b /\
  sm_act a = [5; 6; 7; 8] /\ sm_act b = [6; 5; 8; 7] /\ vy (s_pos (sim_state b)) = - vy (s_pos (sim_state a)).
Proof. exact @mirror_ex. Qed.

(** ** C93 *)
Theorem C93_turned :
  forall {G H : Gen R} n al sp ops, let c := turned_by al in
  fitting_params n sp -> Forall (fits n) ops ->
  suits_dyn c (sp_model sp) (sp_state sp) -> suits_ctl c (sp_ctl sp) -> Forall (suits_call c) ops -> headed c n sp ops ->
  exists a b : Sim R G H, sim_after n sp ops = Some a /\ sim_after n (changed_sim c sp) (map (changed_call c) ops) = Some b /\
    sim_state b = changed_state c (sim_state a) /\ sm_act b = sm_act a.
Proof. exact (fun G H n al => flight_changed (turned_by al) Rlt_0_1 n). Qed.
Print Assumptions C93_turned.

Example C93_case : forall {G H : Gen R}, exists a b : Sim R G H, let c := turned_by (PI / 2) in
  let ops := [SMode POSITION ANGLE; SArm; SRefPos (mkV 5 6 7); SController (1/100); SDynamics (1/100)] : list (SimOp R G H) in
  fitting_params 4 sp_busy /\ Forall (fits 4) ops /\ suits_dyn c (sp_model sp_busy) (sp_state sp_busy) /\ suits_ctl c (sp_ctl sp_busy) /\
  Forall (suits_call c) ops /\ headed c 4 sp_busy ops /\ s_pos (sp_state (changed_sim c sp_busy)) = mkV (-2) 1 3 /\
  sim_after 4 sp_busy ops = Some a /\ sim_after 4 (changed_sim c sp_busy) (map (changed_call c) ops) = Some b /\
  vx (s_pos (sim_state b)) = - vy (s_pos (sim_state a)) /\ vy (s_pos (sim_state b)) = vx (s_pos (sim_state a)) /\ sm_act b = sm_act a.
Proof. exact @turn_ex. Qed.

(** ** C94 *)
Theorem C94_scaled :
  forall {G H : Gen R} n k sp ops, let c := scaled_by k in 0 < k ->
  fitting_params n sp -> Forall (fits n) ops ->
  suits_dyn c (sp_model sp) (sp_state sp) -> suits_ctl c (sp_ctl sp) -> Forall (suits_call c) ops ->
  exists a b : Sim R G H, sim_after n sp ops = Some a /\ sim_after n (changed_sim c sp) (map (changed_call c) ops) = Some b /\
    sim_state b = changed_state c (sim_state a) /\ sm_act b = sm_act a.
Proof. exact (fun G H n k sp ops P F Q D C S => flight_changed (scaled_by k) P n sp ops F Q D C S (or_introl eq_refl)). Qed.
Print Assumptions C94_scaled.

(** The allocation a user computes for the changed rotors is the changed
    allocation (for any of the changes). *)
Theorem C94_allocation :
  forall c, 0 < ch_scale c -> forall ms, quad_inverse (map (changed_motor c) ms) = option_map (map (changed_row c)) (quad_inverse ms).
Proof. exact allocation_changed. Qed.
Print Assumptions C94_allocation.

Theorem C94_acro_refuted :
  forall {G H : Gen R}, exists sp (a b : Sim R G H), let c := scaled_by 2 in let ops := [SMode ACRO ANGLE; SArm; SController (1/100)] in
  fitting_params 4 sp /\ suits_dyn c (sp_model sp) (sp_state sp) /\ suits_ctl c (sp_ctl sp) /\
  sim_after 4 sp ops = Some a /\ sim_after 4 (changed_sim c sp) (map (changed_call c) ops) = Some b /\ sm_act b <> sm_act a.
Proof. exact @acro_refuted. Qed.
Print Assumptions C94_acro_refuted.

Theorem C94_floor_refuted :
  forall {G H : Gen R}, exists sp (a b : Sim R G H), let c := scaled_by 2 in let ops := [SEnableFloor 0; SDynamics (1/100)] in
  fitting_params 4 sp /\ suits_dyn c (sp_model sp) (sp_state sp) /\ suits_ctl c (sp_ctl sp) /\
  sim_after 4 sp ops = Some a /\ sim_after 4 (changed_sim c sp) (map (changed_call c) ops) = Some b /\
  vz (s_force (sim_state a)) = 0 /\ vz (s_force (sim_state b)) = 8.
Proof. exact @floor_refuted. Qed.
Print Assumptions C94_floor_refuted.

Example C94_case : forall {G H : Gen R}, exists a b : Sim R G H, let c := scaled_by 2 in
  fitting_params 4 sp_busy /\ Forall (fits (G := G) (H := H) 4) busy_ops /\ suits_dyn c (sp_model sp_busy) (sp_state sp_busy) /\ suits_ctl c (sp_ctl sp_busy) /\
  Forall (suits_call (G := G) (H := H) c) busy_ops /\ p_mass (sp_model (changed_sim c sp_busy)) = 4 /\ p_grav (sp_model (changed_sim c sp_busy)) = mkV 0 0 (-8) /\
  sim_after 4 sp_busy busy_ops = Some a /\ sim_after 4 (changed_sim c sp_busy) (map (changed_call c) busy_ops) = Some b /\
  sm_act a = [5; 6; 7; 8] /\ sm_act b = [5; 6; 7; 8] /\ s_pos (sim_state b) = s_pos (sim_state a).
Proof. exact @scale_ex. Qed.
