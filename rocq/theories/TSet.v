(** Property theorems: settings and references are what was last asked for. *)

From Coq Require Import ZArith List Bool Reals.
From Verif Require Import Scalar Float64 LinAlg MUtils MModel MDynamics MPid MPid1 MControl MCtlRun MImu MSim
  SpecDyn SpecRun SpecPid SpecCtl SpecSim SpecSet EBase EPid ECtl ESim PSet ESet.
Import ListNotations.

(** ** C65 *)
Theorem C65_vector :
  forall {T} {O : Ops T} (pp : PidParams T) ops, let p := pid_run (pid_new pp) ops in
  pid_kp p = last_set sets_kp (pp_kp pp) ops /\ pid_ki p = last_set sets_ki (pp_ki pp) ops /\
  pid_kd p = last_set sets_kd (pp_kd pp) ops /\ pid_aw p = last_set sets_aw (pp_aw pp) ops /\
  pid_alpha p = last_set sets_alpha (pp_alpha pp) ops /\ pid_reset_flag p = last_set sets_reset (pp_rflag pp) ops /\
  pid_prop_on p = last_set sets_prop (pp_pflag pp) ops /\
  pid_sat_on p = last_set sets_sat (given pp && usable3 (pp_up pp) (pp_lo pp)) ops /\
  (pid_sat_on p = true ->
   forall L, pid_limits p = last_set sets_limits (if given pp && usable3 (pp_up pp) (pp_lo pp) then (pp_up pp, pp_lo pp) else L) ops).
Proof. exact @pid_last. Qed.
Print Assumptions C65_vector.

Theorem C65_scalar :
  forall {T} {O : Ops T} (pp : P1Params T) ops q, pid1_run (pid1_new pp) ops = Some q -> let g := pid1_get_params q in
  pp1_kp g = last_set sets1_kp (pp1_kp pp) ops /\ pp1_ki g = last_set sets1_ki (pp1_ki pp) ops /\
  pp1_kd g = last_set sets1_kd (pp1_kd pp) ops /\ pp1_aw g = last_set sets1_aw (pp1_aw pp) ops /\
  pp1_alpha g = last_set sets1_alpha (pp1_alpha pp) ops /\ pp1_rflag g = last_set sets1_reset (pp1_rflag pp) ops /\
  pid1_sat_on q = last_set sets1_sat (given1 pp && usable (pp1_up pp) (pp1_lo pp)) ops /\
  pid1_limits q = last_set sets1_limits (if given1 pp && usable (pp1_up pp) (pp1_lo pp) then (pp1_up pp, pp1_lo pp) else (zero, zero)) ops.
Proof. exact @pid1_last. Qed.
Print Assumptions C65_scalar.

Example C65_case : let p := pid_run (pid_new pp_ex) set_ex in
  let q := pid_run (pid_new pp_ex) (set_ex ++ [OpSetSat (mkV 4 5 6)%R (mkV (-4) 0 2)%R true]) in
  pid_sat_on (pid_new pp_ex) = true /\ pid_kp p = (mkV 7 8 9)%R /\ pid_ki p = r3 1 /\ pid_sat_on p = false /\ pid_prop_on p = false /\
  pid_sat_on q = true /\ pid_prop_on q = true /\ pid_limits q = ((mkV 4 5 6)%R, (mkV (-4) 0 2)%R).
Proof. exact set_case. Qed.
Example C65_scalar_case : exists q, pid1_run (pid1_new pp1_set) [Op1Kd 4%R; Op1SetSat 6%R (-1)%R; Op1SetSat 1%R 2%R; Op1DisableSat] = Some q /\
  pp1_kd (pid1_get_params q) = 4%R /\ pp1_ki (pid1_get_params q) = 2%R /\ pid1_sat_on q = false /\ pid1_limits q = (6, -1)%R.
Proof. exact set1_case. Qed.

(** ** C66 *)
Theorem C66_kept :
  forall {T} {O : Ops T} {G H : Gen T} n (s : Sim T G H) op ops s' v, sim_run n s (op :: ops) = Some s' -> In v (requests op) ->
  Forall (fun o => ~ replaces o v) ops -> ref_is s' v.
Proof. exact @ref_after. Qed.
Print Assumptions C66_kept.

Theorem C66_yaw_kept :
  forall {T} {O : Ops T} {G H : Gen T} n (s : Sim T G H) ops s' y, sm_yawmode s = ANGLE -> ref_is s (VYaw y) ->
  Forall (fun o => ~ replaces_yaw o) ops -> sim_run n s ops = Some s' -> ref_is s' (VYaw y).
Proof. exact @yaw_kept. Qed.
Print Assumptions C66_yaw_kept.

Theorem C66_arm :
  forall {T} {O : Ops T} {G H : Gen T} n (s : Sim T G H) s', sim_run n s [SArm] = Some s' ->
  sm_armed s' = true /\ ref_is s' (VThrust (lit 981 100)) /\ ref_is s' (VRates v0) /\
  ref_is s' (VPos (mkV (vx (rf_pos (sm_refs s))) (vy (rf_pos (sm_refs s))) (sm_floor_h s))) /\
  sm_dyn s' = sm_dyn s /\ sm_ctl s' = sm_ctl s /\ sm_imu s' = sm_imu s /\ sm_odom s' = sm_odom s /\
  sm_act s' = sm_act s /\ sm_mode s' = sm_mode s /\ sm_yawmode s' = sm_yawmode s /\
  sm_floor_en s' = sm_floor_en s /\ sm_floor_h s' = sm_floor_h s.
Proof. exact @arm_run. Qed.
Print Assumptions C66_arm.

Example C66_case : forall {G H : Gen R}, exists (s s2 : Sim R G H), sim_after 4 (sp_ex 1 10 10 st_hover imp_plain) [SMode POSITION ANGLE] = Some s /\
  In (VPos (mkV 1 2 3)%R) (requests (SRefPos (G := G) (H := H) (mkV 1 2 3)%R)) /\
  Forall (fun o => ~ replaces (G := G) (H := H) o (VPos (mkV 1 2 3)%R)) [SController (1/100)%R; SRefVel (mkV 1 1 1)%R; SDynamics (1/100)%R; SDisarm] /\
  sim_run 4 s [SRefPos (mkV 1 2 3)%R; SController (1/100)%R; SRefVel (mkV 1 1 1)%R; SDynamics (1/100)%R; SDisarm] = Some s2 /\
  ref_is s2 (VPos (mkV 1 2 3)%R) /\ ref_is s2 (VVel (mkV 1 1 1)%R).
Proof. exact @refs_case. Qed.

(** ** C67 *)
Theorem C67_routed :
  forall {T} {O : Ops T} n (p : CtlParams T) ops, let c := ctl_run (ctl_new n p) ops in
  ac_mass (ct_acro c) = last_set sets_mass (ap_mass (cp_acro p)) ops /\
  ac_grav (ct_acro c) = last_set sets_grav (ap_grav (cp_acro p)) ops /\
  ac_kp (ct_acro c) = last_set sets_kprot (ap_kp (cp_acro p)) ops /\
  in_inertia (ct_indi c) = last_set sets_inertia (ip_inertia (cp_indi p)) ops /\
  in_minv (ct_indi c) = last_set sets_mixer (ip_minv (cp_indi p)) ops /\
  forall w, let q := pid_run (pid_new (loop_params w p)) (flat_map (reaches w) ops) in
    pid_get_params (get_pid w c) = pid_get_params q /\ pid_sat_on (get_pid w c) = pid_sat_on q.
Proof. exact @ctl_last. Qed.
Print Assumptions C67_routed.

Example C67_case : let c := ctl_run c_ex route_ex in
  pid_kp (get_pid WVel c) = (mkV 7 8 9)%R /\ pid_kp (get_pid WPos c) = r3 1 /\ ac_mass (ct_acro c) = 3%R /\ ac_kp (ct_acro c) = mI.
Proof. exact route_case. Qed.

(** ** C68 *)
Theorem C68_parts :
  forall {T} {O : Ops T} {G H : Gen T} n sp (s : Sim T G H) (ops : list (SimOp T G H)), sim_new n sp = Some s ->
  (forall p seed st, sim_after n sp (SSetDyn p seed st :: ops) = sim_after n (with_vehicle sp p seed st) ops) /\
  (forall c, sim_after n sp (SSetCtl c :: ops) = sim_after n (with_controller sp c) ops) /\
  (forall i, sim_after n sp (SSetImu i :: ops) = sim_after n (with_sensor sp i) ops) /\
  (forall o, sim_after n sp (SSetOdom o :: ops) = sim_after n (with_odometry sp o) ops).
Proof. exact @set_parts. Qed.
Print Assumptions C68_parts.

Theorem C68_only :
  forall {T} {O : Ops T} {G H : Gen T} n (s : Sim T G H) op s', sim_run n s [op] = Some s' -> part_setter op -> only_part op s s'.
Proof. exact @touches_run. Qed.
Print Assumptions C68_only.

Example C68_case : forall {G H : Gen R}, exists s s' : Sim R G H, sim_new 4 (sp_ex 1 10 10 st_hover imp_plain) = Some s /\
  sim_after 4 (sp_ex 1 10 10 st_hover imp_plain) [SSetCtl cp_ex] = Some s' /\
  ac_grav (ct_acro (sm_ctl s')) = (mkV 0 0 (-10))%R /\ m11 (ac_kp (ct_acro (sm_ctl s))) = 1%R /\ m11 (ac_kp (ct_acro (sm_ctl s'))) = 2%R.
Proof. exact @parts_case. Qed.
